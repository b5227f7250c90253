(** Lemmas about split criteria: sums over classes, Titu's lemma, Gibbs' inequality. *)
From Coq Require Import List ZArith Bool Lia Reals Lra Permutation.
From Verif Require Import Base.Py Base.Num Base.Dict Spec.Lists Spec.CriteriaSpec Model.TargetStats Model.SplitCriteria
  Proofs.ListFacts Proofs.MetricsProofs Proofs.MetricsScores Proofs.MultiTargetProofs.
Import ListNotations.
Local Open Scope R_scope.

Notation S f l := (Rsum (map f l)).

(** ** Sums *)
Lemma Rsum_swap {A B} (f : A -> B -> R) la lb : S (fun a => S (f a) lb) la = S (fun b => S (fun a => f a b) la) lb.
Proof.
  induction la as [|a la IH]; cbn [map Rsum]; [symmetry; apply Rsum_map_0|]. now rewrite IH, <- Rsum_map_add.
Qed.
Lemma Rsum_scal {A} k (f : A -> R) l : S (fun x => k * f x) l = k * S f l.
Proof. rewrite Rmult_comm, <- Rsum_map_scal. apply Rsum_map_ext_in. intros; lra. Qed.
Lemma Rsum_opp {A} (f : A -> R) l : S (fun x => - f x) l = - S f l.
Proof. induction l; cbn [map Rsum]; lra. Qed.
Lemma Rsum_sub {A} (f g : A -> R) l : S (fun x => f x - g x) l = S f l - S g l.
Proof. induction l; cbn [map Rsum]; lra. Qed.
Lemma Rsum_ge_elem {A} (f : A -> R) l x : (forall y, In y l -> 0 <= f y) -> In x l -> f x <= S f l.
Proof.
  induction l as [|a l IH]; intros P H; [destruct H|]. destruct H as [<-|H]; cbn [map Rsum].
  - assert (0 <= S f l) by (apply Rsum_nonneg; intros y Hy; apply in_map_iff in Hy as (z & <- & Hz); apply P; now right). lra.
  - specialize (IH (fun y Hy => P y (or_intror Hy)) H). specialize (P a (or_introl eq_refl)). lra.
Qed.
Lemma Rsum_pos0 {A} (f : A -> R) l : (forall y, In y l -> 0 <= f y) -> S f l = 0 -> forall y, In y l -> f y = 0.
Proof. intros P E y Hy. generalize (Rsum_ge_elem f l y P Hy) (P y Hy). lra. Qed.

(** ** Titu's lemma *)
Lemma titu2 a b p q : 0 <= p -> 0 <= q -> (p = 0 -> a = 0) -> (q = 0 -> b = 0) -> (a + b) ^ 2 / (p + q) <= a ^ 2 / p + b ^ 2 / q.
Proof.
  intros Hp Hq Ha Hb. destruct (Req_dec p 0) as [P|P]; [rewrite (Ha P), P, !Rplus_0_l; unfold Rdiv; lra|].
  destruct (Req_dec q 0) as [Q|Q]; [rewrite (Hb Q), Q, !Rplus_0_r; unfold Rdiv; lra|].
  assert (0 < p) by lra. assert (0 < q) by lra.
  replace (a ^ 2 / p + b ^ 2 / q) with ((a + b) ^ 2 / (p + q) + (a * q - b * p) ^ 2 / (p * q * (p + q))) by (field; lra).
  assert (0 <= (a * q - b * p) ^ 2 / (p * q * (p + q))); [|lra]. apply Rmult_le_pos; [apply pow2_ge_0|]. left. apply Rinv_0_lt_compat.
  apply Rmult_lt_0_compat; [apply Rmult_lt_0_compat; lra|lra].
Qed.
Lemma titu {A} (x w : A -> R) l : (forall a, In a l -> 0 <= w a /\ (w a = 0 -> x a = 0)) -> (S x l) ^ 2 / S w l <= S (fun a => x a ^ 2 / w a) l.
Proof.
  induction l as [|a l IH]; intros P; cbn [map Rsum]; [unfold Rdiv; lra|].
  assert (P' : forall a, In a l -> 0 <= w a /\ (w a = 0 -> x a = 0)) by (intros; apply P; now right).
  assert (W : 0 <= S w l) by (apply Rsum_nonneg; intros y Hy; apply in_map_iff in Hy as (z & <- & Hz); now apply P').
  destruct (P a (or_introl eq_refl)) as [P1 P2].
  eapply Rle_trans; [apply titu2; auto|]; [|specialize (IH P'); lra]. intros E.
  rewrite (Rsum_map_ext_in x (fun _ => 0)); [apply Rsum_map_0|]. intros y Hy. apply P'; auto. apply (Rsum_pos0 w l); auto. intros z Hz. now apply P'.
Qed.

(** ** x ln x and Gibbs *)
Definition xlx (x : R) : R := if Rlt_dec 0 x then x * ln x else 0.
Lemma xlx_0 : xlx 0 = 0. Proof. unfold xlx. destruct (Rlt_dec 0 0); [lra|auto]. Qed.
Lemma xlx_pos x : 0 < x -> xlx x = x * ln x. Proof. unfold xlx. destruct (Rlt_dec 0 x); [auto|lra]. Qed.
Lemma ln_le_sub1 x : 0 < x -> ln x <= x - 1.
Proof.
  intros H. destruct (Rle_or_lt (ln x) (x - 1)) as [|L]; auto. exfalso.
  assert (E := exp_ineq1_le (ln x)). rewrite exp_ln in E by auto. lra.
Qed.
Lemma gibbs x y : 0 <= x -> 0 <= y -> (x <> 0 -> 0 < y) -> x - y <= xlx x - x * ln y.
Proof.
  intros Hx Hy H. destruct (Req_dec x 0) as [->|N]; [rewrite xlx_0; lra|]. assert (0 < x) by lra. specialize (H N). rewrite xlx_pos by auto.
  assert (L := ln_le_sub1 (y / x)). assert (0 < y / x) by (apply Rmult_lt_0_compat; [lra|now apply Rinv_0_lt_compat]). specialize (L ltac:(auto)).
  unfold Rdiv in L. rewrite ln_mult, ln_Rinv in L; auto; [|now apply Rinv_0_lt_compat].
  assert (x * (ln y + - ln x) <= x * (y * / x - 1)) by (apply Rmult_le_compat_l; lra).
  replace (x * (y * / x - 1)) with (y - x) in H2 by (field; lra). lra.
Qed.

(** ** Distributions *)
Lemma class_weight_nonneg d c : distribution d -> 0 <= class_weight d c.
Proof. intros [_ P]. unfold class_weight. destruct (dget d c) eqn:E; [|lra]. apply dget_In in E. eauto. Qed.
Lemma weight_nonneg d : distribution d -> 0 <= weight d.
Proof. intros [_ P]. apply Rsum_nonneg. intros x H. apply in_map_iff in H as ([c w] & <- & H). cbn. eauto. Qed.
Lemma distribution_nonneg d : distribution d -> forall p, In p d -> 0 <= snd p.
Proof. intros [_ P] [c w] H. cbn. eauto. Qed.
Lemma over_classes (f : R -> R) d cs : f 0 = 0 -> NoDup (dkeys d) -> NoDup cs -> incl (dkeys d) cs ->
  S (fun p => f (snd p)) d = S (fun c => f (class_weight d c)) cs.
Proof.
  intros F0. induction d as [|[k v] d IH]; intros ND NC I; cbn [map Rsum snd].
  - symmetry. rewrite (Rsum_map_ext_in _ (fun _ => 0)); [apply Rsum_map_0|auto].
  - inversion ND as [|? ? K1 K2]; subst. rewrite IH; auto; [|intros x Hx; apply I; now right].
    rewrite <- (Rsum_indicator cs k (f v)) at 1; auto; [|apply I; now left]. rewrite <- Rsum_map_add. apply Rsum_map_ext_in. intros c Hc.
    unfold class_weight. cbn [dget]. destruct (Z.eqb_spec k c) as [->|]; [|lra]. rewrite (proj2 (dget_None d c) K1), F0. lra.
Qed.
Definition classes (ds : list (list (Z * R))) : list Z := nodup Z.eq_dec (flat_map dkeys ds).
Lemma classes_incl ds d : In d ds -> incl (dkeys d) (classes ds).
Proof. intros H c Hc. apply nodup_In. apply in_flat_map. eauto. Qed.
Lemma weight_classes d cs : NoDup (dkeys d) -> NoDup cs -> incl (dkeys d) cs -> weight d = S (class_weight d) cs.
Proof. intros. apply (over_classes (fun x => x)); auto. Qed.
Lemma split_weight pre post : distribution pre -> Forall distribution post -> split_of pre post -> weight pre = S weight post.
Proof.
  intros Dp Dq Hs. set (cs := classes (pre :: post)).
  rewrite (weight_classes pre cs); [|apply Dp|apply NoDup_nodup|apply classes_incl; now left].
  rewrite (Rsum_map_ext_in weight (fun d => S (class_weight d) cs)).
  - rewrite Rsum_swap. apply Rsum_map_ext_in. intros c _. apply Hs.
  - intros d Hd. apply weight_classes; [rewrite Forall_forall in Dq; now apply Dq|apply NoDup_nodup|apply classes_incl; now right].
Qed.
Lemma class_le_weight d c : distribution d -> class_weight d c <= weight d.
Proof.
  intros D. unfold class_weight. destruct (dget d c) eqn:E; [|now apply weight_nonneg]. apply dget_In in E.
  apply (Rsum_ge_elem snd d (c, r)); auto. now apply distribution_nonneg.
Qed.
Lemma weight0_class d c : distribution d -> weight d = 0 -> class_weight d c = 0.
Proof. intros D E. generalize (class_le_weight d c D) (class_weight_nonneg d c D). lra. Qed.

(** ** The code *)
Lemma vsum_weight (d : list (Z * R)) : vsum d = weight d.
Proof. unfold vsum. rewrite fold_nadd_R. unfold dvals, weight, n0. cbn. lra. Qed.
Lemma vtotal_weight (ds : list (list (Z * R))) : vtotal ds = S weight ds.
Proof. unfold vtotal. rewrite fold_nadd_R. unfold n0. cbn. rewrite (Rsum_map_ext_in vsum weight); [lra|]. intros; apply vsum_weight. Qed.
Lemma fold_minus {A} (f : A -> R) l : forall a, fold_left (fun g v => g - f v) l a = a - S f l.
Proof. induction l as [|x l IH]; intros a; cbn [fold_left map Rsum]; [lra|]. rewrite IH. lra. Qed.
Lemma fold_plus {A} (f : A -> R) l : forall a, fold_left (fun g v => g + f v) l a = a + S f l.
Proof. induction l as [|x l IH]; intros a; cbn [fold_left map Rsum]; [lra|]. rewrite IH. lra. Qed.
Lemma gini_of_ok d : weight d <> 0 -> gini_of d (weight d) = gini_impurity d.
Proof.
  intros H. unfold gini_of, n0, n1. cbn [neqb nofZ NumR nsub nmul ndiv]. destruct (Reqb (weight d) 0) eqn:E; [apply Reqb_true in E; contradiction|].
  rewrite (fold_minus (fun v => v / weight d * (v / weight d))). unfold gini_impurity, dvals. rewrite map_map. f_equal. apply Rsum_map_ext_in. intros p _. ring.
Qed.
Lemma gini_loop_ok W ds : W <> 0 -> forall g : R, gini_loop W ds g = Ok (g + S (fun d => if Req_EM_T (weight d) 0 then 0 else weight d / W * gini_impurity d) ds).
Proof.
  intros HW. induction ds as [|d ds IH]; intros g; cbn [gini_loop map Rsum]; [f_equal; lra|].
  unfold pydiv, n0. cbn [neqb NumR nofZ]. destruct (Reqb W 0) eqn:E; [apply Reqb_true in E; contradiction|]. cbn [bind ndiv nadd nmul NumR].
  rewrite IH, vsum_weight. f_equal. destruct (Req_EM_T (weight d) 0) as [Z|Z]; [rewrite Z; unfold Rdiv; lra|]. rewrite gini_of_ok by auto. lra.
Qed.
Lemma gini_merit_ok (post : list (list (Z * R))) : S weight post <> 0 -> gini_merit post = Ok (1 - branch_average gini_impurity post).
Proof. intros H. unfold gini_merit. rewrite vtotal_weight, gini_loop_ok by auto. cbn [bind]. unfold n0, n1. cbn. do 2 f_equal. unfold branch_average. cbv zeta. lra. Qed.

Lemma gini_impurity_bounds d : distribution d -> 0 < weight d -> 0 <= gini_impurity d <= 1.
Proof.
  intros D W. unfold gini_impurity.
  assert (A : 0 <= S (fun p => (snd p / weight d) ^ 2) d) by (apply Rsum_nonneg; intros x H; apply in_map_iff in H as (p & <- & _); apply pow2_ge_0).
  assert (B : S (fun p => (snd p / weight d) ^ 2) d <= S (fun p => snd p / weight d) d).
  { apply Rsum_le. intros p Hp. assert (P := distribution_nonneg d D p Hp). assert (L : snd p <= weight d) by (apply (Rsum_ge_elem snd); auto; now apply distribution_nonneg).
    assert (0 <= snd p / weight d) by (apply Rmult_le_pos; [auto|left; now apply Rinv_0_lt_compat]).
    assert (snd p / weight d <= 1) by (apply Rmult_le_reg_r with (weight d); [auto|]; unfold Rdiv; rewrite Rmult_assoc, Rinv_l; lra). nra. }
  assert (C : S (fun p => snd p / weight d) d = 1). { unfold Rdiv. rewrite Rsum_map_scal. fold (weight d). field. lra. }
  lra.
Qed.
Lemma branch_average_bounds f post a b : Forall distribution post -> 0 < S weight post -> (forall d, In d post -> 0 < weight d -> a <= f d <= b) ->
  a <= branch_average f post <= b.
Proof.
  intros D W P. rewrite Forall_forall in D. unfold branch_average. set (V := S weight post) in *.
  assert (E : forall k, S (fun d => weight d / V * k) post = k). { intros k. rewrite Rsum_map_scal. unfold Rdiv. rewrite Rsum_map_scal. fold V. field. lra. }
  assert (I := Rinv_0_lt_compat _ W).
  split.
  - rewrite <- (E a). apply Rsum_le. intros d Hd. assert (Wd := weight_nonneg d (D d Hd)). destruct (Req_EM_T (weight d) 0) as [Z|Z]; [rewrite Z; unfold Rdiv; lra|].
    apply Rmult_le_compat_l; [apply Rmult_le_pos; lra|]. apply P; auto; lra.
  - rewrite <- (E b). apply Rsum_le. intros d Hd. assert (Wd := weight_nonneg d (D d Hd)). destruct (Req_EM_T (weight d) 0) as [Z|Z]; [rewrite Z; unfold Rdiv; lra|].
    apply Rmult_le_compat_l; [apply Rmult_le_pos; lra|]. apply P; auto; lra.
Qed.

(** Gini of the split, in terms of class weights *)
Lemma gini_merit_classes post cs : Forall distribution post -> 0 < S weight post -> NoDup cs -> (forall d, In d post -> incl (dkeys d) cs) ->
  1 - branch_average gini_impurity post = S (fun c => S (fun d => class_weight d c ^ 2 / weight d) post) cs / S weight post.
Proof.
  intros D W NC I. rewrite Forall_forall in D. set (V := S weight post) in *. unfold branch_average. fold V. cbv zeta.
  rewrite <- Rsum_swap. unfold Rdiv at 2. rewrite <- Rsum_map_scal.
  assert (E : 1 = S (fun d => weight d / V) post) by (unfold Rdiv; rewrite Rsum_map_scal; fold V; field; lra). rewrite E at 1. rewrite <- Rsum_sub.
  apply Rsum_map_ext_in. intros d Hd. destruct (D d Hd) as [ND _]. destruct (Req_EM_T (weight d) 0) as [Z|Z].
  - rewrite (Rsum_map_ext_in (fun c => class_weight d c ^ 2 / weight d) (fun _ => 0)); [rewrite Rsum_map_0, Z; unfold Rdiv; lra|]. intros c _. rewrite weight0_class; auto. unfold Rdiv. ring.
  - unfold gini_impurity. rewrite (over_classes (fun v => (v / weight d) ^ 2) d cs); auto; [|unfold Rdiv; ring].
    rewrite (Rsum_map_ext_in (fun c => class_weight d c ^ 2 / weight d) (fun c => weight d * (class_weight d c / weight d) ^ 2)) by (intros c _; field; lra).
    rewrite Rsum_scal. field. lra.
Qed.
Lemma gini_split pre post : distribution pre -> Forall distribution post -> split_of pre post -> 0 < weight pre ->
  1 - branch_average gini_impurity [pre] <= 1 - branch_average gini_impurity post.
Proof.
  intros Dp Dq Hs W. assert (EW := split_weight pre post Dp Dq Hs). set (cs := classes (pre :: post)).
  assert (C0 : Forall distribution [pre]) by now constructor. assert (C1 : 0 < S weight [pre]) by (cbn; lra). assert (C2 : NoDup cs) by apply NoDup_nodup.
  rewrite (gini_merit_classes [pre] cs C0 C1 C2); [|intros d [<-|[]]; apply classes_incl; now left].
  rewrite (gini_merit_classes post cs); auto; [|lra|intros d Hd; apply classes_incl; now right].
  replace (S weight [pre]) with (weight pre) by (cbn; lra). rewrite <- EW. apply Rmult_le_compat_r; [left; now apply Rinv_0_lt_compat|].
  apply Rsum_le. intros c _. cbn [map Rsum]. rewrite Rplus_0_r, EW, Hs. apply titu. intros d Hd. rewrite Forall_forall in Dq. split; [apply weight_nonneg; auto|]. intros E. apply weight0_class; auto.
Qed.

(** ** Entropy *)
Lemma ln2_pos : 0 < ln 2. Proof. rewrite <- ln_1. apply ln_increasing; lra. Qed.
Lemma weight_positive_part d : distribution d -> S (fun p => if Rlt_dec 0 (snd p) then snd p else 0) d = weight d.
Proof. intros D. apply Rsum_map_ext_in. intros p Hp. assert (P := distribution_nonneg d D p Hp). destruct (Rlt_dec 0 (snd p)); lra. Qed.
Lemma entropy_xlx d : distribution d -> 0 < weight d -> entropy d = (xlx (weight d) - S (fun p => xlx (snd p)) d) / (weight d * ln 2).
Proof.
  intros D W. assert (L := ln2_pos). unfold entropy.
  rewrite (Rsum_map_ext_in _ (fun p => xlx (snd p) * / (weight d * ln 2) - snd p * (ln (weight d) / (weight d * ln 2)))).
  - rewrite Rsum_sub, !Rsum_map_scal. fold (weight d). rewrite xlx_pos by auto. field. lra.
  - intros p Hp. assert (P := distribution_nonneg d D p Hp). unfold xlx. destruct (Rlt_dec 0 (snd p)) as [Q|Q]; [|replace (snd p) with 0 by lra; lra].
    unfold Rdiv. rewrite ln_mult, ln_Rinv; auto; [|now apply Rinv_0_lt_compat]. field. lra.
Qed.
Lemma entropy_fold (l : list R) : forall e s, fold_left (fun es v => if (n0 <? v)%num then (fst es - v * log2 v, snd es + v)%num else es) l (e, s)
  = (e - S xlx l / ln 2, s + S (fun v => if Rlt_dec 0 v then v else 0) l).
Proof.
  induction l as [|v l IH]; intros e s; cbn [fold_left map Rsum]; [f_equal; unfold Rdiv; lra|]. unfold n0 at 2, log2 at 2. cbn [nltb nofZ NumR fst snd nsub nmul nadd ndiv nln].
  unfold xlx at 1. unfold Rltb. destruct (Rlt_dec 0 v) as [P|P]; rewrite IH; f_equal; unfold Rdiv; lra.
Qed.
Lemma entropy_dict_ok d : distribution d -> entropy_dict d = (if Req_EM_T (weight d) 0 then 0 else entropy d).
Proof.
  intros D. unfold entropy_dict. set (es := fold_left _ _ _).
  assert (Ees : es = (0 - S (fun p => xlx (snd p)) d / ln 2, 0 + weight d)).
  { unfold es. rewrite <- (weight_positive_part d D). rewrite (entropy_fold (dvals d) n0 n0). unfold dvals. now rewrite !map_map. }
  cbv zeta. rewrite Ees. cbn [fst snd]. clear es Ees.
  unfold n0, log2. cbn [nltb nofZ NumR nadd nmul ndiv nln]. rewrite Rplus_0_l. assert (W := weight_nonneg d D). unfold Rltb.
  destruct (Req_EM_T (weight d) 0) as [E|E]; destruct (Rlt_dec 0 (weight d)) as [P|P]; try lra. rewrite entropy_xlx, xlx_pos by auto.
  assert (L := ln2_pos). field. lra.
Qed.
Lemma entropy_list_ok post : Forall distribution post -> 0 < S weight post -> entropy_list post = Ok (branch_average entropy post).
Proof.
  intros D W. rewrite Forall_forall in D. unfold entropy_list. rewrite vtotal_weight. unfold pydiv, n0 at 1. cbn [neqb NumR nofZ]. destruct (Reqb (S weight post) 0) eqn:E; [apply Reqb_true in E; lra|].
  unfold n0. cbn [nadd nmul ndiv nofZ NumR]. rewrite (fold_plus (fun d => vsum d * entropy_dict d)). f_equal. unfold branch_average, Rdiv at 1. rewrite Rplus_0_l, <- Rsum_map_scal.
  apply Rsum_map_ext_in. intros d Hd. rewrite vsum_weight, entropy_dict_ok by auto. destruct (Req_EM_T (weight d) 0); [lra|]. unfold Rdiv. ring.
Qed.
Lemma xlx_mono_class d c : distribution d -> 0 < weight d -> xlx (class_weight d c) <= class_weight d c * ln (weight d).
Proof.
  intros D W. assert (P := class_weight_nonneg d c D). assert (L := class_le_weight d c D). unfold xlx. destruct (Rlt_dec 0 (class_weight d c)) as [Q|Q].
  - apply Rmult_le_compat_l; auto. destruct (Req_dec (class_weight d c) (weight d)) as [->|N]; [lra|]. left. apply ln_increasing; lra.
  - replace (class_weight d c) with 0 by lra. lra.
Qed.
Lemma entropy_nonneg d : distribution d -> 0 < weight d -> 0 <= entropy d.
Proof.
  intros D W. rewrite entropy_xlx by auto. assert (L := ln2_pos). apply Rmult_le_pos; [|left; apply Rinv_0_lt_compat, Rmult_lt_0_compat; auto].
  set (cs := classes [d]). rewrite (over_classes xlx d cs); [|apply xlx_0|apply D|apply NoDup_nodup|apply classes_incl; now left].
  assert (S (fun c => xlx (class_weight d c)) cs <= S (fun c => class_weight d c * ln (weight d)) cs) by (apply Rsum_le; intros; now apply xlx_mono_class).
  rewrite Rsum_map_scal, <- (weight_classes d cs) in H; [|apply D|apply NoDup_nodup|apply classes_incl; now left]. rewrite xlx_pos by auto. lra.
Qed.
Lemma entropy_max d : distribution d -> 0 < weight d -> entropy d <= ln (INR (length d)) / ln 2.
Proof.
  intros D W. rewrite entropy_xlx by auto. assert (L := ln2_pos).
  assert (Len : 0 < INR (length d)) by (apply lt_0_INR; destruct d; [cbn in W; lra|cbn; lia]). set (n := INR (length d)) in *.
  assert (G : S (fun p => snd p - weight d / n) d <= S (fun p => xlx (snd p) - snd p * ln (weight d / n)) d).
  { apply Rsum_le. intros p Hp. assert (0 < weight d / n) by (apply Rmult_lt_0_compat; [auto|now apply Rinv_0_lt_compat]). apply gibbs; [now apply distribution_nonneg with d|lra|auto]. }
  rewrite !Rsum_sub, Rsum_map_scal in G. fold (weight d) in G.
  replace (S (fun _ => weight d / n) d) with (weight d) in G.
  2:{ rewrite (Rsum_map_ext_in _ (fun _ => 1 * (weight d / n))) by (intros; lra). rewrite Rsum_map_scal, Rsum_const1. fold n. field. lra. }
  unfold Rdiv in G. rewrite ln_mult, ln_Rinv in G; auto; [|now apply Rinv_0_lt_compat]. rewrite xlx_pos by auto.
  apply Rmult_le_reg_r with (weight d * ln 2); [now apply Rmult_lt_0_compat|]. unfold Rdiv. rewrite Rmult_assoc, Rinv_l by (apply Rgt_not_eq, Rmult_lt_0_compat; auto).
  replace (ln n * / ln 2 * (weight d * ln 2)) with (weight d * ln n) by (field; lra). lra.
Qed.
Lemma entropy_split pre post : distribution pre -> Forall distribution post -> split_of pre post -> 0 < weight pre ->
  branch_average entropy post <= entropy pre.
Proof.
  intros Dp Dq Hs W. assert (EW := split_weight pre post Dp Dq Hs). rewrite Forall_forall in Dq. set (cs := classes (pre :: post)). assert (L := ln2_pos).
  assert (NC : NoDup cs) by apply NoDup_nodup. set (V := weight pre) in *.
  assert (E1 : branch_average entropy post = S (fun d => xlx (weight d) - S (fun c => xlx (class_weight d c)) cs) post / (V * ln 2)).
  { unfold branch_average. cbv zeta. rewrite <- EW. unfold Rdiv at 2. rewrite <- Rsum_map_scal. apply Rsum_map_ext_in. intros d Hd. assert (P := weight_nonneg d (Dq d Hd)).
    destruct (Req_EM_T (weight d) 0) as [Z|Z].
    - rewrite Z, xlx_0, (Rsum_map_ext_in _ (fun _ => 0)); [rewrite Rsum_map_0; lra|]. intros c _. rewrite weight0_class; auto. apply xlx_0.
    - rewrite entropy_xlx by (auto; lra). rewrite (over_classes xlx d cs); [|apply xlx_0|now apply Dq|auto|apply classes_incl; now right]. field. lra. }
  rewrite E1, entropy_xlx by auto. fold V. apply Rmult_le_compat_r; [left; apply Rinv_0_lt_compat, Rmult_lt_0_compat; auto|].
  rewrite (over_classes xlx pre cs); [|apply xlx_0|apply Dp|auto|apply classes_incl; now left].
  rewrite Rsum_sub, Rsum_swap.
  assert (E2 : S (fun d => xlx (weight d)) post = S (fun c => S (fun d => class_weight d c * ln (weight d)) post) cs).
  { rewrite <- Rsum_swap. apply Rsum_map_ext_in. intros d Hd. rewrite Rsum_map_scal, <- weight_classes; [|now apply Dq|auto|apply classes_incl; now right].
    unfold xlx. destruct (Rlt_dec 0 (weight d)); auto. assert (P := weight_nonneg d (Dq d Hd)). replace (weight d) with 0 by lra. lra. }
  assert (E3 : xlx V = S (fun c => class_weight pre c * ln V) cs).
  { rewrite Rsum_map_scal, <- weight_classes; [now rewrite xlx_pos|apply Dp|auto|apply classes_incl; now left]. }
  rewrite E2, E3, <- !Rsum_sub. apply Rsum_le. intros c _.
  destruct (Req_dec (class_weight pre c) 0) as [Z|Z].
  - assert (Z0 : forall d, In d post -> class_weight d c = 0).
    { rewrite Hs in Z. apply (Rsum_pos0 (fun d => class_weight d c) post); auto. intros d Hd. apply class_weight_nonneg; auto. }
    rewrite Z, xlx_0, (Rsum_map_ext_in (fun d => class_weight d c * ln (weight d)) (fun _ => 0)) by (intros d Hd; rewrite Z0; auto; lra).
    rewrite (Rsum_map_ext_in (fun d => xlx (class_weight d c)) (fun _ => 0)) by (intros d Hd; rewrite Z0; auto; apply xlx_0). rewrite !Rsum_map_0. lra.
  - assert (X := class_weight_nonneg pre c Dp). set (Xc := class_weight pre c) in *. assert (PX : 0 < Xc) by lra.
    assert (G : S (fun d => class_weight d c - weight d * (Xc / V)) post <= S (fun d => xlx (class_weight d c) - class_weight d c * ln (weight d) - class_weight d c * (ln Xc - ln V)) post).
    { apply Rsum_le. intros d Hd. assert (Wd := weight_nonneg d (Dq d Hd)). assert (Cd := class_weight_nonneg d c (Dq d Hd)). assert (Ld := class_le_weight d c (Dq d Hd)).
      assert (0 < Xc / V) by (apply Rmult_lt_0_compat; [auto|now apply Rinv_0_lt_compat]).
      destruct (Req_dec (class_weight d c) 0) as [Z0|Z0]; [rewrite Z0, xlx_0; nra|].
      replace (xlx (class_weight d c) - class_weight d c * ln (weight d) - class_weight d c * (ln Xc - ln V)) with (xlx (class_weight d c) - class_weight d c * ln (weight d * (Xc / V))).
      - apply gibbs; auto; [nra|intros _; apply Rmult_lt_0_compat; lra].
      - rewrite ln_mult by lra. unfold Rdiv. rewrite ln_mult, ln_Rinv; auto; [ring|now apply Rinv_0_lt_compat]. }
    rewrite !Rsum_sub, !Rsum_map_scal in G. rewrite <- EW in G. rewrite <- (Hs c) in G. fold Xc in G. rewrite xlx_pos by auto.
    replace (V * (Xc / V)) with Xc in G by (field; lra). lra.
Qed.

(** ** Variance reduction *)
From Verif Require Import Spec.ObserverSpec Proofs.GaussianProofs.
Section Vr.
Variable trunc : R -> R.
Hypothesis trunc_int : forall n, trunc (IZR n) = IZR n.
Lemma vr_sd_ok obs : int_weighted obs -> 0 < wtotal obs -> vr_sd trunc (target_stats obs) = Ok (std_dev obs).
Proof.
  intros [P (n & E)] W. unfold vr_sd, target_stats. cbn [st_w st_s st_q]. fold (wtotal obs). rewrite E, trunc_int, <- E. unfold pydiv, n0. cbn [neqb NumR nofZ].
  destruct (Reqb (wtotal obs) 0) eqn:E0; [apply Reqb_true in E0; lra|]. cbn [bind ndiv nsub nmul nltb NumR].
  rewrite <- wsqdev_eq by lra. unfold std_dev. assert (Q := wsqdev_nonneg obs P).
  assert (0 <= wsqdev obs / wtotal obs) by (apply Rmult_le_pos; [auto|left; now apply Rinv_0_lt_compat]).
  unfold Rltb. destruct (Rlt_dec 0 (wsqdev obs / wtotal obs)) as [L|L].
  - unfold py_sqrt, n0. cbn [nltb nofZ NumR]. destruct (Rltb _ 0) eqn:E1; [apply Rltb_true in E1; lra|reflexivity].
  - replace (wsqdev obs / wtotal obs) with 0 by lra. now rewrite sqrt_0.
Qed.
Lemma sdr_loop_ok W : W <> 0 -> forall bs m, (forall b, In b bs -> int_weighted b /\ 0 < wtotal b) ->
  sdr_loop (vr_sd trunc) W (map target_stats bs) m = Ok (m - S (fun b => wtotal b / W * std_dev b) bs).
Proof.
  intros HW. induction bs as [|b bs IH]; intros m H; cbn [map sdr_loop Rsum]; [f_equal; lra|].
  destruct (H b (or_introl eq_refl)) as [H1 H2]. rewrite vr_sd_ok by auto. unfold pydiv, n0. cbn [neqb NumR nofZ]. destruct (Reqb W 0) eqn:E0; [apply Reqb_true in E0; contradiction|].
  cbn [bind]. rewrite IH by (intros; apply H; now right). cbn [st_w target_stats]. cbn. f_equal. unfold wtotal. lra.
Qed.
Lemma wtotal_concat bs : wtotal (concat bs) = S wtotal bs.
Proof. induction bs as [|b bs IH]; cbn [concat map Rsum]; [reflexivity|]. unfold wtotal at 1. rewrite map_app, Rsum_app. fold (wtotal b) (wtotal (concat bs)). now rewrite IH. Qed.
Lemma sum_concat (f : R * R -> R) bs : S f (concat bs) = S (fun b => S f b) bs.
Proof. induction bs as [|b bs IH]; cbn [concat map Rsum]; [reflexivity|]. rewrite map_app, Rsum_app. now rewrite IH. Qed.
Lemma int_weighted_concat bs : (forall b, In b bs -> int_weighted b) -> int_weighted (concat bs).
Proof.
  intros H. split.
  - intros p Hp. apply in_concat in Hp as (b & Hb & Hp). destruct (H b Hb). auto.
  - rewrite wtotal_concat. induction bs as [|b bs IH]; [now exists 0%Z|]. destruct IH as (n & E); [intros; apply H; now right|]. destruct (H b (or_introl eq_refl)) as [_ (k & E')].
    exists (k + n)%Z. cbn [map Rsum]. rewrite E, E', plus_IZR. reflexivity.
Qed.
Lemma filter_all {A} (f : A -> bool) l : (length (filter f l) = length l <-> forall x, In x l -> f x = true).
Proof.
  induction l as [|a l IH]; cbn; [split; auto; intros _ x []|]. assert (L : (length (filter f l) <= length l)%nat) by (clear; induction l as [|b l IH]; cbn; [lia|destruct (f b); cbn; lia]). destruct (f a) eqn:E; cbn; split.
  - intros [= H] x [<-|Hx]; auto. apply IH; auto.
  - intros H. f_equal. apply IH. auto.
  - lia.
  - intros H. specialize (H a (or_introl eq_refl)). congruence.
Qed.
Lemma sd_split bs : bs <> [] -> (forall b, In b bs -> int_weighted b /\ 0 < wtotal b) ->
  S (fun b => wtotal b / wtotal (concat bs) * std_dev b) bs <= std_dev (concat bs).
Proof.
  intros NE H. set (W := wtotal (concat bs)). assert (EW : W = S wtotal bs) by apply wtotal_concat.
  assert (PW : 0 < W). { destruct bs as [|b bs]; [congruence|]. rewrite EW. cbn [map Rsum]. assert (0 <= S wtotal bs) by (apply Rsum_nonneg; intros x Hx; apply in_map_iff in Hx as (y & <- & Hy); left; apply H; now right).
    destruct (H b (or_introl eq_refl)). lra. }
  assert (I : int_weighted (concat bs)) by (apply int_weighted_concat; intros; now apply H).
  assert (E1 : S (fun b => wtotal b / W * std_dev b) bs = S (fun b => wtotal b * std_dev b) bs / W).
  { unfold Rdiv. rewrite <- Rsum_map_scal. apply Rsum_map_ext_in. intros; ring. }
  rewrite E1. set (A := S (fun b => wtotal b * std_dev b) bs).
  assert (PA : 0 <= A). { apply Rsum_nonneg. intros x Hx. apply in_map_iff in Hx as (b & <- & Hb). apply Rmult_le_pos; [left; now apply H|apply sqrt_pos]. }
  assert (T1 : A ^ 2 / W <= S wsqdev bs).
  { unfold A. rewrite EW. eapply Rle_trans; [apply titu; intros b Hb; destruct (H b Hb); split; [lra|intros; lra]|]. apply Req_le. apply Rsum_map_ext_in. intros b Hb. destruct (H b Hb) as [[Hn _] Hw].
    rewrite Rpow_mult_distr. unfold std_dev. rewrite pow2_sqrt; [field; lra|]. apply Rmult_le_pos; [now apply wsqdev_nonneg|left; now apply Rinv_0_lt_compat]. }
  assert (T2 : S wsqdev bs <= wsqdev (concat bs)).
  { rewrite wsqdev_eq by (fold W; lra). fold W. rewrite (Rsum_map_ext_in wsqdev (fun b => wxx b - wx b ^ 2 / wtotal b)); [|intros b Hb; rewrite wsqdev_eq by (destruct (H b Hb); lra); f_equal; unfold Rdiv; ring].
    rewrite Rsum_sub. rewrite (sum_concat (fun p => snd p * fst p * fst p)). rewrite (sum_concat (fun p => snd p * fst p)). rewrite EW.
    assert (T := titu (fun b => wx b) wtotal bs). cbv beta in T. specialize (T ltac:(intros b Hb; destruct (H b Hb); split; [lra|intros; lra])).
    replace (S (fun b => wx b) bs * S (fun b => wx b) bs) with (S (fun b => wx b) bs ^ 2) by ring. lra. }
  unfold std_dev. fold W. apply Rsqr_incr_0_var; [|apply sqrt_pos]. rewrite Rsqr_sqrt; [|apply Rmult_le_pos; [apply wsqdev_nonneg; exact (proj1 I)|left; now apply Rinv_0_lt_compat]].
  unfold Rsqr. replace (A / W * (A / W)) with (A ^ 2 / W / W) by (field; lra). apply Rmult_le_compat_r; [left; now apply Rinv_0_lt_compat|lra].
Qed.
End Vr.
