(** Classification measurements: Kappa, F1 and G-mean. *)
From Coq Require Import List ZArith Bool Lia Reals Lra QArith.
From Verif Require Import Base.Py Base.Num Model.ConfMat Model.ClassMeasure Spec.Lists Spec.ClassMeasureSpec Proofs.ClassMeasureProofs Props.ClassMeasureProps.
Import ListNotations.
Local Open Scope R_scope.

Lemma col_sum_times {T} {N : Num T} {U} (s : measure T) (h : list (Z * Z * U)) a : mat s h -> (a < length (me_targets s))%nat -> col_sum s (Z.of_nat a) = Z.of_nat (times (fun _ p => is_ix (me_targets s) p a) h).
Proof.
  intros I La. unfold col_sum, zrange. rewrite (i_size _ _ I), Nat2Z.id, map_map. rewrite (map_ext_in _ (fun b => Z.of_nat (times (fun y p => is_ix (me_targets s) y b && is_ix (me_targets s) p a) h))) by (intros b Hb; apply in_seq in Hb; apply (i_cells _ _ I); lia).
  assert (Hl := i_labels _ _ I). clear I. induction h as [|[[y p] w] h IH] using rev_ind.
  - cbn. induction (seq 0 _); cbn; auto.
  - rewrite times_app. rewrite (map_ext _ (fun b => (Z.of_nat (times (fun y p => is_ix (me_targets s) y b && is_ix (me_targets s) p a) h) + (if is_ix (me_targets s) y b && is_ix (me_targets s) p a then 1 else 0))%Z)) by (intros b; rewrite times_app; destruct (_ && _); lia).
    rewrite zsum_add, IH by (intros y' p' w' Hin; eapply Hl; apply in_app_iff; left; eauto). destruct (Hl y p w) as [Hy _]; [apply in_app_iff; right; now left|]. destruct (first_index_In _ _ Hy) as (b & Eb & Lb & _).
    destruct (is_ix (me_targets s) p a).
    + rewrite (map_ext _ (fun c => if Nat.eqb b c then 1 else 0)%Z) by (intros c; rewrite (is_ix_true _ _ _ Eb); now rewrite andb_true_r). rewrite indicator_sum. cbn [Nat.leb andb]. rewrite (proj2 (Nat.ltb_lt _ _)) by (cbn; lia). lia.
    + assert (Z0 : forall m : list nat, zsum (map (fun c => if is_ix (me_targets s) y c && false then 1%Z else 0%Z) m) = 0%Z) by (induction m as [|x m IHm]; cbn; auto; rewrite andb_false_r; exact IHm). rewrite Z0. lia.
Qed.
Lemma fold_Rsum {A} (f : A -> R) l : forall acc, fold_left (fun acc i => acc + f i) l acc = acc + Rsum (map f l).
Proof. induction l as [|x l IH]; intros acc; cbn; [lra|]. rewrite IH. lra. Qed.
Lemma map_positions {B} (F : Z -> B) t : forall (f : nat -> B) st, (forall a y, nth_error t a = Some y -> f (st + a)%nat = F y) -> map f (seq st (length t)) = map F t.
Proof.
  induction t as [|x t IH]; intros f st H; [reflexivity|]. cbn [length seq map]. f_equal; [rewrite <- (H O x eq_refl); f_equal; lia|]. apply IH. intros a y Ha. rewrite <- (H (S a) y Ha). f_equal. lia.
Qed.
Lemma ix_label t c x z : NoDup t -> nth_error t c = Some x -> In z t -> is_ix t z c = (z =? x)%Z.
Proof.
  intros ND Hc Hz. destruct (first_index_In _ _ Hz) as (k & Ek & _ & Nk). rewrite (is_ix_true _ _ _ Ek). destruct (Nat.eqb_spec k c) as [->|Ne], (Z.eqb_spec z x) as [->|Nz]; auto; try congruence. rewrite (first_index_NoDup _ _ _ ND Hc) in Ek. congruence.
Qed.
Lemma times_le {U} f (h : list (Z * Z * U)) : (times f h <= length h)%nat.
Proof. unfold times. induction h as [|x h IH]; cbn; auto. destruct (f _ _); cbn; lia. Qed.
Lemma labels_total {U} t (h : list (Z * Z * U)) : NoDup t -> Rsum (map (fun l => INR (times (fun y _ => y =? l)%Z h)) t) <= INR (length h).
Proof.
  intros ND. induction h as [|[[y p] w] h IH] using rev_ind.
  - cbn [length]. unfold times. cbn. induction t as [|x t IHt]; cbn; [lra|]. inversion ND; subst. specialize (IHt H2). cbn in IHt. lra.
  - rewrite app_length, plus_INR. cbn [length INR]. rewrite (map_ext _ (fun l => INR (times (fun y _ => y =? l)%Z h) + (if (y =? l)%Z then 1 else 0))) by (intros l; rewrite times_app, plus_INR; destruct (y =? l)%Z; reflexivity).
    assert (S : forall (f g : Z -> R) m, Rsum (map (fun l => f l + g l) m) = Rsum (map f m) + Rsum (map g m)) by (induction m as [|x m IHm]; cbn; [lra|]; rewrite IHm; lra). rewrite S.
    assert (O1 : Rsum (map (fun l => if (y =? l)%Z then 1 else 0) t) <= 1); [|lra]. clear -ND.
    assert (Zr : forall t, ~ In y t -> Rsum (map (fun l => if (y =? l)%Z then 1 else 0) t) = 0) by (induction t0 as [|x t0 IH]; intros H; cbn; auto; destruct (Z.eqb_spec y x) as [->|]; [exfalso; apply H; now left|]; rewrite IH; [lra|]; intros G; apply H; now right).
    induction ND as [|x t Hx ND IH]; cbn; [lra|]. destruct (Z.eqb_spec y x) as [->|]; [rewrite Zr by exact Hx; lra|lra].
Qed.

(** C374: get_kappa is Cohen's kappa: (p0 - pc) / (1 - pc), 1 if pc is 1, with p0 the accuracy and pc the sum over the known labels of the share of results
    with that true label times the share of results with that prediction; it is at most 1. *)
Theorem measure_kappa_cohen : forall targets (es : list (me_event R)), NoDup (given targets) -> results es <> [] ->
  exists s, me_run (me_new targets) es = Ok s
    /\ let h := results es in let n := INR (length h) in let p0 := INR (times Z.eqb h) / n in
       let pc := Rsum (map (fun l => INR (times (fun y _ => y =? l)%Z h) / n * (INR (times (fun _ p => p =? l)%Z h) / n)) (known_after (given targets) es)) in
       (pc = 1 -> me_kappa s = Some 1) /\ (pc <> 1 -> me_kappa s = Some ((p0 - pc) / (1 - pc)) /\ (p0 - pc) / (1 - pc) <= 1).
Proof.
  intros targets es ND Hne. destruct (run_new targets es) as (s & E & I & K). exists s. split; [exact E|]. cbv zeta. set (h := results es) in *. assert (NDs : NoDup (me_targets s)) by (rewrite K; now apply known_after_NoDup). rewrite <- K.
  assert (L : (0 < length h)%nat) by (destruct h; [congruence|cbn [length]; lia]). set (n := INR (length h)). assert (Hn : 0 < n) by (apply lt_0_INR; lia).
  unfold me_kappa, me_accuracy. rewrite (i_count _ _ I), (inv_diagonal _ _ I), (proj2 (Z.eqb_neq _ _)) by lia. cbv zeta. unfold n0, n1. cbn [nofZ nadd nmul ndiv nsub neqb NumR]. rewrite <- !INR_IZR_INZ. fold h n. rewrite fold_Rsum, Rplus_0_l.
  set (pc := Rsum (map _ (me_targets s))).
  match goal with |- context [Rsum ?m] => replace (Rsum m) with pc end.
  2:{ unfold pc. f_equal. unfold zrange at 2. rewrite (i_size _ _ I), Nat2Z.id, map_map. symmetry. apply map_positions. intros a y Ha. cbn [Nat.add]. assert (La : (a < length (me_targets s))%nat) by (apply nth_error_Some; congruence).
      assert (Er := row_sum_times s h a I La). unfold row_sum in Er. rewrite Er, (col_sum_times s h a I La), <- !INR_IZR_INZ. f_equal; f_equal; f_equal; apply times_ext; intros y' p' w Hin; destruct (i_labels _ _ I _ _ _ Hin); now apply ix_label. }
  split; intros Hp; [now rewrite (proj2 (Reqb_true _ 1))|]. rewrite (proj2 (Reqb_false _ 1)) by exact Hp. split; [reflexivity|].
  assert (B : forall k, (k <= length h)%nat -> 0 <= INR k / n <= 1).
  { intros k Hk. split; [apply Rmult_le_pos; [apply pos_INR|apply Rlt_le, Rinv_0_lt_compat, Hn]|]. apply (Rmult_le_reg_r n); [exact Hn|]. unfold Rdiv. rewrite Rmult_assoc, Rinv_l, Rmult_1_r, Rmult_1_l by lra. now apply le_INR. }
  assert (P0 : INR (times Z.eqb h) / n <= 1) by apply B, times_le.
  assert (Pc : pc <= 1).
  { apply Rle_trans with (Rsum (map (fun l => INR (times (fun y _ => y =? l)%Z h)) (me_targets s)) / n).
    - unfold pc. clear -B. induction (me_targets s) as [|x t IH]; cbn; [unfold Rdiv; lra|]. assert (B1 := B _ (times_le (fun y _ => y =? x)%Z h)). assert (B2 := B _ (times_le (fun _ p => p =? x)%Z h)). assert (INR (times (fun y _ => y =? x)%Z h) / n * (INR (times (fun _ p => p =? x)%Z h) / n) <= INR (times (fun y _ => y =? x)%Z h) / n * 1) by (apply Rmult_le_compat_l; tauto). unfold Rdiv in *. lra.
    - apply (Rmult_le_reg_r n); [exact Hn|]. unfold Rdiv. rewrite Rmult_assoc, Rinv_l, Rmult_1_r, Rmult_1_l by lra. now apply labels_total. }
  apply (Rmult_le_reg_r (1 - pc)); [lra|]. unfold Rdiv at 1. rewrite Rmult_assoc, Rinv_l by lra. lra.
Qed.

(** C375: with labels 0 and 1, get_f1_score is twice the number of results that are 1 and predicted 1 over the number that are 1 plus the number predicted 1,
    and get_g_mean is the root of the share of the ones predicted 1 times the share of the zeros predicted 0; 0 where there is nothing to divide by. *)
Theorem measure_f1_gmean : forall targets (es : list (me_event R)), given targets = [0; 1]%Z \/ given targets = [1; 0]%Z ->
  (forall y p w, In (MAdd y p w) es -> (y = 0 \/ y = 1)%Z /\ (p = 0 \/ p = 1)%Z) ->
  exists s, me_run (me_new targets) es = Ok s
    /\ let count f := times f (results es) in
       let one := count (fun y _ => y =? 1)%Z in let said := count (fun _ p => p =? 1)%Z in let both := count (fun y p => (y =? 1) && (p =? 1))%Z in
       me_f1 s = Ok (ratio (2 * both) (one + said))
       /\ me_gmean s = Ok (sqrt (ratio both one * ratio (count (fun y p => (y =? 0) && (p =? 0))%Z) (count (fun y _ => y =? 0)%Z))).
Proof.
  intros targets es Hg Hb. assert (ND : NoDup (given targets)) by (destruct Hg as [-> | ->]; repeat constructor; cbn; intuition discriminate).
  destruct (measure_precision_recall targets es Hg Hb) as (s & E & Pr & Re). destruct (measure_matrix_counts targets es ND) as (s' & E' & K & _ & _ & _ & V). rewrite E in E'. injection E' as <-. exists s. split; [exact E|]. cbv zeta.
  assert (Hr : forall y p w, In (y, p, w) (results es) -> (y = 0 \/ y = 1)%Z /\ (p = 0 \/ p = 1)%Z) by (intros y p w Hin; apply results_added in Hin as [[]|Hin]; eauto). split.
  - unfold me_f1. rewrite Pr, Re. cbn [bind]. f_equal. unfold n0. cbn [nofZ nadd nmul ndiv neqb NumR]. set (tp := times _ _). set (sd := times (fun _ p => p =? 1)%Z _). set (on := times (fun y _ => y =? 1)%Z _).
    assert (H1 : (tp <= sd)%nat) by (unfold tp, sd; rewrite (times_split (results es) (fun y p => (y =? 1) && (p =? 1))%Z (fun y p => (y =? 0) && (p =? 1))%Z (fun _ p => p =? 1)%Z); [lia|]; intros y p w Hin; destruct (Hr y p w Hin) as [[-> | ->] [-> | ->]]; reflexivity).
    assert (H2 : (tp <= on)%nat) by (unfold tp, on; rewrite (times_split (results es) (fun y p => (y =? 1) && (p =? 1))%Z (fun y p => (y =? 1) && (p =? 0))%Z (fun y _ => y =? 1)%Z); [lia|]; intros y p w Hin; destruct (Hr y p w Hin) as [[-> | ->] [-> | ->]]; reflexivity).
    clearbody tp sd on. unfold ratio. destruct (Nat.eq_dec tp 0) as [->|Nt].
    + replace (if Nat.eqb on 0 then 0 else INR 0 / INR on) with 0 by (destruct (Nat.eqb on 0); cbn [INR]; unfold Rdiv; lra). replace (if Nat.eqb sd 0 then 0 else INR 0 / INR sd) with 0 by (destruct (Nat.eqb sd 0); cbn [INR]; unfold Rdiv; lra).
      rewrite (proj2 (Reqb_true _ _)) by lra. destruct (Nat.eqb (on + sd) 0); cbn [Nat.mul Nat.add INR]; unfold Rdiv; lra.
    + rewrite !(proj2 (Nat.eqb_neq _ _)) by lia. assert (0 < INR tp) by (apply lt_0_INR; lia). assert (0 < INR sd) by (apply lt_0_INR; lia). assert (0 < INR on) by (apply lt_0_INR; lia).
      assert (0 < INR tp / INR on) by (apply Rdiv_lt_0_compat; auto). assert (0 < INR tp / INR sd) by (apply Rdiv_lt_0_compat; auto). rewrite (proj2 (Reqb_false _ _)) by lra.
      rewrite plus_INR, mult_INR. change (INR 2) with 2. field. assert (0 < INR tp * INR on + INR tp * INR sd) by (apply Rplus_lt_0_compat; apply Rmult_lt_0_compat; auto). repeat split; lra.
  - assert (Kt : me_targets s = given targets) by (rewrite K; apply binary_known; auto; destruct Hg as [-> | ->]; cbn; auto).
    rewrite (times_split (results es) (fun y p => (y =? 0) && (p =? 0))%Z (fun y p => (y =? 0) && (p =? 1))%Z (fun y _ => y =? 0)%Z) by (intros y p w Hin; destruct (Hr y p w Hin) as [[-> | ->] [-> | ->]]; reflexivity).
    rewrite <- share_ratio. unfold me_gmean. rewrite Re. unfold me_index. rewrite Kt in *. destruct Hg as [Hg|Hg]; rewrite Hg in *; cbn [first_index Z.eqb Pos.eqb option_map Z.of_nat Pos.of_succ_nat Pos.succ Z.sub Z.add Z.opp Z.pos_sub Pos.sub].
    + pose proof (V 0%nat 0%nat 0%Z 0%Z eq_refl eq_refl) as V00. pose proof (V 0%nat 1%nat 0%Z 1%Z eq_refl eq_refl) as V01. change (Z.of_nat 1) with 1%Z in *. change (Z.of_nat 0) with 0%Z in *. rewrite V00, V01. reflexivity.
    + pose proof (V 1%nat 1%nat 0%Z 0%Z eq_refl eq_refl) as V00. pose proof (V 1%nat 0%nat 0%Z 1%Z eq_refl eq_refl) as V01. change (Z.of_nat 1) with 1%Z in *. change (Z.of_nat 0) with 0%Z in *. rewrite V00, V01. reflexivity.
Qed.

Example kappa_example : exists s, me_run (me_new None) [MAdd 0 0 1; MAdd 1 1 1; MAdd 1 0 1]%Q = Ok s /\ me_kappa s = Some (2 # 5)%Q /\ me_f1 s = Ok (2 # 3)%Q.
Proof. eexists. split; [vm_compute; reflexivity|]. vm_compute. auto. Qed.

Print Assumptions measure_kappa_cohen. Print Assumptions measure_f1_gmean.
