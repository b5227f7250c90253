(** Classification measurements (ClassificationMeasurements). *)
From Coq Require Import List ZArith Bool Lia Reals Lra QArith.
From Verif Require Import Base.Py Base.Num Model.ConfMat Model.ClassMeasure Spec.ClassMeasureSpec Proofs.ClassMeasureProofs.
Import ListNotations.
Local Open Scope R_scope.

(** The labels given to the constructor; without any they are 0 and 1 *)
Definition given (targets : option (list Z)) : list Z := match targets with Some t => t | None => [0; 1]%Z end.

Lemma run_new {T} {N : Num T} targets (es : list (me_event T)) : exists s, me_run (me_new targets) es = Ok s /\ inv s (results es) /\ me_targets s = known_after (given targets) es.
Proof. apply (inv_run es (me_new targets) []). apply inv_empty. Qed.
Lemma known_NoDup l t : NoDup l -> NoDup (known l t).
Proof.
  intros H. unfold known. destruct (existsb _ l) eqn:E; auto. apply (NoDup_Add (a := t) (l := l)); [rewrite <- (app_nil_r l) at 1; apply Add_app|]. split; auto.
  intros Hin. assert (existsb (Z.eqb t) l = true) by (apply existsb_exists; exists t; split; auto; apply Z.eqb_refl). congruence.
Qed.
Lemma known_after_NoDup {T} (es : list (me_event T)) : forall l, NoDup l -> NoDup (known_after l es).
Proof. unfold known_after. induction es as [|[y p w|] es IH]; intros l H; cbn; auto. apply IH. now repeat apply known_NoDup. Qed.

(** C366: any history of add_result and reset runs without an exception, whatever the labels and the weights; the labels known are then those given followed
    by every new one in the order of its first appearance (a reset forgets none), the cell of two labels in the confusion matrix is the number of results
    since the last reset with that true and that predicted label, and the sample count is the number of these results. *)
Theorem measure_matrix_counts : forall targets (es : list (me_event R)), NoDup (given targets) ->
  exists s, me_run (me_new targets) es = Ok s
    /\ me_targets s = known_after (given targets) es
    /\ me_count s = Z.of_nat (length (results es))
    /\ cm_size (me_matrix s) = Z.of_nat (length (me_targets s))
    /\ (forall y p w, In (y, p, w) (results es) -> In y (me_targets s) /\ In p (me_targets s))
    /\ forall a b y p, nth_error (me_targets s) a = Some y -> nth_error (me_targets s) b = Some p ->
         cm_value_at (me_matrix s) (Z.of_nat a) (Z.of_nat b) = Ok (Z.of_nat (times (fun y' p' => (y' =? y) && (p' =? p))%Z (results es))).
Proof.
  intros targets es ND. destruct (run_new targets es) as (s & E & I & K). exists s. split; [exact E|]. split; [exact K|]. split; [apply I|]. split; [apply I|]. split; [apply I|].
  assert (NDs : NoDup (me_targets s)) by (rewrite K; now apply known_after_NoDup).
  intros a b y p Ha Hb. assert (La : (a < length (me_targets s))%nat) by (apply nth_error_Some; congruence). assert (Lb : (b < length (me_targets s))%nat) by (apply nth_error_Some; congruence).
  unfold cm_value_at, np_index. rewrite (i_size _ _ I). rewrite (proj2 (Z.leb_le 0 (Z.of_nat a))), (proj2 (Z.leb_le 0 (Z.of_nat b))), (proj2 (Z.ltb_lt (Z.of_nat a) _)), (proj2 (Z.ltb_lt (Z.of_nat b) _)) by lia. cbn [andb bind].
  rewrite (i_cells _ _ I) by auto. f_equal. f_equal. apply times_ext. intros y' p' w Hin. destruct (i_labels _ _ I _ _ _ Hin) as [Hy Hp].
  assert (G : forall c x z, nth_error (me_targets s) c = Some x -> In z (me_targets s) -> is_ix (me_targets s) z c = (z =? x)%Z).
  { intros c x z Hc Hz. destruct (first_index_In _ _ Hz) as (k & Ek & _ & Nk). rewrite (is_ix_true _ _ _ Ek). destruct (Nat.eqb_spec k c) as [->|Ne], (Z.eqb_spec z x) as [->|Nz]; auto; try congruence. rewrite (first_index_NoDup _ _ _ NDs Hc) in Ek. congruence. }
  now rewrite (G _ _ _ Ha Hy), (G _ _ _ Hb Hp).
Qed.

(** C367: the accuracy is the share of the results since the last reset whose prediction was the true label, whatever their weights; the labels given need
    not be different. *)
Theorem measure_accuracy : forall targets (es : list (me_event R)), results es <> [] ->
  exists s, me_run (me_new targets) es = Ok s /\ me_accuracy s = Some (INR (times Z.eqb (results es)) / INR (length (results es))).
Proof.
  intros targets es H. destruct (run_new targets es) as (s & E & I & K). exists s. split; auto. unfold me_accuracy. rewrite (i_count _ _ I), (inv_diagonal _ _ I). destruct (results es) as [|r h]; [congruence|].
  rewrite (proj2 (Z.eqb_neq _ _)) by (cbn [length]; lia). cbn [nofZ ndiv NumR]. now rewrite <- !INR_IZR_INZ.
Qed.
(** Before the first result, and after a reset, it is not 0 but nan. *)
Theorem measure_accuracy_empty_refuted : forall targets (es : list (me_event R)), given targets <> [] -> results es = [] ->
  exists s, me_run (me_new targets) es = Ok s /\ me_accuracy s = None.
Proof.
  intros targets es H R0. destruct (run_new targets es) as (s & E & I & K). exists s. split; auto. unfold me_accuracy. rewrite (i_count _ _ I), R0. cbn [length Z.of_nat Z.eqb]. rewrite (i_size _ _ I), K.
  assert (G : forall (es : list (me_event R)) l, l <> [] -> known_after l es <> []).
  { unfold known_after. induction es0 as [|[y p w|] es0 IH]; intros l Hl; cbn; auto. apply IH. assert (Kn : forall l t, l <> [] -> known l t <> []) by (intros l0 t H0; unfold known; destruct (existsb _ _); auto; destruct l0; discriminate). auto. }
  specialize (G es _ H). destruct (known_after (given targets) es); [congruence|]. rewrite (proj2 (Z.eqb_neq _ _)) by (cbn [length]; lia). reflexivity.
Qed.

(** C368: precision and recall, with the default labels and results of these only, are the usual shares: of the results predicted 1 those that are 1, and of
    those that are 1 the ones predicted 1; 0 where there is none. *)
Definition ratio (a b : nat) : R := if Nat.eqb b 0 then 0 else INR a / INR b.
Lemma binary_known (es : list (me_event R)) : forall l, In 0%Z l -> In 1%Z l -> (forall y p w, In (MAdd y p w) es -> (y = 0 \/ y = 1)%Z /\ (p = 0 \/ p = 1)%Z) -> known_after l es = l.
Proof.
  unfold known_after. induction es as [|e es IH]; intros l H0 H1 H; [reflexivity|]. cbn [fold_left]. assert (Kn : forall t, (t = 0 \/ t = 1)%Z -> known l t = l).
  { intros t Ht. unfold known. rewrite (proj2 (existsb_exists _ _)); [reflexivity|]. exists t. split; [destruct Ht as [->| ->]; auto|apply Z.eqb_refl]. }
  destruct e as [y p w|]; [destruct (H y p w) as [Hy Hp]; [now left|]; rewrite (Kn y Hy), (Kn p Hp)|]; apply IH; auto; intros; eapply H; right; eauto.
Qed.
Lemma times_split {T} (h : list (Z * Z * T)) (f g k : Z -> Z -> bool) : (forall y p w, In (y, p, w) h -> ((if k y p then 1 else 0) = (if f y p then 1 else 0) + (if g y p then 1 else 0))%nat) -> times k h = (times f h + times g h)%nat.
Proof.
  unfold times. induction h as [|[[y p] w] h IH]; intros H; [reflexivity|]. cbn [filter fst snd]. assert (Hh := H y p w (or_introl eq_refl)). assert (IHh := IH ltac:(intros; eapply H; right; eauto)). destruct (k y p), (f y p), (g y p); cbn [length]; lia.
Qed.
Lemma results_added {T} (es : list (me_event T)) : forall h y p w, In (y, p, w) (fold_left (fun h e => match e with MAdd y p w => h ++ [(y, p, w)] | MClear => [] end) es h) -> In (y, p, w) h \/ In (MAdd y p w) es.
Proof.
  induction es as [|e es IH]; intros h y p w H; [now left|]. cbn in H. apply IH in H as [H|H]; [|right; now right]. destruct e as [y' p' w'|]; [|destruct H]. apply in_app_iff in H as [H|[[= -> -> ->]|[]]]; [now left|right; now left].
Qed.
Lemma share_ratio a b : @share R NumR (Z.of_nat a) (Z.of_nat b) = ratio a (a + b).
Proof.
  unfold share, ratio. rewrite <- Nat2Z.inj_add. destruct (Nat.eqb_spec (a + b) 0) as [->|Ne]; [reflexivity|]. rewrite (proj2 (Z.eqb_neq _ _)) by lia. cbn [nofZ ndiv NumR]. now rewrite <- !INR_IZR_INZ.
Qed.
Theorem measure_precision_recall : forall targets (es : list (me_event R)), given targets = [0; 1]%Z \/ given targets = [1; 0]%Z ->
  (forall y p w, In (MAdd y p w) es -> (y = 0 \/ y = 1)%Z /\ (p = 0 \/ p = 1)%Z) ->
  exists s, me_run (me_new targets) es = Ok s
    /\ me_precision s = Ok (ratio (times (fun y p => (y =? 1) && (p =? 1))%Z (results es)) (times (fun _ p => p =? 1)%Z (results es)))
    /\ me_recall s = Ok (ratio (times (fun y p => (y =? 1) && (p =? 1))%Z (results es)) (times (fun y _ => y =? 1)%Z (results es))).
Proof.
  intros targets es Hg Hb. assert (ND : NoDup (given targets)) by (destruct Hg as [-> | ->]; repeat constructor; cbn; intuition discriminate).
  destruct (measure_matrix_counts targets es ND) as (s & E & K & _ & _ & _ & V). exists s. split; [exact E|].
  assert (Kt : me_targets s = given targets) by (rewrite K; apply binary_known; auto; destruct Hg as [-> | ->]; cbn; auto).
  assert (Hr : forall y p w, In (y, p, w) (results es) -> (y = 0 \/ y = 1)%Z /\ (p = 0 \/ p = 1)%Z) by (intros y p w Hin; apply results_added in Hin as [[]|Hin]; eauto).
  assert (F1 : times (fun _ p => p =? 1)%Z (results es) = (times (fun y p => (y =? 1) && (p =? 1))%Z (results es) + times (fun y p => (y =? 0) && (p =? 1))%Z (results es))%nat) by (apply times_split; intros y p w Hin; destruct (Hr y p w Hin) as [[-> | ->] [-> | ->]]; reflexivity).
  assert (F2 : times (fun y _ => y =? 1)%Z (results es) = (times (fun y p => (y =? 1) && (p =? 1))%Z (results es) + times (fun y p => (y =? 1) && (p =? 0))%Z (results es))%nat) by (apply times_split; intros y p w Hin; destruct (Hr y p w Hin) as [[-> | ->] [-> | ->]]; reflexivity).
  rewrite F1, F2, <- !share_ratio. unfold me_precision, me_recall, me_index. rewrite Kt in *. destruct Hg as [Hg|Hg]; rewrite Hg in *; cbn [first_index Z.eqb Pos.eqb option_map Z.of_nat Pos.of_succ_nat Pos.succ Z.sub Z.add Z.opp Z.pos_sub Pos.sub].
  - pose proof (V 1%nat 1%nat 1%Z 1%Z eq_refl eq_refl) as V11. pose proof (V 0%nat 1%nat 0%Z 1%Z eq_refl eq_refl) as V01. pose proof (V 1%nat 0%nat 1%Z 0%Z eq_refl eq_refl) as V10. change (Z.of_nat 1) with 1%Z in *. change (Z.of_nat 0) with 0%Z in *. rewrite V11, V01, V10. split; reflexivity.
  - pose proof (V 0%nat 0%nat 1%Z 1%Z eq_refl eq_refl) as V11. pose proof (V 1%nat 0%nat 0%Z 1%Z eq_refl eq_refl) as V01. pose proof (V 0%nat 1%nat 1%Z 0%Z eq_refl eq_refl) as V10. change (Z.of_nat 1) with 1%Z in *. change (Z.of_nat 0) with 0%Z in *. rewrite V11, V01, V10. split; reflexivity.
Qed.
(** With other labels they are not: label 1 third in the list, every prediction right, and the precision is 1/2; with label 1 alone IndexError is raised. *)
Theorem measure_precision_refuted :
  (exists s, me_run (me_new (Some [2; 0; 1]%Z)) [MAdd 1 1 1%Q; MAdd 0 0 1%Q; MAdd 1 1 1%Q]%Z = Ok s /\ me_accuracy s = Some 1%Q /\ me_precision s = Ok (1 # 2)%Q /\ me_recall s = Ok (1 # 2)%Q)
  /\ (exists s, me_run (me_new (Some [1]%Z)) [MAdd 1 1 1%Q]%Z = Ok s /\ me_precision s = Raise IndexError).
Proof. split; eexists; (split; [vm_compute; reflexivity|]); vm_compute; auto. Qed.

(** C369: Kappa T compares the accuracy with that of the classifier that always repeats the last label, where the results that repeat it count with their
    weight but all the results count 1. *)
Theorem measure_kappa_t : forall targets (es : list (me_event R)), results es <> [] ->
  exists s, me_run (me_new targets) es = Ok s
    /\ let n := INR (length (results es)) in let p0 := INR (times Z.eqb (results es)) / n in let pc := repeated None (results es) 0 / n in
       (pc = 1 -> me_kappa_t s = Some 1) /\ (pc <> 1 -> me_kappa_t s = Some ((p0 - pc) / (1 - pc))).
Proof.
  intros targets es H. destruct (run_new targets es) as (s & E & I & K). exists s. split; auto. cbv zeta. unfold me_kappa_t, me_kappa_of, me_accuracy. rewrite (i_count _ _ I), (inv_diagonal _ _ I), (i_nochange _ _ I).
  assert (L : (Z.of_nat (length (results es)) =? 0)%Z = false) by (apply Z.eqb_neq; destruct (results es); [congruence|cbn [length]; lia]). rewrite L. unfold n0, n1. cbn [nofZ ndiv nsub neqb NumR]. rewrite <- !INR_IZR_INZ.
  split; intros Hp; [now rewrite (proj2 (Reqb_true _ 1))|now rewrite (proj2 (Reqb_false _ 1))].
Qed.
(** So Kappa T is not at most 1: three results of one label with weight 2, all predicted wrongly, give 4. *)
Theorem measure_kappa_t_refuted :
  exists s, me_run (me_new None) [MAdd 1 0 2%Q; MAdd 1 0 2%Q; MAdd 1 0 2%Q]%Z = Ok s /\ (exists a k, me_accuracy s = Some a /\ (a == 0)%Q /\ me_kappa_t s = Some k /\ (k == 4)%Q).
Proof. eexists. split; [vm_compute; reflexivity|]. eexists. eexists. split; [vm_compute; reflexivity|]. split; [reflexivity|]. split; [vm_compute; reflexivity|]. reflexivity. Qed.

(** C370: get_majority_class answers the most frequent true label since the last reset, the first known of them. *)
Lemma argmax_fold (g : nat -> R) (Hg : forall i, 0 <= g i) : forall n,
  let st := fold_left (fun best i => if Rltb (snd best) (g (Z.to_nat i)) then (i, g (Z.to_nat i)) else best) (map Z.of_nat (seq 0 n)) (0%Z, 0) in
  (n = 0%nat /\ st = (0%Z, 0)) \/ exists k, (k < n)%nat /\ st = (Z.of_nat k, g k) /\ (forall j, (j < n)%nat -> g j <= g k) /\ forall j, (j < k)%nat -> g j < g k.
Proof.
  induction n as [|n IH]; [left; auto|]. right. cbv zeta in *. rewrite seq_S, map_app, fold_left_app. cbn [map fold_left Nat.add]. destruct IH as [[-> ->]|(k & Lk & -> & Hm & Hf)]; cbn [snd]; rewrite Nat2Z.id.
  - exists O. split; [lia|]. destruct (Rltb 0 (g 0%nat)) eqn:E.
    + split; auto. split; [intros j Hj; replace j with O by lia; lra|intros; lia].
    + apply Rltb_false in E. assert (G0 : g O = 0) by (specialize (Hg O); lra). rewrite G0. split; auto. split; [intros j Hj; replace j with O by lia; lra|intros; lia].
  - destruct (Rltb (g k) (g n)) eqn:E.
    + apply Rltb_true in E. exists n. split; [lia|]. split; auto. split; intros j Hj; [destruct (Nat.eq_dec j n) as [->|]; [lra|]|]; specialize (Hm j ltac:(lia)); lra.
    + apply Rltb_false in E. exists k. split; [lia|]. split; auto. split; auto. intros j Hj. destruct (Nat.eq_dec j n) as [->|]; [lra|]. apply Hm. lia.
Qed.
Lemma row_sum_times {T} {N : Num T} {U} (s : measure T) (h : list (Z * Z * U)) a : mat s h -> (a < length (me_targets s))%nat -> row_sum s (Z.of_nat a) = Z.of_nat (times (fun y _ => is_ix (me_targets s) y a) h).
Proof.
  intros I La. unfold row_sum, zrange. rewrite Nat2Z.id, map_map. rewrite (map_ext_in _ (fun b => Z.of_nat (times (fun y p => is_ix (me_targets s) y a && is_ix (me_targets s) p b) h))) by (intros b Hb; apply in_seq in Hb; apply (i_cells _ _ I); lia).
  assert (Hl := i_labels _ _ I). clear I. induction h as [|[[y p] w] h IH] using rev_ind.
  - cbn. induction (seq 0 _); cbn; auto.
  - rewrite times_app. rewrite (map_ext _ (fun b => (Z.of_nat (times (fun y p => is_ix (me_targets s) y a && is_ix (me_targets s) p b) h) + (if is_ix (me_targets s) y a && is_ix (me_targets s) p b then 1 else 0))%Z)) by (intros b; rewrite times_app; destruct (_ && _); lia).
    rewrite zsum_add, IH by (intros y' p' w' Hin; eapply Hl; apply in_app_iff; left; eauto). destruct (Hl y p w) as [_ Hp]; [apply in_app_iff; right; now left|]. destruct (first_index_In _ _ Hp) as (b & Eb & Lb & _).
    destruct (is_ix (me_targets s) y a); cbn [andb].
    + rewrite (map_ext _ (fun c => if Nat.eqb b c then 1 else 0)%Z) by (intros c; now rewrite (is_ix_true _ _ _ Eb)). rewrite indicator_sum. cbn [Nat.leb andb]. rewrite (proj2 (Nat.ltb_lt _ _)) by (cbn; lia). lia.
    + assert (Z0 : forall m : list nat, zsum (map (fun _ => 0%Z) m) = 0%Z) by (induction m; auto). rewrite Z0. lia.
Qed.
Lemma fold_ext_in {A B} (f g : A -> B -> A) l : (forall b, In b l -> forall a, f a b = g a b) -> forall a, fold_left f l a = fold_left g l a.
Proof. induction l as [|x l IH]; intros H a; [reflexivity|]. cbn. rewrite (H x (or_introl eq_refl)). apply IH. intros b Hb. apply H. now right. Qed.
Theorem measure_majority_class : forall targets (es : list (me_event R)), NoDup (given targets) -> results es <> [] ->
  exists s k c, me_run (me_new targets) es = Ok s /\ me_majority_class s = Some c /\ nth_error (known_after (given targets) es) k = Some c
    /\ (forall y, (times (fun y' _ => y' =? y)%Z (results es) <= times (fun y' _ => y' =? c)%Z (results es))%nat)
    /\ forall j y, (j < k)%nat -> nth_error (known_after (given targets) es) j = Some y -> (times (fun y' _ => y' =? y)%Z (results es) < times (fun y' _ => y' =? c)%Z (results es))%nat.
Proof.
  intros targets es ND H. destruct (run_new targets es) as (s & E & I & K). exists s. assert (NDs : NoDup (me_targets s)) by (rewrite K; now apply known_after_NoDup). rewrite <- K.
  set (t := me_targets s) in *. set (h := results es) in *. assert (Lh : (0 < length h)%nat) by (destruct h; [congruence|cbn; lia]).
  set (g := fun a => INR (times (fun y _ => is_ix t y a) h) / INR (length h)).
  assert (Hg : forall a, 0 <= g a) by (intros a; unfold g; apply Rmult_le_pos; [apply pos_INR|apply Rlt_le, Rinv_0_lt_compat, lt_0_INR; lia]).
  assert (Em : me_majority_index s = fst (fold_left (fun best i => if Rltb (snd best) (g (Z.to_nat i)) then (i, g (Z.to_nat i)) else best) (map Z.of_nat (seq 0 (length t))) (0%Z, 0))).
  { unfold me_majority_index, zrange. rewrite Nat2Z.id. f_equal. unfold n0. cbn [nofZ NumR]. fold t.
    apply fold_ext_in. intros i Hi best. apply in_map_iff in Hi as (a & <- & Ha). apply in_seq in Ha. rewrite Nat2Z.id, (row_sum_times s h a I) by (fold t; lia). rewrite (i_count _ _ I).
    rewrite (proj2 (Z.eqb_neq (Z.of_nat (length h)) 0)) by lia. cbv zeta. cbn [negb andb nofZ ndiv nltb NumR]. rewrite <- !INR_IZR_INZ. reflexivity. }
  destruct (argmax_fold g Hg (length t)) as [[L0 _]|(k & Lk & Es & Hm & Hf)].
  { exfalso. destruct h as [|[[y p] w] h'] eqn:Eh; [cbn in Lh; lia|]. destruct (i_labels _ _ I y p w (or_introl eq_refl)) as [Hy _]. fold t in Hy. destruct t; [destruct Hy|discriminate]. }
  rewrite Es in Em. cbn [fst] in Em. destruct (nth_error t k) as [c|] eqn:Ec; [|apply nth_error_None in Ec; lia].
  exists k, c. split; [exact E|]. split; [unfold me_majority_class; rewrite Em, Nat2Z.id; exact Ec|]. split; [exact Ec|].
  assert (Tg : forall j y, nth_error t j = Some y -> g j = INR (times (fun y' _ => y' =? y)%Z h) / INR (length h)).
  { intros j y Hj. unfold g. f_equal. f_equal. apply times_ext. intros y' p' w Hin. destruct (i_labels _ _ I _ _ _ Hin) as [Hy _]. fold t in Hy. destruct (first_index_In _ _ Hy) as (m & Em' & _ & Nm). rewrite (is_ix_true _ _ _ Em'). destruct (Nat.eqb_spec m j) as [->|Ne], (Z.eqb_spec y' y) as [->|Nz]; auto; try congruence. rewrite (first_index_NoDup _ _ _ NDs Hj) in Em'. congruence. }
  assert (Hi : 0 < / INR (length h)) by (apply Rinv_0_lt_compat, lt_0_INR; lia). split.
  - intros y. destruct (in_dec Z.eq_dec y t) as [Hin|Hout].
    + apply In_nth_error in Hin as (j & Hj). assert (Lj : (j < length t)%nat) by (apply nth_error_Some; congruence). specialize (Hm j Lj). rewrite (Tg _ _ Hj), (Tg _ _ Ec) in Hm. apply INR_le. apply (Rmult_le_reg_r _ _ _ Hi). exact Hm.
    + rewrite times_zero; [lia|]. intros y' p' w Hin. destruct (i_labels _ _ I _ _ _ Hin) as [Hy _]. apply Z.eqb_neq. intros ->. auto.
  - intros j y Lj Hj. specialize (Hf j Lj). rewrite (Tg _ _ Hj), (Tg _ _ Ec) in Hf. apply INR_lt. apply (Rmult_lt_reg_r _ _ _ Hi). exact Hf.
Qed.

(** C371: Kappa M compares the accuracy with the weight of the results whose true label was the majority class at their time (they count themselves), again
    over the number of all results. *)
Lemma run_app {T} {N : Num T} (es : list (me_event T)) e : forall s, me_run s (es ++ [e]) = (s1 <- me_run s es ;; me_step s1 e).
Proof. induction es as [|e' es IH]; intros s; cbn [app me_run]; [cbn [bind]; destruct (me_step s e); reflexivity|]. destruct (me_step s e'); cbn [bind]; auto. Qed.
Theorem measure_kappa_m : forall targets (es : list (me_event R)), exists s, me_run (me_new targets) es = Ok s
  /\ (results es = [] -> me_majority s = 0)
  /\ (results es <> [] -> let n := INR (length (results es)) in let p0 := INR (times Z.eqb (results es)) / n in let pc := me_majority s / n in
       (pc = 1 -> me_kappa_m s = Some 1) /\ (pc <> 1 -> me_kappa_m s = Some ((p0 - pc) / (1 - pc))))
  /\ forall y p w, exists s', me_run (me_new targets) (es ++ [MAdd y p w]) = Ok s'
       /\ ((me_majority_class s' = Some y /\ me_majority s' = me_majority s + w) \/ (me_majority_class s' <> Some y /\ me_majority s' = me_majority s)).
Proof.
  intros targets es. destruct (run_new targets es) as (s & E & I & K). exists s. split; [exact E|]. split; [|split].
  - revert s E I K. induction es as [|e es IH] using rev_ind; intros s E I K H.
    + cbn in E. injection E as <-. reflexivity.
    + rewrite run_app in E. destruct (run_new targets es) as (s1 & E1 & I1 & K1). rewrite E1 in E. cbn [bind] in E. unfold results in H. rewrite fold_left_app in H. destruct e as [y p w|]; cbn in H; [now apply app_eq_nil in H as [_ H]|]. cbn in E. injection E as <-. reflexivity.
  - intros H. cbv zeta. unfold me_kappa_m, me_kappa_of, me_accuracy. rewrite (i_count _ _ I), (inv_diagonal _ _ I).
    assert (L : (Z.of_nat (length (results es)) =? 0)%Z = false) by (apply Z.eqb_neq; destruct (results es); [congruence|cbn [length]; lia]). rewrite L. unfold n0, n1. cbn [nofZ ndiv nsub neqb NumR]. rewrite <- !INR_IZR_INZ.
    split; intros Hp; [now rewrite (proj2 (Reqb_true _ 1))|now rewrite (proj2 (Reqb_false _ 1))].
  - intros y p w. rewrite run_app, E. cbn [bind me_step]. destruct (inv_add s (results es) y p w I) as (s' & Ea & _ & _). exists s'. split; [exact Ea|]. revert Ea. unfold me_add.
    assert (Ml : forall (x : measure R) t, me_majority (me_add_label x t) = me_majority x) by (intros x t; unfold me_add_label; destruct (existsb _ _); reflexivity).
    destruct (cm_update _ _ _ _) as [m [b|e]]; [|discriminate]. cbn [bind]. intros [= <-]. cbn [me_majority].
    set (s2 := me_add_label (me_add_label s y) p). set (c := me_majority_class (mk_me _ _ (Some y) _ _ _)). change (me_majority_class (mk_me (me_targets s2) m (me_last s2) (me_count s2 + 1) (me_majority s2) (me_nochange s2))) with c.
    assert (Es : me_majority s2 = me_majority s) by (unfold s2; now rewrite !Ml). clearbody c. destruct c as [c|]; [destruct (Z.eqb_spec c y) as [->|Ne]|]; rewrite ?Es; cbn [nadd NumR]; [left; auto| |]; right; split; auto; congruence.
Qed.

(** A history with a reset and a label that was not given meets the hypotheses. *)
Example measure_example :
  exists s, me_run (me_new None) [MAdd 0 1 1%Q; MClear; MAdd 5 5 1%Q; MAdd 5 0 2%Q; MAdd 1 1 1%Q]%Z = Ok s
    /\ me_targets s = [0; 1; 5]%Z /\ me_count s = 3%Z /\ me_accuracy s = Some (2 # 3)%Q /\ me_majority_class s = Some 5%Z /\ me_precision s = Ok 1%Q.
Proof. eexists. split; [vm_compute; reflexivity|]. vm_compute. auto 10. Qed.

Print Assumptions measure_matrix_counts. Print Assumptions measure_accuracy. Print Assumptions measure_accuracy_empty_refuted. Print Assumptions measure_precision_recall.
Print Assumptions measure_precision_refuted. Print Assumptions measure_kappa_t. Print Assumptions measure_kappa_t_refuted. Print Assumptions measure_majority_class. Print Assumptions measure_kappa_m.
