(** Windowed classification measurements (WindowClassificationMeasurements). *)
From Coq Require Import List ZArith Bool Lia Reals Lra QArith.
From Verif Require Import Base.Py Base.Num Model.ConfMat Model.ClassMeasure Model.WindowMeasure Spec.ClassMeasureSpec Spec.WindowMeasureSpec Proofs.ClassMeasureProofs Proofs.WindowMeasureProofs Props.ClassMeasureProps.
Import ListNotations.
Local Open Scope R_scope.

Definition unit_weights (es : list (me_event Z)) : Prop := forall y p w, In (MAdd y p w) es -> w = 1%Z.
Lemma wrun_new targets w es : (1 <= w)%nat -> unit_weights es ->
  exists s, wm_run (T := R) (wm_new targets w) es = Ok s /\ winv s (results es) /\ wm_size s = w /\ me_targets (wm_me s) = known_after (given targets) es.
Proof. intros Hw H. apply (winv_run es H (wm_new targets w) []); [exact Hw|]. apply winv_new. Qed.

(** C372: with weights 1, any history of add_result and reset runs without an exception; the sample count is the number of results in the window, which is
    the last window_size results since the last reset, the cell of two labels is the number of those with that true and that predicted label, and the
    accuracy is the share of those with an equal pair. *)
Theorem window_matrix_counts : forall targets w (es : list (me_event Z)), (1 <= w)%nat -> NoDup (given targets) -> unit_weights es ->
  exists s, wm_run (T := R) (wm_new targets w) es = Ok s
    /\ me_targets (wm_me s) = known_after (given targets) es
    /\ me_count (wm_me s) = Z.of_nat (Nat.min w (length (results es)))
    /\ (forall a b y p, nth_error (me_targets (wm_me s)) a = Some y -> nth_error (me_targets (wm_me s)) b = Some p ->
         cm_value_at (me_matrix (wm_me s)) (Z.of_nat a) (Z.of_nat b) = Ok (Z.of_nat (times (fun y' p' => (y' =? y) && (p' =? p))%Z (newest w (results es)))))
    /\ (results es <> [] -> me_accuracy (wm_me s) = Some (INR (times Z.eqb (newest w (results es))) / INR (length (newest w (results es))))).
Proof.
  intros targets w es Hw ND H1. destruct (wrun_new targets w es Hw H1) as (s & E & I & S & K). exists s. split; [exact E|]. split; [exact K|]. destruct I as [M _ _ Co _ _ _ _]. rewrite S in *.
  split; [now rewrite Co, newest_length|]. split.
  - assert (NDs : NoDup (me_targets (wm_me s))) by (rewrite K; now apply known_after_NoDup).
    intros a b y p Ha Hb. assert (La : (a < length (me_targets (wm_me s)))%nat) by (apply nth_error_Some; congruence). assert (Lb : (b < length (me_targets (wm_me s)))%nat) by (apply nth_error_Some; congruence).
    unfold cm_value_at. rewrite !(np_in _ _ _ M) by auto. cbn [bind]. rewrite (i_cells _ _ M) by auto. f_equal. f_equal. apply times_ext. intros y' p' x Hin. destruct (i_labels _ _ M _ _ _ Hin) as [Hy Hp].
    assert (G : forall c x z, nth_error (me_targets (wm_me s)) c = Some x -> In z (me_targets (wm_me s)) -> is_ix (me_targets (wm_me s)) z c = (z =? x)%Z).
    { intros c x0 z Hc Hz. destruct (first_index_In _ _ Hz) as (k & Ek & _ & Nk). rewrite (is_ix_true _ _ _ Ek). destruct (Nat.eqb_spec k c) as [->|Ne], (Z.eqb_spec z x0) as [->|Nz]; auto; try congruence. rewrite (first_index_NoDup _ _ _ NDs Hc) in Ek. congruence. }
    now rewrite (G _ _ _ Ha Hy), (G _ _ _ Hb Hp).
  - intros Hne. unfold me_accuracy. rewrite Co, (inv_diagonal _ _ M). assert (L : (0 < length (newest w (results es)))%nat) by (rewrite newest_length; destruct (results es); [congruence|cbn [length]; lia]).
    rewrite (proj2 (Z.eqb_neq _ _)) by lia. cbn [nofZ ndiv NumR]. now rewrite <- !INR_IZR_INZ.
Qed.
(** With other weights it does not hold: a result added with weight 3 leaves the window of size 1 with weight 1, and the accuracy of the one wrong result
    that is left is 2. *)
Theorem window_weights_refuted :
  exists s, wm_run (wm_new None 1) [MAdd 1 1 3; MAdd 0 1 1]%Z = Ok s /\ wm_true s = [0]%Z /\ wm_pred s = [1]%Z /\ me_accuracy (wm_me s) = Some 2%Q.
Proof. eexists. split; [vm_compute; reflexivity|]. vm_compute. auto. Qed.

(** C373: with weights 1, Kappa T compares the accuracy in the window with the share of the results in it whose true label is that of the result before, the
    first of the window being compared with the result that has left it. *)
Theorem window_kappa_t : forall targets w (es : list (me_event Z)), (1 <= w)%nat -> unit_weights es -> results es <> [] ->
  exists s, wm_run (T := R) (wm_new targets w) es = Ok s
    /\ let n := INR (length (newest w (results es))) in let p0 := INR (times Z.eqb (newest w (results es))) / n in let pc := INR (trues (newest w (repeats None (results es)))) / n in
       (pc = 1 -> me_kappa_t (wm_me s) = Some 1) /\ (pc <> 1 -> me_kappa_t (wm_me s) = Some ((p0 - pc) / (1 - pc)) /\ (p0 - pc) / (1 - pc) <= 1).
Proof.
  intros targets w es Hw H1 Hne. destruct (wrun_new targets w es Hw H1) as (s & E & I & S & K). exists s. split; [exact E|]. destruct I as [M _ _ Co _ _ Nc _]. rewrite S in *. cbv zeta.
  assert (L : (0 < length (newest w (results es)))%nat) by (rewrite newest_length; destruct (results es); [congruence|cbn [length]; lia]).
  unfold me_kappa_t, me_kappa_of, me_accuracy. rewrite Co, (inv_diagonal _ _ M), Nc, (proj2 (Z.eqb_neq _ _)) by lia. unfold n0, n1. cbn [nofZ ndiv nsub neqb NumR]. rewrite <- !INR_IZR_INZ.
  set (n := INR (length (newest w (results es)))). assert (Hn : 0 < n) by (apply lt_0_INR; lia). set (pc := INR (trues _) / n). set (p0 := INR (times _ _) / n).
  split; intros Hp; [now rewrite (proj2 (Reqb_true _ 1))|]. rewrite (proj2 (Reqb_false _ 1)) by exact Hp. split; [reflexivity|].
  assert (B : forall k, (k <= length (newest w (results es)))%nat -> INR k / n <= 1) by (intros k Hk; apply (Rmult_le_reg_r n); [exact Hn|]; unfold Rdiv; rewrite Rmult_assoc, Rinv_l, Rmult_1_r, Rmult_1_l by lra; now apply le_INR).
  assert (FL : forall A (f : A -> bool) l, (length (filter f l) <= length l)%nat) by (induction l as [|x l IH]; cbn; auto; destruct (f x); cbn; lia).
  assert (P0 : p0 <= 1) by (apply B, FL).
  assert (Pc : pc <= 1) by (apply B; rewrite newest_length, <- (repeats_length (results es) None), <- newest_length; apply FL).
  assert (Q : 0 < 1 - pc) by lra. apply (Rmult_le_reg_r (1 - pc)); [exact Q|]. unfold Rdiv. rewrite Rmult_assoc, Rinv_l by lra. lra.
Qed.

(** C376: with weights 1, the counter of the majority classifier is between 0 and the number of results in the window, however many have left it, so that
    Kappa M compares the accuracy with a share and is at most 1. *)
Theorem window_kappa_m_bound : forall targets w (es : list (me_event Z)), (1 <= w)%nat -> unit_weights es -> results es <> [] ->
  exists s, wm_run (T := R) (wm_new targets w) es = Ok s
    /\ let n := INR (length (newest w (results es))) in let p0 := INR (times Z.eqb (newest w (results es))) / n in let pc := me_majority (wm_me s) / n in
       0 <= me_majority (wm_me s) <= n /\ (pc = 1 -> me_kappa_m (wm_me s) = Some 1) /\ (pc <> 1 -> me_kappa_m (wm_me s) = Some ((p0 - pc) / (1 - pc)) /\ (p0 - pc) / (1 - pc) <= 1).
Proof.
  intros targets w es Hw H1 Hne. destruct (wrun_new targets w es Hw H1) as (s & E & I & S & K). exists s. split; [exact E|]. destruct I as [M _ _ Co _ _ _ (F & LF & _ & Mj)]. rewrite S in *. cbv zeta.
  assert (L : (0 < length (newest w (results es)))%nat) by (rewrite newest_length; destruct (results es); [congruence|cbn [length]; lia]).
  assert (FL : forall A (f : A -> bool) l, (length (filter f l) <= length l)%nat) by (induction l as [|x l IH]; cbn; auto; destruct (f x); cbn; lia).
  unfold me_kappa_m, me_kappa_of, me_accuracy. rewrite Co, (inv_diagonal _ _ M), (proj2 (Z.eqb_neq _ _)) by lia. unfold n0, n1. cbn [nofZ ndiv nsub neqb NumR]. rewrite <- !INR_IZR_INZ.
  set (n := INR (length (newest w (results es)))). assert (Hn : 0 < n) by (apply lt_0_INR; lia).
  assert (Bj : 0 <= me_majority (wm_me s) <= n) by (rewrite Mj; split; [apply pos_INR|]; apply le_INR; rewrite newest_length, <- LF, <- newest_length; apply FL). split; [exact Bj|].
  set (pc := me_majority (wm_me s) / n). set (p0 := INR (times _ _) / n).
  split; intros Hp; [now rewrite (proj2 (Reqb_true _ 1))|]. rewrite (proj2 (Reqb_false _ 1)) by exact Hp. split; [reflexivity|].
  assert (P0 : p0 <= 1) by (apply (Rmult_le_reg_r n); [exact Hn|]; unfold p0, Rdiv; rewrite Rmult_assoc, Rinv_l, Rmult_1_r, Rmult_1_l by lra; apply le_INR, FL).
  assert (Pc : pc <= 1) by (apply (Rmult_le_reg_r n); [exact Hn|]; unfold pc, Rdiv; rewrite Rmult_assoc, Rinv_l, Rmult_1_r, Rmult_1_l by lra; apply Bj).
  assert (Q : 0 < 1 - pc) by lra. apply (Rmult_le_reg_r (1 - pc)); [exact Q|]. unfold Rdiv. rewrite Rmult_assoc, Rinv_l by lra. lra.
Qed.

(** A history longer than the window, with a reset and a new label *)
Example window_example :
  exists s, wm_run (wm_new None 2) [MAdd 0 0 1; MClear; MAdd 5 5 1; MAdd 5 0 1; MAdd 5 5 1]%Z = Ok s
    /\ me_targets (wm_me s) = [0; 1; 5]%Z /\ me_count (wm_me s) = 2%Z /\ me_accuracy (wm_me s) = Some (1 # 2)%Q /\ me_kappa_t (wm_me s) = Some 1%Q.
Proof. eexists. split; [vm_compute; reflexivity|]. vm_compute. auto 10. Qed.

Print Assumptions window_matrix_counts. Print Assumptions window_weights_refuted. Print Assumptions window_kappa_t. Print Assumptions window_kappa_m_bound.
