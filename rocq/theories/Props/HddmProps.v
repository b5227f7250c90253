(** C23 - C25, C59: HDDM_A and HDDM_W (drift_detection/hddm_a.py, hddm_w.py). *)
From Coq Require Import List ZArith Reals Lra PrimFloat.
From Verif Require Import Base.Py Base.Num Base.NumFloat Spec.Lists Spec.DetectorSpec Spec.DdmSpec Spec.HddmASpec
  Spec.HddmWSpec Model.HddmA Model.HddmW Proofs.HddmAProofs Proofs.HddmWProofs.
Import ListNotations.

(** C23.  HDDM_A never raises. *)
Theorem hddm_a_never_raises :
  forall (par : ha_par R), (0 < hp_drift par <= 1)%R -> (0 < hp_warn par <= 1)%R ->
  forall hist s x, after hddm_a_init (hddm_a_add par) hist s -> exists s', hddm_a_add par s x = Ok s'.
Proof. exact hddm_a_never_raises_proof. Qed.

(** C23.  HDDM_A implements the textbook A-test (Spec/HddmASpec.v): the flags are its answers, the totals are the
    number and the sum of the values since the last restart, and the estimation is their mean, except that until as many
    values have arrived as the block [blk] that triggered the restart had, it is the mean of [blk]. *)
Theorem hddm_a_is_textbook_test :
  forall (par : ha_par R), (0 < hp_drift par <= 1)%R -> (0 < hp_warn par <= 1)%R ->
  forall hist s, after hddm_a_init (hddm_a_add par) hist s ->
  exists blk seg,
    textbook (hp_drift par) (hp_warn par) (hp_two_side par) hist blk seg (ha_change s) (ha_warning s)
    /\ ha_total_n s = Z.of_nat (length seg) /\ ha_total_c s = Rsum seg
    /\ ha_estimation s = (if (length seg <? length blk)%nat then Rmean blk else Rmean seg)
    /\ ha_delay s = Z.of_nat (Nat.max (length blk) (length seg)).
Proof. exact hddm_a_refines_proof. Qed.

(** About the specification: the two blocks are the end of the stream, and the flags exclude each other. *)
Theorem hddm_a_blocks_end_the_stream :
  forall drift warn two_side hist blk seg c w,
    textbook drift warn two_side hist blk seg c w ->
    (exists pre, hist = pre ++ blk ++ seg) /\ ~ (c = true /\ w = true).
Proof. exact textbook_blocks. Qed.

(** C24 is false: two_side_option never has any effect on HDDM_W (its decrease cut point starts at +inf and can only be
    replaced by a larger value). *)
Theorem hddm_w_two_side_refuted :
  forall (T : Type) (N : Num T), nltb (nofZ (-1)) n0 = true ->
  forall (drift warn lambda : T) (two_side : bool) l,
    feed (hddm_w_add (mkHwPar drift warn lambda two_side)) hddm_w_init l
    = feed (hddm_w_add (mkHwPar drift warn lambda false)) hddm_w_init l.
Proof.
  intros T N Hneg drift warn lambda b l.
  apply (hddm_w_two_side_proof Hneg (mkHwPar drift warn lambda b) l hddm_w_init). split; reflexivity.
Qed.

(** the hypothesis (-1 < 0) holds of the real numbers and of binary64 *)
Example neg1_R : nltb (nofZ (-1)) (n0 (T := R)) = true.
Proof. simpl. unfold n0; simpl. unfold Rltb. destruct (Rlt_dec (-1) 0); [reflexivity|exfalso; lra]. Qed.
Example neg1_F : nltb (Num := NumF) (nofZ (Num := NumF) (-1)) (n0 (H := NumF)) = true.
Proof. vm_compute. reflexivity. Qed.

Local Notation hw_since par := (since hddm_w_init (hddm_w_add par) hddm_w_reset hw_change).

(** C25.  For non-negative values HDDM_W never raises... *)
Theorem hddm_w_never_raises :
  forall (par : hw_par R), (0 < wp_drift par <= 1)%R -> (0 < wp_warn par <= 1)%R -> (0 <= wp_lambda par <= 1)%R ->
  forall seg s x, hw_since par seg s -> (forall y, In y (seg ++ [x]) -> 0 <= y)%R ->
    exists s', hddm_w_add par s x = Ok s'.
Proof. exact hddm_w_never_raises_proof. Qed.

(** ... the estimation is the exponentially weighted mean of the values since the last change, within their bounds; on
    the call that reports a change it is 0. *)
Theorem hddm_w_estimation_is_ewma :
  forall (par : hw_par R), (0 < wp_drift par <= 1)%R -> (0 < wp_warn par <= 1)%R -> (0 <= wp_lambda par <= 1)%R ->
  forall seg s lo hi, hw_since par seg s ->
    (0 <= lo)%R -> (forall x, In x seg -> lo <= x <= hi)%R -> seg <> [] ->
    (hw_change s = true /\ hw_estimation s = 0%R)
    \/ (hw_change s = false /\ hw_estimation s = ewma (wp_lambda par) seg /\ (lo <= hw_estimation s <= hi)%R).
Proof. exact hddm_w_estimation_proof. Qed.

Theorem hddm_w_flags_exclusive :
  forall (T : Type) (N : Num T) (par : hw_par T) s x s',
    hddm_w_add par s x = Ok s' -> ~ (hw_change s' = true /\ hw_warning s' = true).
Proof. intros T N. exact hddm_w_flags_proof. Qed.

(** C59.  The decision rule of HDDM_W (one-sided W-test). *)
Theorem hddm_w_decision_rule :
  forall (par : hw_par R), (0 < wp_drift par <= 1)%R -> (0 < wp_warn par <= 1)%R -> (0 <= wp_lambda par <= 1)%R ->
  forall seg s, hw_since par seg s -> (forall x, In x seg -> 0 <= x)%R -> seg <> [] ->
  exists p rest, seg = p ++ rest /\ first_low (wp_lambda par) (wp_drift par) p seg
    /\ (hw_change s = true <-> rises (wp_lambda par) (wp_drift par) p rest)
    /\ (hw_warning s = true <->
          ~ rises (wp_lambda par) (wp_drift par) p rest /\ rises (wp_lambda par) (wp_warn par) p rest).
Proof. exact hddm_w_rule_proof. Qed.

(** drifts in binary64 *)
#[local] Existing Instance NumF.
Definition hddm_stream : list float := concat (repeat [0; 0; 0; 0; 1]%float 30) ++ repeat 1%float 30.
Example hddm_a_drift_run :
  let par := mkHaPar 0.001%float 0.005%float true in
  filter (fun b : bool => b) (answers (hddm_a_add par) ha_change hddm_a_init hddm_stream) = [true].
Proof. vm_compute. reflexivity. Qed.
Example hddm_w_drift_run :
  let par := mkHwPar 0.001%float 0.005%float 0.05%float true in
  filter (fun b : bool => b) (answers (hddm_w_add par) hw_change hddm_w_init hddm_stream) = [true].
Proof. vm_compute. reflexivity. Qed.

Print Assumptions hddm_a_never_raises.
Print Assumptions hddm_a_is_textbook_test.
Print Assumptions hddm_a_blocks_end_the_stream.
Print Assumptions hddm_w_two_side_refuted.
Print Assumptions hddm_w_never_raises.
Print Assumptions hddm_w_estimation_is_ewma.
Print Assumptions hddm_w_flags_exclusive.
Print Assumptions hddm_w_decision_rule.
