(** C18, C19, C58: EDDM (drift_detection/eddm.py). *)
From Coq Require Import List ZArith Reals PrimFloat.
From Verif Require Import Base.Py Base.Num Base.NumFloat Spec.Lists Spec.DetectorSpec Spec.EddmSpec Model.Eddm
  Proofs.EddmProofs.
Import ListNotations.

Local Notation eddm_since := (since eddm_init eddm_add eddm_reset ed_change).

(** C18.  No call raises (the tracked maximum may be 0 only while it is not used as a divisor). *)
Theorem eddm_never_raises :
  forall seg (s : eddm R) x, eddm_since seg s -> exists s', eddm_add s x = Ok s'.
Proof. exact eddm_never_raises_proof. Qed.

(** C18.  The tracked mean distance is (position of the last error) / (number of errors) = mean of the distances, the
    tracked deviation is their sum of squared deviations. *)
Theorem eddm_distances_exact :
  forall seg (s : eddm R), eddm_since seg s -> n_errors seg <> 0%nat ->
    ed_mean s = (INR (last (error_positions 0 seg) 0%nat) / INR (n_errors seg))%R
    /\ ed_estimation s = ed_mean s
    /\ ed_mean s = Rmean (distances seg)
    /\ ed_std s = Rsqdev (distances seg).
Proof. exact eddm_stats_proof. Qed.

(** C18.  Whenever the maximum is used as a divisor it is at least 1: it is used on an evaluated error on which it is
    not replaced. *)
Theorem eddm_divisor_positive :
  forall seg (s : eddm R) x, eddm_since seg s -> ed_change s = false ->
    evaluated (seg ++ [x]) = true -> ~ (ed_max s < m2s (seg ++ [x]))%R -> (1 <= ed_max s)%R.
Proof.
  intros seg s x _ _ Hev Hn. apply Rnot_lt_le in Hn. eapply Rle_trans; [|exact Hn]. apply m2s_pos.
  unfold evaluated in Hev. apply Bool.andb_true_iff in Hev. destruct Hev as (He & _). rewrite ends_snoc in He.
  rewrite n_errors_distances, distances_snoc_error, app_length by auto. simpl. rewrite Nat.add_1_r. discriminate.
Qed.

(** C19.  New alarms only on an error, with more than 30 errors (hence more than 30 values) since the restart; never
    both flags.  Any arithmetic. *)
Theorem eddm_alarm_needs_30_errors :
  forall (T : Type) (N : Num T) seg (s : eddm T) x s',
    eddm_since seg s -> eddm_add s x = Ok s' ->
    let seg' := if ed_change s then [x] else seg ++ [x] in
    (ed_change s' = true \/ (ed_warning s' = true /\ ed_warning s = false) ->
       neqb x n1 = true /\ (30 < length (filter (fun y => neqb y n1) seg'))%nat /\ (30 < length seg')%nat)
    /\ ~ (ed_change s' = true /\ ed_warning s' = true).
Proof. intros T N. exact eddm_flags_proof. Qed.

(** C58.  The decision rule: with m2s the mean distance plus two deviations and its maximum over the evaluated errors
    (those from the 29th value on) of the segment, a change is reported iff the segment ends in an evaluated error, has
    more than 30 errors and m2s < 0.9 max; the warning flag is that of the last error: 0.9 max <= m2s < 0.95 max. *)
Theorem eddm_decision_rule :
  forall seg (s : eddm R), eddm_since seg s ->
    (ed_change s = true <->
       evaluated seg = true /\ (30 < n_errors seg)%nat /\ (m2s seg < 9 / 10 * m2s_max seg)%R)
    /\ (ed_warning s = true <->
       let l := upto_last_error seg in
       evaluated l = true /\ (30 < n_errors l)%nat /\ (9 / 10 * m2s_max l <= m2s l < 95 / 100 * m2s_max l)%R).
Proof. exact eddm_rule_proof. Qed.

(** A drift in binary64: errors every 10 values, then every 2 values. *)
#[local] Existing Instance NumF.
Example eddm_drift_run :
  let l := concat (repeat [0; 0; 0; 0; 0; 0; 0; 0; 0; 1]%float 40) ++ concat (repeat [0; 1]%float 60) in
  filter (fun b : bool => b) (answers eddm_add ed_change eddm_init l) = [true].
Proof. vm_compute. reflexivity. Qed.

Print Assumptions eddm_never_raises.
Print Assumptions eddm_distances_exact.
Print Assumptions eddm_divisor_positive.
Print Assumptions eddm_alarm_needs_30_errors.
Print Assumptions eddm_decision_rule.
