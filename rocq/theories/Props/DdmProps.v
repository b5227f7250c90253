(** C15 - C17, C57: DDM (drift_detection/ddm.py).  [seg] always are the values added since construction, the last reset
    or the last detected change. *)
From Coq Require Import List ZArith Reals PrimFloat.
From Verif Require Import Base.Py Base.Num Base.NumFloat Spec.Lists Spec.DetectorSpec Spec.DdmSpec Model.Ddm
  Proofs.DdmProofs.
Import ListNotations.

Local Notation ddm_since par := (since ddm_init (ddm_add par) ddm_reset dd_change).

(** C15.  No call raises. *)
Theorem ddm_never_raises :
  forall (par : ddm_par R) seg s x, ddm_since par seg s -> exists s', ddm_add par s x = Ok s'.
Proof. exact ddm_never_raises_proof. Qed.

(** C15.  The estimate is the mean of the segment, its deviation the Bernoulli one; in [0,1] for 0/1 inputs. *)
Theorem ddm_error_rate_exact :
  forall (par : ddm_par R) seg s, ddm_since par seg s -> seg <> [] ->
    dd_prob s = Rmean seg /\ dd_estimation s = Rmean seg
    /\ dd_std s = R_sqrt.sqrt (Rmean seg * (1 - Rmean seg) / INR (length seg))%R
    /\ ((forall x, In x seg -> x = 0 \/ x = 1)%R -> (0 <= dd_prob s <= 1)%R).
Proof.
  intros par seg s H Hn. destruct (ddm_estimates_proof par seg s H Hn) as (H1 & H2 & H3).
  repeat split; auto; rewrite H1; apply Rmean_01; auto.
Qed.

(** C16.  The first min_num_instances - 1 values of a segment never raise a warning or a change. *)
Theorem ddm_quiet_before_minimum :
  forall (par : ddm_par R) seg s,
    (1 <= dp_warning par)%R -> (1 <= dp_out par)%R ->
    ddm_since par seg s -> (Z.of_nat (length seg) < dp_min_instances par)%Z ->
    dd_change s = false /\ dd_warning s = false.
Proof. exact ddm_quiet_proof. Qed.

(** C16: the bound is sharp; 29 zeros and a one alarm at the 30th value with the default parameters. *)
#[local] Existing Instance NumF.
Theorem ddm_alarm_at_minimum :
  let par := mkDdmPar 30 2%float 3%float in
  answers (ddm_add par) dd_change ddm_init (repeat 0%float 29 ++ [1%float]) = repeat false 29 ++ [true].
Proof. vm_compute. reflexivity. Qed.

(** C17.  The flags exclude each other; the call after a change acts on a new detector. *)
Theorem ddm_flags_exclusive :
  forall (T : Type) (N : Num T) (par : ddm_par T) seg s,
    ddm_since par seg s -> ~ (dd_change s = true /\ dd_warning s = true).
Proof.
  intros T N par seg s H (Hc & Hw). apply ddm_flags_exclusive_proof in H. rewrite Hc, Hw in H. discriminate.
Qed.

Theorem ddm_restarts_after_change :
  forall (T : Type) (N : Num T) (par : ddm_par T) s x,
    dd_change s = true -> ddm_add par s x = ddm_add par ddm_init x.
Proof. intros T N par s x H. unfold ddm_add. rewrite H. reflexivity. Qed.

(** C57.  The decision rule.  From the (min_num_instances - 1)-th value on, with [b] the longest prefix of the segment
    minimising rate + deviation: a change is reported iff rate + deviation exceeds rate(b) + out_control_level *
    deviation(b), otherwise a warning iff it exceeds rate(b) + warning_level * deviation(b). *)
Theorem ddm_decision_rule :
  forall (par : ddm_par R) seg s, ddm_since par seg s -> seg <> [] ->
    ((Z.of_nat (length seg) + 1 < dp_min_instances par)%Z -> dd_change s = false /\ dd_warning s = false)
    /\ ((dp_min_instances par <= Z.of_nat (length seg) + 1)%Z ->
        exists b, best (dp_min_instances par) b seg
          /\ (dd_change s = true <-> err_rate b + dp_out par * err_std b < err_rate seg + err_std seg)%R
          /\ (dd_warning s = true <->
                ~ (err_rate b + dp_out par * err_std b < err_rate seg + err_std seg)%R
                /\ (err_rate b + dp_warning par * err_std b < err_rate seg + err_std seg)%R)).
Proof.
  intros par seg s H Hn. pose proof (ddm_rule_proof par seg s H Hn) as Hr. unfold rule in Hr.
  split; intros Hl.
  - apply Z.ltb_lt in Hl. rewrite Hl in Hr. exact Hr.
  - apply Z.ltb_ge in Hl. rewrite Hl in Hr. exact Hr.
Qed.

(** Non-vacuity: every list of values is the segment of some state as long as no change is reported; a drift run. *)
Example ddm_segment_exists : forall (par : ddm_par R) x y, exists s, ddm_since par [x] s /\
  (dd_change s = false -> exists s', ddm_since par [x; y] s').
Proof.
  intros par x y.
  destruct (ddm_never_raises par [] ddm_init x (since_new _ _ _ _)) as (s & E).
  exists s. pose proof (since_add ddm_init (ddm_add par) ddm_reset dd_change [] _ _ _ (since_new _ _ _ _) E) as H.
  split; [exact H|]. intros Hc.
  destruct (ddm_never_raises par [x] s y H) as (s' & E').
  pose proof (since_add ddm_init (ddm_add par) ddm_reset dd_change [x] _ _ _ H E') as H'.
  exists s'. rewrite Hc in H'. exact H'.
Qed.

Example ddm_drift_run :
  let par := mkDdmPar 30 2%float 3%float in
  let l := concat (repeat [0; 0; 0; 0; 1]%float 20) ++ repeat 1%float 40 in
  filter (fun b : bool => b) (answers (ddm_add par) dd_change ddm_init l) = [true].
Proof. vm_compute. reflexivity. Qed.

Print Assumptions ddm_never_raises.
Print Assumptions ddm_error_rate_exact.
Print Assumptions ddm_quiet_before_minimum.
Print Assumptions ddm_flags_exclusive.
Print Assumptions ddm_restarts_after_change.
Print Assumptions ddm_decision_rule.
