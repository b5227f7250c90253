(** Model of DDM, drift_detection/ddm.py.  Attributes delay (always 0) and estimation (= miss_prob) included;
    parameters are immutable. *)
From Coq Require Import List ZArith Bool.
From Verif Require Import Base.Py Base.Num.
Local Open Scope Z_scope.

Section Ddm.
Context {T : Type} {N : Num T}.

(** Constructor parameters, ddm.py:80 *)
Record ddm_par : Type := mkDdmPar { dp_min_instances : Z; dp_warning : T; dp_out : T }.

Record ddm : Type := mkDdm {
  dd_change : bool;          (* in_concept_change *)
  dd_warning : bool;         (* in_warning_zone *)
  dd_estimation : T;
  dd_count : Z;              (* sample_count *)
  dd_prob : T;               (* miss_prob *)
  dd_std : T;                (* miss_std *)
  dd_psmin : option T;       (* miss_prob_sd_min; None = float("inf") *)
  dd_pmin : option T;        (* miss_prob_min *)
  dd_smin : option T         (* miss_sd_min *)
}.

(** __init__ 80-91 and reset 93-106 (with BaseDriftDetector.reset, base_drift_detector.py:27-37) *)
Definition ddm_init : ddm := mkDdm false false n0 1 n1 n0 None None None.
Definition ddm_reset (s : ddm) : ddm := mkDdm false false n0 1 n1 n0 None None None.

(** x > pmin + level * smin; with the minima still at infinity the right side is inf or nan: False *)
Definition ddm_above (x : T) (pmin smin : option T) (level : T) : bool :=
  match pmin, smin with
  | Some p, Some d => nltb (p + level * d)%num x
  | _, _ => false
  end.

(** add_element, ddm.py:108-153.  np.sqrt of a negative number is nan (no exception). *)
Definition ddm_add (par : ddm_par) (s0 : ddm) (prediction : T) : res ddm :=
  let s := if dd_change s0 then ddm_reset s0 else s0 in
  d <- pydiv (prediction - dd_prob s)%num (nofZ (dd_count s)) ;;
  let p := (dd_prob s + d)%num in
  q <- pydiv (p * (n1 - p))%num (nofZ (dd_count s)) ;;
  let sd := nsqrt q in
  let count := dd_count s + 1 in
  if count <? dp_min_instances par then
    Ok (mkDdm false false p count p sd (dd_psmin s) (dd_pmin s) (dd_smin s))
  else
    let '(psmin, pmin, smin) :=
      if le_inf (p + sd)%num (dd_psmin s) then (Some (p + sd)%num, Some p, Some sd)
      else (dd_psmin s, dd_pmin s, dd_smin s) in
    if ddm_above (p + sd)%num pmin smin (dp_out par) then
      Ok (mkDdm true false p count p sd psmin pmin smin)
    else
      Ok (mkDdm false (ddm_above (p + sd)%num pmin smin (dp_warning par)) p count p sd psmin pmin smin).

End Ddm.
Arguments ddm : clear implicits.
Arguments ddm_par : clear implicits.
