(** Model of EDDM, drift_detection/eddm.py.  Omitted: delay (always 0) and m_last_level (never used). *)
From Coq Require Import List ZArith Bool.
From Verif Require Import Base.Py Base.Num.
Local Open Scope Z_scope.

Section Eddm.
Context {T : Type} {N : Num T}.

Record eddm : Type := mkEddm {
  ed_change : bool; ed_warning : bool; ed_estimation : T;
  ed_n : Z;                (* m_n *)
  ed_errors : Z;           (* m_num_errors *)
  ed_d : Z;                (* m_d *)
  ed_lastd : Z;            (* m_lastd *)
  ed_mean : T;             (* m_mean *)
  ed_std : T;              (* m_std_temp *)
  ed_max : T               (* m_m2s_max *)
}.

(** FDDM_OUTCONTROL = 0.9, FDDM_WARNING = 0.95, FDDM_MIN_NUM_INSTANCES = 30 (eddm.py:64-66), m_min_num_errors = 30 (71) *)
Definition FDDM_OUT : T := (nofZ 9 / nofZ 10)%num.
Definition FDDM_WARN : T := (nofZ 95 / nofZ 100)%num.
Definition FDDM_MIN : Z := 30.
Definition MIN_ERRORS : Z := 30.

(** __init__ 68-79, reset 81-95 *)
Definition eddm_init : eddm := mkEddm false false n0 1 0 0 0 n0 n0 n0.
Definition eddm_reset (s : eddm) : eddm := mkEddm false false n0 1 0 0 0 n0 n0 n0.

(** add_element, eddm.py:97-155.  The divisor m_m2s_max is a numpy float (or the initial Python 0.0; m2s is a numpy
    float, so the division never raises). *)
Definition eddm_add (s0 : eddm) (prediction : T) : res eddm :=
  let s := if ed_change s0 then eddm_reset s0 else s0 in
  let n := ed_n s + 1 in
  if neqb prediction n1 then
    let errors := ed_errors s + 1 in
    let lastd := ed_d s in
    let d := n - 1 in
    let distance := nofZ (d - lastd) in
    let old_mean := ed_mean s in
    q <- pydiv (distance - old_mean)%num (nofZ errors) ;;
    let mean := (old_mean + q)%num in
    let st := (ed_std s + (distance - mean) * (distance - old_mean))%num in
    v <- pydiv st (nofZ errors) ;;
    let std := nsqrt v in
    let m2s := (mean + nofZ 2 * std)%num in
    if n <? FDDM_MIN then
      Ok (mkEddm false false mean n errors d lastd mean st (ed_max s))
    else if nltb (ed_max s) m2s then
      Ok (mkEddm false false mean n errors d lastd mean st m2s)
    else
      let p := (m2s / ed_max s)%num in
      if (MIN_ERRORS <? errors) && nltb p FDDM_OUT then
        Ok (mkEddm true false mean n errors d lastd mean st (ed_max s))
      else if (MIN_ERRORS <? errors) && nltb p FDDM_WARN then
        Ok (mkEddm false true mean n errors d lastd mean st (ed_max s))
      else
        Ok (mkEddm false false mean n errors d lastd mean st (ed_max s))
  else
    Ok (mkEddm false (ed_warning s) (ed_estimation s) n (ed_errors s) (ed_d s) (ed_lastd s)
          (ed_mean s) (ed_std s) (ed_max s)).

End Eddm.
Arguments eddm : clear implicits.
