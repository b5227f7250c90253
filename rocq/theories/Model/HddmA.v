(** Model of HDDM_A, drift_detection/hddm_a.py.  Counts are unbounded integers; sums are in the arithmetic of the
    inputs. *)
From Coq Require Import List ZArith Bool.
From Verif Require Import Base.Py Base.Num.
Import ListNotations.
Local Open Scope Z_scope.

Section HddmA.
Context {T : Type} {N : Num T}.

(** constructor parameters, hddm_a.py:63 *)
Record ha_par : Type := mkHaPar { hp_drift : T; hp_warn : T; hp_two_side : bool }.

Record hddm_a : Type := mkHa {
  ha_change : bool; ha_warning : bool; ha_estimation : T; ha_delay : Z;
  ha_n_min : Z; ha_c_min : T;
  ha_total_n : Z; ha_total_c : T;
  ha_n_max : Z; ha_c_max : T;
  ha_n_est : Z; ha_c_est : T
}.

(** __init__ 63-78, reset 163-178 *)
Definition hddm_a_init : hddm_a := mkHa false false n0 0 0 n0 0 n0 0 n0 0 n0.
Definition hddm_a_reset (s : hddm_a) : hddm_a := mkHa false false n0 0 0 n0 0 n0 0 n0 0 n0.

(** sqrt(1.0 / (2 * n) * log(1.0 / confidence)), hddm_a.py:107,108,114 *)
Definition ha_cota (conf : T) (n : Z) : res T :=
  a <- pydiv n1 (nofZ (2 * n)) ;;
  b <- pydiv n1 conf ;;
  l <- py_log b ;;
  py_sqrt (a * l)%num.

(** sqrt(m / 2 * log(2.0 / confidence)) with m = (total_n - n) / n * (1.0 / total_n), hddm_a.py:148-149, 157-158 *)
Definition ha_bound (n total_n : Z) (conf : T) : res T :=
  a <- pydiv (nofZ (total_n - n)) (nofZ n) ;;
  b <- pydiv n1 (nofZ total_n) ;;
  c <- pydiv (nofZ 2) conf ;;
  l <- py_log c ;;
  py_sqrt (a * b / nofZ 2 * l)%num.

(** _mean_incr, hddm_a.py:144-150 *)
Definition ha_mean_incr (c_min : T) (n_min : Z) (total_c : T) (total_n : Z) (conf : T) : res bool :=
  if n_min =? total_n then Ok false
  else
    cota <- ha_bound n_min total_n conf ;;
    mt <- pydiv total_c (nofZ total_n) ;;
    mm <- pydiv c_min (nofZ n_min) ;;
    Ok (nleb cota (mt - mm)%num).

(** _mean_decr, hddm_a.py:152-158 *)
Definition ha_mean_decr (c_max : T) (n_max : Z) (total_c : T) (total_n : Z) (conf : T) : res bool :=
  if n_max =? total_n then Ok false
  else
    cota <- ha_bound n_max total_n conf ;;
    mm <- pydiv c_max (nofZ n_max) ;;
    mt <- pydiv total_c (nofZ total_n) ;;
    Ok (nleb cota (mm - mt)%num).

(** _update_estimations, hddm_a.py:180-190 *)
Definition ha_update (s : hddm_a) : res hddm_a :=
  if ha_n_est s <=? ha_total_n s then
    e <- pydiv (ha_total_c s) (nofZ (ha_total_n s)) ;;
    Ok (mkHa (ha_change s) (ha_warning s) e (ha_total_n s) (ha_n_min s) (ha_c_min s) (ha_total_n s)
          (ha_total_c s) (ha_n_max s) (ha_c_max s) 0 n0)
  else
    e <- pydiv (ha_c_est s) (nofZ (ha_n_est s)) ;;
    Ok (mkHa (ha_change s) (ha_warning s) e (ha_n_est s) (ha_n_min s) (ha_c_min s) (ha_total_n s)
          (ha_total_c s) (ha_n_max s) (ha_c_max s) (ha_n_est s) (ha_c_est s)).

(** add_element, hddm_a.py:80-142 *)
Definition hddm_a_add (par : ha_par) (s : hddm_a) (x : T) : res hddm_a :=
  let total_n := ha_total_n s + 1 in
  let total_c := (ha_total_c s + x)%num in
  let '(n_min, c_min) := if ha_n_min s =? 0 then (total_n, total_c) else (ha_n_min s, ha_c_min s) in
  let '(n_max, c_max) := if ha_n_max s =? 0 then (total_n, total_c) else (ha_n_max s, ha_c_max s) in
  cota <- ha_cota (hp_drift par) n_min ;;
  cota1 <- ha_cota (hp_drift par) total_n ;;
  mmin <- pydiv c_min (nofZ n_min) ;;
  mtot <- pydiv total_c (nofZ total_n) ;;
  let '(n_min, c_min) :=
    if nleb (mtot + cota1)%num (mmin + cota)%num then (total_n, total_c) else (n_min, c_min) in
  cota' <- ha_cota (hp_drift par) n_max ;;
  mmax <- pydiv c_max (nofZ n_max) ;;
  let '(n_max, c_max) :=
    if nleb (mmax - cota')%num (mtot - cota1)%num then (total_n, total_c) else (n_max, c_max) in
  drift <- ha_mean_incr c_min n_min total_c total_n (hp_drift par) ;;
  s1 <- (if drift : bool then
           Ok (mkHa true false (ha_estimation s) (ha_delay s) 0 n0 0 n0 0 n0
                 (total_n - n_min) (total_c - c_min)%num)
         else
           warn <- ha_mean_incr c_min n_min total_c total_n (hp_warn par) ;;
           Ok (mkHa false warn (ha_estimation s) (ha_delay s) n_min c_min total_n total_c n_max c_max
                 (ha_n_est s) (ha_c_est s))) ;;
  decr <- (if hp_two_side par then
             ha_mean_decr (ha_c_max s1) (ha_n_max s1) (ha_total_c s1) (ha_total_n s1) (hp_drift par)
           else Ok false) ;;
  let s2 := if decr : bool then
              mkHa (ha_change s1) (ha_warning s1) (ha_estimation s1) (ha_delay s1) 0 n0 0 n0 0 n0
                (ha_total_n s1 - ha_n_max s1) (ha_total_c s1 - ha_c_max s1)%num
            else s1 in
  ha_update s2.

End HddmA.
Arguments hddm_a : clear implicits.
Arguments ha_par : clear implicits.
