(** Model of HDDM_W, drift_detection/hddm_w.py.  Cut points initialised to float("inf") are [None]; a comparison with
    them uses the rule for non-nan numbers (x < inf holds, x > inf does not). *)
From Coq Require Import List ZArith Bool.
From Verif Require Import Base.Py Base.Num.
Import ListNotations.
Local Open Scope Z_scope.

Section HddmW.
Context {T : Type} {N : Num T}.

(** SampleInfo, hddm_w.py:65-68; independent_bounded_condition_sum is None initially *)
Record sinfo : Type := mkSI { si_ewma : T; si_ibc : option T }.
Definition si_new : sinfo := mkSI (nofZ (-1)) None.

(** constructor parameters, hddm_w.py:70-75 *)
Record hw_par : Type := mkHwPar { wp_drift : T; wp_warn : T; wp_lambda : T; wp_two_side : bool }.

Record hddm_w : Type := mkHw {
  hw_change : bool; hw_warning : bool; hw_estimation : T; hw_delay : Z; hw_width : Z;
  hw_total : sinfo;
  hw_s1_decr : sinfo; hw_s1_incr : sinfo; hw_s2_decr : sinfo; hw_s2_incr : sinfo;
  hw_incr_cut : option T; hw_decr_cut : option T
}.

(** __init__ 70-90, reset 207-222 *)
Definition hddm_w_init : hddm_w :=
  mkHw false false n0 0 0 si_new si_new si_new si_new si_new None None.
Definition hddm_w_reset (s : hddm_w) : hddm_w :=
  mkHw false false n0 0 0 si_new si_new si_new si_new si_new None None.

(** arithmetic on None raises TypeError *)
Definition ibc (i : sinfo) : res T := match si_ibc i with Some x => Ok x | None => Raise TypeError end.

(** one exponentially weighted update, hddm_w.py:112-121, 171-181, 196-205 *)
Definition si_update (lam : T) (i : sinfo) (x : T) : res sinfo :=
  let decay := (n1 - lam)%num in
  if nltb (si_ewma i) n0 then Ok (mkSI x (Some n1))
  else
    b <- ibc i ;;
    Ok (mkSI (lam * x + decay * si_ewma i)%num (Some (lam * lam + decay * decay * b)%num)).

(** sqrt(ibc_sum * log(1 / confidence) / 2) *)
Definition hw_bound (ibc_sum conf : T) : res T :=
  c <- pydiv n1 conf ;;
  l <- py_log c ;;
  py_sqrt (ibc_sum * l / nofZ 2)%num.

(** _detect_mean_increment, hddm_w.py:140-146 *)
Definition hw_detect (a b : sinfo) (conf : T) : res bool :=
  if nltb (si_ewma a) n0 || nltb (si_ewma b) n0 then Ok false
  else
    x <- ibc a ;;
    y <- ibc b ;;
    bound <- hw_bound (x + y)%num conf ;;
    Ok (nltb bound (si_ewma b - si_ewma a)%num).

(** _update_incr_statistics, hddm_w.py:160-181: new (cutpoint, sample1, sample2, delay) *)
Definition hw_update_incr (par : hw_par) (s : hddm_w) (x : T) : res (option T * sinfo * sinfo * Z) :=
  b <- ibc (hw_total s) ;;
  bound <- hw_bound b (wp_drift par) ;;
  let v := (si_ewma (hw_total s) + bound)%num in
  if match hw_incr_cut s with None => true | Some c => nltb v c end then
    Ok (Some v, hw_total s, si_new, 0)
  else
    s2 <- si_update (wp_lambda par) (hw_s2_incr s) x ;;
    Ok (hw_incr_cut s, hw_s1_incr s, s2, hw_delay s + 1).

(** _update_decr_statistics, hddm_w.py:183-205: new (cutpoint, sample1, sample2) *)
Definition hw_update_decr (par : hw_par) (s : hddm_w) (x : T) : res (option T * sinfo * sinfo) :=
  b <- ibc (hw_total s) ;;
  bound <- hw_bound b (wp_drift par) ;;
  let v := (si_ewma (hw_total s) - bound)%num in
  if match hw_decr_cut s with None => false | Some c => nltb c v end then
    Ok (Some v, hw_total s, si_new)
  else
    s2 <- si_update (wp_lambda par) (hw_s2_decr s) x ;;
    Ok (hw_decr_cut s, hw_s1_decr s, s2).

Definition set_estimation (s : hddm_w) (e : T) : hddm_w :=
  mkHw (hw_change s) (hw_warning s) e (hw_delay s) (hw_width s) (hw_total s)
    (hw_s1_decr s) (hw_s1_incr s) (hw_s2_decr s) (hw_s2_incr s) (hw_incr_cut s) (hw_decr_cut s).

(** add_element, hddm_w.py:92-138 *)
Definition hddm_w_add (par : hw_par) (s : hddm_w) (x : T) : res hddm_w :=
  total <- si_update (wp_lambda par) (hw_total s) x ;;
  let s := mkHw (hw_change s) (hw_warning s) (hw_estimation s) (hw_delay s) (hw_width s + 1) total
             (hw_s1_decr s) (hw_s1_incr s) (hw_s2_decr s) (hw_s2_incr s) (hw_incr_cut s) (hw_decr_cut s) in
  '(cut, s1, s2, delay) <- hw_update_incr par s x ;;
  drift <- hw_detect s1 s2 (wp_drift par) ;;
  if drift : bool then
    Ok (mkHw true false n0 0 0 si_new si_new si_new si_new si_new None None)
  else
    warn <- hw_detect s1 s2 (wp_warn par) ;;
    let s := mkHw false warn (hw_estimation s) delay (hw_width s) total
               (hw_s1_decr s) s1 (hw_s2_decr s) s2 cut (hw_decr_cut s) in
    '(dcut, d1, d2) <- hw_update_decr par s x ;;
    let s := mkHw (hw_change s) (hw_warning s) (hw_estimation s) (hw_delay s) (hw_width s) (hw_total s)
               d1 (hw_s1_incr s) d2 (hw_s2_incr s) (hw_incr_cut s) dcut in
    decr <- (if wp_two_side par then hw_detect d2 d1 (wp_drift par) else Ok false) ;;
    let s := if decr : bool then hddm_w_reset s else s in
    Ok (set_estimation s (si_ewma (hw_total s))).

End HddmW.
Arguments sinfo : clear implicits.
Arguments hw_par : clear implicits.
Arguments hddm_w : clear implicits.
