(** Model of PageHinkley, drift_detection/page_hinkley.py.  Omitted: delay (always 0), in_warning_zone (always False). *)
From Coq Require Import List ZArith Bool.
From Verif Require Import Base.Py Base.Num.
Local Open Scope Z_scope.

Section PageHinkley.
Context {T : Type} {N : Num T}.

(** constructor parameters, page_hinkley.py:53 *)
Record ph_par : Type := mkPhPar { pp_min_instances : Z; pp_delta : T; pp_threshold : T; pp_alpha : T }.

Record ph : Type := mkPh {
  ph_change : bool; ph_estimation : T;
  ph_count : Z;    (* sample_count *)
  ph_mean : T;     (* x_mean *)
  ph_sum : T       (* sum *)
}.

(** __init__ 53-62, reset 64-73 *)
Definition ph_init : ph := mkPh false n0 1 n0 n0.
Definition ph_reset (s : ph) : ph := mkPh false n0 1 n0 n0.

(** add_element, page_hinkley.py:75-109 *)
Definition ph_add (par : ph_par) (s0 : ph) (x : T) : res ph :=
  let s := if ph_change s0 then ph_reset s0 else s0 in
  d <- pydiv (x - ph_mean s)%num (nofZ (ph_count s)) ;;
  let mean := (ph_mean s + d)%num in
  let sum := py_max n0 (pp_alpha par * ph_sum s + (x - mean - pp_delta par))%num in
  let count := ph_count s + 1 in
  let change := if count <? pp_min_instances par then false else nltb (pp_threshold par) sum in
  Ok (mkPh change mean count mean sum).

End PageHinkley.
Arguments ph : clear implicits.
Arguments ph_par : clear implicits.
