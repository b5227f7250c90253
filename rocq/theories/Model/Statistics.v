(** Model of the normal distribution function (utils/statistics.py).

    Simplification: of the tests that error_function and error_function_complemented make when they call each other only those are kept that can come out
    either way. *)
From Coq Require Import List ZArith.
From Verif Require Import Base.Py Base.Num.
Import ListNotations.

Section Statistics.
Context {T : Type} {N : Num T}.
Local Open Scope num_scope.
(** SQRTH and MAXLOG, lines 3-4 *)
Definition SQRTH : T := (nofZ 707106781186547524401 / nofZ 1000000000000000000000).
Definition MAXLOG : T := (nofZ 709782712893383996732 / nofZ 1000000000000000000).
(** T, lines 48-52; the first coefficient apart *)
Definition erf_T0 : T := (nofZ 960497373987051638749 / nofZ 100000000000000000000).
Definition erf_T : list T := [(nofZ 900260197203842689217 / nofZ 10000000000000000000);
  (nofZ 223200534594684319226 / nofZ 100000000000000000);
  (nofZ 700332514112805075473 / nofZ 100000000000000000);
  (nofZ 555923013010394962768 / nofZ 10000000000000000)].
(** U, lines 53-57; the first coefficient apart *)
Definition erf_U0 : T := (nofZ 335617141647503099647 / nofZ 10000000000000000000).
Definition erf_U : list T := [(nofZ 521357949780152679795 / nofZ 1000000000000000000);
  (nofZ 459432382970980127987 / nofZ 100000000000000000);
  (nofZ 226290000613890934246 / nofZ 10000000000000000);
  (nofZ 492673942608635921086 / nofZ 10000000000000000)].
(** P, lines 79-87; the first coefficient apart *)
Definition erf_P0 : T := (nofZ 246196981473530512524 / nofZ 1000000000000000000000000000000).
Definition erf_P : list T := [(nofZ 564189564831068821977 / nofZ 1000000000000000000000);
  (nofZ 746321056442269912687 / nofZ 100000000000000000000);
  (nofZ 486371970985681366614 / nofZ 10000000000000000000);
  (nofZ 196520832956077098242 / nofZ 1000000000000000000);
  (nofZ 526445194995477358631 / nofZ 1000000000000000000);
  (nofZ 93452852717195760754 / nofZ 100000000000000000);
  (nofZ 102755188689515710272 / nofZ 100000000000000000);
  (nofZ 557535335369399327526 / nofZ 1000000000000000000)].
(** Q, lines 89-96; the first coefficient apart *)
Definition erf_Q0 : T := (nofZ 132281951154744992508 / nofZ 10000000000000000000).
Definition erf_Q : list T := [(nofZ 867072140885989742329 / nofZ 10000000000000000000);
  (nofZ 354937778887819891062 / nofZ 1000000000000000000);
  (nofZ 975708501743205489753 / nofZ 1000000000000000000);
  (nofZ 182390916687909736289 / nofZ 100000000000000000);
  (nofZ 224633760818710981792 / nofZ 100000000000000000);
  (nofZ 165666309194161350182 / nofZ 100000000000000000);
  (nofZ 557535340817727675546 / nofZ 1000000000000000000)].
(** R, lines 98-103; the first coefficient apart *)
Definition erf_R0 : T := (nofZ 564189583547755073984 / nofZ 1000000000000000000000).
Definition erf_R : list T := [(nofZ 127536670759978104416 / nofZ 100000000000000000000);
  (nofZ 501905042251180477414 / nofZ 100000000000000000000);
  (nofZ 616021097993053585195 / nofZ 100000000000000000000);
  (nofZ 74097426995044893916 / nofZ 10000000000000000000);
  (nofZ 29788666537210024067 / nofZ 10000000000000000000)].
(** S, lines 105-110; the first coefficient apart *)
Definition erf_S0 : T := (nofZ 22605286322011727659 / nofZ 10000000000000000000).
Definition erf_S : list T := [(nofZ 939603524938001434673 / nofZ 100000000000000000000);
  (nofZ 120489539808096656605 / nofZ 10000000000000000000);
  (nofZ 170814450747565897222 / nofZ 10000000000000000000);
  (nofZ 960896809063285878198 / nofZ 100000000000000000000);
  (nofZ 33690764510008151605 / nofZ 10000000000000000000)].
(** np.abs *)
Definition stat_abs (x : T) : T := if (x <? n0) then n0 - x else x.
(** pol_evl, lines 152-171, and p1_evl, lines 174-195 *)
Definition horner (x : T) (ans : T) (coef : list T) : T := fold_left (fun ans c => ans * x + c) coef ans.
Definition pol_evl (x c0 : T) (coef : list T) : T := horner x c0 coef.
Definition p1_evl (x c0 : T) (coef : list T) : T := horner x (x + c0) coef.
(** error_function where abs(x) <= 1, lines 62-64 *)
Definition erf_small (x : T) : T := let z := x * x in x * pol_evl z erf_T0 erf_T / p1_evl z erf_U0 erf_U.
(** error_function_complemented where not abs(a) < 1, lines 121-149 *)
Definition erfc_large (a : T) : T :=
  let x := stat_abs a in
  let z := (n0 - a) * a in
  if (z <? n0 - MAXLOG) then (if (a <? n0) then nofZ 2 else n0)
  else
    let z := nexp z in
    let p := if (x <? nofZ 8) then pol_evl x erf_P0 erf_P else pol_evl x erf_R0 erf_R in
    let q := if (x <? nofZ 8) then p1_evl x erf_Q0 erf_Q else p1_evl x erf_S0 erf_S in
    let y := z * p / q in
    let y := if (a <? n0) then nofZ 2 - y else y in
    if (y =? n0) then (if (a <? n0) then nofZ 2 else n0) else y.
(** error_function, lines 35-64, and error_function_complemented, lines 67-149 *)
Definition erf (x : T) : T := if (n1 <? stat_abs x) then n1 - erfc_large x else erf_small x.
Definition erfc (a : T) : T := if (stat_abs a <? n1) then n1 - erf_small a else erfc_large a.
(** normal_probability, lines 7-32 *)
Definition normal_probability (a : T) : T :=
  let x := a * SQRTH in
  let z := stat_abs x in
  let half := n1 / nofZ 2 in
  if (z <? SQRTH) then half + half * erf x
  else
    let y := half * erfc z in
    if (n0 <? x) then n1 - y else y.
End Statistics.
