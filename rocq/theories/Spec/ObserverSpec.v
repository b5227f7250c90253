(** Specification vocabulary for attribute observers and split suggestions. *)
From Coq Require Import List ZArith Reals Bool.
From Verif Require Import Spec.Lists.
Import ListNotations.
Local Open Scope R_scope.

(** Weighted observations (value, weight). *)
Definition wtotal (obs : list (R * R)) : R := Rsum (map snd obs).
Definition wmean (obs : list (R * R)) : R := Rsum (map (fun p => snd p * fst p) obs) / wtotal obs.
(** Weighted sum of squared deviations from the weighted mean. *)
Definition wsqdev (obs : list (R * R)) : R := Rsum (map (fun p => snd p * (fst p - wmean obs) * (fst p - wmean obs)) obs).
(** Sample variance as the estimator defines it: divisor W - 1. *)
Definition wvariance (obs : list (R * R)) : R := if Rlt_dec 1 (wtotal obs) then wsqdev obs / (wtotal obs - 1) else 0.

(** Observations with a value. *)
Definition observed {A} (h : list (option A * R)) : list (A * R) :=
  flat_map (fun p => match fst p with Some v => [(v, snd p)] | None => [] end) h.
(** Observations of class [c] in a history of (value, class, weight). *)
Definition of_class {A} (c : Z) (h : list (option A * Z * R)) : list (A * R) :=
  flat_map (fun p => match p with (Some v, c', w) => if Z.eqb c' c then [(v, w)] else [] | _ => [] end) h.

Definition is_min (l : list R) (m : R) : Prop := In m l /\ forall x, In x l -> m <= x.
Definition is_max (l : list R) (m : R) : Prop := In m l /\ forall x, In x l -> x <= m.

(** Order on merits, [None] = -inf. *)
Definition merit_le (a b : option R) : Prop := match a, b with None, _ => True | Some _, None => False | Some x, Some y => x <= y end.

(** Normal density with the weighted mean and variance of the observations ([k] is sqrt(2 pi)); a point mass when the variance
    is 0, and 0 when nothing was observed. *)
Definition normal_density (k : R) (obs : list (R * R)) (a : R) : R :=
  if Rlt_dec 0 (wtotal obs) then
    if Rlt_dec 0 (wvariance obs) then 1 / (k * sqrt (wvariance obs)) * exp (- ((a - wmean obs) * (a - wmean obs) / (2 * wvariance obs)))
    else if Req_EM_T a (wmean obs) then 1 else 0
  else 0.
