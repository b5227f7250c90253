(** The decision rule of DDM (Gama et al. 2004) over a segment of 0/1 values, oldest first. *)
From Coq Require Import List Reals ZArith.
From Verif Require Import Spec.Lists.
Import ListNotations.
Local Open Scope R_scope.

(** error rate and its standard deviation after the values [l] *)
Definition err_rate (l : list R) : R := Rmean l.
Definition err_std (l : list R) : R := sqrt (err_rate l * (1 - err_rate l) / INR (length l)).

Definition prefix_of {A} (p l : list A) : Prop := exists s, l = p ++ s.

(** [best m b seg]: among the non-empty prefixes of [seg] of length at least [m - 1], [b] minimises rate + std, and it
    is the longest one that does. *)
Definition best (m : Z) (b seg : list R) : Prop :=
  let eligible p := p <> [] /\ prefix_of p seg /\ (m - 1 <= Z.of_nat (length p))%Z in
  eligible b /\
  forall p, eligible p ->
    err_rate b + err_std b <= err_rate p + err_std p /\
    ((length b < length p)%nat -> err_rate b + err_std b < err_rate p + err_std p).
