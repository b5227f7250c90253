(** The Page-Hinkley statistic of a segment, oldest first. *)
From Coq Require Import List Reals.
From Verif Require Import Spec.Lists.
Import ListNotations.
Local Open Scope R_scope.

(** newest first *)
Fixpoint ph_stat_rev (alpha delta : R) (rl : list R) : R :=
  match rl with
  | [] => 0
  | x :: r => Rmax 0 (alpha * ph_stat_rev alpha delta r + (x - Rmean (rev (x :: r)) - delta))
  end.
Definition ph_stat (alpha delta : R) (l : list R) : R := ph_stat_rev alpha delta (rev l).
