(** Specification vocabulary on lists, independent of any model. *)
From Coq Require Import List Arith Lia Reals.
Import ListNotations.

(** The last [n] elements of [l], in order (all of [l] when it is shorter). *)
Definition lastn {A} (n : nat) (l : list A) : list A := skipn (length l - n) l.

(** Everything but the last [n] elements. *)
Definition butlastn {A} (n : nat) (l : list A) : list A := firstn (length l - n) l.

(** [s] is a suffix of [l]. *)
Definition suffix_of {A} (s l : list A) : Prop := exists p, l = p ++ s.

(** Sum of a list of real numbers. *)
Fixpoint Rsum (l : list R) : R := match l with [] => 0%R | x :: l' => (x + Rsum l')%R end.

(** Arithmetic mean, for non-empty lists. *)
Definition Rmean (l : list R) : R := (Rsum l / INR (length l))%R.

(** Sum of squared deviations from the mean. *)
Definition Rsqdev (l : list R) : R := Rsum (map (fun x => (x - Rmean l) * (x - Rmean l))%R l).

(** Population variance. *)
Definition Rvariance (l : list R) : R := (Rsqdev l / INR (length l))%R.

Fixpoint nsum (l : list nat) : nat := match l with [] => 0 | x :: l' => x + nsum l' end.
