(** Specification of windowed measurements. *)
From Coq Require Import List ZArith Bool.
Import ListNotations.

(** The last [n] elements *)
Definition newest {A} (n : nat) (l : list A) : list A := skipn (length l - n) l.
(** For every result whether its true label is that of the result before *)
Fixpoint repeats {T} (last : option Z) (h : list (Z * Z * T)) : list bool :=
  match h with [] => [] | (y, _, _) :: h => match last with Some c => (c =? y)%Z | None => false end :: repeats (Some y) h end.
Definition trues (l : list bool) : nat := length (filter (fun b => b) l).
