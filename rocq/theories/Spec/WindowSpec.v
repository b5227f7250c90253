(** Specification: a window of the most recent (features, targets) pairs. *)
From Coq Require Import List Arith.
From Verif Require Import Spec.Lists.
Import ListNotations.

Section W.
Context {A : Type}.
Local Notation pair_row := (list A * list A)%type.

Inductive wop : Type := WAdd (p : pair_row) | WDeleteOldest | WReset.

Definition wstep (n : nat) (w : list pair_row) (o : wop) : list pair_row :=
  match o with
  | WAdd p => lastn n (w ++ [p])
  | WDeleteOldest => tl w
  | WReset => []
  end.

Definition wrun (n : nat) (w : list pair_row) (ops : list wop) : list pair_row :=
  fold_left (wstep n) ops w.

(** Between two resets all samples have the same numbers of features and targets. *)
Fixpoint consistent (sh : option (nat * nat)) (ops : list wop) : Prop :=
  match ops with
  | [] => True
  | WAdd (x, y) :: r =>
      match sh with
      | None => consistent (Some (length x, length y)) r
      | Some (nf, nt) => length x = nf /\ length y = nt /\ consistent sh r
      end
  | WDeleteOldest :: r => consistent sh r
  | WReset :: r => consistent None r
  end.
End W.
Arguments wop : clear implicits.
