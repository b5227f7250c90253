(** Specification of a bounded FIFO holding the most recent [n] elements, as a plain list.
    Independent of the model of FastBuffer. *)
From Coq Require Import List Arith.
From Verif Require Import Spec.Lists.
Import ListNotations.

Section Fifo.
Context {A : Type}.

Inductive op : Type := Add (xs : list A) | Pop | Clear.

(** What a call answers: the elements evicted by an insertion ([None]: nothing evicted),
    the popped element. *)
Inductive answer : Type := Evicted (e : option (list A)) | Popped (x : option A) | Cleared.

Definition step (n : nat) (q : list A) (o : op) : list A * answer :=
  match o with
  | Add xs =>
      (lastn n (q ++ xs),
       Evicted (if length (q ++ xs) <=? n then None else Some (butlastn n (q ++ xs))))
  | Pop => (tl q, Popped (hd_error q))
  | Clear => ([], Cleared)
  end.

Fixpoint run (n : nat) (q : list A) (ops : list op) : list A * list answer :=
  match ops with
  | [] => (q, [])
  | o :: ops' =>
      let '(q1, a) := step n q o in
      let '(q2, r) := run n q1 ops' in (q2, a :: r)
  end.

(** Elements that ever entered / left, in order. *)
Fixpoint added (ops : list op) : list A :=
  match ops with [] => [] | Add xs :: r => xs ++ added r | _ :: r => added r end.

End Fifo.
Arguments op : clear implicits.
Arguments answer : clear implicits.
