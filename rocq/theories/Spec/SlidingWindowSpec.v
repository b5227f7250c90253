(** Calls of the SlidingWindow model made with single samples. *)
From Coq Require Import List.
From Verif Require Import Spec.WindowSpec Model.SlidingWindow.
Import ListNotations.

(** A single row as the (1, n) array add_sample is documented to take. *)
Definition row1 {A} (r : list A) : nd2 A := mkND (length r) [r].

Definition to_sw_op {A} (o : wop A) : sw_op A :=
  match o with
  | WAdd (x, y) => SAdd (row1 x) (row1 y)
  | WDeleteOldest => SDeleteOldest
  | WReset => SReset
  end.
