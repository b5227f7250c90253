(** Specification of the multi-label metrics, on the list of samples (true labels, predicted labels), each label a boolean. *)
From Coq Require Import List ZArith Bool Reals.
From Verif Require Import Spec.Lists.
Import ListNotations.

(** number of positions where both, at least one, or agreeing labels are found *)
Definition pairs (s : list bool * list bool) : list (bool * bool) := combine (fst s) (snd s).
Definition n_both (s : list bool * list bool) : nat := length (filter (fun p => fst p && snd p) (pairs s)).
Definition n_any (s : list bool * list bool) : nat := length (filter (fun p => fst p || snd p) (pairs s)).
Definition n_agree (s : list bool * list bool) : nat := length (filter (fun p => Bool.eqb (fst p) (snd p)) (pairs s)).

(** Jaccard index of one sample, 0 when no label is set on either side *)
Definition jaccard (s : list bool * list bool) : R :=
  match n_any s with O => 0%R | u => (INR (n_both s) / INR u)%R end.

Definition same_labels (s : list bool * list bool) : bool := if list_eq_dec bool_dec (fst s) (snd s) then true else false.

(** every sample is a pair of vectors of [L] labels *)
Definition well_formed (L : nat) (l : list (list bool * list bool)) : Prop :=
  Forall (fun s => length (fst s) = L /\ length (snd s) = L) l.

(** the integer vectors handed to the evaluator *)
Definition enc (v : list bool) : list (option Z) := map (fun b : bool => Some (if b then 1 else 0)%Z) v.
Definition calls (l : list (list bool * list bool)) : list (list (option Z) * list (option Z) * R) :=
  map (fun s => (enc (fst s), enc (snd s), 1%R)) l.
