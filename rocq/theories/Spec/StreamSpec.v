(** What a finite data stream must deliver, independent of the implementation. *)
From Coq Require Import List ZArith Sorted Permutation.
Import ListNotations.

(** A user's calls: [Some b] is next_sample(b), [None] is restart(). *)
Definition calls := list (option nat).

(** Number of rows asked for since the last restart. *)
Fixpoint asked_from (k : nat) (h : calls) : nat :=
  match h with
  | [] => k
  | Some b :: r => asked_from (k + b) r
  | None :: r => asked_from 0 r
  end.
Definition asked (h : calls) : nat := asked_from 0 h.

(** The calls made since the last restart. *)
Fixpoint since_restart {A} (h : list (option A)) : list A :=
  match h with
  | [] => []
  | Some b :: r => if existsb (fun o => match o with None => true | _ => false end) r then since_restart r else b :: since_restart r
  | None :: r => since_restart r
  end.

(** Rows k, k+1, ..., k+b-1 of the data (fewer at the end). *)
Definition rows_at {A} (k b : nat) (l : list A) : list A := firstn b (skipn k l).

(** A block of [n] target columns starting at column [t] (from the left). *)
Definition block {A} (t n : nat) (row : list A) : list A := firstn n (skipn t row).
Definition others {A} (t n : nat) (row : list A) : list A := firstn t row ++ skipn (t + n) row.

Definition sortedZ (l : list Z) : Prop := StronglySorted Z.le l.

(** numpy's argsort: a permutation of the positions that lists the keys in order; ties in any order. *)
Definition is_argsort (argsort : list Z -> list nat) : Prop :=
  forall l, Permutation (argsort l) (seq 0 (length l)) /\ sortedZ (map (fun i => nth i l 0%Z) (argsort l)).
Definition is_sort (sort : list Z -> list Z) : Prop := forall l, Permutation (sort l) l /\ sortedZ (sort l).
