(** Specification of object sizes: the parts of an object and what can be reached through parts. *)
From Coq Require Import List ZArith.
From Verif Require Import Model.ObjectSize.
Import ListNotations.

(** The parts of a dictionary are its keys and values, of an object with attributes its attribute dictionary, of an iterable its elements. *)
Inductive part (h : heap) (o : nat) : nat -> Prop :=
  | part_key items k v : kind_of h o = KDict items -> In (k, v) items -> part h o k
  | part_value items k v : kind_of h o = KDict items -> In (k, v) items -> part h o v
  | part_attrs d : kind_of h o = KAttrs d -> part h o d
  | part_elem items e : kind_of h o = KIter items -> In e items -> part h o e.
(** An object, its parts, their parts and so on *)
Inductive holds (h : heap) (o : nat) : nat -> Prop :=
  | holds_self : holds h o o
  | holds_part p q : holds h o p -> part h p q -> holds h o q.
Definition finite_object (h : heap) (o : nat) : Prop := exists l, forall p, holds h o p -> In p l.
Fixpoint total (h : heap) (l : list nat) : Z := match l with [] => 0%Z | p :: l => (own_size h p + total h l)%Z end.
