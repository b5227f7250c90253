(** Vocabulary for nominal attribute observers. *)
From Coq Require Import List ZArith Bool Reals Sorted.
From Verif Require Import Spec.Lists.
Import ListNotations.
Local Open Scope R_scope.

(** An observation with a present attribute value: (class, value, weight). *)
Notation cell := (Z * Z * R)%type.
Definition present_cells (h : list (option Z * Z * R)) : list cell :=
  flat_map (fun x => match x with (Some a, c, w) => [(c, a, w)] | _ => [] end) h.

(** Total weight of the observations selected by (class, value); [None] if there is none. *)
Definition weight_of (sel : Z -> Z -> bool) (l : list cell) : option R :=
  match filter (fun x => sel (fst (fst x)) (snd (fst x))) l with [] => None | l' => Some (Rsum (map snd l')) end.

(** [ks] lists exactly the elements of [l], in increasing order *)
Definition increasing_list_of (l ks : list Z) : Prop := StronglySorted Z.lt ks /\ forall k, In k ks <-> In k l.

(** The class distribution, over the classes [cs], of the observations whose value is selected *)
Definition class_dist (cs : list Z) (sel : Z -> bool) (l : list cell) : list (Z * R) :=
  flat_map (fun c => match weight_of (fun c' a => Z.eqb c' c && sel a) l with Some w => [(c, w)] | None => [] end) cs.

(** The first element of maximal merit *)
Definition first_best {A} (le : A -> A -> Prop) (l : list A) (s : A) : Prop :=
  exists pre post, l = pre ++ s :: post /\ (forall x, In x l -> le x s) /\ (forall x, In x pre -> ~ le s x).
