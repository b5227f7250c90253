(** Specification of classification measurements: the results since the last reset. *)
From Coq Require Import List ZArith Bool Reals.
From Verif Require Import Base.Num Model.ClassMeasure.
Import ListNotations.

(** (true label, predicted label, weight) of the results since the last reset, the first first *)
Definition results {T} (es : list (me_event T)) : list (Z * Z * T) :=
  fold_left (fun h e => match e with MAdd y p w => h ++ [(y, p, w)] | MClear => [] end) es [].
(** How many results have this property *)
Definition times {T} (f : Z -> Z -> bool) (h : list (Z * Z * T)) : nat := length (filter (fun r => f (fst (fst r)) (snd (fst r))) h).
(** The labels in the order in which they are known: those given, then every new one, the true label of a result before the predicted one *)
Definition known (l : list Z) (t : Z) : list Z := if existsb (Z.eqb t) l then l else l ++ [t].
Definition known_after {T} (targets : list Z) (es : list (me_event T)) : list Z :=
  fold_left (fun l e => match e with MAdd y p _ => known (known l y) p | MClear => l end) es targets.
(** The weight of the results whose true label is that of the result before *)
Fixpoint repeated {T} {N : Num T} (last : option Z) (h : list (Z * Z * T)) (acc : T) : T :=
  match h with
  | [] => acc
  | (y, _, w) :: h => repeated (Some y) h (match last with Some c => if (c =? y)%Z then (acc + w)%num else acc | None => acc end)
  end.
