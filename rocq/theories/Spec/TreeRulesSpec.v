(** Vocabulary for the rules read off a Hoeffding tree. *)
From Coq Require Import List ZArith Bool.
From Verif Require Import Base.Py Base.Num Base.Dict Model.TreeSkeleton Model.HoeffdingTree Model.TreeRules Spec.TreeSpec Spec.HoeffdingSpec.
Import ListNotations.

(** Every row of every call has [n] attributes *)
Definition rows_of {T} (e : ht_event T) : list (list T * Z) := match e with HFit rows _ _ => rows | HReset => [] end.
Definition width {T} (n : nat) (es : list (ht_event T)) : Prop := forall e x y, In e es -> In (x, y) (rows_of e) -> length x = n.

(** Exactly one rule of the list covers the instance, the others are false of it, and that one is [r] *)
Definition only_rule {T} {N : Num T} (key : T -> Z) (rules : list (rule T)) (x : list T) (r : rule T) : Prop :=
  exists before after, rules = before ++ r :: after /\ rule_covers key r x = Ok true
    /\ forall r', In r' (before ++ after) -> rule_covers key r' x = Ok false.
(** The label with the greatest weight *)
Definition heaviest {T} {N : Num T} (d : list (Z * T)) (c : Z) : Prop :=
  exists w, In (c, w) d /\ forall c' w', In (c', w') d -> (w <? w')%num = false.
