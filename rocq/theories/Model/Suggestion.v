(** Split suggestions (trees/_attribute_test/attribute_split_suggestion.py) and the comparison of their merits.

    A merit is a number or -inf ([None], what InfoGainSplitCriterion and HellingerDistanceCriterion return for too unbalanced
    splits); the criterion itself is an argument of the observers' models. *)
From Coq Require Import List.
From Verif Require Import Base.Num.
Import ListNotations.

(** m1 > m2 *)
Definition mgt {T} {N : Num T} (a b : option T) : bool :=
  match a, b with None, _ => false | Some _, None => true | Some x, Some y => nltb y x end.

(** AttributeSplitSuggestion(test, post_split_dist, merit) *)
Record suggestion (A D T : Type) := mkSug { sg_test : A; sg_dists : D; sg_merit : option T }.
Arguments mkSug {A D T}. Arguments sg_test {A D T}. Arguments sg_dists {A D T}. Arguments sg_merit {A D T}.

(** if best_suggestion is None or merit > best_suggestion.merit: best_suggestion = ... *)
Definition keep_best {A D T} {N : Num T} (best : option (suggestion A D T)) (s : suggestion A D T) : option (suggestion A D T) :=
  match best with None => Some s | Some b => if mgt (sg_merit s) (sg_merit b) then Some s else best end.
