(** Two runs side by side: related results and related trees. *)
From Coq Require Import List ZArith Bool.
From Verif Require Import Base.Py Base.Num Base.Dict Model.TreeSkeleton.
Import ListNotations.

(** Both calls succeed with related results; or, when [strict], both raise the same exception; or, when not, one of them raises. *)
Definition rrel {A B} (strict : bool) (R : A -> B -> Prop) (m : res A) (m' : res B) : Prop :=
  match m, m' with
  | Ok a, Ok b => R a b
  | Raise e, Raise e' => strict = true -> e = e'
  | _, _ => strict = false
  end.

Section Rel.
Context {L L' I I' S S' E E' : Type} (RL : L -> L' -> Prop) (RI : I -> I' -> Prop) (RS : S -> S' -> Prop) (RE : E -> E' -> Prop).
(** Trees of the same shape with related contents *)
Inductive nrel : node L I S E -> node L' I' S' E' -> Prop :=
| nrel_active l l' : RL l l' -> nrel (Active l) (Active l')
| nrel_inactive i i' : RI i i' -> nrel (Inactive i) (Inactive i')
| nrel_split te te' st st' ch ch' : RE te te' -> RS st st' ->
    Forall2 (fun a b => fst a = fst b /\ nrel (snd a) (snd b)) ch ch' -> nrel (Split te st ch) (Split te' st' ch').
Context {T : Type}.
(** ... the same counters, sizes, weight and permission to grow *)
Record trel (s : tree T L I S E) (s' : tree T L' I' S' E') : Prop := mk_trel {
  tr_root : match t_root s, t_root s' with Some r, Some r' => nrel r r' | None, None => True | _, _ => False end;
  tr_decision : t_decision s = t_decision s'; tr_active : t_active s = t_active s'; tr_inactive : t_inactive s = t_inactive s';
  tr_isize : t_inactive_size s = t_inactive_size s'; tr_asize : t_active_size s = t_active_size s'; tr_overhead : t_overhead s = t_overhead s';
  tr_growth : t_growth s = t_growth s'; tr_weight : t_weight s = t_weight s' }.
(** Related decisions *)
Definition drel (d : decision L S E) (d' : decision L' S' E') : Prop :=
  match d, d' with
  | Keep l, Keep l' | NullWins l, NullWins l' => RL l l'
  | SplitOn l te ds, SplitOn l' te' ds' => RL l l' /\ RE te te' /\ Forall2 RS ds ds'
  | _, _ => False
  end.
End Rel.
