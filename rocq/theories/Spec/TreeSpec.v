(** Vocabulary for Hoeffding trees. *)
From Coq Require Import List ZArith Bool.
From Verif Require Import Base.Py Base.Num Base.Dict Model.TreeSkeleton.
Import ListNotations.

Section Spec.
Context {L I S E : Type}.
Local Notation node := (node L I S E).

(** The nodes of a tree, in any order. *)
Fixpoint nodes (t : node) : list node :=
  t :: match t with
       | Split _ _ ch => (fix go (l : list (Z * node)) : list node := match l with [] => [] | (_, c) :: r => nodes c ++ go r end) ch
       | _ => []
       end.
Definition is_active (t : node) : bool := match t with Active _ => true | _ => false end.
Definition is_inactive (t : node) : bool := match t with Inactive _ => true | _ => false end.
Definition is_split (t : node) : bool := match t with Split _ _ _ => true | _ => false end.
Definition count (f : node -> bool) (t : node) : Z := Z.of_nat (length (filter f (nodes t))).

(** The counters of a tree are the numbers of its nodes. *)
Definition counters_right {T} (s : tree T L I S E) : Prop :=
  match t_root s with
  | None => t_decision s = 0 /\ t_active s = 0 /\ t_inactive s = 0
  | Some r => t_decision s = count is_split r /\ t_active s = count is_active r /\ t_inactive s = count is_inactive r
  end%Z.

(** The node at a place. *)
Fixpoint node_at (t : node) (p : list Z) : option node :=
  match p with
  | [] => Some t
  | b :: q => match t with Split _ _ ch => match dget ch b with Some c => node_at c q | None => None end | _ => None end
  end.

(** The longest chain of split nodes. *)
Inductive has_depth : node -> nat -> Prop :=
| depth_active l : has_depth (Active l) 0
| depth_inactive i : has_depth (Inactive i) 0
| depth_split te st ch n : (forall k c, In (k, c) ch -> exists m, has_depth c m /\ m <= n) ->
    (ch = [] /\ n = 0 \/ exists k c, In (k, c) ch /\ has_depth c n) -> has_depth (Split te st ch) (n + 1).

Context {X Y T : Type} (O : ops X Y T L I S E).
Definition stats_of (t : node) : S := match t with Active l => o_stats O l | Inactive i => o_stats_inactive O i | Split _ st _ => st end.

(** The node an instance is sorted to: follow the branches; stay at a split node whose test has no branch. *)
Inductive reaches : node -> X -> list Z -> node -> Prop :=
| reach_active l x : reaches (Active l) x [] (Active l)
| reach_inactive i x : reaches (Inactive i) x [] (Inactive i)
| reach_stop te st ch x b : o_branch O te x = Ok b -> (b < 0)%Z -> reaches (Split te st ch) x [] (Split te st ch)
| reach_down te st ch x b c p n : o_branch O te x = Ok b -> (0 <= b)%Z -> dget ch b = Some c -> reaches c x p n -> reaches (Split te st ch) x (b :: p) n.

(** Two trees that differ only in which leaves are active. *)
Inductive same_stats : node -> node -> Prop :=
| same_leaf t t' : is_split t = false -> is_split t' = false -> stats_of t = stats_of t' -> same_stats t t'
| same_split te st ch ch' : Forall2 (fun a b => fst a = fst b /\ same_stats (snd a) (snd b)) ch ch' -> same_stats (Split te st ch) (Split te st ch').
End Spec.

(** The memory limit does not bind: whatever number of the leaves is kept active, the estimated size stays within it. *)
Definition enough_memory {T L I S E} {N : Num T} (cfg : config T) (s : tree T L I S E) : Prop :=
  c_stop cfg = false /\ forall leaves active : nat,
    (c_max_bytes cfg <? (nofZ (Z.of_nat active) * t_active_size s + nofZ (Z.of_nat (leaves - active)) * t_inactive_size s) * t_overhead s)%num = false.
