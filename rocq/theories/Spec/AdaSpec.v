(** Vocabulary for adaptive trees: the nodes of the main tree, the alternate trees, where an instance is sorted to. *)
From Coq Require Import List ZArith Bool.
From Verif Require Import Base.Py Base.Num Base.Dict Model.TreeSkeleton Model.AdaTree.
Import ListNotations.

Section Spec.
Context {L I S E W : Type}.
Local Notation node := (anode L I S E W).

(** The nodes of the main tree, and the alternate trees that its nodes have, in any order *)
Fixpoint main_nodes (t : node) : list node :=
  t :: match t with
       | ASplit _ _ _ _ ch => (fix go (l : list (Z * node)) : list node := match l with [] => [] | (_, c) :: r => main_nodes c ++ go r end) ch
       | _ => []
       end.
Definition alternates (t : node) : list node := flat_map (fun n => match n with ASplit _ _ _ (Some a) _ => [a] | _ => [] end) (main_nodes t).
Definition is_aleaf (t : node) : bool := match t with ALeaf _ => true | _ => false end.
Definition is_adead (t : node) : bool := match t with ADead _ => true | _ => false end.
Definition is_asplit (t : node) : bool := match t with ASplit _ _ _ _ _ => true | _ => false end.
(** How many nodes of the main tree are of a kind *)
Definition number (f : node -> bool) (t : node) : Z := Z.of_nat (length (filter f (main_nodes t))).
(** The counters of active leaves, inactive leaves and decision nodes are right. *)
Definition counted (t : node) (c : counts) : Prop :=
  k_active c = number is_aleaf t /\ k_inactive c = number is_adead t /\ k_decision c = number is_asplit t.

Context {X Y T P : Type} (O : aops X Y T L I S E W P).
(** Where the main tree sorts an instance to: a leaf, a split node that has no child for its branch, or a split node whose test has no
    branch for it. *)
Inductive place := At (n : node) | Childless (n : node) | Branchless (n : node).
Inductive sorted : node -> X -> place -> Prop :=
| sorted_leaf l x : sorted (ALeaf l) x (At (ALeaf l))
| sorted_dead i x : sorted (ADead i) x (At (ADead i))
| sorted_down te st wt alt ch x b c p : a_branch O te x = Ok b -> (0 <= b)%Z -> dget ch b = Some c -> sorted c x p -> sorted (ASplit te st wt alt ch) x p
| sorted_childless te st wt alt ch x b : a_branch O te x = Ok b -> (0 <= b)%Z -> dget ch b = None ->
    sorted (ASplit te st wt alt ch) x (Childless (ASplit te st wt alt ch))
| sorted_branchless te st wt alt ch x b : a_branch O te x = Ok b -> (b < 0)%Z -> sorted (ASplit te st wt alt ch) x (Branchless (ASplit te st wt alt ch)).
End Spec.
