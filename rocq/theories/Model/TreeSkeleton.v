(** The part of the Hoeffding trees that is the same for classification and regression: nodes, routing, growth, counters and
    memory management (trees/_nodes/base.py, trees/hoeffding_tree.py, and the copies in trees/hoeffding_tree_regressor.py).

    The contents of the leaves (statistics, observers, predictors) and the split decision are given by a record [ops]; the
    models of the trees supply it.  Simplifications: the place of a node is the list of branch indices from the root, and an
    object changed in place is replaced at its place; object sizes (calculate_object_size) are arguments; when a call raises,
    the model forgets the tree. *)
From Coq Require Import List ZArith Bool.
From Verif Require Import Base.Py Base.Num Base.Dict.
Import ListNotations.

(** ** Nodes.  [L]: active leaves, [I]: inactive leaves, [S]: statistics of a node, [E]: split tests *)
Inductive node (L I S E : Type) : Type :=
| Active (l : L)
| Inactive (i : I)
| Split (test : E) (stats : S) (children : list (Z * node L I S E)).
Arguments Active {L I S E}. Arguments Inactive {L I S E}. Arguments Split {L I S E}.

(** The outcome of _attempt_to_split: the leaf stays, the null split wins, or a split with one distribution per branch. *)
Inductive decision (L S E : Type) : Type := Keep (l : L) | NullWins (l : L) | SplitOn (l : L) (test : E) (dists : list S).
Arguments Keep {L S E}. Arguments NullWins {L S E}. Arguments SplitOn {L S E}.

(** What a tree says about its leaves and tests.  [X]: instances, [Y]: targets, [T]: numbers *)
Record ops (X Y T L I S E : Type) := mk_ops {
  o_new : L;                                   (* _new_learning_node() *)
  o_child : L -> S -> L;                       (* the leaf of a branch when the first leaf is split *)
  o_stop : L -> I;                             (* the leaf made by _deactivate_learning_node *)
  o_start : I -> L;                            (* the leaf made by _activate_learning_node *)
  o_learn : L -> X -> Y -> T -> res L;         (* learn_one *)
  o_learn_inactive : I -> X -> Y -> T -> res I;
  o_due : L -> bool;                           (* total_weight - last_split_attempt_at >= grace_period *)
  o_decide : L -> res (decision L S E);        (* _attempt_to_split up to the decision; then last_split_attempt_at *)
  o_stats : L -> S; o_stats_inactive : I -> S; (* .stats *)
  o_branch : E -> X -> res Z;                  (* branch_for_instance *)
  o_multiway : E -> bool;                      (* isinstance(test, NominalAttributeMultiwayTest) *)
  o_add : E -> X -> res (E * Z);               (* add_new_branch(X[att]) *)
  o_max : E -> Z;                              (* max_branches() *)
  o_before : nat * node L I S E -> nat * node L I S E -> bool  (* order of _sort_learning_nodes on (depth, leaf): not after *)
}.
Arguments o_new {X Y T L I S E}. Arguments o_child {X Y T L I S E}. Arguments o_stop {X Y T L I S E}. Arguments o_start {X Y T L I S E}.
Arguments o_learn {X Y T L I S E}. Arguments o_learn_inactive {X Y T L I S E}. Arguments o_due {X Y T L I S E}. Arguments o_decide {X Y T L I S E}.
Arguments o_stats {X Y T L I S E}. Arguments o_stats_inactive {X Y T L I S E}. Arguments o_branch {X Y T L I S E}.
Arguments o_multiway {X Y T L I S E}. Arguments o_add {X Y T L I S E}. Arguments o_max {X Y T L I S E}. Arguments o_before {X Y T L I S E}.

(** Stable sort by a key: [before a b] is key(a) <= key(b). *)
Section Sort.
Context {A : Type} (before : A -> A -> bool).
Fixpoint insert_stable (x : A) (l : list A) : list A :=
  match l with [] => [x] | y :: r => if before x y then x :: l else y :: insert_stable x r end.
Definition sort_stable (l : list A) : list A := fold_right insert_stable [] l.
End Sort.

Section Skeleton.
Context {X Y T L I S E : Type} {N : Num T} (O : ops X Y T L I S E).
Local Notation node := (node L I S E).

(** filter_instance_to_leaf, base.py 56-74 and 266-292: the branches followed, and the node found ([None]: no such child) *)
Fixpoint route (t : node) (x : X) : res (list Z * option node) :=
  match t with
  | Split te _ ch =>
      b <- o_branch O te x ;;
      if (0 <=? b)%Z then
        (fix look (l : list (Z * node)) : res (list Z * option node) :=
           match l with
           | [] => Ok ([b], None)
           | (k, c) :: r => if (k =? b)%Z then ' (p, n) <- route c x ;; Ok (b :: p, n) else look r
           end) ch
      else Ok ([], Some t)
  | _ => Ok ([], Some t)
  end.

(** Change the node at a place. *)
Fixpoint update_at (t : node) (p : list Z) (f : node -> res node) : res node :=
  match p with
  | [] => f t
  | b :: q =>
      match t with
      | Split te st ch =>
          match dget ch b with
          | Some c => c' <- update_at c q f ;; Ok (Split te st (dset ch b c'))
          | None => Raise AttributeError
          end
      | _ => Raise AttributeError
      end
  end.
(** set_child, base.py 208-222 *)
Definition set_child (t : node) (b : Z) (n : node) : res node :=
  match t with
  | Split te st ch => if (0 <=? o_max O te)%Z && (o_max O te <=? b)%Z then Raise IndexError else Ok (Split te st (dset ch b n))
  | _ => Raise AttributeError
  end.
(** [if parent is None: self._tree_root = n else: parent.set_child(parent_branch, n)] *)
Definition replace_at (t : node) (p : list Z) (n : node) : res node :=
  match p with
  | [] => Ok n
  | b :: q => update_at t (removelast (b :: q)) (fun parent => set_child parent (last (b :: q) 0%Z) n)
  end.

(** __find_learning_nodes, hoeffding_tree.py 762-789: the learning nodes with their places *)
Fixpoint learning_nodes (t : node) : list (list Z * node) :=
  match t with
  | Split _ _ ch =>
      let sub := (fix go (l : list (Z * node)) : list (Z * list (list Z * node)) :=
                    match l with [] => [] | (k, c) :: r => (k, learning_nodes c) :: go r end) ch in
      flat_map (fun i => match dget sub (Z.of_nat i) with
                         | Some ns => map (fun pn => (Z.of_nat i :: fst pn, snd pn)) ns
                         | None => [] end) (seq 0 (length ch))
  | _ => [([], t)]
  end.
(** subtree_depth, base.py 107-116 and 294-308 *)
Fixpoint depth (t : node) : nat :=
  match t with
  | Split _ _ ch => (fix go (l : list (Z * node)) : nat := match l with [] => 0 | (_, c) :: r => Nat.max (depth c) (go r) end) ch + 1
  | _ => 0
  end.

(** ** The tree.  hoeffding_tree.py 183-192 *)
Record tree := mk_tree {
  t_root : option node;
  t_decision : Z; t_active : Z; t_inactive : Z;
  t_inactive_size : T; t_active_size : T; t_overhead : T;
  t_growth : bool; t_weight : T }.
(** __init__ and reset, hoeffding_tree.py 183-191, 235-247 *)
Definition tree_new : tree := mk_tree None 0 0 0 n0 n0 n1 true n0.

(** Configuration: max_byte_size, stop_mem_management, and [weight % memory_estimate_period == 0] *)
Record config := mk_cfg { c_max_bytes : T; c_stop : bool; c_period_due : T -> bool }.
(** calculate_object_size of a leaf and of the tree *)
Record sizes := mk_sizes { z_active : L -> T; z_inactive : I -> T; z_tree : tree -> T }.
Variables (cfg : config) (Z_ : sizes).

Definition with_root (s : tree) (r : node) (dd da di : Z) : tree :=
  mk_tree (Some r) (t_decision s + dd) (t_active s + da) (t_inactive s + di)
          (t_inactive_size s) (t_active_size s) (t_overhead s) (t_growth s) (t_weight s).
Definition root_of (s : tree) : res node := match t_root s with Some r => Ok r | None => Raise AttributeError end.

(** _deactivate_learning_node, hoeffding_tree.py 704-726 *)
Definition deactivate (s : tree) (p : list Z) (l : L) : res tree :=
  r <- root_of s ;; r' <- replace_at r p (Inactive (o_stop O l)) ;; Ok (with_root s r' 0 (-1) 1).
(** _activate_learning_node, hoeffding_tree.py 728-748 *)
Definition activate (s : tree) (p : list Z) (i : I) : res tree :=
  r <- root_of s ;; r' <- replace_at r p (Active (o_start O i)) ;; Ok (with_root s r' 0 1 (-1)).
Fixpoint deactivate_all (s : tree) (l : list (list Z * node)) : res tree :=
  match l with
  | [] => Ok s
  | (p, Active a) :: r => s' <- deactivate s p a ;; deactivate_all s' r
  | _ :: r => deactivate_all s r
  end.
Fixpoint activate_all (s : tree) (l : list (list Z * node)) : res tree :=
  match l with
  | [] => Ok s
  | (p, Inactive i) :: r => s' <- activate s p i ;; activate_all s' r
  | _ :: r => activate_all s r
  end.

(** The loop for max_active, hoeffding_tree.py 650-657: [k] more leaves may be tried *)
Definition active_bytes (s : tree) (n m : nat) : T :=
  ((nofZ (Z.of_nat m) * t_active_size s + nofZ (Z.of_nat (n - m)) * t_inactive_size s) * t_overhead s)%num.
Fixpoint max_active (s : tree) (n m k : nat) : nat :=
  match k with
  | 0%nat => m
  | Datatypes.S k => if (c_max_bytes cfg <? active_bytes s n (Datatypes.S m))%num then m else max_active s n (Datatypes.S m) k
  end.
(** _enforce_tracker_limit, hoeffding_tree.py 638-667 *)
Definition enforce (s : tree) : res tree :=
  let byte_size := ((t_active_size s + nofZ (t_inactive s) * t_inactive_size s) * t_overhead s)%num in
  if ((0 <? t_inactive s)%Z || (c_max_bytes cfg <? byte_size)%num) && c_stop cfg then
    Ok (mk_tree (t_root s) (t_decision s) (t_active s) (t_inactive s) (t_inactive_size s) (t_active_size s) (t_overhead s) false (t_weight s))
  else
    let found := match t_root s with Some r => learning_nodes r | None => [] end in
    let found := sort_stable (fun a b => o_before O (length (fst a), snd a) (length (fst b), snd b)) found in
    let m := max_active s (length found) 0 (length found) in
    let cutoff := (length found - m)%nat in
    s' <- deactivate_all s (firstn cutoff found) ;; activate_all s' (skipn cutoff found).

(** _estimate_model_byte_size, hoeffding_tree.py 669-693 *)
Definition estimate (s : tree) : res tree :=
  let found := match t_root s with Some r => map snd (learning_nodes r) | None => [] end in
  let act := fold_left (fun a n => match n with Active l => (a + z_active Z_ l)%num | _ => a end) found n0 in
  let ina := fold_left (fun a n => match n with Inactive i => (a + z_inactive Z_ i)%num | _ => a end) found n0 in
  ae <- (if (n0 <? act)%num then pydiv act (nofZ (t_active s)) else Ok (t_active_size s)) ;;
  ie <- (if (n0 <? ina)%num then pydiv ina (nofZ (t_inactive s)) else Ok (t_inactive_size s)) ;;
  let s1 := mk_tree (t_root s) (t_decision s) (t_active s) (t_inactive s) ie ae (t_overhead s) (t_growth s) (t_weight s) in
  let actual := z_tree Z_ s1 in
  oh <- pydiv actual (nofZ (t_active s) * ae + nofZ (t_inactive s) * ie)%num ;;
  let s2 := mk_tree (t_root s) (t_decision s) (t_active s) (t_inactive s) ie ae oh (t_growth s) (t_weight s) in
  if (c_max_bytes cfg <? actual)%num then enforce s2 else Ok s2.

(** [for i in range(num_splits()): new_split.set_child(i, new_child)], hoeffding_tree.py 619-622 *)
Fixpoint add_children (t : node) (l : L) (i : Z) (ds : list S) : res node :=
  match ds with [] => Ok t | d :: r => t' <- set_child t i (Active (o_child O l d)) ;; add_children t' l (i + 1) r end.

(** The end of _attempt_to_split, hoeffding_tree.py 611-631 *)
Definition apply_decision (s : tree) (p : list Z) (d : decision L S E) : res tree :=
  match d with
  | Keep l => r <- root_of s ;; r' <- update_at r p (fun _ => Ok (Active l)) ;; Ok (with_root s r' 0 0 0)
  | NullWins l => s' <- deactivate s p l ;; enforce s'
  | SplitOn l te ds =>
      n <- add_children (Split te (o_stats O l) []) l 0 ds ;;
      r <- root_of s ;; r' <- replace_at r p n ;;
      enforce (with_root s r' 1 (Z.of_nat (length ds) - 1) 0)
  end.

(** _partial_fit, hoeffding_tree.py 303-353 *)
Definition learn_found (s : tree) (p : list Z) (n : node) (x : X) (y : Y) (w : T) : res tree :=
  match n with
  | Active l =>
      l' <- o_learn O l x y w ;;
      r <- root_of s ;; r' <- update_at r p (fun _ => Ok (Active l')) ;;
      let s' := with_root s r' 0 0 0 in
      if t_growth s && o_due O l' then d <- o_decide O l' ;; apply_decision s' p d else Ok s'
  | Inactive i =>
      i' <- o_learn_inactive O i x y w ;;
      r <- root_of s ;; r' <- update_at r p (fun _ => Ok (Inactive i')) ;; Ok (with_root s r' 0 0 0)
  | Split te st ch =>
      if o_multiway O te then
        ' (te', b) <- o_add O te x ;;
        l' <- o_learn O (o_new O) x y w ;;
        r <- root_of s ;;
        r' <- update_at r p (fun _ => set_child (Split te' st ch) b (Active l')) ;;
        Ok (with_root s r' 0 1 0)
      else Ok s
  end.
Definition fit_one (s : tree) (x : X) (y : Y) (w : T) : res tree :=
  let '(s, r) := match t_root s with
                 | Some r => (s, r)
                 | None => let r := Active (o_new O) in
                           (mk_tree (Some r) (t_decision s) 1 (t_inactive s) (t_inactive_size s) (t_active_size s) (t_overhead s) (t_growth s) (t_weight s), r)
                 end in
  ' (p, n) <- route r x ;;
  s <- match n with
       | Some n => learn_found s p n x y w
       | None => r' <- replace_at r p (Active (o_new O)) ;; learn_found (with_root s r' 0 1 0) p (Active (o_new O)) x y w
       end ;;
  if c_period_due cfg (t_weight s) then estimate s else Ok s.
(** The loop of partial_fit, hoeffding_tree.py 296-299 *)
Definition fit_weighted (s : tree) (x : X) (y : Y) (w : T) : res tree :=
  if (w =? n0)%num then Ok s else
  fit_one (mk_tree (t_root s) (t_decision s) (t_active s) (t_inactive s) (t_inactive_size s) (t_active_size s) (t_overhead s) (t_growth s) (t_weight s + w)%num) x y w.

(** The node that answers for an instance, hoeffding_tree.py 368-376; [None]: the tree is empty *)
Definition answering (s : tree) (x : X) : res (option node) :=
  match t_root s with
  | None => Ok None
  | Some r =>
      ' (p, n) <- route r x ;;
      match n with
      | Some n => Ok (Some n)
      | None => (* found_node.parent *)
          (fix at_place (t : node) (p : list Z) : res (option node) :=
             match p with
             | [] => Ok (Some t)
             | b :: q => match t with Split _ _ ch => match dget ch b with Some c => at_place c q | None => Raise AttributeError end | _ => Raise AttributeError end
             end) r (removelast p)
      end
  end.
End Skeleton.
Arguments tree : clear implicits.
Arguments config : clear implicits.
Arguments sizes : clear implicits.
