(** The part of the Hoeffding adaptive trees that is the same for classification and regression: nodes with error detectors and alternate
    trees, learning, replacement and votes (trees/_nodes/hatc_nodes.py, trees/_nodes/hatr_nodes.py).

    The contents of the leaves, the detectors and the split decision are given by a record [aops].  Simplifications: an object changed in
    place is replaced; [alearn] answers the node it was called on and, if the place of the node in its parent (or the root) was overwritten
    meanwhile, what is there now.  The adaptive trees never call _estimate_model_byte_size, so that the byte size estimates are 0 and, for
    max_byte_size >= 0, _enforce_tracker_limit (hoeffding_tree.py 627-661) does nothing but activate the inactive leaves that can be reached
    from the root, unless stop_mem_management is set: [a_restart].  growth_allowed is not looked at in these trees. *)
From Coq Require Import List ZArith Bool.
From Verif Require Import Base.Py Base.Num Base.Dict Model.TreeSkeleton.
Import ListNotations.

(** AdaLearningNode, InactiveLeaf, AdaSplitNode: hatc_nodes.py 49-78, 150-168 *)
Inductive anode (L I S E W : Type) : Type :=
| ALeaf (l : L)
| ADead (i : I)
| ASplit (test : E) (stats : S) (watch : W) (alt : option (anode L I S E W)) (children : list (Z * anode L I S E W)).
Arguments ALeaf {L I S E W}. Arguments ADead {L I S E W}. Arguments ASplit {L I S E W}.

(** _active_leaf_node_cnt, _inactive_leaf_node_cnt, _decision_node_cnt, alternate_trees_cnt, pruned_alternate_trees_cnt, switch_alternate_trees_cnt *)
Record counts := mk_counts { k_active : Z; k_inactive : Z; k_decision : Z; k_alternate : Z; k_pruned : Z; k_switched : Z }.
Definition count (c : counts) (a i d t p s : Z) : counts :=
  mk_counts (k_active c + a) (k_inactive c + i) (k_decision c + d) (k_alternate c + t) (k_pruned c + p) (k_switched c + s).

(** [P]: what a node predicts *)
Record aops (X Y T L I S E W P : Type) := mk_aops {
  a_new : L;                                   (* _new_learning_node() *)
  a_child : L -> S -> L;                       (* the leaf of a branch when the first leaf is split *)
  a_learn : L -> X -> Y -> T -> res L;         (* learn_one, up to the attempt to split *)
  a_due : L -> bool;                           (* total_weight - last_split_attempt_at >= grace_period *)
  a_decide : L -> res (decision L S E);        (* _attempt_to_split up to the decision; then last_split_attempt_at *)
  a_stats : L -> S;
  a_stop : L -> I;                             (* _deactivate_learning_node *)
  a_restart : L -> option L;                   (* the leaf made of it by the activation that follows at once, if it does *)
  a_branch : E -> X -> res Z;                  (* branch_for_instance *)
  a_grows : E -> Z -> bool;                    (* without a child for this branch, a new one is made *)
  a_add : E -> X -> res (E * Z);               (* add_new_branch(X[att]) *)
  a_max : E -> Z;                              (* max_branches() *)
  a_wnew : W;                                  (* the detector of a new split node *)
  a_see : W -> option P -> Y -> res (W * bool);(* add the error of the prediction; a change, and the error has not become smaller *)
  a_west : W -> T; a_wwidth : W -> T;          (* error_estimation, error_width of a split node *)
  a_lest : L -> T; a_lwidth : L -> T;          (* ... of a leaf *)
  a_bound : T -> T -> T -> T;                  (* the bound, of the error rate and the widths of the alternate tree and of the node *)
  a_vote : L -> X -> res P; a_vote_dead : I -> X -> res P; a_vote_split : S -> X -> res P  (* predict_one *)
}.
Arguments a_new {X Y T L I S E W P}. Arguments a_child {X Y T L I S E W P}. Arguments a_learn {X Y T L I S E W P}. Arguments a_due {X Y T L I S E W P}.
Arguments a_decide {X Y T L I S E W P}. Arguments a_stats {X Y T L I S E W P}. Arguments a_stop {X Y T L I S E W P}. Arguments a_restart {X Y T L I S E W P}.
Arguments a_branch {X Y T L I S E W P}. Arguments a_grows {X Y T L I S E W P}. Arguments a_add {X Y T L I S E W P}. Arguments a_max {X Y T L I S E W P}.
Arguments a_wnew {X Y T L I S E W P}. Arguments a_see {X Y T L I S E W P}. Arguments a_west {X Y T L I S E W P}. Arguments a_wwidth {X Y T L I S E W P}.
Arguments a_lest {X Y T L I S E W P}. Arguments a_lwidth {X Y T L I S E W P}. Arguments a_bound {X Y T L I S E W P}. Arguments a_vote {X Y T L I S E W P}.
Arguments a_vote_dead {X Y T L I S E W P}. Arguments a_vote_split {X Y T L I S E W P}.

Section Ada.
Context {X Y T L I S E W P : Type} {N : Num T} (O : aops X Y T L I S E W P).
Local Notation node := (anode L I S E W).

(** predict_one of a node *)
Definition avote (n : node) (x : X) : res P :=
  match n with ALeaf l => a_vote O l x | ADead i => a_vote_dead O i x | ASplit _ st _ _ _ => a_vote_split O st x end.
(** filter_instance_to_leaf, base.py 56-74 and 266-292: the node found ([None]: no such child).  Alternate trees are not entered. *)
Fixpoint aroute (t : node) (x : X) : res (option node) :=
  match t with
  | ASplit te _ _ _ ch =>
      b <- a_branch O te x ;;
      if (0 <=? b)%Z then
        (fix look (l : list (Z * node)) : res (option node) :=
           match l with [] => Ok None | (k, c) :: r => if (k =? b)%Z then aroute c x else look r end) ch
      else Ok (Some t)
  | _ => Ok (Some t)
  end.
(** n_leaves, hatc_nodes.py 66-68, 170-177; an inactive leaf has no such attribute *)
Fixpoint aleaves (t : node) : res Z :=
  match t with
  | ALeaf _ => Ok 1%Z
  | ADead _ => Raise AttributeError
  | ASplit _ _ _ _ ch =>
      (fix go (l : list (Z * node)) : res Z := match l with [] => Ok 0%Z | (_, c) :: r => a <- aleaves c ;; b <- go r ;; Ok (a + b)%Z end) ch
  end.
(** kill_tree_children, hatc_nodes.py 84-85, 276-293: nothing but the counters changes.  Of an alternate tree that is an inactive leaf, which
    there is none, see [hat_alternates_are_leaves], the model counts nothing. *)
Fixpoint akill (t : node) (c : counts) : counts :=
  match t with
  | ASplit _ _ _ _ ch =>
      (fix go (l : list (Z * node)) (c : counts) : counts :=
         match l with
         | [] => c
         | (_, n) :: r =>
             go r match n with
                  | ALeaf _ => count c (-1) 0 0 0 0 0
                  | ADead _ => count c 0 (-1) 0 0 0 0
                  | ASplit _ _ _ alt _ => akill n (match alt with Some a => count (akill a c) 0 0 0 0 1 0 | None => c end)
                  end
         end) ch c
  | _ => c
  end.
(** error_estimation and error_width *)
Definition aest (n : node) : res T := match n with ALeaf l => Ok (a_lest O l) | ASplit _ _ w _ _ => Ok (a_west O w) | ADead _ => Raise AttributeError end.
Definition awidth (n : node) : res T := match n with ALeaf l => Ok (a_lwidth O l) | ASplit _ _ w _ _ => Ok (a_wwidth O w) | ADead _ => Raise AttributeError end.
(** _ERROR_WIDTH_THRESHOLD, hoeffding_adaptive_tree.py 135 *)
Definition threshold : T := nofZ 300.

(** The split node made of a leaf, hoeffding_tree.py 619-624, base.py 208-222 *)
Definition asplit (l : L) (te : E) (ds : list S) : res node :=
  if (0 <=? a_max O te)%Z && (a_max O te <? Z.of_nat (length ds))%Z then Raise IndexError else
  Ok (ASplit te (a_stats O l) (a_wnew O) None (combine (map Z.of_nat (seq 0 (length ds))) (map (fun d => ALeaf (a_child O l d)) ds))).
(** learn_one of a leaf, hatc_nodes.py 87-124, with _attempt_to_split, hoeffding_tree.py 614-633.  [linked]: the place of the leaf can be
    reached from the root. *)
Definition aleaf_learn (linked : bool) (l : L) (x : X) (y : Y) (w : T) (c : counts) : res (node * option node * counts) :=
  l1 <- a_learn O l x y w ;;
  if a_due O l1 then
    d <- a_decide O l1 ;;
    match d with
    | Keep l2 => Ok (ALeaf l2, None, c)
    | NullWins l2 =>
        match (if linked then a_restart O l2 else None) with
        | Some l3 => Ok (ALeaf l2, Some (ALeaf l3), c)
        | None => Ok (ALeaf l2, Some (ADead (a_stop O l2)), count c (-1) 1 0 0 0 0)
        end
    | SplitOn l2 te ds => n <- asplit l2 te ds ;; Ok (ALeaf l2, Some n, count c (Z.of_nat (length ds) - 1) 0 1 0 0 0)
    end
  else Ok (ALeaf l1, None, c).
(** The checks for a new alternate tree and for its end, hatc_nodes.py 216-252: what becomes of the alternate tree.  The comparison with a
    split node as alternate tree, of which there is none either, keeps it. *)
Inductive verdict := Fresh | Stay | Prune | Switch.
Definition judge (self : node) (wt : W) (changed : bool) (alt : option node) (c : counts) : res (verdict * counts) :=
  if changed then Ok (Fresh, count c 0 0 0 1 0 0) else
  match alt with
  | None => Ok (Stay, c)
  | Some a =>
      aw <- awidth a ;;
      if (threshold <? a_wwidth O wt)%num && (threshold <? aw)%num then
        e <- aest a ;;
        let old := a_west O wt in
        let bound := a_bound O old aw (a_wwidth O wt) in
        if (bound <? old - e)%num then
          n <- aleaves self ;; m <- aleaves a ;;
          Ok (Switch, count (akill self (count c (m - n) 0 0 0 0 0)) 0 0 0 0 0 1)
        else if (bound <? e - old)%num then
          Ok (match a with ASplit _ _ _ _ _ => (Stay, count (akill a c) 0 0 0 0 1 0) | _ => (Prune, count c 0 0 0 0 1 0) end)
        else Ok (Stay, c)
      else Ok (Stay, c)
  end.
(** learn_one of a split node, hatc_nodes.py 193-273.  The alternate tree, and the leaf of a new branch, are taught with the parent of this
    node as theirs.  An inactive leaf does not accept the arguments. *)
Fixpoint alearn (linked : bool) (t : node) (x : X) (y : Y) (w : T) (c : counts) {struct t} : res (node * option node * counts) :=
  match t with
  | ALeaf l => aleaf_learn linked l x y w c
  | ADead _ => Raise TypeError
  | ASplit te st wt alt ch =>
      found <- aroute t x ;;
      p <- match found with None => Ok None | Some n => v <- avote n x ;; Ok (Some v) end ;;
      ' (wt, changed) <- a_see O wt p y ;;
      ' (v, c) <- judge t wt changed alt c ;;
      ' (alt, over, c) <-
        match v with
        | Fresh => ' (a, r, c) <- aleaf_learn linked (a_new O) x y w c ;; Ok (Some a, r, c)
        | Prune => Ok (None, None, c)
        | _ => match alt with
               | None => Ok (None, None, c)
               | Some a => ' (a, r, c) <- alearn linked a x y w c ;;
                           Ok (Some a, match r, v with Some n, _ => Some n | None, Switch => Some a | None, _ => None end, c)
               end
        end ;;
      b <- a_branch O te x ;;
      (fix look (l rev_seen : list (Z * node)) : res (node * option node * counts) :=
         match l with
         | [] =>
             if a_grows O te b then
               ' (te, b) <- a_add O te x ;;
               if (0 <=? a_max O te)%Z && (a_max O te <=? b)%Z then Raise IndexError else
               ' (n, r, c) <- aleaf_learn linked (a_new O) x y w (count c 1 0 0 0 0 0) ;;
               Ok (ASplit te st wt alt (dset ch b n), match r with Some n => Some n | None => over end, c)
             else Ok (ASplit te st wt alt ch, over, c)
         | (k, n) :: r =>
             if (k =? b)%Z then
               ' (n, s, c) <- alearn (linked && match over with None => true | Some _ => false end) n x y w c ;;
               Ok (ASplit te st wt alt (rev rev_seen ++ (k, match s with Some m => m | None => n end) :: r), over, c)
             else look r ((k, n) :: rev_seen)
         end) ch []
  end.

(** filter_instance_to_leaves, hatc_nodes.py 142-147, 296-315, without update_splitter_counts: the nodes found, with the branch they are
    found for (-999 in an alternate tree).  An inactive leaf has no such method. *)
Fixpoint afound (t : node) (x : X) (branch : Z) : res (list (node * Z)) :=
  match t with
  | ALeaf _ => Ok [(t, branch)]
  | ADead _ => Raise AttributeError
  | ASplit te _ _ alt ch =>
      b <- a_branch O te x ;;
      main <- (if (0 <=? b)%Z then
                 (fix look (l : list (Z * node)) : res (list (node * Z)) :=
                    match l with [] => Ok [(t, b)] | (k, c) :: r => if (k =? b)%Z then afound c x branch else look r end) ch
               else Ok []) ;;
      side <- match alt with None => Ok [] | Some a => afound a x (-999)%Z end ;;
      Ok (main ++ side)
  end.
(** subtree_depth, base.py 294-308 *)
Fixpoint adepth (t : node) : nat :=
  match t with
  | ASplit _ _ _ _ ch => (fix go (l : list (Z * node)) : nat := match l with [] => 0 | (_, c) :: r => Nat.max (adepth c) (go r) end) ch + 1
  | _ => 0
  end.
End Ada.
