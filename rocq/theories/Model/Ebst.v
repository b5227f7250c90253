(** Model of [NumericAttributeRegressionObserver] (trees/_attribute_observer/numeric_attribute_regression_observer.py:8-284), the
    extended binary search tree (E-BST) of regression trees.

    Simplifications: the loop that walks down to the insertion point is a recursion that rebuilds the path; the criterion's merit
    of the two sides is an argument [merit] (the pre-split distribution is fixed during a call); [None] is -inf.  The auxiliary
    sums are threaded as state ([aux]), with the additions and subtractions of the code. *)
From Coq Require Import List ZArith Bool.
From Verif Require Import Base.Py Base.Num Model.Suggestion Model.TargetStats.
Import ListNotations.

Section Ebst.
Context {T : Type} {N : Num T} {I : Type}.
Local Notation st := (stat T I).

(** Node / None; numeric_attribute_regression_observer.py:25-34 *)
Inductive bst := Leaf | Node (att_val : T) (s : st) (left right : bst).

(** Node.insert_value, numeric_attribute_regression_observer.py:38-68; update :74-81 (on None: a new node) *)
Fixpoint bst_insert (v : T) (y : I -> T) (w : T) (t : bst) : bst :=
  match t with
  | Leaf => Node v (s_one y w) Leaf Leaf
  | Node v0 s l r =>
      if (v =? v0)%num then Node v0 (s_add s (s_one y w)) l r
      else if (v <? v0)%num then Node v0 (s_add s (s_one y w)) (bst_insert v y w l) r
      else Node v0 s l (bst_insert v y w r)
  end.

(** update, numeric_attribute_regression_observer.py:74-81 *)
Definition ebst_update (t : bst) (o : option T * (I -> T) * T) : bst :=
  match o with (None, _, _) => t | (Some v, y, w) => bst_insert v y w t end.
Definition ebst_run (h : list (option T * (I -> T) * T)) : bst := fold_left ebst_update h Leaf.

(** AttributeSplitSuggestion: the test is None or "attribute <= v", the distributions [{}] or [left, right] *)
Definition esug := suggestion (option T) (option (st * st)) T.

Section Search.
Variable merit : st -> st -> option T.
Variable pre : st.

(** _find_best_split, numeric_attribute_regression_observer.py:115-158; the result carries the auxiliary sums *)
Fixpoint find_best (t : bst) (cand : esug) (aux : st) : esug * st :=
  match t with
  | Leaf => (cand, aux)
  | Node v s l r =>
      let '(cand, aux) := find_best l cand aux in
      let left := s_add s aux in
      let right := s_sub pre left in
      let m := merit left right in
      let cand := if mgt m (sg_merit cand) then mkSug (Some v) (Some (left, right)) m else cand in
      match r with
      | Leaf => (cand, aux)
      | Node _ _ _ _ =>
          let '(rc, aux) := find_best r cand (s_add aux s) in
          (if mgt (sg_merit rc) (sg_merit cand) then rc else cand, s_sub aux s)
      end
  end.

(** get_best_evaluated_split_suggestion, numeric_attribute_regression_observer.py:86-113 *)
Definition ebst_best (t : bst) : res esug :=
  match t with
  | Leaf => Raise AttributeError
  | Node _ _ _ _ => Ok (fst (find_best t (mkSug None None None) s_zero))
  end.

(** The test of line 268: (merit / last_check_sdr) < (last_check_ratio - 2 * last_check_e) *)
Definition is_bad (ratio sdr e : T) (m : option T) : res bool :=
  let bound := (ratio - nofZ 2 * e)%num in
  match m with
  | Some m => q <- pydiv m sdr ;; Ok (q <? bound)%num
  | None => if (sdr =? n0)%num then Raise ZeroDivisionError else Ok (n0 <? sdr)%num
  end.

(** _remove_bad_split_nodes, numeric_attribute_regression_observer.py:226-284: the tree that replaces the node ([Leaf] when it is
    removed), whether it was removed, and the auxiliary sums.  For a child that is None the code takes [is_bad = True] without a
    call. *)
Fixpoint remove_bad (ratio sdr e : T) (t : bst) (aux : st) : res (bst * bool * st) :=
  match t with
  | Leaf => Ok (Leaf, true, aux)
  | Node v s l r =>
      ' (l', bad, aux) <- remove_bad ratio sdr e l aux ;;
      ' (r', bad, aux) <- (if bad then
                             match r with
                             | Leaf => Ok (r, true, aux)
                             | Node _ _ _ _ =>
                                 ' (r', b, aux) <- remove_bad ratio sdr e r (s_add aux s) ;;
                                 Ok (r', b, s_sub aux s)
                             end
                           else Ok (r, false, aux)) ;;
      if bad then
        let left := s_add s aux in
        let right := s_sub pre left in
        b <- is_bad ratio sdr e (merit left right) ;;
        if b then Ok (Leaf, true, aux) else Ok (Node v s l' r', false, aux)
      else Ok (Node v s l' r', false, aux)
  end.

(** remove_bad_splits, numeric_attribute_regression_observer.py:160-224 *)
Definition ebst_prune (ratio sdr e : T) (t : bst) : res bst :=
  match t with
  | Leaf => Raise AttributeError
  | Node _ _ _ _ => ' (t', _, _) <- remove_bad ratio sdr e t s_zero ;; Ok t'
  end.
End Search.
End Ebst.
Arguments bst : clear implicits. Arguments esug : clear implicits.
