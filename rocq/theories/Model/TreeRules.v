(** Model of [HoeffdingTreeClassifier.get_model_rules] (trees/hoeffding_tree.py 791-816), [SplitNode.get_predicate]
    (trees/_nodes/base.py 331-332), the tests' [branch_rule] and [Rule.covers_instance] (rules/base_rule.py 62-79).

    Simplifications: as in Model/HoeffdingTree.v nominal values are compared through their dictionary keys, so a predicate of
    a nominal test compares keys; the deep copies of the rule under construction are values; drift detectors, names and
    texts of rules are not modelled. *)
From Coq Require Import List ZArith Bool.
From Verif Require Import Base.Py Base.Num Base.Dict Model.SplitTests Model.TreeSkeleton Model.HoeffdingTree.
Import ListNotations.

Section Rules.
Context {T : Type} {N : Num T} (key : T -> Z).
Local Notation dist := (list (Z * T)).
Local Notation tnode := (node (leaf T) dist dist (htest T)).

(** Predicates: of a numeric test, or [==] ([eq = true]) and [!=] of a nominal one; rules/base_predicate.py 4-128 *)
Inductive tpred := PNum (p : predicate T) | PKey (att : Z) (eq : bool) (val : Z).
(** covers_instance, rules/base_predicate.py 75-88 *)
Definition tpred_covers (p : tpred) (x : list T) : res bool :=
  match p with
  | PNum p => covers p x
  | PKey a eq v => u <- at_index (map key x) a ;; Ok (if eq then (u =? v)%Z else negb (u =? v)%Z)
  end.
(** branch_rule: numeric_attribute_binary_test.py:33-37, nominal_attribute_binary_test.py:39-41, nominal_attribute_multiway_test.py:44-47 *)
Definition ht_rule (t : htest T) (b : Z) : res tpred :=
  match t with
  | TNum t => Ok (PNum (num_rule t b))
  | TNom a v => Ok (PKey a (b =? 0)%Z v)
  | TMulti t => p <- multi_rule t b ;; Ok (PKey (p_att p) true (p_value p))
  end.

(** predicate_set, observed_class_distribution, class_idx; rules/base_rule.py 28-60 *)
Record rule := mk_rule { r_preds : list tpred; r_dist : dist; r_class : Z }.
(** recurse, hoeffding_tree.py 801-811: the children in the order of the dictionary, one predicate more for each;
    at a leaf a copy of the statistics and the first label with the greatest weight *)
Fixpoint node_rules (t : tnode) (cur : list tpred) : res (list rule) :=
  let leaf_rule st := c <- max_key st ;; Ok [mk_rule cur st c] in
  match t with
  | Active l => leaf_rule (lf_stats l)
  | Inactive st => leaf_rule st
  | Split te _ ch =>
      (fix go (l : list (Z * tnode)) : res (list rule) :=
         match l with
         | [] => Ok []
         | (i, c) :: r => p <- ht_rule te i ;; rs <- node_rules c (cur ++ [p]) ;; rest <- go r ;; Ok (rs ++ rest)
         end) ch
  end.
(** get_model_rules, hoeffding_tree.py 798-816: None has no attribute stats *)
Definition model_rules (s : ht T) : res (list rule) :=
  match t_root (ht_tree s) with Some r => node_rules r [] | None => Raise AttributeError end.
(** Rule.covers_instance, rules/base_rule.py 76-79 *)
Fixpoint covered (ps : list tpred) (x : list T) : res bool :=
  match ps with [] => Ok true | p :: r => b <- tpred_covers p x ;; if b then covered r x else Ok false end.
Definition rule_covers (r : rule) (x : list T) : res bool := covered (r_preds r) x.
End Rules.
Arguments tpred : clear implicits.
Arguments rule : clear implicits.
