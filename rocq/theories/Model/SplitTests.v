(** Models of the split tests (trees/_attribute_test/*.py) and of [Predicate] (rules/base_predicate.py:4-128).

    Simplifications: an instance is a list of numbers; for the multiway test the values are integers (they are dictionary keys).
    The textual describe_condition_for_branch is not modelled. *)
From Coq Require Import List ZArith Bool.
From Verif Require Import Base.Py Base.Num Base.Dict.
Import ListNotations.

(** X[i] on an array *)
Definition at_index {A} (X : list A) (i : Z) : res A :=
  let n := Z.of_nat (length X) in
  let i := if Z.ltb i 0 then (i + n)%Z else i in
  if Z.ltb i 0 then Raise IndexError else match nth_error X (Z.to_nat i) with Some v => Ok v | None => Raise IndexError end.

(** ** Predicates *)
Inductive op := OLt | OLe | OGt | OGe | OEq | ONe.
Definition op_eqb (a b : op) : bool := match a, b with OLt, OLt | OLe, OLe | OGt, OGt | OGe, OGe | OEq, OEq | ONe, ONe => true | _, _ => false end.
Record predicate (T : Type) := mkPred { p_att : Z; p_op : op; p_value : T }.
Arguments mkPred {T}. Arguments p_att {T}. Arguments p_op {T}. Arguments p_value {T}.
(** __eq__, base_predicate.py:125-128 *)
Definition pred_eqb {T} (a b : predicate T) : bool := Z.eqb (p_att a) (p_att b) && op_eqb (p_op a) (p_op b).

Section Tests.
Context {T : Type} {N : Num T}.
(** covers_instance, base_predicate.py:75-88 *)
Definition covers (p : predicate T) (X : list T) : res bool :=
  v <- at_index X (p_att p) ;;
  let c := p_value p in
  Ok (match p_op p with
      | OGt => (c <? v)%num | OLt => (v <? c)%num | OGe => (c <=? v)%num | OLe => (v <=? c)%num | OEq => (v =? c)%num | ONe => negb (v =? c)%num
      end).

(** The guard shared by the three tests (numeric_attribute_binary_test.py:13 and so on): self._att_idx > len(X) or < 0 *)
Definition no_attribute {A} (att : Z) (X : list A) : bool := Z.ltb (Z.of_nat (length X)) att || Z.ltb att 0.

(** ** Numeric test; numeric_attribute_binary_test.py:6-10 *)
Record numtest := mkNum { nt_att : Z; nt_value : T; nt_equal : bool }.
(** numeric_attribute_binary_test.py:12-18 *)
Definition num_branch (t : numtest) (X : list T) : res Z :=
  if no_attribute (nt_att t) X then Ok (-1)%Z else
  v <- at_index X (nt_att t) ;;
  if (v =? nt_value t)%num then Ok (if nt_equal t then 0 else 1)%Z
  else Ok (if (v <? nt_value t)%num then 0 else 1)%Z.
(** numeric_attribute_binary_test.py:33-37 *)
Definition num_rule (t : numtest) (branch : Z) : predicate T :=
  let equals_branch := (if nt_equal t then 0 else 1)%Z in
  let eq := Z.eqb branch equals_branch in
  mkPred (nt_att t) (if Z.eqb branch 0 then (if eq then OLe else OLt) else (if eq then OGe else OGt)) (nt_value t).

(** ** Nominal binary test; nominal_attribute_binary_test.py:18-27, 39-41 *)
Record nomtest := mkNom { mt_att : Z; mt_value : T }.
Definition nom_branch (t : nomtest) (X : list T) : res Z :=
  if no_attribute (mt_att t) X then Ok (-1)%Z else
  v <- at_index X (mt_att t) ;; Ok (if (v =? mt_value t)%num then 0 else 1)%Z.
Definition nom_rule (t : nomtest) (branch : Z) : predicate T :=
  mkPred (mt_att t) (if Z.eqb branch 0 then OEq else ONe) (mt_value t).
End Tests.

(** ** Nominal multiway test; nominal_attribute_multiway_test.py:19-25 *)
Record multitest := mkMulti { mw_att : Z; mw_map : list (Z * Z); mw_rev : list (Z * Z) }.
Definition multi_new (att : Z) (m : list (Z * Z)) : multitest := mkMulti att m (fold_left (fun r p => dset r (snd p) (fst p)) m []).
(** nominal_attribute_multiway_test.py:27-33 *)
Definition multi_branch (t : multitest) (X : list Z) : res Z :=
  if no_attribute (mw_att t) X then Ok (-1)%Z else
  v <- at_index X (mw_att t) ;; Ok (match dget (mw_map t) v with Some b => b | None => (-1)%Z end).
(** nominal_attribute_multiway_test.py:44-47 *)
Definition multi_rule (t : multitest) (branch : Z) : res (predicate Z) :=
  match dget (mw_rev t) branch with Some v => Ok (mkPred (mw_att t) OEq v) | None => Raise KeyError end.
(** nominal_attribute_multiway_test.py:52-69 *)
Definition multi_add (t : multitest) (v : Z) : res (multitest * Z) :=
  match dvals (mw_map t) with
  | [] => Raise ValueError
  | x :: l => let b := (fold_left Z.max l x + 1)%Z in Ok (mkMulti (mw_att t) (dset (mw_map t) v b) (dset (mw_rev t) b v), b)
  end.

(** ** NumericAttributeClassObserverBinaryTree (numeric_attribute_class_observer_binary_tree.py:8-63): the root is created by
    Node.__init__ (:16-23), which executes [self._class_count_left[label] += weight] on an empty dictionary. *)
Inductive ctree (T : Type) := CNone | CNode (cut : T) (left right : list (Z * T)) (l r : ctree T).
Arguments CNone {T}. Arguments CNode {T}.
Section Btree.
Context {T : Type} {N : Num T}.
(** d[k] += w *)
Definition dict_add_at (d : list (Z * T)) (k : Z) (w : T) : res (list (Z * T)) :=
  match dget d k with Some v => Ok (dset d k (v + w)%num) | None => Raise KeyError end.
Definition cnode_new (v : T) (label : Z) (w : T) : res (ctree T) :=
  left <- dict_add_at [] label w ;; Ok (CNode v left [] CNone CNone).
(** Node.insert_value :25-42 *)
Fixpoint cnode_insert (t : ctree T) (v : T) (label : Z) (w : T) : res (ctree T) :=
  match t with
  | CNone => cnode_new v label w
  | CNode cut cl cr l r =>
      if (v =? cut)%num then cl <- dict_add_at cl label w ;; Ok (CNode cut cl cr l r)
      else if (v <? cut)%num then cl <- dict_add_at cl label w ;; l <- cnode_insert l v label w ;; Ok (CNode cut cl cr l r)
      else cr <- dict_add_at cr label w ;; r <- cnode_insert r v label w ;; Ok (CNode cut cl cr l r)
  end.
(** update :53-61 *)
Definition ctree_update (t : ctree T) (att_val : option T) (label : Z) (w : T) : res (ctree T) :=
  match att_val with None => Ok t | Some v => cnode_insert t v label w end.
(** A user who catches the exception keeps the tree as it was (the assignment to _root did not happen) *)
Definition ctree_run (h : list (option T * Z * T)) : ctree T :=
  fold_left (fun t x => match ctree_update t (fst (fst x)) (snd (fst x)) (snd x) with Ok t' => t' | Raise _ => t end) h CNone.
End Btree.
