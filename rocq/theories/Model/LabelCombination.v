(** Model of [LabelCombinationHoeffdingTreeClassifier] (trees/label_combination_hoeffding_tree.py, trees/_nodes/lc_htc_nodes.py): a Hoeffding
    tree whose classes are the label combinations read as binary numbers.

    Simplifications: those of [HoeffdingTree]; the labels of a sample are integers. *)
From Coq Require Import List ZArith Bool Ascii String DecimalString.
From Verif Require Import Base.Py Base.Num Base.Dict Model.Adwin Model.Knn Model.TreeSkeleton Model.HoeffdingTree.
Import ListNotations.

(** ** Texts *)
(** ''.join(str(e) for e in y), lc_htc_nodes.py 6 *)
Definition joined (y : list Z) : string := String.concat "" (map (fun e => NilZero.string_of_int (Z.to_int e)) y).
(** int(s, 2), lc_htc_nodes.py 7, for texts of digits and minus signs *)
Fixpoint bits (s : string) (acc : Z) : res Z :=
  match s with
  | EmptyString => Ok acc
  | String c r => if Ascii.eqb c "0" then bits r (2 * acc)%Z else if Ascii.eqb c "1" then bits r (2 * acc + 1)%Z else Raise ValueError
  end.
Definition int2 (s : string) : res Z :=
  match s with
  | EmptyString => Raise ValueError
  | String "-" EmptyString => Raise ValueError
  | String "-" r => z <- bits r 0 ;; Ok (- z)%Z
  | _ => bits s 0
  end.
(** transform_label, lc_htc_nodes.py 5-7 *)
Definition transform_label (y : list Z) : res Z := int2 (joined y).
(** str("{0:0"+str(n_labels)+"b}").format(index), then [int(e) for e in pred]: label_combination_hoeffding_tree.py 198-200.  A width may not
    be negative; zeros are put in front up to the width. *)
Fixpoint digits (p : positive) (acc : list Z) : list Z := match p with xH => 1%Z :: acc | xO q => digits q (0%Z :: acc) | xI q => digits q (1%Z :: acc) end.
Definition written (n_labels : Z) (index : nat) : res (list Z) :=
  if (n_labels <? 0)%Z then Raise ValueError else
  let d := match N.of_nat index with N0 => [0%Z] | Npos p => digits p [] end in
  Ok (repeat 0%Z (Z.to_nat n_labels - List.length d) ++ d).

Section LC.
Context {T : Type} {N : Num T}.
Variables (k : T) (phi : T -> T) (key : T -> Z) (cfg : ht_config T) (sz : sizes T (leaf T) (list (Z * T)) (list (Z * T)) (htest T)).
Local Notation O := (ht_ops k phi key cfg).
(** _new_learning_node, label_combination_hoeffding_tree.py 206-220: the learning nodes of lc_htc_nodes.py 10-80 translate the labels and
    learn as those of the Hoeffding tree. *)
Definition lc_ops : ops (list T) (list Z) T (leaf T) (list (Z * T)) (list (Z * T)) (htest T) :=
  mk_ops (list T) (list Z) T (leaf T) (list (Z * T)) (list (Z * T)) (htest T) (o_new O) (o_child O) (o_stop O) (o_start O)
    (fun l x y w => c <- transform_label y ;; o_learn O l x c w) (fun i x y w => c <- transform_label y ;; o_learn_inactive O i x c w)
    (o_due O) (o_decide O) (o_stats O) (o_stats_inactive O) (o_branch O) (o_multiway O) (o_add O) (o_max O) (o_before O).
(** __init__ and the setter, 122-156: [n_labels] must be given *)
Record lc := mk_lc { lc_tree : tree T (leaf T) (list (Z * T)) (list (Z * T)) (htest T); lc_n : Z }.
Definition lc_new (n_labels : option Z) : res lc := match n_labels with None => Raise ValueError | Some n => Ok (mk_lc tree_new n) end.
(** partial_fit, 158-177 with hoeffding_tree.py 287-301: the classes are left out; nothing is returned *)
Fixpoint lc_rows (t : tree T (leaf T) (list (Z * T)) (list (Z * T)) (htest T)) (rows : list (list T * list Z)) (ws : list T) : res (tree T (leaf T) (list (Z * T)) (list (Z * T)) (htest T)) :=
  match rows, ws with
  | (x, y) :: r, w :: wr => t' <- fit_weighted lc_ops (h_memory cfg) sz t x y w ;; lc_rows t' r wr
  | _, _ => Ok t
  end.
Definition lc_fit (s : lc) (rows : list (list T * list Z)) (classes : option (list Z)) (weights : option (list T)) : res lc :=
  let ws := match weights with Some ws => ws | None => repeat n1 (List.length rows) end in
  if Nat.eqb (List.length rows) (List.length ws) then t <- lc_rows (lc_tree s) rows ws ;; Ok (mk_lc t (lc_n s)) else Raise ValueError.
(** reset, hoeffding_tree.py 235-247 *)
Definition lc_reset (s : lc) : lc := mk_lc tree_new (lc_n s).
(** predict_proba, inherited; predict, label_combination_hoeffding_tree.py 179-204.  Rows of different lengths make an array of objects; the model
    keeps the rows. *)
Definition lc_proba (s : lc) (xs : list (list T)) : res (list (list T)) := ht_proba k phi key cfg (mk_htc (lc_tree s) None) xs.
Definition lc_predict (s : lc) (xs : list (list T)) : res (list (list Z)) :=
  p <- lc_proba s xs ;; mapM (fun row => i <- np_argmax row ;; written (lc_n s) i) p.
Inductive lc_event := LFit (rows : list (list T * list Z)) (classes : option (list Z)) (weights : option (list T)) | LReset.
Definition lc_step (s : lc) (e : lc_event) : res lc := match e with LFit r c w => lc_fit s r c w | LReset => Ok (lc_reset s) end.
Fixpoint lc_run (s : lc) (es : list lc_event) : res lc := match es with [] => Ok s | e :: r => s' <- lc_step s e ;; lc_run s' r end.
End LC.
Arguments lc : clear implicits.
Arguments lc_event : clear implicits.
