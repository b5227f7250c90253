(** Model of HalfSpaceTrees (anomaly_detection/half_space_trees.py).

    Simplifications: every row has at least the columns of the first call (a missing column is read as 0); the generator is a value
    of type [G] with [uniform] for uniform(0, 1) and [randint k] for randint(0, k), k > 0, which is below k; a node's depth and
    internal_node are its place in the tree; the flag is_learning_phase_on of the trees in use is that of the ensemble; the state
    after an exception is not modelled, except that it is as before when no tree has been built; RecursionError is RuntimeError. *)
From Coq Require Import List ZArith Bool.
From Verif Require Import Base.Py Base.Num Model.Adwin Model.Knn.
Import ListNotations.

Section HST.
Context {T G : Type} {N : Num T} (uniform : G -> T * G) (randint : nat -> G -> nat * G) (seed : G).
Variables (w depth n_estimators size_limit : nat) (threshold : T).

(** HalfSpaceTreeNode, half_space_trees.py 532-576: [cur] is left_mass, the mass of the latest window, and [ref] is right_mass, which the scores read *)
Inductive tree := Leaf (cur ref : nat) | Node (attr : nat) (val : T) (cur ref : nat) (l r : tree).
Definition ref_of (t : tree) : nat := match t with Leaf _ r => r | Node _ _ _ r _ _ => r end.
Definition cur_of (t : tree) : nat := match t with Leaf c _ => c | Node _ _ c _ _ _ => c end.
Definition col (x : list T) (a : nat) : T := nth a x n0.

(** build_tree, lines 434-463, with [d] levels below this one: max_values is restored, min_values is not.  The lists are those of the caller. *)
Fixpoint build (d n_features : nat) (mins maxs : list T) (g : G) : res (tree * list T * G) :=
  match d with
  | O => Ok (Leaf 0 0, mins, g)
  | S d =>
      if Nat.leb n_features 1 then Raise ValueError
      else
        let (a, g1) := randint (n_features - 1) g in
        let p := ((nth a mins n0 + nth a maxs n0) / nofZ 2)%num in
        ' (l, mins1, g2) <- build d n_features mins (set_nth maxs a p) g1 ;;
        ' (r, mins2, g3) <- build d n_features (set_nth mins1 a p) maxs g2 ;;
        Ok (Node a p 0 0 l r, mins2, g3)
  end.
(** HalfSpaceTree.__init__, lines 304-342: current_depth goes up from 1 and stops at max_depth *)
Definition build_tree (n_features : nat) (mins maxs : list T) (g : G) : res (tree * list T * G) :=
  match depth with O => Raise RuntimeError | S d => build d n_features mins maxs g end.

(** initialise_work_space, lines 235-252: every entry is drawn again for every tree *)
Fixpoint work_space (n : nat) (g : G) : list T * list T * G :=
  match n with
  | O => ([], [], g)
  | S n =>
      let (sq, g1) := uniform g in
      let m := (nofZ 2 * py_max sq (n1 - sq))%num in
      let '(mins, maxs, g2) := work_space n g1 in
      ((sq - m)%num :: mins, (sq + m)%num :: maxs, g2)
  end.
(** build_trees, lines 254-262 *)
Fixpoint build_trees (k n_features : nat) (g : G) : res (list tree * G) :=
  match k with
  | O => Ok ([], g)
  | S k =>
      let '(mins, maxs, g1) := work_space n_features g in
      ' (t, _, g2) <- build_tree n_features mins maxs g1 ;;
      ' (ts, g3) <- build_trees k n_features g2 ;;
      Ok (t :: ts, g3)
  end.

(** _update_mass, lines 481-509 *)
Fixpoint update_mass (x : list T) (reference : bool) (t : tree) : tree :=
  let up c := if reference then c else S c in
  let ur r := if reference then S r else r in
  match t with
  | Leaf c r => Leaf (up c) (ur r)
  | Node a v c r lt rt => if (v <? col x a)%num then Node a v (up c) (ur r) lt (update_mass x reference rt) else Node a v (up c) (ur r) (update_mass x reference lt) rt
  end.
(** update_model, lines 511-529 *)
Fixpoint update_model (t : tree) : tree :=
  match t with
  | Leaf c r => Leaf (if negb (Nat.eqb c 0) then 0 else c) (if negb (Nat.eqb r 0) || negb (Nat.eqb c 0) then c else r)
  | Node a v c r lt rt => Node a v (if negb (Nat.eqb c 0) then 0 else c) (if negb (Nat.eqb r 0) || negb (Nat.eqb c 0) then c else r) (update_model lt) (update_model rt)
  end.

Record hst := mk_hst { h_ens : list tree; h_seen : nat; h_learning : bool }.
Definition hst_init : hst := mk_hst [] 0 true.
(** _partial_fit, lines 146-171 *)
Definition fit_one (x : list T) (s : hst) : res hst :=
  let ens := map (update_mass x (Nat.ltb (h_seen s) w)) (firstn n_estimators (h_ens s)) ++ skipn n_estimators (h_ens s) in
  let learning := if h_learning s && Nat.ltb w (h_seen s) then false else h_learning s in
  if Nat.eqb w 0 then Raise ZeroDivisionError
  else
    let ens := if Nat.eqb (Nat.modulo (h_seen s) w) 0 then map update_model (firstn n_estimators ens) ++ skipn n_estimators ens else ens in
    Ok (mk_hst ens (S (h_seen s)) learning).
Fixpoint fit_rows (rows : list (list T)) (s : hst) : res hst := match rows with [] => Ok s | x :: r => s' <- fit_one x s ;; fit_rows r s' end.
(** partial_fit, lines 111-144: [n_features] is the number of columns of X *)
Definition hst_partial_fit (rows : list (list T)) (n_features : nat) (s : hst) : res hst :=
  s1 <- (if Nat.eqb (h_seen s) 0 then ' (ts, _) <- build_trees n_estimators n_features seed ;; Ok (mk_hst (h_ens s ++ ts) (h_seen s) (h_learning s)) else Ok s) ;;
  fit_rows rows s1.
(** A history of partial_fit calls *)
Fixpoint hst_run (n_features : nat) (batches : list (list (list T))) (s : hst) : res hst :=
  match batches with [] => Ok s | b :: r => s' <- hst_partial_fit b n_features s ;; hst_run n_features r s' end.

(** 2.0 ** k *)
Fixpoint pow2 (k : nat) : T := match k with O => n1 | S k => (nofZ 2 * pow2 k)%num end.
(** _anomaly_score, lines 408-432, at depth [d] *)
Fixpoint score (t : tree) (d : nat) (x : list T) : T :=
  match t with
  | Leaf _ r => (nofZ (Z.of_nat r) * pow2 d)%num
  | Node a v _ r lt rt => if Nat.leb r size_limit then (nofZ (Z.of_nat r) * pow2 d)%num else if (v <? col x a)%num then score rt (S d) x else score lt (S d) x
  end.
(** get_votes_for_instance, lines 371-391 *)
Definition tree_proba (learning : bool) (max_score : T) (x : list T) (t : tree) : T * T :=
  if learning then (n1 / nofZ 2, n1 / nofZ 2)%num
  else let a := (n1 - score t 1 x / max_score)%num in ((n1 - a)%num, a).
(** The running mean over the trees, lines 224-232 *)
Fixpoint running_mean (i : nat) (mean : T * T) (ps : list (T * T)) : T * T :=
  match ps with
  | [] => mean
  | p :: ps => let k := nofZ (Z.of_nat i + 1) in running_mean (S i) ((fst mean + (fst p - fst mean) / k)%num, (snd mean + (snd p - snd mean) / k)%num) ps
  end.
Definition nabs (v : T) : T := if (v <? n0)%num then (n0 - v)%num else v.
(** sklearn's normalize(norm='l1') of a row *)
Definition normalize2 (p : T * T) : T * T :=
  let s := (nabs (fst p) + nabs (snd p))%num in if (s =? n0)%num then p else ((fst p / s)%num, (snd p / s)%num).
(** predict_proba, lines 202-233 *)
Definition proba_row (s : hst) (x : list T) : T * T :=
  match map (tree_proba (h_learning s) (nofZ (Z.of_nat w) * pow2 depth)%num x) (firstn n_estimators (h_ens s)) with
  | [] => (n0, n0)
  | p :: ps => normalize2 (running_mean 1 p ps)
  end.
Definition hst_proba (s : hst) (xs : list (list T)) : list (T * T) := map (proba_row s) xs.
(** predict, lines 173-200: every row is judged by the first row's probabilities *)
Definition hst_predict (s : hst) (xs : list (list T)) : list Z :=
  map (fun _ => match hst_proba s xs with p :: _ => if (threshold <? snd p)%num then 1%Z else 0%Z | [] => 0%Z end) xs.
End HST.
Arguments tree : clear implicits. Arguments hst : clear implicits.
