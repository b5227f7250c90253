(** What the ensembles of estimators trained on windows do. *)
From Coq Require Import List ZArith Permutation Reals.
From Verif Require Import Base.Py Base.Num Model.Windowed Spec.Lists.
Import ListNotations.

(** *** Windows: [rows] is cut into the full windows [ws] of [w] rows, and the rows [rest] of a window not yet full. *)
Definition cut {A} (w : nat) (rows : list A) (ws : list (list A)) (rest : list A) : Prop :=
  rows = concat ws ++ rest /\ Forall (fun x => length x = w) ws /\ length rest < w.
(** The rows given since the object was new or reset *)
Fixpoint given_rows {X T} (acc : list (X * Z)) (os : list (bop X T)) : list (X * Z) :=
  match os with [] => acc | BFit rows _ :: os => given_rows (acc ++ rows) os | BReset :: os => given_rows [] os end.
Definition unweighted {X T} (o : bop X T) : Prop := match o with BFit _ (Some _) => False | _ => True end.
Fixpoint awe_rows {X} (acc : list (X * Z)) (os : list (aop X)) : list (X * Z) :=
  match os with [] => acc | AFit rows :: os => awe_rows (acc ++ rows) os | AReset :: os => awe_rows [] os end.

(** *** Accuracy weighted ensemble, over the real numbers *)
Local Open Scope R_scope.
(** The share of label [c] among the labels [ys] *)
Definition share (ys : list Z) (c : Z) : R := INR (count_occ Z.eq_dec ys c) / INR (length ys).
(** The mean square error of a classifier that draws a label according to the shares: the sum of p(c) (1 - p(c))^2 *)
Definition random_error (ys : list Z) : R := Rsum (map (fun c => share ys c * (1 - share ys c) ^ 2) (nodup Z.eq_dec ys)).
(** The probability of label [c] when the columns of the probabilities stand for [labels]; 0 for other labels *)
Fixpoint prob_of (labels : list Z) (p : list R) (c : Z) : R :=
  match labels, p with l :: ls, v :: ps => if Z.eqb l c then v else prob_of ls ps c | _, _ => 0 end.
(** The mean square error of the probabilities [P] given to the rows *)
Definition mse {X} (labels : list Z) (P : list (list R)) (rows : list (X * Z)) : R :=
  Rmean (map (fun pr => (1 - prob_of labels (fst pr) (snd (snd pr))) ^ 2) (combine P rows)).
(** [c'] is the classifier [c] with the weight it deserves on the rows. *)
Definition reweighted {X B} (L : wlearner X R B) (rows : list (X * Z)) (c c' : clf R B) : Prop :=
  cl_est c' = cl_est c /\ cl_seen c' = cl_seen c /\
  exists P, wl_proba L (cl_est c) (map fst rows) = Ok P /\ length P = length rows /\
    cl_weight c' = Rmax 0 (random_error (map snd rows) - mse (cl_seen c) P rows).
(** The pool after [new] came: it is added when there is room; otherwise it takes the place of a classifier of least weight, if its weight is greater. *)
Definition admitted {B} (K : nat) (new : clf R B) (pool pool' : list (clf R B)) : Prop :=
  ((length pool < K)%nat /\ pool' = pool ++ [new]) \/
  ((K <= length pool)%nat /\ exists a c b, pool = a ++ c :: b /\ Forall (fun d => cl_weight c <= cl_weight d) pool /\
    ((cl_weight c < cl_weight new /\ pool' = a ++ b ++ [new]) \/ (cl_weight new <= cl_weight c /\ pool' = pool))).
(** [ens] are [K] classifiers of greatest weight (all of them when there are fewer). *)
Definition top {B} (K : nat) (pool ens : list (clf R B)) : Prop :=
  length ens = Nat.min K (length pool) /\ exists rest, Permutation pool (ens ++ rest) /\
  forall a b, In a ens -> In b rest -> cl_weight b <= cl_weight a.
(** The total weight of the classifiers that answered [l] *)
Definition support {B} (ens : list (clf R B)) (answers : list Z) (l : Z) : R :=
  Rsum (map (fun ca => if Z.eqb (snd ca) l then cl_weight (fst ca) else 0) (combine ens answers)).

(** *** Cross-validation *)
(** [sub] are the rows with the indices [idx]. *)
Definition picked {A} (rows : list A) (idx : list nat) (sub : list A) : Prop := Forall2 (fun i r => nth_error rows i = Some r) idx sub.
(** The error, on the test rows of a fold, of the base estimator trained on the training rows of that fold alone *)
Definition fold_error {X B} (L : wlearner X R B) (base : B) (labels : list Z) (rows : list (X * Z)) (fold : list nat * list nat) (e : R) : Prop :=
  exists train test b P, picked rows (fst fold) train /\ picked rows (snd fold) test /\ wl_fit L base train None = Ok b /\
    wl_proba L b (map fst test) = Ok P /\ length P = length test /\ e = mse labels P test.
(** The estimator starts anew at each fit, as scikit-learn's do. *)
Definition starts_anew {X T B} (L : wlearner X T B) : Prop := forall b b' rows sw, wl_fit L b rows sw = wl_fit L b' rows sw.
(** *** An estimator that does not fail, and gives at least [C] probabilities to each row *)
Definition sound {X T B} (L : wlearner X T B) (C : nat) : Prop :=
  (forall b rows, exists b', wl_fit L b rows None = Ok b') /\
  (forall b xs, exists p, wl_predict L b xs = Ok p /\ length p = length xs) /\
  (forall b xs, exists P, wl_proba L b xs = Ok P /\ length P = length xs /\ Forall (fun p => (C <= length p)%nat) P).
(** Folds of [n] rows: the indices are those of rows, and each fold has a test row. *)
Definition sound_folds (n : nat) (folds : list (list nat * list nat)) : Prop :=
  Forall (fun f => Forall (fun i => (i < n)%nat) (fst f) /\ Forall (fun i => (i < n)%nat) (snd f) /\ snd f <> []) folds.
(** Labels 0 .. C-1 *)
Definition labels_below {X} (C : nat) (o : aop X) : Prop :=
  match o with AFit rows => Forall (fun r => (0 <= snd r < Z.of_nat C)%Z) rows | AReset => True end.
