(** The window based nearest neighbour learners: KNNClassifier, KNNADWINClassifier and KNNRegressor.

    Attribute and target values are of a type [V]; the window is the SlidingWindow of Model/SlidingWindow.v, with one
    target per sample.  sklearn's KDTree is an argument: [query pts x k] is the list of indices tree.query returns for
    the row [x].  A batch X is a list of rows. *)
From Coq Require Import ZArith List Bool.
From Verif Require Import Base.Py Base.Num Model.SlidingWindow Model.Adwin.
Import ListNotations.

(** One row given as a 1-D array (X[i], or the numpy scalar y[i]): get_dimensions sees one row of its size.
    utils/utils.py 11-36 *)
Definition as_row {V} (r : list V) : nd2 V := mkND (length r) [r].

(** np.argmax of one row: the first position of the greatest value. *)
Fixpoint argmax_from {T} `{Num T} (l : list T) (i best : nat) (m : T) : nat :=
  match l with
  | [] => best
  | v :: r => if (m <? v)%num then argmax_from r (S i) i v else argmax_from r (S i) best m
  end.
Definition np_argmax {T} `{Num T} (l : list T) : res nat :=
  match l with [] => Raise ValueError | v :: r => Ok (argmax_from r 1 0 v) end.

Section Knn.
Context {V : Type} (vint : V -> Z)                            (* int() of a target value *)
        (query : list (list V) -> list V -> Z -> list nat).   (* KDTree(features).query(x, k) *)

(** *** KNNClassifier.  lazy/knn_classifier.py, lazy/base_neighbors.py 11-26 *)
Record knn := mk_knn { kn_k : Z; kn_win : swin V; kn_classes : list Z }.

Definition knn_new (k window_size : Z) : knn := mk_knn k (sw_init window_size) [].

(** list(set().union(a, b)): only membership matters to the code. *)
Definition set_union (a b : list Z) : list Z := nodup Z.eq_dec (a ++ b).

(** for i in range(r): self.data_window.add_sample(X[i], y[i]) *)
Fixpoint add_rows (w : swin V) (rows : list (list V * V)) : swin V * res unit :=
  match rows with
  | [] => (w, Ok tt)
  | (x, y) :: r =>
      match sw_add w (as_row x) (as_row [y]) with
      | (w', Ok _) => add_rows w' r
      | (w', Raise e) => (w', Raise e)
      end
  end.

Definition add_classes (s : knn) (classes : option (list Z)) : knn :=
  match classes with
  | None => s
  | Some c => mk_knn (kn_k s) (kn_win s) (set_union (kn_classes s) c)
  end.

(** partial_fit.  knn_classifier.py 95-133 *)
Definition knn_fit (s : knn) (rows : list (list V * V)) (classes : option (list Z)) : knn * res unit :=
  let s := add_classes s classes in
  let '(w, r) := add_rows (kn_win s) rows in (mk_knn (kn_k s) w (kn_classes s), r).

(** [max(l)] of a non-empty list of ints *)
Definition zmax (l : list Z) : res Z :=
  match l with [] => Raise ValueError | x :: r => Ok (fold_left Z.max r x) end.

(** The votes of one row: [votes[int(targets_buffer[index])] += 1. / len(new_ind[i])].  knn_classifier.py 180-184 *)
Definition label_at (w : swin V) (index : nat) : res Z :=
  match nth_error (sw_targets w) index with
  | Some (y :: _) => Ok (vint y)
  | _ => Raise IndexError
  end.
Definition knn_votes {T} `{Num T} (w : swin V) (classes : list Z) (idx : list nat) : res (list T) :=
  m <- zmax classes ;;
  foldM (fun votes index =>
           c <- label_at w index ;;
           v <- py_get votes c ;;
           py_set votes c (v + nofZ 1 / nofZ (Z.of_nat (length idx)))%num)
        idx (repeat (nofZ 0) (Z.to_nat (m + 1))).

(** [X] row by row *)
Fixpoint mapM {A B} (f : A -> res B) (l : list A) : res (list B) :=
  match l with [] => Ok [] | a :: r => b <- f a ;; bs <- mapM f r ;; Ok (b :: bs) end.

(** predict_proba (it also extends self.classes).  knn_classifier.py 154-186 *)
Definition window_classes (w : swin V) : list Z := map vint (concat (sw_targets w)).
Definition knn_proba {T} `{Num T} (s : knn) (X : list (list V)) : res (list (list T) * knn) :=
  if (sw_size (kn_win s) <? kn_k s)%Z then Ok (map (fun _ => [nofZ 0]) X, s)
  else
    let cl := set_union (kn_classes s) (window_classes (kn_win s)) in
    p <- mapM (fun x => knn_votes (kn_win s) cl (query (sw_features (kn_win s)) x (kn_k s))) X ;;
    Ok (p, mk_knn (kn_k s) (kn_win s) cl).

(** predict: np.argmax of each row.  knn_classifier.py 135-152 *)
Definition knn_predict {T} `{Num T} (s : knn) (X : list (list V)) : res (list nat * knn) :=
  ' (p, s') <- knn_proba (T := T) s X ;;
  l <- mapM np_argmax p ;; Ok (l, s').

(** reset: the window only (self.classes stays).  base_neighbors.py 34-38 *)
Definition knn_reset (s : knn) : knn := mk_knn (kn_k s) (sw_reset (kn_win s)) (kn_classes s).

(** *** KNNADWINClassifier.  lazy/knn_adwin.py *)

(** The change detector: what the classifier uses of ADWIN. *)
Record detector (D : Type) := mk_det {
  d_add : D -> bool -> res D;    (* add_element(0 or 1) *)
  d_change : D -> res (D * bool);  (* detected_change(): ADWIN runs its test in this call *)
  d_width : D -> Z;              (* width *)
  d_new : D                      (* ADWIN() *)
}.
Arguments d_add {D} _ _ _.
Arguments d_change {D} _ _.
Arguments d_width {D} _ _.
Arguments d_new {D} _.

Record kad (D : Type) := mk_kad { ka_knn : knn; ka_det : D }.
Arguments mk_kad {D} _ _.
Arguments ka_knn {D} _.
Arguments ka_det {D} _.

Definition kad_new {D} (P : detector D) (k window_size : Z) : kad D := mk_kad (knn_new k window_size) (d_new P).

(** [for i in range(r)]: add the sample, then tell the detector whether the window (that sample included) predicts it.
    knn_adwin.py 148-154; [eqv c y] is [c == y]. *)
Fixpoint kad_rows {D T} `{Num T} (P : detector D) (eqv : nat -> V -> bool) (s : kad D) (rows : list (list V * V))
  : res (kad D) :=
  match rows with
  | [] => Ok s
  | (x, y) :: r =>
      let '(w, o) := sw_add (kn_win (ka_knn s)) (as_row x) (as_row [y]) in
      _ <- o ;;
      let kn := mk_knn (kn_k (ka_knn s)) w (kn_classes (ka_knn s)) in
      ' (ok, kn') <-
        (if (kn_k kn <=? sw_size w)%Z
         then ' (l, kn') <- knn_predict (T := T) kn [x] ;;
              Ok (match l with [c] => eqv c y | _ => false end, kn')
         else Ok (false, kn)) ;;
      d' <- d_add P (ka_det s) ok ;;
      kad_rows P eqv (mk_kad kn' d') r
  end.

Fixpoint delete_oldest (n : nat) (w : swin V) : swin V :=
  match n with O => w | S k => delete_oldest k (sw_delete_oldest w) end.

(** partial_fit.  knn_adwin.py 114-161: [for i in range(size, width, -1)] deletes size - width samples *)
Definition kad_fit {D T} `{Num T} (P : detector D) (eqv : nat -> V -> bool) (s : kad D) (rows : list (list V * V))
    (classes : option (list Z)) : res (kad D) :=
  s <- kad_rows (T := T) P eqv (mk_kad (add_classes (ka_knn s) classes) (ka_det s)) rows ;;
  let w := kn_win (ka_knn s) in
  if (kn_k (ka_knn s) <=? sw_size w)%Z then
    ' (d, change) <- d_change P (ka_det s) ;;
    let w' := if change && (d_width P d <? sw_size w)%Z
              then delete_oldest (Z.to_nat (sw_size w - d_width P d)) w else w in
    Ok (mk_kad (mk_knn (kn_k (ka_knn s)) w' (kn_classes (ka_knn s))) d)
  else Ok s.

(** reset.  knn_adwin.py 100-112 *)
Definition kad_reset {D} (P : detector D) (s : kad D) : kad D := mk_kad (knn_reset (ka_knn s)) (d_new P).

(** ADWIN() as the detector (Model/Adwin.v).  The model's detected_change answers None when its loop has not stopped
    within the fuel, which adwin_never_raises excludes. *)
Definition adwin_detector {T} `{Num T} (delta : T) : detector (adwin T) :=
  mk_det _
    (fun s (b : bool) => match adwin_step s (AAdd (if b then nofZ 1 else nofZ 0)) with
                         | Ok (Some s') => Ok s' | Ok None => Raise ValueError | Raise e => Raise e end)
    (fun s => match adwin_detect s with Ok (Some r) => Ok r | Ok None => Raise ValueError | Raise e => Raise e end)
    (@ad_width T) (adwin_init delta).

End Knn.
Arguments mk_kad {V D} _ _.
Arguments ka_knn {V D} _.
Arguments ka_det {V D} _.
Arguments d_add {D} _ _ _.
Arguments d_change {D} _ _.
Arguments d_width {D} _ _.
Arguments d_new {D} _.

(** *** KNNRegressor.  lazy/knn_regressor.py *)
Section KnnReg.
Context {T : Type} `{Num T} (query : list (list T) -> list T -> Z -> list nat).

Inductive aggregation := AggMean | AggMedian.
Record knr := mk_knr { kr_k : Z; kr_win : swin T; kr_agg : aggregation }.

Definition knr_new (k window_size : Z) (agg : aggregation) : knr := mk_knr k (sw_init window_size) agg.

(** partial_fit.  knn_regressor.py 102-132 *)
Definition knr_fit (s : knr) (rows : list (list T * T)) : knr * res unit :=
  let '(w, r) := add_rows (kr_win s) rows in (mk_knr (kr_k s) w (kr_agg s), r).

(** np.median: the middle value of the sorted values, or the mean of the two middle ones.  [np_median] is an argument
    of the model only through [sort]. *)
Fixpoint insert (x : T) (l : list T) : list T :=
  match l with [] => [x] | y :: r => if (x <=? y)%num then x :: l else y :: insert x r end.
Definition sort (l : list T) : list T := fold_right insert [] l.
Definition median (l : list T) : T :=
  let s := sort l in let n := length l in
  if Nat.even n then ((nth (n / 2 - 1) s (nofZ 0) + nth (n / 2) s (nofZ 0)) / nofZ 2)%num else nth (n / 2) s (nofZ 0).
Definition mean (l : list T) : T := (fold_left nadd l (nofZ 0) / nofZ (Z.of_nat (length l)))%num.

(** _predict: the neighbours of all rows of [X] are aggregated into one number; too few samples: an array of r zeros,
    which numpy only converts to a number when r = 1.  knn_regressor.py 157-171, 152-154 *)
Definition knr_predict1 (s : knr) (X : list (list T)) : res T :=
  if (sw_size (kr_win s) <? kr_k s)%Z
  then if (length X =? 1)%nat then Ok (nofZ 0) else Raise ValueError
  else
    idx <- mapM (fun x => mapM (fun i => match nth_error (sw_targets (kr_win s)) i with
                                         | Some (y :: _) => Ok y | _ => Raise IndexError end)
                               (query (sw_features (kr_win s)) x (kr_k s))) X ;;
    Ok (match kr_agg s with AggMean => mean (concat idx) | AggMedian => median (concat idx) end).

(** predict.  knn_regressor.py 134-155 *)
Definition knr_predict (s : knr) (X : list (list T)) : res (list T) := mapM (fun _ => knr_predict1 s X) X.

Definition knr_reset (s : knr) : knr := mk_knr (kr_k s) (sw_reset (kr_win s)) (kr_agg s).
End KnnReg.
