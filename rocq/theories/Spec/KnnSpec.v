(** Vocabulary for the nearest neighbour learners. *)
From Coq Require Import List ZArith Reals Permutation Sorted.
From Verif Require Import Base.Py Base.Num Spec.Lists Spec.WindowSpec Model.SlidingWindow Model.Knn.
Import ListNotations.

(** [idx] are the positions of [k] different points of [pts], none of the others being nearer to [x]. *)
Definition k_nearest {V} (dist : list V -> list V -> R) (pts : list (list V)) (x : list V) (k : nat) (idx : list nat)
  : Prop :=
  length idx = k /\ NoDup idx /\ (forall i, In i idx -> i < length pts)
  /\ forall i j, In i idx -> j < length pts -> ~ In j idx -> (dist (nth i pts []) x <= dist (nth j pts []) x)%R.

(** How many of the samples [idx] of the window have the label [c]. *)
Definition votes_for {V} (vint : V -> Z) (w : list (list V * list V)) (idx : list nat) (c : nat) : nat :=
  length (filter (fun i => match nth_error w i with Some (_, [y]) => Z.eqb (vint y) (Z.of_nat c) | _ => false end) idx).

(** The smallest label with the most votes. *)
Definition majority {V} (vint : V -> Z) (w : list (list V * list V)) (idx : list nat) (c : nat) : Prop :=
  (forall c', votes_for vint w idx c' <= votes_for vint w idx c)
  /\ (forall c', c' < c -> votes_for vint w idx c' < votes_for vint w idx c).

(** The calls of a user. *)
Inductive kop (V : Type) : Type :=
| KFit (rows : list (list V * V)) (classes : option (list Z))
| KPredict (X : list (list V))
| KReset.
Arguments KFit {V} _ _.
Arguments KPredict {V} _.
Arguments KReset {V}.

(** What they do to a window of samples. *)
Definition window_ops {V} (o : kop V) : list (wop V) :=
  match o with
  | KFit rows _ => map (fun '(x, y) => WAdd (x, [y])) rows
  | KPredict _ => []
  | KReset => [WReset]
  end.

Definition knn_step {V} (T : Type) `{Num T} vint query (s : @knn V) (o : kop V) : res knn :=
  match o with
  | KFit rows classes => match knn_fit s rows classes with (s', Ok _) => Ok s' | (_, Raise e) => Raise e end
  | KPredict X => ' (_, s') <- knn_predict (T := T) vint query s X ;; Ok s'
  | KReset => Ok (knn_reset s)
  end.
Fixpoint knn_run {V} (T : Type) `{Num T} vint query (s : @knn V) (ops : list (kop V)) : res knn :=
  match ops with [] => Ok s | o :: r => s' <- knn_step T vint query s o ;; knn_run T vint query s' r end.

(** The labels given to partial_fit convert to ints that are not negative. *)
Definition labels_ok {V} (vint : V -> Z) (o : kop V) : Prop :=
  match o with KFit rows _ => Forall (fun p => (0 <= vint (snd p))%Z) rows | _ => True end.

(** For KNNADWINClassifier. *)
Definition kad_step {V D} (T : Type) `{Num T} vint query (P : detector D) eqv (s : @kad V D) (o : kop V) : res (kad D) :=
  match o with
  | KFit rows classes => kad_fit (T := T) vint query P eqv s rows classes
  | KPredict X => ' (_, k') <- knn_predict (T := T) vint query (ka_knn s) X ;; Ok (mk_kad k' (ka_det s))
  | KReset => Ok (kad_reset P s)
  end.
Fixpoint kad_run {V D} (T : Type) `{Num T} vint query (P : detector D) eqv (s : @kad V D) (ops : list (kop V))
  : res (kad D) :=
  match ops with [] => Ok s | o :: r => s' <- kad_step T vint query P eqv s o ;; kad_run T vint query P eqv s' r end.

(** The samples given since the last reset, oldest first. *)
Definition samples_seen {V} (ops : list (kop V)) : list (list V * list V) :=
  fold_left (fun acc o => match o with
                          | KFit rows _ => acc ++ map (fun '(x, y) => (x, [y])) rows
                          | KPredict _ => acc
                          | KReset => [] end) ops [].

(** A detector whose window grows by one with every element and only shrinks, by saying so, in detected_change. *)
Definition window_detector {D} (P : detector D) : Prop :=
  exists I : D -> Prop,
    I (d_new P) /\ d_width P (d_new P) = 0%Z
    /\ (forall d b, I d -> exists d', d_add P d b = Ok d' /\ I d' /\ d_width P d' = (d_width P d + 1)%Z)
    /\ (forall d, I d -> exists d' b, d_change P d = Ok (d', b) /\ I d' /\ (0 <= d_width P d' <= d_width P d)%Z
                         /\ (b = false -> d_width P d' = d_width P d)).

(** Calls of the regressor. *)
Definition knr_step {T} `{Num T} (s : @knr T) (o : kop T) : res (@knr T) :=
  match o with
  | KFit rows _ => match knr_fit s rows with (s', Ok _) => Ok s' | (_, Raise e) => Raise e end
  | KPredict _ => Ok s
  | KReset => Ok (knr_reset s)
  end.
Fixpoint knr_run {T} `{Num T} (s : @knr T) (ops : list (kop T)) : res (@knr T) :=
  match ops with [] => Ok s | o :: r => s' <- knr_step s o ;; knr_run s' r end.

(** The targets of the samples [idx] of the window. *)
Definition targets_of (w : list (list R * list R)) (idx : list nat) : list R :=
  flat_map (fun i => match nth_error w i with Some (_, y) => y | None => [] end) idx.

(** [m] is the median of [l]: the middle of the values put in order (the mean of the two middle ones). *)
Definition is_median (m : R) (l : list R) : Prop :=
  exists s, Permutation s l /\ Sorted Rle s
    /\ m = ((nth ((length l - 1) / 2) s 0 + nth (length l / 2) s 0) / 2)%R.
