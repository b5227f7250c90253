(** Models of BatchIncrementalClassifier (meta/batch_incremental.py) and AccuracyWeightedEnsembleClassifier
    (meta/accuracy_weighted_ensemble.py).

    Simplifications: labels are integers; all rows have the same number of features; copy.deepcopy of the base estimator is the
    value itself; predict and predict_proba leave an estimator as it is and return one answer per row, or raise.  The window
    is the list of the rows it holds so far: the arrays of the code also hold older rows, which are overwritten before they are
    used. *)
From Coq Require Import List ZArith Bool.
From Verif Require Import Base.Py Base.Num Base.Dict Model.Adwin Model.Knn Model.DataStream.
Import ListNotations.

(** A base estimator: fit(X, y, sample_weight), predict and predict_proba; [wl_weighted]: fit has a parameter named sample_weight *)
Record wlearner (X T B : Type) := mk_wlearner {
  wl_fit : B -> list (X * Z) -> option (list T) -> res B;
  wl_predict : B -> list X -> res (list Z);
  wl_proba : B -> list X -> res (list (list T));
  wl_weighted : bool }.
Arguments mk_wlearner {X T B}. Arguments wl_fit {X T B}. Arguments wl_predict {X T B}. Arguments wl_proba {X T B}. Arguments wl_weighted {X T B}.
(** Predictions for a matrix: one label per row *)
Definition labels_of {X T B} (L : wlearner X T B) (b : B) (xs : list X) : res (list Z) :=
  p <- wl_predict L b xs ;; if Nat.eqb (length p) (length xs) then Ok p else Raise ValueError.

(** *** BatchIncrementalClassifier *)
Section Batch.
Context {X T B : Type} {N : Num T} (L : wlearner X T B) (base : B) (w m : nat) (* window_size, n_estimators *).

(** [length (bi_win s)] is self.i (0 for -1) *)
Record batch := mk_batch { bi_ens : list B; bi_win : list (X * Z) }.
(** batch_incremental.py 77-86 *)
Definition bi_init : batch := mk_batch [] [].
(** [if sample_weight] for None or an array: an array of several numbers has no truth value *)
Definition truth (sw : option (list T)) : option exc := match sw with Some (_ :: _ :: _) => Some ValueError | _ => None end.
(** lines 118-140 for one row.  The weights stored in self.sample_weight are not used: fit gets the weights of the call. *)
Definition bi_row (sw : option (list T)) (s : batch) (row : X * Z) : batch * option exc :=
  if Nat.leb w (length (bi_win s)) then (s, Some IndexError)
  else match truth sw with
    | Some e => (s, Some e)
    | None =>
        let win := bi_win s ++ [row] in
        if Nat.eqb (length win) w then
          match (if Nat.leb m (length (bi_ens s)) then match bi_ens s with [] => None | _ :: r => Some r end else Some (bi_ens s)) with
          | None => (mk_batch (bi_ens s) win, Some IndexError)
          | Some ens =>
              match wl_fit L base win (if wl_weighted L then sw else None) with
              | Raise e => (mk_batch ens win, Some e)
              | Ok h => (mk_batch (ens ++ [h]) [], None)
              end
          end
        else (mk_batch (bi_ens s) win, None)
    end.
(** lines 88-142 *)
Fixpoint bi_partial_fit (sw : option (list T)) (rows : list (X * Z)) (s : batch) : batch * option exc :=
  match rows with
  | [] => (s, None)
  | row :: rows =>
      let '(s, e) := bi_row sw s row in
      match e with Some e => (s, Some e) | None => bi_partial_fit sw rows s end
  end.
(** lines 144-168: votes + 1. / len(self.ensemble) * h_i.predict(X) *)
Definition bi_proba (s : batch) (xs : list X) : res (list T) :=
  match bi_ens s with
  | [] => Ok (repeat n0 (length xs))
  | l =>
      foldM (fun votes h =>
        p <- labels_of L h xs ;; Ok (map (fun vp => (fst vp + n1 / nofZ (Z.of_nat (length l)) * nofZ (snd vp))%num) (combine votes p))) l (repeat n0 (length xs))
  end.
(** lines 170-185 *)
Definition bi_predict (s : batch) (xs : list X) : res (list Z) :=
  votes <- bi_proba s xs ;; Ok (map (fun v => if (n1 / nofZ 2 <=? v)%num then 1%Z else 0%Z) votes).
(** lines 187-199 *)
Definition bi_reset (s : batch) : batch := mk_batch [] [].

Inductive bop := BFit (rows : list (X * Z)) (sw : option (list T)) | BReset.
Definition bi_step (s : batch) (o : bop) : batch * option exc :=
  match o with BFit rows sw => bi_partial_fit sw rows s | BReset => (bi_reset s, None) end.
(** A history of calls; a caller may go on after an exception *)
Fixpoint bi_run (s : batch) (os : list bop) : batch * list (option exc) :=
  match os with
  | [] => (s, [])
  | o :: os => let '(s1, e) := bi_step s o in let '(s2, es) := bi_run s1 os in (s2, e :: es)
  end.
End Batch.
Arguments batch : clear implicits. Arguments bop : clear implicits.

(** *** AccuracyWeightedEnsembleClassifier *)
Section Awe.
Context {X T B : Type} {N : Num T} (L : wlearner X T B) (base : B) (w n_estimators n_kept n_splits : nat)
  (kfold : nat -> nat -> res (list (list nat * list nat))). (* KFold(n_splits, shuffle=True, random_state=0).split of that many rows *)

(** WeightedClassifier, lines 86-107 *)
Record clf := mk_clf { cl_est : B; cl_weight : T; cl_seen : list Z }.
Record awe := mk_awe { aw_pool : list clf; aw_win : list (X * Z) }.
(** lines 124-149 *)
Definition awe_init : awe := mk_awe [] [].
(** compute_baseline, lines 423-451 *)
Definition baseline (ys : list Z) : T :=
  fold_left nadd (map (fun c =>
    let d := (nofZ (Z.of_nat (count_occ Z.eq_dec ys c)) / nofZ (Z.of_nat (length ys)))%num in
    (d * (n1 - d) * (n1 - d))%num) (np_unique ys)) n0.
(** np.where(labels == c)[0][0], when c is in labels *)
Fixpoint where_is (c : Z) (labels : list Z) : option nat :=
  match labels with [] => None | l :: r => if (l =? c)%Z then Some O else option_map S (where_is c r) end.
(** compute_score, lines 316-353 *)
Definition square_error (labels : list Z) (p : list T) (c : Z) : res T :=
  match where_is c labels with
  | None => Ok n1
  | Some i => match nth_error p i with None => Raise IndexError | Some v => Ok ((n1 - v) * (n1 - v))%num end
  end.
Definition score (b : B) (labels : list Z) (rows : list (X * Z)) : res T :=
  ps <- wl_proba L b (map fst rows) ;;
  if Nat.eqb (length ps) (length rows) then
    es <- mapM (fun pr => square_error labels (fst pr) (snd (snd pr))) (combine ps rows) ;;
    pydiv (fold_left nadd es n0) (nofZ (Z.of_nat (length rows)))
  else Raise IndexError.
(** The rows with the given indices *)
Definition rows_at (rows : list (X * Z)) (idx : list nat) : res (list (X * Z)) :=
  mapM (fun i => match nth_error rows i with Some r => Ok r | None => Raise IndexError end) idx.
(** compute_score_crossvalidation with folds, lines 374-391: the estimator of one fold is trained further for the next *)
Fixpoint cross (rows : list (X * Z)) (labels : list Z) (folds : list (list nat * list nat)) (b : B) (acc : T) : res T :=
  match folds with
  | [] => Ok acc
  | (tr, te) :: folds =>
      train <- rows_at rows tr ;;
      test <- rows_at rows te ;;
      b <- wl_fit L b train None ;;
      s <- score b labels test ;;
      cross rows labels folds b (acc + s / nofZ (Z.of_nat n_splits))%num
  end.
(** compute_weight, lines 396-421 *)
Definition weight_of (base_score s : T) : T := py_max n0 (base_score - s)%num.
(** min(self.models_pool, key=op.attrgetter("weight")): the index of the first least weight *)
Fixpoint least_from (l : list clf) (i best : nat) (v : T) : nat * T :=
  match l with
  | [] => (best, v)
  | c :: r => if (cl_weight c <? v)%num then least_from r (S i) i (cl_weight c) else least_from r (S i) best v
  end.
Definition drop_at {A} (i : nat) (l : list A) : list A := firstn i l ++ skipn (S i) l.
(** lines 184-222: a full chunk *)
Definition awe_chunk (rows : list (X * Z)) (pool : list clf) : res (list clf) :=
  let ys := map snd rows in
  let classes := np_unique ys in
  b <- wl_fit L base rows None ;;
  let base_score := baseline ys in
  folds <- kfold n_splits (length rows) ;;
  s <- cross rows classes folds base n0 ;;
  let new := mk_clf b (weight_of base_score s) classes in
  pool <- mapM (fun c => s <- score (cl_est c) (cl_seen c) rows ;; Ok (mk_clf (cl_est c) (weight_of base_score s) (cl_seen c))) pool ;;
  if Nat.ltb (length pool) n_kept then Ok (pool ++ [new])
  else match pool with
    | [] => Raise ValueError
    | c :: r =>
        let '(i, v) := least_from r 1 0 (cl_weight c) in
        if (v <? cl_weight new)%num then Ok (drop_at i pool ++ [new]) else Ok pool
    end.
(** lines 151-224; the arguments classes and sample_weight are not used *)
Fixpoint awe_partial_fit (rows : list (X * Z)) (s : awe) : res awe :=
  match rows with
  | [] => Ok s
  | row :: rows =>
      if Nat.leb w (length (aw_win s)) then Raise IndexError
      else
        let win := aw_win s ++ [row] in
        if Nat.eqb (length win) w then pool <- awe_chunk win (aw_pool s) ;; awe_partial_fit rows (mk_awe pool [])
        else awe_partial_fit rows (mk_awe (aw_pool s) win)
  end.
(** sorted(self.models_pool, key=lambda clf: clf.weight, reverse=True), which keeps the order of equal weights *)
Fixpoint insert_clf (c : clf) (l : list clf) : list clf :=
  match l with [] => [c] | d :: r => if (cl_weight d <=? cl_weight c)%num then c :: l else d :: insert_clf c r end.
Definition ranking (pool : list clf) : list clf := fold_right insert_clf [] pool.
Definition nabs (x : T) : T := if (x <? n0)%num then (n0 - x)%num else x.
(** weighted_votes[i][label] += or = model.weight / sum_weights *)
Definition vote (d : list (Z * T)) (label : Z) (v : T) : list (Z * T) :=
  dset d label (match dget d label with Some u => u + v | None => v end)%num.
(** max(dic.items(), key=op.itemgetter(1))[0] *)
Fixpoint best_from (d : list (Z * T)) (k : Z) (v : T) : Z :=
  match d with [] => k | (k', v') :: r => if (v <? v')%num then best_from r k' v' else best_from r k v end.
Definition best_label (d : list (Z * T)) : res Z := match d with [] => Raise ValueError | (k, v) :: r => Ok (best_from r k v) end.
(** predict, lines 259-304.  [dict()] * N is one dictionary for all rows. *)
Definition awe_predict (s : awe) (xs : list X) : res (list Z) :=
  match aw_pool s with
  | [] => Ok (map (fun _ => 0%Z) xs)
  | pool =>
      let ens := firstn n_estimators (ranking pool) in
      let sum := fold_left nadd (map (fun c => nabs (cl_weight c)) ens) n0 in
      let sum := if (sum =? n0)%num then n1 else sum in
      d <- foldM (fun d c => p <- labels_of L (cl_est c) xs ;; Ok (fold_left (fun d label => vote d label (cl_weight c / sum)%num) p d)) ens [] ;;
      mapM (fun _ => best_label d) xs
  end.
(** lines 309-314 *)
Definition awe_reset (s : awe) : awe := mk_awe [] [].
Inductive aop := AFit (rows : list (X * Z)) | AReset.
Definition awe_step (s : awe) (o : aop) : res awe := match o with AFit rows => awe_partial_fit rows s | AReset => Ok (awe_reset s) end.
Definition awe_run (os : list aop) : res awe := foldM awe_step os awe_init.
End Awe.
Arguments clf : clear implicits. Arguments awe : clear implicits. Arguments aop : clear implicits.
