(** Model of [GaussianEstimator] (trees/gaussian_estimator.py:5-97) and [NumericAttributeClassObserverGaussian]
    (trees/_attribute_observer/numeric_attribute_class_observer_gaussian.py:10-101).

    Simplifications: class labels are integers; an attribute value is [Some x], or [None] for None and for ±inf given to the
    estimator; math.sqrt(2 * math.pi) ([k]) and normal_probability ([phi]) are arguments.  A dictionary entry holding a
    mutable estimator is replaced by the updated estimator. *)
From Coq Require Import List ZArith Bool.
From Verif Require Import Base.Py Base.Num Base.Dict Model.Suggestion.
Import ListNotations.

Section Gaussian.
Context {T : Type} {N : Num T}.

Record gauss := mkG { g_w : T; g_mean : T; g_vs : T }.
(** gaussian_estimator.py:12-16 *)
Definition g_new : gauss := mkG n0 n0 n0.

(** gaussian_estimator.py:18-42 *)
Definition g_add (g : gauss) (value : option T) (weight : T) : res gauss :=
  match value with
  | None => Ok g
  | Some value =>
      if (n0 <? g_w g)%num then
        let w := (g_w g + weight)%num in
        d <- pydiv (weight * (value - g_mean g))%num w ;;
        let mean := (g_mean g + d)%num in
        Ok (mkG w mean (g_vs g + weight * (value - g_mean g) * (value - mean))%num)
      else Ok (mkG weight value (g_vs g))
  end.

(** gaussian_estimator.py:44-54 *)
Definition g_total (g : gauss) : T := g_w g.
Definition g_variance (g : gauss) : T := if (n1 <? g_w g)%num then (g_vs g / (g_w g - n1))%num else n0.
Definition g_std (g : gauss) : res T := py_sqrt (g_variance g).

(** gaussian_estimator.py:56-79 *)
Definition g_density (k : T) (g : gauss) (value : T) : res T :=
  if (n0 <? g_w g)%num then
    std <- g_std g ;;
    if (n0 <? std)%num then
      let diff := (value - g_mean g)%num in
      a <- pydiv n1 (k * std)%num ;;
      b <- pydiv (diff * diff)%num (nofZ 2 * std * std)%num ;;
      Ok (a * nexp (n0 - b))%num
    else if (value =? g_mean g)%num then Ok n1 else Ok n0
  else Ok n0.

(** gaussian_estimator.py:81-97 *)
Definition g_estimate (k : T) (phi : T -> T) (g : gauss) (value : T) : res (T * T * T) :=
  d <- g_density k g value ;;
  let equalto := (d * g_w g)%num in
  std <- g_std g ;;
  less <- (if (n0 <? std)%num then
             z <- pydiv (value - g_mean g)%num std ;; Ok (phi z * g_w g - equalto)%num
           else if (value <? g_mean g)%num then Ok (g_w g - equalto)%num else Ok n0) ;;
  let greater := (g_w g - equalto - less)%num in
  let greater := if (greater <? n0)%num then n0 else greater in
  Ok (less, equalto, greater).

(** ** The observer; numeric_attribute_class_observer_gaussian.py:16-21 *)
Record gobs := mkGO { go_min : list (Z * T); go_max : list (Z * T); go_dist : list (Z * gauss) }.
Definition go_new : gobs := mkGO [] [] [].

(** numeric_attribute_class_observer_gaussian.py:23-44.  [None]: att_val is None (the value is finite otherwise). *)
Definition go_update (o : gobs) (att_val : option T) (c : Z) (weight : T) : res gobs :=
  match att_val with
  | None => Ok o
  | Some a =>
      match dget (go_dist o) c, dget (go_min o) c, dget (go_max o) c with
      | Some g, Some mn, Some mx =>
          g' <- g_add g (Some a) weight ;;
          Ok (mkGO (if (a <? mn)%num then dset (go_min o) c a else go_min o)
                   (if (mx <? a)%num then dset (go_max o) c a else go_max o)
                   (dset (go_dist o) c g'))
      | _, _, _ => (* except KeyError *)
          g' <- g_add g_new (Some a) weight ;;
          Ok (mkGO (dsort (dset (go_min o) c a)) (dsort (dset (go_max o) c a)) (dset (dsort (dset (go_dist o) c g_new)) c g'))
      end
  end.

(** numeric_attribute_class_observer_gaussian.py:46-51 *)
Definition go_probability (k : T) (o : gobs) (a : T) (c : Z) : res T :=
  match dget (go_dist o) c with Some g => g_density k g a | None => Ok n0 end.

(** The loop of get_split_point_suggestions, numeric_attribute_class_observer_gaussian.py:68-74; [None]: still ±inf *)
Fixpoint go_range (ks : list Z) (o : gobs) (mn mx : option T) : res (option T * option T) :=
  match ks with
  | [] => Ok (mn, mx)
  | k :: r =>
      match dget (go_min o) k, dget (go_max o) k with
      | Some a, Some b =>
          go_range r o (match mn with Some m => if (a <? m)%num then Some a else mn | None => Some a end)
                       (match mx with Some m => if (m <? b)%num then Some b else mx | None => Some b end)
      | _, _ => Raise KeyError
      end
  end.
(** SortedList.add: after the elements that are not greater *)
Fixpoint sorted_add (x : T) (l : list T) : list T :=
  match l with [] => [x] | y :: r => if (x <? y)%num then x :: l else y :: sorted_add x r end.
(** numeric_attribute_class_observer_gaussian.py:66-82, [nb] = num_bin_options *)
Definition go_points (nb : nat) (o : gobs) : res (list T) :=
  ' (mn, mx) <- go_range (dkeys (go_dist o)) o None None ;;
  match mn, mx with
  | Some mn, Some mx =>
      bin <- pydiv (mx - mn)%num (nofZ (Z.of_nat nb) + n1)%num ;;
      Ok (fold_left (fun acc i =>
            let v := (mn + bin * nofZ (Z.of_nat i + 1))%num in
            if (mn <? v)%num && (v <? mx)%num then sorted_add v acc else acc) (seq 0 nb) [])
  | _, _ => Ok []
  end.

(** numeric_attribute_class_observer_gaussian.py:84-101 *)
Fixpoint go_sides (k : T) (phi : T -> T) (o : gobs) (items : list (Z * gauss)) (v : T) (lhs rhs : list (Z * T)) : res (list (Z * T) * list (Z * T)) :=
  match items with
  | [] => Ok (lhs, rhs)
  | (c, g) :: r =>
      match dget (go_min o) c, dget (go_max o) c with
      | Some mn, Some mx =>
          if (v <? mn)%num then go_sides k phi o r v lhs (dset rhs c (g_total g))
          else if (mx <=? v)%num then go_sides k phi o r v (dset lhs c (g_total g)) rhs
          else ' (lt, eq, gt) <- g_estimate k phi g v ;;
               go_sides k phi o r v (dset lhs c (lt + eq)%num) (dset rhs c gt)
      | _, _ => Raise KeyError
      end
  end.
Definition go_split (k : T) (phi : T -> T) (o : gobs) (v : T) := go_sides k phi o (go_dist o) v [] [].

(** numeric_attribute_class_observer_gaussian.py:53-64; the test is NumericAttributeBinaryTest(att_idx, v, True) *)
Fixpoint go_best_loop (k : T) (phi : T -> T) (merit : list (Z * T) -> list (Z * T) -> option T) (o : gobs) (vs : list T)
  (best : option (suggestion T (list (Z * T) * list (Z * T)) T)) : res (option (suggestion T (list (Z * T) * list (Z * T)) T)) :=
  match vs with
  | [] => Ok best
  | v :: r => ' (lhs, rhs) <- go_split k phi o v ;;
              go_best_loop k phi merit o r (keep_best best (mkSug v (lhs, rhs) (merit lhs rhs)))
  end.
Definition go_best (k : T) (phi : T -> T) (nb : nat) (merit : list (Z * T) -> list (Z * T) -> option T) (o : gobs) :=
  vs <- go_points nb o ;; go_best_loop k phi merit o vs None.

(** Histories of update(att_val, class_val, weight). *)
Fixpoint go_run (o : gobs) (h : list (option T * Z * T)) : res gobs :=
  match h with [] => Ok o | (a, c, w) :: r => o1 <- go_update o a c w ;; go_run o1 r end.
Fixpoint g_run (g : gauss) (h : list (option T * T)) : res gauss :=
  match h with [] => Ok g | (v, w) :: r => g1 <- g_add g v w ;; g_run g1 r end.
End Gaussian.
Arguments gauss : clear implicits.
Arguments gobs : clear implicits.
