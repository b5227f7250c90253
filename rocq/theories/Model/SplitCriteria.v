(** Models of the split criteria (trees/_split_criterion/*.py).

    A class distribution is a dictionary from class to weight.  A merit is a number or -inf ([None]).
    Weights are Python floats, so [/] raises ZeroDivisionError on a zero divisor; with numpy scalars the same expressions
    would yield nan and a warning.  np.log2 x is ln x / ln 2. *)
From Coq Require Import List ZArith Bool.
From Verif Require Import Base.Py Base.Num Base.Dict Model.TargetStats.
Import ListNotations.

Section Criteria.
Context {T : Type} {N : Num T}.
Notation dist := (list (Z * T)).
(** sum(dist.values()) *)
Definition vsum (d : dist) : T := fold_left nadd (dvals d) n0.
(** total_weight, the loop shared by the criteria *)
Definition vtotal (ds : list dist) : T := fold_left nadd (map vsum ds) n0.
Definition log2 (x : T) : T := (nln x / nln (nofZ 2))%num.

(** ** GiniSplitCriterion.compute_gini, gini_split_criterion.py:20-26 *)
Definition gini_of (d : dist) (s : T) : T :=
  if (s =? n0)%num then n1 else fold_left (fun g v => g - (v / s) * (v / s))%num (dvals d) n1.
(** get_merit_of_split, gini_split_criterion.py:7-17 *)
Fixpoint gini_loop (total : T) (ds : list dist) (g : T) : res T :=
  match ds with
  | [] => Ok g
  | d :: r => f <- pydiv (vsum d) total ;; gini_loop total r (g + f * gini_of d (vsum d))%num
  end.
Definition gini_merit (post : list dist) : res T := g <- gini_loop (vtotal post) post n0 ;; Ok (n1 - g)%num.

(** ** InfoGainSplitCriterion *)
(** num_subsets_greater_than_frac, info_gain_split_criterion.py:64-77 *)
Definition ig_num_subsets (ds : list dist) (min_frac : T) : nat :=
  if (n0 <? vtotal ds)%num then length (filter (fun d => (min_frac <? vsum d / vtotal ds)%num) ds) else 0.
(** _compute_entropy_dict, info_gain_split_criterion.py:43-50 *)
Definition entropy_dict (d : dist) : T :=
  let es := fold_left (fun es v => if (n0 <? v)%num then (fst es - v * log2 v, snd es + v)%num else es) (dvals d) (n0, n0) in
  if (n0 <? snd es)%num then ((fst es + snd es * log2 (snd es)) / snd es)%num else n0.
(** _compute_entropy_list, info_gain_split_criterion.py:52-61 *)
Definition entropy_list (ds : list dist) : res T :=
  pydiv (fold_left (fun e d => e + vsum d * entropy_dict d)%num ds n0) (vtotal ds).
(** get_merit_of_split, info_gain_split_criterion.py:23-26 *)
Definition ig_merit (min_frac : T) (pre : dist) (post : list dist) : res (option T) :=
  if Nat.ltb (ig_num_subsets post min_frac) 2 then Ok None else
  e <- entropy_list post ;; Ok (Some (entropy_dict pre - e)%num).
(** get_range_of_merit, info_gain_split_criterion.py:28-32 and hellinger_distance_criterion.py:53-57 *)
Definition ig_range (pre : dist) : T := log2 (nofZ (Z.max 2 (Z.of_nat (length pre)))).

(** ** HellingerDistanceCriterion *)
(** num_subsets_greater_than_frac, hellinger_distance_criterion.py:59-70: no guard on the total *)
Fixpoint he_num_loop (total min_frac : T) (ds : list dist) (k : nat) : res nat :=
  match ds with [] => Ok k | d :: r => f <- pydiv (vsum d) total ;; he_num_loop total min_frac r (if (min_frac <? f)%num then S k else k) end.
(** compute_hellinger, hellinger_distance_criterion.py:31-50.  A distribution list with fewer than two entries cannot reach it. *)
Definition hellinger (a b : dist) : res T :=
  match dget a 1, dget a 0, dget b 1, dget b 0 with
  | Some lp, Some ln, Some rp, Some rn =>
      let tn := (ln + rn)%num in let tp := (lp + rp)%num in
      x1 <- pydiv ln tn ;; x2 <- pydiv lp tp ;; x3 <- pydiv rn tn ;; x4 <- pydiv rp tp ;;
      let d1 := (nsqrt x1 - nsqrt x2)%num in let d2 := (nsqrt x3 - nsqrt x4)%num in
      Ok (nsqrt (d1 * d1 + d2 * d2)%num)
  | _, _, _, _ => Ok n0
  end.
(** get_merit_of_split, hellinger_distance_criterion.py:26-29 *)
Definition he_merit (min_frac : T) (post : list dist) : res (option T) :=
  k <- he_num_loop (vtotal post) min_frac post 0 ;;
  if Nat.ltb k 2 then Ok None else
  match post with a :: b :: _ => h <- hellinger a b ;; Ok (Some h) | _ => Raise IndexError end.

(** ** VarianceReductionSplitCriterion.  [trunc] is int() on a float. *)
(** compute_SD, variance_reduction_split_criterion.py:36-44 *)
Definition vr_sd (trunc : T -> T) (d : stat T unit) : res T :=
  let n := trunc (st_w d) in
  a <- pydiv (st_s d tt * st_s d tt)%num n ;; var <- pydiv (st_q d tt - a)%num n ;;
  if (n0 <? var)%num then py_sqrt var else Ok n0.
(** get_merit_of_split, variance_reduction_split_criterion.py:18-33 *)
Fixpoint sdr_loop {I} (sd : stat T I -> res T) (n : T) (post : list (stat T I)) (sdr : T) : res T :=
  match post with
  | [] => Ok sdr
  | d :: r => f <- pydiv (st_w d) n ;; s <- sd d ;; sdr_loop sd n r (sdr - f * s)%num
  end.
Definition sdr_merit {I} (sd : stat T I -> res T) (pre : stat T I) (post : list (stat T I)) : res T :=
  if Nat.eqb (length (filter (fun d => (nofZ 5 <=? st_w d)%num) post)) (length post)
  then s <- sd pre ;; sdr_loop sd (st_w pre) post s else Ok n0.
Definition vr_merit (trunc : T -> T) := sdr_merit (vr_sd trunc).
(** get_range_of_merit, variance_reduction_split_criterion.py:46-48 *)
Definition vr_range : T := n1.

(** ** IntraClusterVarianceReductionSplitCriterion.compute_SD, intra_cluster_variance_reduction_split_criterion.py:37-42: numpy
    arrays with one entry per target ([targets] lists them), so divisions do not raise.  get_merit_of_split (:15-34) is the loop above. *)
Definition ic_sd {I} (targets : list I) (d : stat T I) : res T :=
  let n := st_w d in
  Ok (fold_left nadd (map (fun i => (st_q d i - (st_s d i * st_s d i) / n) / (n - n1)) targets) n0 / nofZ (Z.of_nat (length targets)))%num.
Definition ic_merit {I} (targets : list I) := sdr_merit (ic_sd targets).
End Criteria.
