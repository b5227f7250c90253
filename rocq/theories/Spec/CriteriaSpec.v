(** Vocabulary for split criteria. *)
From Coq Require Import List ZArith Reals.
From Verif Require Import Spec.Lists Base.Dict.
Import ListNotations.
Local Open Scope R_scope.

(** A class distribution: classes are listed once, weights are not negative. *)
Definition distribution (d : list (Z * R)) : Prop := NoDup (dkeys d) /\ forall c w, In (c, w) d -> 0 <= w.
(** Weight of class [c], and of all classes *)
Definition class_weight (d : list (Z * R)) (c : Z) : R := match dget d c with Some w => w | None => 0 end.
Definition weight (d : list (Z * R)) : R := Rsum (map snd d).
(** The branches of a split share out the weight of every class *)
Definition split_of (pre : list (Z * R)) (post : list (list (Z * R))) : Prop :=
  forall c, class_weight pre c = Rsum (map (fun d => class_weight d c) post).

(** Gini impurity 1 - sum p^2; entropy - sum p log2 p over the classes with positive weight *)
Definition gini_impurity (d : list (Z * R)) : R := 1 - Rsum (map (fun p => (snd p / weight d) ^ 2) d).
Definition entropy (d : list (Z * R)) : R :=
  - Rsum (map (fun p => if Rlt_dec 0 (snd p) then snd p / weight d * (ln (snd p / weight d) / ln 2) else 0) d).

(** Average over the branches, weighted; empty branches do not count *)
Definition branch_average (f : list (Z * R) -> R) (post : list (list (Z * R))) : R :=
  let W := Rsum (map weight post) in
  Rsum (map (fun d => if Req_EM_T (weight d) 0 then 0 else weight d / W * f d) post).

Definition pure (d : list (Z * R)) : Prop := forall c c', 0 < class_weight d c -> 0 < class_weight d c' -> c = c'.

(** Regression: the statistics of weighted observations (target, weight) and their standard deviation *)
From Verif Require Import Spec.ObserverSpec Model.TargetStats.
Definition target_stats (obs : list (R * R)) : stat R unit :=
  mkS (Rsum (map snd obs)) (fun _ => Rsum (map (fun p => snd p * fst p) obs)) (fun _ => Rsum (map (fun p => snd p * fst p * fst p) obs)).
Definition std_dev (obs : list (R * R)) : R := sqrt (wsqdev obs / wtotal obs).
(** Weights are not negative and add up to an integer *)
Definition int_weighted (obs : list (R * R)) : Prop := (forall p, In p obs -> 0 <= snd p) /\ exists n : Z, wtotal obs = IZR n.
