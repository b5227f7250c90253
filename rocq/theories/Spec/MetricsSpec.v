(** Specification of the classification metrics: everything is recomputed from the list of (true label, predicted label,
    weight) results. *)
From Coq Require Import List ZArith Bool Reals.
From Verif Require Import Spec.Lists Base.Num.
Import ListNotations.
Local Open Scope Z_scope.

Definition r_true (r : Z * Z * R) : Z := fst (fst r).
Definition r_pred (r : Z * Z * R) : Z := snd (fst r).
Definition r_weight (r : Z * Z * R) : R := snd r.

(** total weight of the results satisfying a condition *)
Definition weight_where (c : Z * Z * R -> bool) (l : list (Z * Z * R)) : R := Rsum (map r_weight (filter c l)).

Definition cell_weight (l : list (Z * Z * R)) (i j : Z) : R :=
  weight_where (fun r => (r_true r =? i) && (r_pred r =? j)) l.
Definition row_weight (l : list (Z * Z * R)) (i : Z) : R := weight_where (fun r => r_true r =? i) l.
Definition col_weight (l : list (Z * Z * R)) (j : Z) : R := weight_where (fun r => r_pred r =? j) l.
Definition correct_weight (l : list (Z * Z * R)) : R := weight_where (fun r => r_true r =? r_pred r) l.
Definition total_weight (l : list (Z * Z * R)) : R := weight_where (fun _ => true) l.

(** the results that carry a positive weight *)
Definition positive (l : list (Z * Z * R)) : list (Z * Z * R) := filter (fun r => Rltb 0 (r_weight r)) l.

Definition unit_weights (l : list (Z * Z * R)) : Prop := Forall (fun r => r_weight r = 1%R) l.

(** number of results, as a real *)
Definition count (l : list (Z * Z * R)) : R := INR (length l).

(** observed agreement, and agreement expected by chance from the marginals (sum over the labels [cs]) *)
Definition observed (l : list (Z * Z * R)) : R := (correct_weight l / count l)%R.
Definition expected (l : list (Z * Z * R)) (cs : list Z) : R :=
  Rsum (map (fun c => (row_weight l c / count l) * (col_weight l c / count l))%R cs).

(** Every label of a result occurs in [cs], once. *)
Definition covers (cs : list Z) (l : list (Z * Z * R)) : Prop :=
  NoDup cs /\ Forall (fun r => In (r_true r) cs /\ In (r_pred r) cs) l.

(** Weight of the results whose true label is the true label of the result before it; the result before the first one
    counts as label [prev]. *)
Fixpoint repeat_weight (prev : Z) (l : list (Z * Z * R)) : R :=
  match l with
  | [] => 0%R
  | r :: l' => ((if prev =? r_true r then r_weight r else 0) + repeat_weight (r_true r) l')%R
  end.

(** precision and recall of one class; 0 when undefined *)
Definition ratio_or_0 (a b : R) : R := if Rltb 0 b then (a / b)%R else 0%R.
Definition class_precision (l : list (Z * Z * R)) (c : Z) : R := ratio_or_0 (cell_weight l c c) (col_weight l c).
Definition class_recall (l : list (Z * Z * R)) (c : Z) : R := ratio_or_0 (cell_weight l c c) (row_weight l c).
(** harmonic mean, 0 when both are 0 *)
Definition harmonic (p r : R) : R := ratio_or_0 (2 * (p * r))%R (p + r)%R.

(** [m] is the smallest of the labels with the largest row weight. *)
Definition is_majority (l : list (Z * Z * R)) (m : Z) : Prop :=
  (forall c, row_weight l c <= row_weight l m)%R /\ (forall c, row_weight l c = row_weight l m -> m <= c).

(** [m] is what majority_class() should answer after the results [l]: 0 before any positive weight. *)
Definition majority_answer (l : list (Z * Z * R)) (m : Z) : Prop :=
  (positive l = [] /\ m = 0) \/ (positive l <> [] /\ is_majority (positive l) m).

(** [x] is the weight of the results whose true label is the majority label of the history up to and including them. *)
Inductive majority_weight : list (Z * Z * R) -> R -> Prop :=
| mw_nil : majority_weight [] 0%R
| mw_snoc l r x m : majority_weight l x -> majority_answer (l ++ [r]) m ->
    majority_weight (l ++ [r]) (if m =? r_true r then (x + r_weight r)%R else x).
