(** Vocabulary for the multi-target regression trees. *)
From Coq Require Import List ZArith Bool Reals Permutation.
From Verif Require Import Base.Py Base.Num Base.Dict Spec.Lists Model.Suggestion Model.TargetStats Model.Ebst Model.TreeSkeleton Model.HoeffdingTree Model.HoeffdingRegressor Model.ISoup Spec.TreeSpec Spec.TreeRelSpec Spec.HoeffdingRegressorSpec.
Import ListNotations.

(** What a user does with a tree: partial_fit(X, y, sample_weight) or reset(). *)
Inductive mt_event (T : Type) := MFit (rows : list (msample T)) (weights : option (list T)) | MReset.
Arguments MFit {T}. Arguments MReset {T}.

Section Runs.
Context {T : Type} {N : Num T} (key : T -> Z) (cfg : htr_config T) (n : nat) (M : model T).
Variable sz : sizes T (mleaf M) (minactive M) (option (stat T nat)) (htest T).
Definition mt_step (s : mt M) (e : mt_event T) : res (mt M) :=
  match e with MFit rows ws => mt_fit key cfg n M sz s rows ws | MReset => Ok (mt_reset M s) end.
Fixpoint mt_run (s : mt M) (es : list (mt_event T)) : res (mt M) :=
  match es with [] => Ok s | e :: r => s' <- mt_step s e ;; mt_run s' r end.
(** A state reached from a new tree *)
Definition mt_reached (s : mt M) : Prop := exists es, mt_run (mt_new M) es = Ok s.
(** The samples (features, targets, weight) of a call: those with a weight; and the samples since the last reset *)
Definition mcall_samples (rows : list (msample T)) (ws : option (list T)) : list (list T * (nat -> T) * T) :=
  filter (fun o => negb (snd o =? n0)%num)
    (map (fun p => (ms_x (fst p), ms_y (fst p), snd p)) (combine rows (match ws with Some ws => ws | None => repeat n1 (length rows) end))).
Definition mlive (es : list (mt_event T)) : list (list T * (nat -> T) * T) :=
  fold_left (fun acc e => match e with MFit rows ws => acc ++ mcall_samples rows ws | MReset => [] end) es [].
(** The tree as the next sample meets it: an empty leaf if there is none yet *)
Definition mmet (s : mt M) : node (mleaf M) (minactive M) (option (stat T nat)) (htest T) :=
  match t_root (mt_tree M s) with Some r => r | None => Active (mleaf_new M None (M_new M)) end.
(** tree_depth of get_model_measurements *)
Definition mt_depth (s : mt M) : nat := match t_root (mt_tree M s) with Some r => depth r | None => 0 end.
(** A sample as the leaf it reaches sees it: the sums of the tree count it already *)
Definition mseen (s : mt M) (a : msample T) (w : T) : minst T := mk_minst (ms_x a) (msums_add (mt_sums M s) (ms_x a) (ms_y a) w) (ms_draw a) (ms_draw2 a).
(** All samples, those before a reset included *)
Definition mall (es : list (mt_event T)) : list (list T * (nat -> T) * T) := flat_map (fun e => match e with MFit rows ws => mcall_samples rows ws | MReset => [] end) es.
End Runs.
(** The instance as the tree sorts it: only the features matter *)
Definition mfeat {T} {N : Num T} (x : list T) : minst T := mk_minst x msums_new (fun _ _ => n0) (fun _ _ => n0).

(** Trees whose leaves may keep different models: the same tests at the same places, the same statistics, observers and times of the
    last split attempt, the same counters and sums *)
Section Twin.
Context {T : Type} {M M' : model T}.
Definition same_mleaf (l : mleaf M) (l' : mleaf M') : Prop := ml_stats M l = ml_stats M' l' /\ ml_obs M l = ml_obs M' l' /\ ml_last M l = ml_last M' l'.
Definition same_minactive (i : minactive M) (i' : minactive M') : Prop := mn_stats M i = mn_stats M' i'.
Definition same_mtree (a : mt M) (b : mt M') : Prop := trel same_mleaf same_minactive eq eq (mt_tree M a) (mt_tree M' b) /\ mt_sums M a = mt_sums M' b /\ mt_set M a = mt_set M' b.
End Twin.

(** Reordering the targets: target [i] of the new order is target [p i] of the old one *)
Section Order.
Context {T : Type}.
Definition reorders (n : nat) (p : nat -> nat) : Prop := Permutation (map p (seq 0 n)) (seq 0 n).
Definition reorder_sample (p : nat -> nat) (s : msample T) : msample T :=
  mk_ms (ms_x s) (fun i => ms_y s (p i)) (fun i => ms_draw s (p i)) (fun i => ms_draw2 s (p i)).
Definition reorder_event (p : nat -> nat) (e : mt_event T) : mt_event T :=
  match e with MFit rows ws => MFit (map (reorder_sample p) rows) ws | MReset => MReset end.
Definition reordered (n : nat) (p : nat -> nat) (row row' : list (option T)) : Prop :=
  length row = n /\ length row' = n /\ forall i, (i < n)%nat -> nth i row' None = nth (p i) row None.
End Order.
(** Two nodes at the same places with the same tests *)
Definition same_shape {L L' I I' S S' E} (r : node L I S E) (r' : node L' I' S' E) : Prop := nrel (fun _ _ => True) (fun _ _ => True) (fun _ _ => True) eq r r'.

(** Samples of real numbers: the weight, target [i], attribute [j]; and the standard deviation with one degree of freedom less *)
Section Moments.
Local Open Scope R_scope.
Definition mow (o : list R * (nat -> R) * R) : R := snd o.
Definition moy (i : nat) (o : list R * (nat -> R) * R) : R := snd (fst o) i.
Definition moatt (j : nat) (o : list R * (nat -> R) * R) : R := nth j (fst (fst o)) 0.
Definition ssd {A} (f w : A -> R) (l : list A) : R := sqrt (wsum (fun a => (f a - wmean f w l) * (f a - wmean f w l)) w l / (weights_sum w l - 1)).
End Moments.
