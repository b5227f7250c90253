(** Vocabulary for the Hoeffding tree regressor. *)
From Coq Require Import List ZArith Bool Reals.
From Verif Require Import Base.Py Base.Num Base.Dict Spec.Lists Model.Suggestion Model.TargetStats Model.TreeSkeleton Model.HoeffdingTree Model.HoeffdingRegressor Spec.TreeSpec.
Import ListNotations.

(** What a user does with a tree: partial_fit(X, y, sample_weight) or reset(). *)
Inductive htr_event (T : Type) := RFit (rows : list (sample T)) (weights : option (list T)) | RReset.
Arguments RFit {T}. Arguments RReset {T}.

Section Runs.
Context {T : Type} {N : Num T} (key : T -> Z) (int_of : T -> Z) (cfg : htr_config T).
Variable sz : sizes T (rleaf T) (rinactive T) (option (stat T unit)) (htest T).
Definition htr_step (s : htr T) (e : htr_event T) : res (htr T) :=
  match e with RFit rows ws => htr_fit key int_of cfg sz s rows ws | RReset => Ok (htr_reset s) end.
Fixpoint htr_run (s : htr T) (es : list (htr_event T)) : res (htr T) :=
  match es with [] => Ok s | e :: r => s' <- htr_step s e ;; htr_run s' r end.
(** A state reached from a new tree *)
Definition htr_reached (s : htr T) : Prop := exists es, htr_run htr_new es = Ok s.

(** The samples (features, target, weight) of a call: those with a weight. *)
Definition call_samples (rows : list (sample T)) (ws : option (list T)) : list (list T * T * T) :=
  filter (fun o => negb (snd o =? n0)%num)
    (map (fun p => let '((x, y, _), w) := p in (x, y, w)) (combine rows (match ws with Some ws => ws | None => repeat n1 (length rows) end))).
(** The samples seen since the tree was made, and since the last reset *)
Definition all_samples (es : list (htr_event T)) : list (list T * T * T) :=
  flat_map (fun e => match e with RFit rows ws => call_samples rows ws | RReset => [] end) es.
Definition live_samples (es : list (htr_event T)) : list (list T * T * T) :=
  fold_left (fun acc e => match e with RFit rows ws => acc ++ call_samples rows ws | RReset => [] end) es [].
(** The tree a sample meets: an empty tree gets a leaf without statistics. *)
Definition rmet (s : htr T) : node (rleaf T) (rinactive T) (option (stat T unit)) (htest T) :=
  match t_root (hr_tree s) with Some r => r | None => Active (rleaf_new None PNone) end.
(** The instance as the tree sorts it: only the features matter. *)
Definition feat (x : list T) : inst T := mk_inst x sums_new (fun _ => n0).
End Runs.

(** Weighted mean and standard deviation of the values [f] of samples *)
Section Moments.
Local Open Scope R_scope.
Context {A : Type}.
Definition wsum (f w : A -> R) (l : list A) : R := Rsum (map (fun a => w a * f a) l).
Definition weights_sum (w : A -> R) (l : list A) : R := Rsum (map w l).
Definition wmean (f w : A -> R) (l : list A) : R := wsum f w l / weights_sum w l.
Definition wsd (f w : A -> R) (l : list A) : R := sqrt (wsum (fun a => (f a - wmean f w l) * (f a - wmean f w l)) w l / weights_sum w l).
End Moments.

(** The split rule of regression trees: the runner-up's merit is below a fraction 1 - eps of the best, which must be positive;
    or the bound is below the tie threshold.  A single suggestion wins. *)
Definition divisive (T : Type) {N : Num T} : Prop :=
  forall a b c e : T, (b <? a)%num = false -> (n0 <? c)%num = true -> (b / c <? e)%num = true -> (a / c <? e)%num = true.
Definition ratio_wins {T A D} {N : Num T} (eps tie : T) (best : suggestion A D T) (others : list (suggestion A D T)) : Prop :=
  others = [] \/ exists m, sg_merit best = Some m /\ (n0 <? m)%num = true
    /\ ((forall o m', In o others -> sg_merit o = Some m' -> (m' / m <? n1 - eps)%num = true) \/ (eps <? tie)%num = true).
(** Every suggestion has a merit that is a number. *)
Definition numeric_merits {T A D} (bs : list (suggestion A D T)) : Prop := Forall (fun b => sg_merit b <> None) bs.
