(** Vocabulary for the trees of the adaptive random forests. *)
From Coq Require Import List ZArith Bool.
From Verif Require Import Base.Py Base.Num Base.Dict Model.TargetStats Model.TreeSkeleton Model.HoeffdingTree Model.HoeffdingRegressor Model.ArfTree Spec.TreeSpec Spec.TreeRelSpec.
Import ListNotations.

(** An answer of choice(n, size=m, replace=False) *)
Definition right_pick (m : Z) (n : nat) (p : list Z) : Prop := Z.of_nat (length p) = m /\ NoDup p /\ Forall (fun a => 0 <= a < Z.of_nat n)%Z p.
(** All the attributes, in order *)
Definition all_features (n : nat) : list Z := map Z.of_nat (seq 0 n).
(** Two instances agree on a set of attributes. *)
Definition agree {T} (A : Z -> Prop) (x x' : list T) : Prop := length x = length x' /\ forall a, A (Z.of_nat a) -> nth_error x a = nth_error x' a.

(** What a user does with a classification tree; every row carries the choice the generator would make. *)
Inductive arf_event (T : Type) :=
| AFit (rows : list (arf_inst T * Z)) (classes : option (list Z)) (weights : option (list T))
| AReset.
Arguments AFit {T}. Arguments AReset {T}.
Section Runs.
Context {T : Type} {N : Num T} (k : T) (phi : T -> T) (key : T -> Z) (cfg : ht_config T) (m : Z) (sz : sizes T (arf_leaf T) (list (Z * T)) (list (Z * T)) (htest T)).
Definition arf_step (s : arf T) (e : arf_event T) : res (arf T) :=
  match e with AFit rows c ws => arf_fit k phi key cfg m sz s rows c ws | AReset => Ok (arf_reset s) end.
Fixpoint arf_run (s : arf T) (es : list (arf_event T)) : res (arf T) :=
  match es with [] => Ok s | e :: r => s' <- arf_step s e ;; arf_run s' r end.
End Runs.
(** Every row of a history *)
Definition arf_each {T} (P : arf_inst T -> Prop) (es : list (arf_event T)) : Prop :=
  Forall (fun e => match e with AFit rows _ _ => Forall (fun r => P (fst r)) rows | AReset => True end) es.
(** Two histories with the same labels, weights and choices whose instances agree on a set of attributes *)
Definition arf_agree {T} (A : Z -> Prop) (e e' : arf_event T) : Prop :=
  match e, e' with
  | AFit rows c ws, AFit rows' c' ws' => Forall2 (fun r r' => agree A (ai_x (fst r)) (ai_x (fst r')) /\ ai_pick (fst r) = ai_pick (fst r') /\ snd r = snd r') rows rows' /\ c = c' /\ ws = ws'
  | AReset, AReset => True
  | _, _ => False
  end.

(** The same for regression trees *)
Inductive arfr_event (T : Type) := ARFit (rows : list (sample T * list Z)) (weights : option (list T)) | ARReset.
Arguments ARFit {T}. Arguments ARReset {T}.
Section RRuns.
Context {T : Type} {N : Num T} (key int_of : T -> Z) (cfg : htr_config T) (m : Z) (sz : sizes T (arfr_leaf T) (rinactive T) (option (stat T unit)) (htest T)).
Definition arfr_step (s : arfr T) (e : arfr_event T) : res (arfr T) :=
  match e with ARFit rows ws => arfr_fit key int_of cfg m sz s rows ws | ARReset => Ok (arfr_reset s) end.
Fixpoint arfr_run (s : arfr T) (es : list (arfr_event T)) : res (arfr T) :=
  match es with [] => Ok s | e :: r => s' <- arfr_step s e ;; arfr_run s' r end.
End RRuns.
Definition arfr_each {T} (P : list T -> list Z -> Prop) (es : list (arfr_event T)) : Prop :=
  Forall (fun e => match e with ARFit rows _ => Forall (fun r => P (fst (fst (fst r))) (snd r)) rows | ARReset => True end) es.
(** Two histories with the same targets, weights and choices, whose instances agree on the attributes in A *)
Definition arfr_agree {T} (A : Z -> Prop) (e e' : arfr_event T) : Prop :=
  match e, e' with
  | ARFit rows ws, ARFit rows' ws' => Forall2 (fun r r' => agree A (fst (fst (fst r))) (fst (fst (fst r'))) /\ snd (fst (fst r)) = snd (fst (fst r')) /\ snd r = snd r') rows rows' /\ ws = ws'
  | ARReset, ARReset => True
  | _, _ => False
  end.
