(** Vocabulary for what an evaluation run did: the rows of the stream between two positions, and what the
    trace of calls says about model [i]. *)
From Coq Require Import List ZArith Bool.
From Verif Require Import Model.Evaluate.
Import ListNotations.

Section Spec.
Context {X Y P : Type}.
Notation row := (X * Y)%type.
Variable src : source row.

(** The rows of the stream at positions a, a+1, ..., b-1 (as far as the stream goes). *)
Definition rows_between (a b : nat) : list row :=
  map (src_at src) (seq a (match src_len src with Some n => Nat.min b n | None => b end - a)).

(** All rows model i was trained on, in order. *)
Definition trained (i : nat) (t : list (ev X Y P)) : list row :=
  flat_map (fun e => match e with Fit j _ r _ => if j =? i then r else [] | _ => [] end) t.
(** All rows model i was asked to predict, in order. *)
Definition tested (i : nat) (t : list (ev X Y P)) : list row :=
  flat_map (fun e => match e with Predict j _ r _ => if j =? i then r else [] | _ => [] end) t.
(** The (true value, prediction) pairs that should be scored for model i: those of its predictions. *)
Definition predictions (i : nat) (t : list (ev X Y P)) : list (Y * P) :=
  flat_map (fun e => match e with Predict j _ r ps => if j =? i then combine (map snd r) ps else [] | _ => [] end) t.
(** The pairs that were added to the measurements of model i. *)
Definition scores (i : nat) (t : list (ev X Y P)) : list (Y * P) :=
  flat_map (fun e => match e with Score j y p => if j =? i then [(y, p)] else [] | _ => [] end) t.
(** Model i has been trained before. *)
Definition fitted (i : nat) (t : list (ev X Y P)) : bool :=
  existsb (fun e => match e with Fit j _ _ _ => j =? i | _ => false end) t.

Definition prefix {A} (p l : list A) : Prop := exists q, l = p ++ q.

(** [ok before e] holds of every event of the trace and the events before it. *)
Definition throughout (ok : list (ev X Y P) -> ev X Y P -> Prop) (t : list (ev X Y P)) : Prop :=
  forall t1 e t2, t = t1 ++ e :: t2 -> ok t1 e.

(** Test-then-train, seen from an event [e] that comes after the events [before]; the run started at stream
    position p0 and pretrains on [pre] rows; batches have b rows, there are n models. *)
Definition test_then_train (p0 pre b n : nat) (classif : bool) (before : list (ev X Y P)) (e : ev X Y P) : Prop :=
  match e with
  | Predict i k rows ps =>
      (* an evaluated batch comes after the pretraining rows, and at this point the model has been trained
         exactly on all rows before the batch and has predicted exactly those after pretraining *)
      i < n /\ p0 + pre <= k /\ rows = rows_between k (k + b)
      /\ trained i before = rows_between p0 k /\ tested i before = rows_between (p0 + pre) k
  | Fit i k rows cls =>
      (* pretraining, before anything is predicted, or training on a batch this model has predicted and whose
         predictions were all scored *)
      i < n /\ cls = classif && negb (fitted i before)
      /\ ((k = p0 /\ 0 < pre /\ rows = rows_between p0 (p0 + pre) /\ trained i before = [] /\ forall j, j < n -> tested j before = [])
          \/ (trained i before = rows_between p0 k /\ (exists ps, In (Predict i k rows ps) before)
              /\ forall j, j < n -> scores j before = predictions j before))
  | Score i y p => i < n /\ prefix (scores i before ++ [(y, p)]) (predictions i before)
  | Report c => forall i, i < n -> scores i before = predictions i before /\ trained i before = rows_between p0 (p0 + c)
  end.

(** Holdout: rows used for training and rows used for testing never overlap, wherever they come in the run. *)
Definition disjoint_use (t : list (ev X Y P)) : Prop :=
  forall i k rows cls j k' rows' ps, In (Fit i k rows cls) t -> In (Predict j k' rows' ps) t ->
  rows = rows_between k (k + length rows) /\ rows' = rows_between k' (k' + length rows')
  /\ (k + length rows <= k' \/ k' + length rows' <= k).
(** Holdout: when test results are reported, exactly the predictions made have been scored; with a static test
    set every model has by then been trained exactly on all rows after the test set up to the current count. *)
Definition test_reports (p0 test_size n : nat) (dynamic : bool) (before : list (ev X Y P)) (e : ev X Y P) : Prop :=
  match e with
  | Report c => forall i, i < n -> scores i before = predictions i before
                 /\ (dynamic = false -> trained i before = rows_between (p0 + test_size) (p0 + c))
  | _ => True
  end.

(** Nothing raises and no time limit is hit. *)
Definition well_behaved (fit_ok : list (ev X Y P) -> nat -> list row -> bool -> bool)
  (predict : list (ev X Y P) -> nat -> list X -> option (list P)) (report_ok : list (ev X Y P) -> bool)
  (timeout : nat -> bool) : Prop :=
  (forall t i r c, fit_ok t i r c = true) /\ (forall t i xs, exists ps, predict t i xs = Some ps /\ length ps = length xs)
  /\ (forall t, report_ok t = true) /\ (forall i, timeout i = false).
End Spec.
