(** Models of [EvaluatePrequential._train_and_test] (evaluation/evaluate_prequential.py:266-394) and
    [EvaluateHoldout._periodic_holdout] (evaluation/evaluate_holdout.py:228-345).

    The run is modelled as the chronological list of the calls it makes on the models and on the measurement
    objects (the trace), together with the stream position.  The learners are arguments: whether a call of
    partial_fit succeeds and what predict returns may depend on everything that happened before (the trace),
    so every deterministic or randomised, well- or ill-behaved learner is covered.  The clock is an argument
    too.  Each traced batch carries the stream position at which it was drawn; the code does not use it.

    Simplifications: the measurement objects are represented by the results added to them (they are modelled
    in ClassMetrics, RegMetrics, ...); running-time bookkeeping, progress bar, plots and the output file are
    left out, except that the progress bar raises for fewer than 20 samples; cnt/n_wait > c is computed
    exactly instead of in floating point. *)
From Coq Require Import List ZArith Bool.
Import ListNotations.

(** A stream: [src_len] rows, or unboundedly many for a generator (whose n_remaining_samples is -1). *)
Record source (A : Type) := mkSource { src_len : option nat; src_at : nat -> A }.
Arguments mkSource {A}.
Arguments src_len {A}.
Arguments src_at {A}.

Section Eval.
Context {X Y P : Type}.
Notation row := (X * Y)%type.
Variable src : source row.

(** next_sample(b) at position [k] (data_stream.py:358-362; generators deliver b new rows). *)
Definition take (k b : nat) : list row :=
  map (src_at src) (seq k (match src_len src with Some n => Nat.min b (n - k) | None => b end)).
(** n_remaining_samples, has_more_samples: data_stream.py:371-391, base_stream.py:249-270 *)
Definition remaining (k : nat) : Z := match src_len src with Some n => Z.of_nat n - Z.of_nat k | None => -1 end.
Definition has_more (k : nat) : bool := match src_len src with Some n => k <? n | None => true end.

Inductive ev :=
| Fit (i k : nat) (rows : list row) (classes : bool)  (* model[i].partial_fit on the batch drawn at k *)
| Predict (i k : nat) (rows : list row) (ps : list P) (* model[i].predict on the batch drawn at k *)
| Score (i : nat) (y : Y) (p : P)                      (* add_result(y, p) on both measurements of model i *)
| Report (count : nat).                               (* _update_metrics *)

Variable fit_ok : list ev -> nat -> list row -> bool -> bool.         (* partial_fit returns *)
Variable predict : list ev -> nat -> list X -> option (list P).       (* None: predict raises *)
Variable report_ok : list ev -> bool.                                (* _update_metrics returns *)
Variable timeout : nat -> bool.                                      (* max_time passed at the n-th check *)

Variable n_models : nat.
Variable classif : bool.      (* the task is a classification task: classes are passed on the first fit *)
Variable batch_size n_wait max_samples : nat.

(** Traces grow at the end; the boolean says whether the call returned. *)
Fixpoint fit_all (is_ : list nat) (tr : list ev) (k : nat) (rows : list row) (cls : bool) : list ev * bool :=
  match is_ with
  | [] => (tr, true)
  | i :: r => if fit_ok tr i rows cls then fit_all r (tr ++ [Fit i k rows cls]) k rows cls else (tr, false)
  end.

Fixpoint predict_all (is_ : list nat) (tr : list ev) (k : nat) (rows : list row) (acc : list (list P))
  : list ev * option (list (list P)) :=
  match is_ with
  | [] => (tr, Some acc)
  | i :: r => match predict tr i (map fst rows) with
              | None => (tr, None)
              | Some ps => predict_all r (tr ++ [Predict i k rows ps]) k rows (acc ++ [ps])
              end
  end.

(** for i in range(len(prediction[0])): add_result(y[i], prediction[j][i]);  IndexError if one is shorter *)
Fixpoint score_rows (cnt : nat) (j : nat) (tr : list ev) (ys : list Y) (ps : list P) : list ev * bool :=
  match cnt with
  | O => (tr, true)
  | S c => match ys, ps with
           | y :: ys', p :: ps' => score_rows c j (tr ++ [Score j y p]) ys' ps'
           | _, _ => (tr, false)
           end
  end.
Fixpoint score_all (j : nat) (preds : list (list P)) (len0 : nat) (tr : list ev) (ys : list Y) : list ev * bool :=
  match preds with
  | [] => (tr, true)
  | ps :: r => let '(tr1, ok) := score_rows len0 j tr ys ps in
               if ok then score_all (S j) r len0 tr1 ys else (tr1, false)
  end.

(** actual_max_samples, evaluate_prequential.py:286-288, evaluate_holdout.py:237-239 *)
Definition actual_max (p0 : nat) : Z :=
  let r := remaining p0 in
  if ((r =? -1) || (r >? Z.of_nat max_samples))%Z then Z.of_nat max_samples else r.

(** _check_progress, base_evaluator.py:241-255: `% (total // 20)` *)
Definition progress_ok (total : Z) : bool := negb (total / 20 =? 0)%Z.

Record st := mkSt { pos : nat; cnt : nat; tr : list ev; first_run : bool; upd : nat }.

Definition report (s : st) : st * bool :=
  if report_ok (tr s) then (mkSt (pos s) (cnt s) (tr s ++ [Report (cnt s)]) (first_run s) (upd s), true) else (s, false).

(** One pass through the body of the while loop, evaluate_prequential.py:319-381; [false]: an exception was
    caught and the loop left. *)
Definition preq_body (amax : Z) (s : st) : st * bool :=
  let rows := take (pos s) batch_size in
  let p := pos s + batch_size in
  match predict_all (seq 0 n_models) (tr s) (pos s) rows [] with
  | (t1, None) => (mkSt p (cnt s) t1 (first_run s) (upd s), false)
  | (t1, Some preds) =>
      let c := cnt s + batch_size in
      match score_all 0 preds (length (hd [] preds)) t1 (map snd rows) with
      | (t2, false) => (mkSt p c t2 (first_run s) (upd s), false)
      | (t2, true) =>
          if negb (progress_ok amax) then (mkSt p c t2 (first_run s) (upd s), false) else
          match fit_all (seq 0 n_models) t2 (pos s) rows (first_run s && classif) with
          | (t3, false) => (mkSt p c t3 (first_run s) (upd s), false)
          | (t3, true) =>
              let s3 := mkSt p c t3 false (upd s) in
              if n_wait =? 0 then (s3, false) else
              if (c mod n_wait =? 0) || (amax <=? Z.of_nat c)%Z || (n_wait * (upd s + 1) <? c) then
                let '(s4, ok) := report s3 in
                if ok then (mkSt (pos s4) (cnt s4) (tr s4) (first_run s4) (S (upd s4)), true) else (s4, false)
              else (s3, true)
          end
      end
  end.

(** Why the loop ended. *)
Inductive ending := ByCondition | ByException | OutOfFuel.

(** The while loop, evaluate_prequential.py:316-381; [it] counts the evaluations of the condition. *)
Fixpoint preq_loop (fuel it : nat) (amax : Z) (s : st) : st * ending :=
  if (Z.of_nat (cnt s) <? amax)%Z && negb (timeout it) && has_more (pos s) then
    match fuel with
    | O => (s, OutOfFuel)
    | S f => let '(s1, ok) := preq_body amax s in if ok then preq_loop f (S it) amax s1 else (s1, ByException)
    end
  else (s, ByCondition).

Inductive outcome := Returned | SummaryRaised | PretrainRaised.
Record result := mkResult { r_st : st; r_end : ending; r_outcome : outcome }.

Definition is_report (e : ev) : bool := match e with Report _ => true | _ => false end.

(** evaluation_summary, base_evaluator.py:674-780: the data buffer holds None until the first
    _update_metrics, and indexing None raises TypeError (for at least one model and one summarised metric). *)
Definition summary (t : list ev) : outcome :=
  if (n_models =? 0) || existsb is_report t then Returned else SummaryRaised.

(** _train_and_test, evaluate_prequential.py:266-394, from stream position [p0].  The final
    stream.restart() is not part of the result. *)
Definition prequential (fuel p0 pretrain : nat) : result :=
  let amax := actual_max p0 in
  let s0 := mkSt p0 0 [] true 0 in
  match (if 0 <? pretrain then
           match fit_all (seq 0 n_models) [] p0 (take p0 pretrain) classif with
           | (t, true) => inl (mkSt (p0 + pretrain) pretrain t false 0)
           | (t, false) => inr (mkSt (p0 + pretrain) 0 t true 0)
           end
         else inl s0) with
  | inr s => mkResult s ByException PretrainRaised
  | inl s1 => let '(s2, e) := preq_loop fuel 0 amax s1 in mkResult s2 e (summary (tr s2))
  end.

(** ** Holdout *)
Variable test_size : nat.
Variable dynamic : bool.

Record hst := mkH { h_st : st; h_test : option (nat * list row) (* position and rows of the test set *) ; h_perf : nat }.

(** Prediction, scoring and reporting on the test set, evaluate_holdout.py:306-328 *)
Definition hold_test (s : st) (k : nat) (rows : list row) : st * bool :=
  match predict_all (seq 0 n_models) (tr s) k rows [] with
  | (t1, None) => (mkSt (pos s) (cnt s) t1 (first_run s) (upd s), false)
  | (t1, Some preds) =>
      let '(t2, ok) := score_all 0 preds (length (hd [] preds)) t1 (map snd rows) in
      let s2 := mkSt (pos s) (cnt s) t2 (first_run s) (upd s) in
      if ok then report s2 else (s2, false)
  end.

(** The loop body, evaluate_holdout.py:252-335 *)
Definition hold_body (amax : Z) (h : hst) : hst * bool :=
  let s := h_st h in
  let rows := take (pos s) batch_size in
  let p := pos s + batch_size in
  let c := cnt s + batch_size in
  match fit_all (seq 0 n_models) (tr s) (pos s) rows (first_run s && classif) with
  | (t1, false) => (mkH (mkSt p c t1 (first_run s) (upd s)) (h_test h) (h_perf h), false)
  | (t1, true) =>
      let s1 := mkSt p c t1 false (upd s) in
      let h1 := mkH s1 (h_test h) (h_perf h) in
      if negb (progress_ok amax) then (h1, false) else
      if negb dynamic && (n_wait =? 0) then (h1, false) else
      let perform := if dynamic then n_wait * (h_perf h + 1) + test_size * h_perf h <=? c
                     else ((Z.of_nat c - Z.of_nat test_size) mod Z.of_nat n_wait =? 0)%Z in
      if perform || (amax <=? Z.of_nat c)%Z then
        let '(s2, test) :=
          if dynamic then let r := take p test_size in
                          (mkSt (p + test_size) (c + length r) t1 false (upd s), Some (p, r))
          else (s1, h_test h) in
        match test with
        | None => (mkH s2 test (h_perf h), true)
        | Some (k, r) => let '(s3, ok) := hold_test s2 k r in
                         (mkH s3 test (if ok then S (h_perf h) else h_perf h), ok)
        end
      else (h1, true)
  end.

Fixpoint hold_loop (fuel it : nat) (amax : Z) (h : hst) : hst * ending :=
  if (Z.of_nat (cnt (h_st h)) <? amax)%Z && negb (timeout it) && has_more (pos (h_st h)) then
    match fuel with
    | O => (h, OutOfFuel)
    | S f => let '(h1, ok) := hold_body amax h in if ok then hold_loop f (S it) amax h1 else (h1, ByException)
    end
  else (h, ByCondition).

(** _periodic_holdout, evaluate_holdout.py:228-345 *)
Definition holdout (fuel p0 : nat) : result :=
  let amax := actual_max p0 in
  let h0 := if dynamic then mkH (mkSt p0 0 [] true 0) None 0
            else mkH (mkSt (p0 + test_size) test_size [] true 0) (Some (p0, take p0 test_size)) 0 in
  let '(h, e) := hold_loop fuel 0 amax h0 in
  mkResult (h_st h) e (summary (tr (h_st h))).

End Eval.
Arguments ev : clear implicits.
Arguments st : clear implicits.
Arguments hst : clear implicits.
Arguments result : clear implicits.

(** The stream over a finite table. *)
Definition of_list {A} (d : A) (l : list A) : source A := mkSource (Some (length l)) (fun i => nth i l d).
