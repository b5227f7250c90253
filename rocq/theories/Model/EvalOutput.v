(** Model of the configuration check, the reported values and the output file of the evaluators
    (evaluation/base_evaluator.py 170-239, 259-320, 321-534, 543-656; the constructors' [metrics] argument,
    evaluation/evaluate_prequential.py 199-222, the same in
    evaluate_prequential_delayed.py; utils/constants.py).

    Simplifications: a metric is its name in lower case, [Unknown] stands for the names not in PLOT_TYPES; columns are named by what they
    hold, not by text; a number is written, not its six decimals; plots are left out; a write of the file buffer
    happens as a whole or not at all. *)
From Coq Require Import List ZArith Bool.
From Verif Require Import Base.Py Base.Num.
Import ListNotations.

(** utils/constants.py 1-21, and PLOT_TYPES, 23-44 *)
Inductive metric :=
| ACCURACY | KAPPA | KAPPA_T | KAPPA_M | HAMMING_SCORE | HAMMING_LOSS | EXACT_MATCH | J_INDEX | MSE | MAE | AMSE | AMAE | ARMSE
| TRUE_VS_PREDICTED | PRECISION | RECALL | F1_SCORE | GMEAN | DATA_POINTS | RUNNING_TIME | MODEL_SIZE | Unknown (n : nat).
Definition metric_eq_dec (a b : metric) : {a = b} + {a <> b}.
Proof. repeat decide equality. Defined.
Definition mem (l : list metric) (m : metric) : bool := if in_dec metric_eq_dec m l then true else false.
Definition PLOT_TYPES := [ACCURACY; KAPPA; KAPPA_T; KAPPA_M; HAMMING_SCORE; HAMMING_LOSS; EXACT_MATCH; J_INDEX; MSE; MAE; AMSE; AMAE; ARMSE;
  TRUE_VS_PREDICTED; PRECISION; RECALL; F1_SCORE; GMEAN; DATA_POINTS; RUNNING_TIME; MODEL_SIZE].
(** utils/constants.py 45-73; the tasks, 74-79 *)
Definition CLASSIFICATION_METRICS := [ACCURACY; KAPPA; KAPPA_T; KAPPA_M; TRUE_VS_PREDICTED; RECALL; PRECISION; GMEAN; F1_SCORE; DATA_POINTS; RUNNING_TIME; MODEL_SIZE].
Definition REGRESSION_METRICS := [MSE; MAE; TRUE_VS_PREDICTED; RUNNING_TIME; MODEL_SIZE].
Definition MULTI_TARGET_CLASSIFICATION_METRICS := [HAMMING_SCORE; HAMMING_LOSS; EXACT_MATCH; J_INDEX; RUNNING_TIME; MODEL_SIZE].
Definition MULTI_TARGET_REGRESSION_METRICS := [AMSE; AMAE; ARMSE; RUNNING_TIME; MODEL_SIZE].
Inductive task := Classification | Regression | MultiTargetClassification | MultiTargetRegression.

(** The constructor, evaluate_prequential.py 199-222: self.metrics, and the caller's list afterwards (the same object) *)
Definition new_metrics (points : bool) (metrics : option (list metric)) : list metric * option (list metric) :=
  match metrics with
  | None => (if points then [DATA_POINTS] else [ACCURACY; KAPPA], None)
  | Some l => let l' := if points then l ++ [DATA_POINTS] else l in (l', Some l')
  end.

(** Sets: union(b) == b, and equality of the intersections with two lists *)
Definition subset (a b : list metric) : bool := forallb (mem b) a.
Definition same_inter (a b c : list metric) : bool := forallb (fun m => Bool.eqb (mem b m) (mem c m)) a.
(** base_evaluator.py 187-198: metrics with plots first *)
Definition no_plot (m : metric) : bool := match m with MODEL_SIZE | RUNNING_TIME => true | _ => false end.
Definition reordered (ms : list metric) : list metric := filter (fun m => negb (no_plot m)) ms ++ filter no_plot ms.
(** _check_configuration, base_evaluator.py 170-239 *)
Definition check_config (n_targets : Z) (points : bool) (ms : list metric) : res (task * list metric) :=
  if (n_targets <? 1)%Z then Raise ValueError else
  if negb (subset ms PLOT_TYPES) then Raise ValueError else
  let ms := reordered ms in
  if (n_targets =? 1)%Z then
    if same_inter ms CLASSIFICATION_METRICS REGRESSION_METRICS then Raise ValueError
    else if subset ms CLASSIFICATION_METRICS || points then Ok (Classification, ms)
    else if subset ms REGRESSION_METRICS then Ok (Regression, ms)
    else Raise ValueError
  else
    if subset ms MULTI_TARGET_CLASSIFICATION_METRICS then Ok (MultiTargetClassification, ms)
    else if subset ms MULTI_TARGET_REGRESSION_METRICS then Ok (MultiTargetRegression, ms)
    else Raise ValueError.

(** ** Reported values *)
Section Values.
Context {T : Type} {N : Num T}.
(** What the measurements of model [i] answer: a score over all samples ([true]) or the window ([false]); the last true value and
    prediction; training, testing and total time; the size of the model *)
Record measured := mk_measured {
  me_score : metric -> bool -> nat -> T; me_true : nat -> T; me_pred : nat -> T; me_train : nat -> T; me_test : nat -> T; me_total : nat -> T; me_size : nat -> T }.
Variable me : measured.
(** The scores the measurements of a task have: metrics/_classification_performance_evaluator.pyx 102-431, 657-730,
    metrics/measure_collection.py 1110-1138, 1302-1345 *)
Definition has_score (t : task) (m : metric) : bool :=
  match t, m with
  | Classification, (ACCURACY | KAPPA | KAPPA_T | KAPPA_M | F1_SCORE | PRECISION | RECALL | GMEAN) => true
  | MultiTargetClassification, (HAMMING_SCORE | HAMMING_LOSS | EXACT_MATCH | J_INDEX) => true
  | Regression, (MSE | MAE) => true
  | MultiTargetRegression, (AMSE | AMAE | ARMSE) => true
  | _, _ => false
  end.
(** The data buffer, evaluation_data_buffer.py 1-44; _update_metrics fills all of it for one sample id *)
Inductive entry := EScores (mean current : list T) | ELast (y : T) (ps : list T) | ETimes (a b c : list T) | ESizes (l : list T) | EPoints.
Definition buffer := list (metric * entry).
Definition look (b : buffer) (m : metric) : res entry :=
  match find (fun p => if metric_eq_dec (fst p) m then true else false) b with Some p => Ok (snd p) | None => Raise KeyError end.
Definition each (n : nat) (f : nat -> T) : list T := map f (seq 0 n).
(** _update_metrics for one metric, base_evaluator.py 335-530, once the measurements hold a result; [features]: how many the samples have *)
Definition metric_entry (t : task) (n features : nat) (m : metric) : res entry :=
  match m with
  | TRUE_VS_PREDICTED => Ok (ELast (match n with O => nofZ (-1) | S k => me_true me k end) (each n (me_pred me)))
  | DATA_POINTS => if Nat.eqb n 0 || Nat.ltb features 2 then Raise IndexError else Ok EPoints
  | RUNNING_TIME => Ok (ETimes (each n (me_train me)) (each n (me_test me)) (each n (me_total me)))
  | MODEL_SIZE => Ok (ESizes (each n (me_size me)))
  | Unknown _ => Raise ValueError
  | m => if has_score t m || Nat.eqb n 0 then Ok (EScores (each n (me_score me m true)) (each n (me_score me m false))) else Raise AttributeError
  end.
Fixpoint update_metrics (t : task) (n features : nat) (ms : list metric) : res buffer :=
  match ms with [] => Ok [] | m :: r => e <- metric_entry t n features m ;; b <- update_metrics t n features r ;; Ok ((m, e) :: b) end.

(** ** Columns.  The header of the file, base_evaluator.py 559-602 *)
Inductive column := CId | CMean (m : metric) (i : nat) | CCurrent (m : metric) (i : nat) | CTrue | CPred (i : nat) | CTrain (i : nat) | CTest (i : nat) | CTotal (i : nat) | CSize (i : nat).
Definition metric_columns (n : nat) (m : metric) : list column :=
  match m with
  | TRUE_VS_PREDICTED => CTrue :: map CPred (seq 0 n)
  | RUNNING_TIME => flat_map (fun i => [CTrain i; CTest i; CTotal i]) (seq 0 n)
  | MODEL_SIZE => map CSize (seq 0 n)
  | DATA_POINTS => []
  | m => flat_map (fun i => [CMean m i; CCurrent m i]) (seq 0 n)
  end.
Definition header (n : nat) (ms : list metric) : list column := CId :: flat_map (metric_columns n) ms.
(** A line, base_evaluator.py 604-641; values[j][i] raises IndexError past the end *)
Definition item (l : list T) (i : nat) : res T := match nth_error l i with Some v => Ok v | None => Raise IndexError end.
Fixpoint for_models (n i : nat) (f : nat -> res (list T)) : res (list T) :=
  match n with O => Ok [] | S k => a <- f i ;; r <- for_models k (S i) f ;; Ok (a ++ r) end.
Definition metric_fields (n : nat) (b : buffer) (m : metric) : res (list T) :=
  match m with
  | DATA_POINTS => Ok []
  | m =>
    e <- look b m ;;
    match e with
    | ELast y ps => r <- for_models n 0 (fun i => p <- item ps i ;; Ok [p]) ;; Ok (y :: r)
    | ETimes ta tb tc => for_models n 0 (fun i => x <- item ta i ;; y <- item tb i ;; z <- item tc i ;; Ok [x; y; z])
    | ESizes l => for_models n 0 (fun i => x <- item l i ;; Ok [x])
    | EScores mean cur => for_models n 0 (fun i => x <- item mean i ;; y <- item cur i ;; Ok [x; y])
    | EPoints => Raise KeyError
    end
  end.
Fixpoint fields (n : nat) (b : buffer) (ms : list metric) : res (list T) :=
  match ms with [] => Ok [] | m :: r => x <- metric_fields n b m ;; y <- fields n b r ;; Ok (x ++ y) end.
Definition line (n : nat) (b : buffer) (ms : list metric) (id : T) : res (list T) := r <- fields n b ms ;; Ok (id :: r).
End Values.
Arguments measured : clear implicits.

(** ** The file.  _init_file 543-602, _update_file 643-649, _flush_file_buffer 651-656 *)
Section File.
Context {L : Type} (size : L -> Z) (limit : Z).
Record ofile := mk_ofile { o_file : list L; o_buf : list L; o_size : Z }.
Inductive fevent := FInit (top : list L) | FLine (l : L) | FEnd.
Definition flush (s : ofile) : ofile := if (0 <? o_size s)%Z then mk_ofile (o_file s ++ o_buf s) [] 0 else s.
Definition fstep (s : ofile) (e : fevent) : ofile :=
  match e with
  | FInit top => mk_ofile top (o_buf s) (o_size s)
  | FLine l => let s := if (limit <? size l + o_size s)%Z then flush s else s in mk_ofile (o_file s) (o_buf s ++ [l]) (o_size s + size l)
  | FEnd => flush s
  end.
Definition frun (s : ofile) (es : list fevent) : ofile := fold_left fstep es s.
Definition ofile_new : ofile := mk_ofile [] [] 0.
(** One call of evaluate: the file is begun, lines are reported, the buffer is flushed *)
Definition evaluation (top ls : list L) : list fevent := FInit top :: map FLine ls ++ [FEnd].
End File.
