(** Vocabulary for the configuration and the output file of evaluators. *)
From Coq Require Import List ZArith Bool.
From Verif Require Import Base.Py Base.Num Model.EvalOutput.
Import ListNotations.

(** Metrics of classification, of regression, and of either *)
Definition of_classification (m : metric) : Prop := In m [ACCURACY; KAPPA; KAPPA_T; KAPPA_M; RECALL; PRECISION; GMEAN; F1_SCORE; DATA_POINTS].
Definition of_regression (m : metric) : Prop := m = MSE \/ m = MAE.
Definition of_either (m : metric) : Prop := m = TRUE_VS_PREDICTED \/ m = RUNNING_TIME \/ m = MODEL_SIZE.
Definition of_multi_label (m : metric) : Prop := In m [HAMMING_SCORE; HAMMING_LOSS; EXACT_MATCH; J_INDEX].
Definition of_multi_target (m : metric) : Prop := In m [AMSE; AMAE; ARMSE].
Definition of_cost (m : metric) : Prop := m = RUNNING_TIME \/ m = MODEL_SIZE.

(** The value a column names *)
Definition meaning {T} (me : measured T) (n : nat) (id dflt : T) (c : column) : T :=
  match c with
  | CId => id
  | CMean m i => me_score me m true i
  | CCurrent m i => me_score me m false i
  | CTrue => match n with O => dflt | S k => me_true me k end
  | CPred i => me_pred me i
  | CTrain i => me_train me i
  | CTest i => me_test me i
  | CTotal i => me_total me i
  | CSize i => me_size me i
  end.

(** [a] is [l] with some elements left out, the others in the same order *)
Inductive subseq {A} : list A -> list A -> Prop :=
| subseq_nil : subseq [] []
| subseq_keep x a l : subseq a l -> subseq (x :: a) (x :: l)
| subseq_drop x a l : subseq a l -> subseq a (x :: l).

(** The total size of lines *)
Definition total {L} (size : L -> Z) (ls : list L) : Z := fold_right Z.add 0%Z (map size ls).
