(** Vocabulary for Naive Bayes: the classifier as a function of the samples it was given. *)
From Coq Require Import List ZArith Reals Bool.
From Verif Require Import Base.Py Base.Num Spec.Lists Spec.ObserverSpec Spec.NominalSpec Model.NaiveBayes.
Import ListNotations.
Local Open Scope R_scope.

(** A training sample: attributes, label, weight. *)
Notation sample := (list R * Z * R)%type.

(** Total weight, and the weight of the samples of one label. *)
Definition total_weight (h : list sample) : R := Rsum (map snd h).
Definition label_weight (h : list sample) (c : Z) : R := Rsum (map snd (filter (fun s => Z.eqb (snd (fst s)) c) h)).
Definition has_label (h : list sample) (c : Z) : Prop := exists X w, In (X, c, w) h.

(** The values seen in column [i]: (value, label, weight). *)
Definition column (h : list sample) (i : nat) : list (option R * Z * R) :=
  flat_map (fun '(X, c, w) => match nth_error X i with Some v => [(Some v, c, w)] | None => [] end) h.

(** Estimate with Laplace correction of a nominal value given the label: (weight of the value in the label + 1) /
    (weight of the label + number of different values seen with the label); 0 for a label not seen. *)
Definition laplace (key : R -> Z) (col : list (option R * Z * R)) (a : Z) (c : Z) : R :=
  let obs := map (fun p => (key (fst p), snd p)) (of_class c col) in
  let values := nodup Z.eq_dec (map fst obs) in
  match values with
  | [] => 0
  | _ => (Rsum (map snd (filter (fun p => Z.eqb (fst p) a) obs)) + 1) / (Rsum (map snd obs) + INR (length values))
  end.

(** Probability (density) of value [a] in column [i] given label [c]. *)
Definition likelihood (k : R) (key : R -> Z) (nominal : Z -> bool) (h : list sample) (i : nat) (a : R) (c : Z) : R :=
  if nominal (Z.of_nat i) then laplace key (column h i) (key a) c
  else match of_class c (column h i) with [] => 0 | obs => normal_density k obs a end.

(** P(c) times the product, over the columns that were seen, of the likelihoods. *)
Definition nb_score (k : R) (key : R -> Z) (nominal : Z -> bool) (h : list sample) (X : list R) (c : Z) : R :=
  label_weight h c / total_weight h *
  fold_right Rmult 1 (map (fun i => match column h i with [] => 1 | _ => likelihood k key nominal h i (nth i X 0) c end)
                          (seq 0 (length X))).

(** Calls of partial_fit: the rows, the classes argument, the weights. *)
Definition fit_call := (list (list R * Z) * option labels * option (list R))%type.
Definition fit_run (key : R -> Z) (s : nb R) (calls : list fit_call) : res (nb R) :=
  fold_left (fun s '(rows, c, ws) => s <- s ;; nb_fit key s rows c ws) calls (Ok s).
(** The samples of the calls that have a weight. *)
Definition call_samples (f : fit_call) : list sample :=
  let '(rows, _, ws) := f in
  filter (fun s => if Req_EM_T (snd s) 0 then false else true)
         (combine rows (match ws with Some ws => ws | None => map (fun _ => 1) rows end)).
(** One weight per row, not negative; labels not negative. *)
Definition call_ok (f : fit_call) : Prop :=
  let '(rows, _, ws) := f in
  match ws with Some ws => length ws = length rows /\ Forall (fun w => 0 <= w) ws | None => True end
  /\ Forall (fun r => (0 <= snd r)%Z) rows.
(** The first classes argument that was given. *)
Fixpoint first_given (calls : list fit_call) : option labels :=
  match calls with [] => None | (_, Some c, _) :: _ => Some c | (_, None, _) :: r => first_given r end.
(** Classes are given, if at all, as a non-empty Python list. *)
Definition given_ok (f : fit_call) : Prop :=
  match snd (fst f) with None | Some (PyList (_ :: _)) => True | _ => False end.

(** [row] holds, at the place of every label, the share of the label in the sum of the scores of the labels seen (0 when
    that sum is 0), and 0 elsewhere. *)
Definition posterior_row (score : Z -> R) (labels : list Z) (row : list R) : Prop :=
  let total := Rsum (map score labels) in
  forall c, nth c row 0 = if in_dec Z.eq_dec (Z.of_nat c) labels
                          then (if Req_EM_T total 0 then 0 else score (Z.of_nat c) / total) else 0.
(** The different labels of the samples. *)
Definition labels_seen (h : list sample) : list Z := nodup Z.eq_dec (map (fun s => snd (fst s)) h).
(** [n] is one more than the greatest element of [l]. *)
Definition width_of (l : list Z) (n : nat) : Prop := (forall c, In c l -> (c < Z.of_nat n)%Z) /\ In (Z.of_nat n - 1)%Z l.
(** [c] is the first place of the greatest value. *)
Definition first_greatest (row : list R) (c : nat) : Prop :=
  (c < length row)%nat /\ (forall j, (j < length row)%nat -> nth j row 0 <= nth c row 0)
  /\ (forall j, (j < c)%nat -> nth j row 0 < nth c row 0).
