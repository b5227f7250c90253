(** Model of ClassificationMeasurements (metrics/measure_collection.py 11-338).

    Simplifications: labels are integers; weights are numbers (check_weights lets them pass); n_targets is always the length of targets, because the
    constructor replaces a missing list by [0, 1], and is not kept; last_prediction and last_sample are not kept. *)
From Coq Require Import List ZArith Bool.
From Verif Require Import Base.Py Base.Num Model.ConfMat.
Import ListNotations.

Section Measure.
Context {T : Type} {N : Num T}.
Record measure := mk_me { me_targets : list Z; me_matrix : cmat; me_last : option Z; me_count : Z; me_majority : T; me_nochange : T }.
(** __init__, lines 41-57 *)
Definition me_new (targets : option (list Z)) : measure :=
  let t := match targets with Some t => t | None => [0; 1]%Z end in
  mk_me t (mkCM (Z.of_nat (length t)) zeros2 0) None 0 n0 n0.
(** reset, lines 59-70 *)
Definition me_reset (s : measure) : measure :=
  mk_me (me_targets s) (fst (cm_restart (me_matrix s) (Some (Z.of_nat (length (me_targets s)))))) None 0 n0 n0.
(** for i in range(len(targets)): if targets[i] == target: return i, lines 182-185 *)
Fixpoint first_index (l : list Z) (t : Z) : option nat :=
  match l with [] => None | x :: l => if (x =? t)%Z then Some O else option_map S (first_index l t) end.
(** _get_target_index with add_label, lines 176-180: a new label is appended and the matrix extended *)
Definition me_add_label (s : measure) (t : Z) : measure :=
  if existsb (Z.eqb t) (me_targets s) then s
  else let ts := me_targets s ++ [t] in
       let n := Z.of_nat (length ts) in
       mk_me ts (if (cm_size (me_matrix s) <? n)%Z then fst (cm_reshape (me_matrix s) n n) else me_matrix s) (me_last s) (me_count s) (me_majority s) (me_nochange s).
Definition me_index (s : measure) (t : Z) : option Z := option_map Z.of_nat (first_index (me_targets s) t).
(** get_majority_class, lines 105-126; without a result every share is nan, and nan is not greater than 0 *)
Definition row_sum (s : measure) (i : Z) : Z := zsum (map (cm_cell (me_matrix s) i) (zrange (Z.of_nat (length (me_targets s))))).
Definition me_majority_index (s : measure) : Z :=
  fst (fold_left (fun best i => let p := (nofZ (row_sum s i) / nofZ (me_count s))%num in
                                if negb (me_count s =? 0)%Z && (snd best <? p)%num then (i, p) else best)
         (zrange (Z.of_nat (length (me_targets s)))) (0%Z, n0)).
(** [None]: False, there are no targets *)
Definition me_majority_class (s : measure) : option Z := nth_error (me_targets s) (Z.to_nat (me_majority_index s)).
(** add_result, lines 72-100 *)
Definition me_add (s : measure) (y_true y_pred : Z) (weight : T) : res measure :=
  let s := me_add_label s y_true in
  let i := me_index s y_true in
  let s := me_add_label s y_pred in
  let j := me_index s y_pred in
  let '(m, r) := cm_update (me_matrix s) i j 1 in
  _ <- r ;;
  let s := mk_me (me_targets s) m (me_last s) (me_count s + 1) (me_majority s) (me_nochange s) in
  let maj := match me_majority_class s with Some c => if (c =? y_true)%Z then (me_majority s + weight)%num else me_majority s | None => me_majority s end in
  let noc := match me_last s with Some c => if (c =? y_true)%Z then (me_nochange s + weight)%num else me_nochange s | None => me_nochange s end in
  Ok (mk_me (me_targets s) m (Some y_true) (me_count s) maj noc).
(** get_accuracy, lines 128-144: [None] is nan, a numpy float divided by 0 (the exception is raised only if there are no targets) *)
Definition me_accuracy (s : measure) : option T :=
  if (me_count s =? 0)%Z then (if (cm_size (me_matrix s) =? 0)%Z then Some n0 else None)
  else Some (nofZ (cm_diagonal (me_matrix s)) / nofZ (me_count s))%num.
(** get_kappa_t, lines 211-228, and get_kappa_m, lines 230-246 *)
Definition me_kappa_of (s : measure) (num : T) : option T :=
  match me_accuracy s with
  | None => None
  | Some p0 => let pc := if (me_count s =? 0)%Z then n0 else (num / nofZ (me_count s))%num in
               if (pc =? n1)%num then Some n1 else Some ((p0 - pc) / (n1 - pc))%num
  end.
Definition me_kappa_t (s : measure) : option T := me_kappa_of s (me_nochange s).
Definition me_kappa_m (s : measure) : option T := me_kappa_of s (me_majority s).
(** get_precision, lines 284-302, and get_recall, lines 304-322 *)
Definition share (a b : Z) : T := if (a + b =? 0)%Z then n0 else (nofZ a / nofZ (a + b))%num.
Definition me_precision (s : measure) : res T :=
  match me_index s 1 with
  | None => Ok n0
  | Some i => tp <- cm_value_at (me_matrix s) i i ;; fp <- cm_value_at (me_matrix s) (1 - i) i ;; Ok (share tp fp)
  end.
Definition me_recall (s : measure) : res T :=
  match me_index s 1 with
  | None => Ok n0
  | Some i => tp <- cm_value_at (me_matrix s) i i ;; fn <- cm_value_at (me_matrix s) i (1 - i) ;; Ok (share tp fn)
  end.
(** get_kappa, lines 187-209; [None] is nan *)
Definition col_sum (s : measure) (i : Z) : Z := zsum (map (fun j => cm_cell (me_matrix s) j i) (zrange (cm_size (me_matrix s)))).
Definition me_kappa (s : measure) : option T :=
  match me_accuracy s with
  | None => None
  | Some p0 =>
      let n := nofZ (me_count s) in
      let pc := fold_left (fun acc i => (acc + (nofZ (zsum (map (cm_cell (me_matrix s) i) (zrange (cm_size (me_matrix s))))) / n) * (nofZ (col_sum s i) / n))%num) (zrange (cm_size (me_matrix s))) n0 in
      if (pc =? n1)%num then Some n1 else Some ((p0 - pc) / (n1 - pc))%num
  end.
(** get_f1_score, lines 269-282 *)
Definition me_f1 (s : measure) : res T :=
  p <- me_precision s ;; r <- me_recall s ;;
  Ok (if (r + p =? n0)%num then n0 else nofZ 2 * ((p * r) / (p + r)))%num.
(** get_g_mean, lines 248-267 *)
Definition me_gmean (s : measure) : res T :=
  match me_index s 0 with
  | None => Ok n0
  | Some i => tn <- cm_value_at (me_matrix s) i i ;; fp <- cm_value_at (me_matrix s) i (1 - i) ;; r <- me_recall s ;; Ok (nsqrt (r * share tn fp)%num)
  end.
(** Histories *)
Inductive me_event := MAdd (y_true y_pred : Z) (weight : T) | MClear.
Definition me_step (s : measure) (e : me_event) : res measure := match e with MAdd y p w => me_add s y p w | MClear => Ok (me_reset s) end.
Fixpoint me_run (s : measure) (es : list me_event) : res measure := match es with [] => Ok s | e :: es => s <- me_step s e ;; me_run s es end.
End Measure.
Arguments measure : clear implicits. Arguments me_event : clear implicits.
