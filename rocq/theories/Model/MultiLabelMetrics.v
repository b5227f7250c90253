(** Model of metrics/_confusion_matrix.pyx (MultiLabelConfusionMatrix) and of the multi-label evaluators of
    metrics/_classification_performance_evaluator.pyx.

    A label vector is a list of [option Z]: [None] is NaN.  Vectors hold integers otherwise.  C ints are unbounded, see
    Model/ClassMetrics.v.  A method that raises after changing the object returns the changed object with the exception. *)
From Coq Require Import List ZArith Bool.
From Verif Require Import Base.Py Base.Num.
Import ListNotations.
Local Open Scope Z_scope.

Section MultiLabel.
Context {T : Type} `{Num T}.

(** _confusion_matrix.pyx:113-121: attributes ([labels] is always set(range(n_labels)) and _max_label is n_labels - 1); the
    data array of shape (n_labels, 2, 2) is a function, reads outside are not made by the code modelled here. *)
Record mlcm : Type := mk_mlcm { c_init : Z; c_n : Z; c_cell : Z -> Z -> Z -> T }.

(** _confusion_matrix.pyx:113-121 __init__ *)
Definition mlcm_new (n_labels : Z) : mlcm :=
  let n := if n_labels <? 2 then 2 else n_labels in mk_mlcm n n (fun _ _ _ => n0).

(** _confusion_matrix.pyx:123-144 __setitem__ with 0 <= label, and 151-155 _reshape (new labels get zeros) *)
Definition mlcm_set (m : mlcm) (label t p : Z) (w : T) : res mlcm :=
  if negb ((0 <=? t) && (t <? 2)) || negb ((0 <=? p) && (p <? 2)) then Raise ValueError
  else
    let n := if c_n m - 1 <? label then label + 1 else c_n m in
    let old := fun l a b => if l <? c_n m then c_cell m l a b else n0 in
    Ok (mk_mlcm (c_init m) n
          (fun l a b => if (l =? label) && (a =? t) && (b =? p) then (old l a b + w)%num else old l a b)).

(** _confusion_matrix.pyx:161-162 reset *)
Definition mlcm_reset (m : mlcm) : mlcm := mlcm_new (c_init m).

(** _classification_performance_evaluator.pyx:600-610: attributes *)
Record mle : Type := mk_mle {
  m_init : Z; m_cm : mlcm; m_last_true : list (option Z); m_last_pred : list (option Z); m_n : Z; m_exact : Z; m_jac : T
}.

(** _classification_performance_evaluator.pyx:600-610 __init__: the matrix is built without n_labels *)
Definition mle_new (n_labels : Z) : mle :=
  let n := if n_labels <? 2 then 2 else n_labels in
  mk_mle n (mlcm_new 2) (repeat (Some 0) (Z.to_nat n)) (repeat (Some 0) (Z.to_nat n)) 0 0 n0.

(** _classification_performance_evaluator.pyx:889-921 _check_multi_label_inputs *)
Definition is_nan (x : option Z) : bool := match x with None => true | Some _ => false end.
Definition check_inputs (yt yp : list (option Z)) : res bool :=
  if negb (Z.of_nat (length yt) =? Z.of_nat (length yp)) then Raise ValueError
  else Ok (negb (existsb is_nan yt || existsb is_nan yp)).

(** numpy value of an entry that is not NaN *)
Definition val (x : option Z) : Z := match x with Some v => v | None => 0 end.

(** the loop 634-637 / 843-846 over the labels: adds [w] to the cells from label [i] on; stops at the first invalid entry *)
Fixpoint add_labels (m : mlcm) (i : Z) (yt yp : list (option Z)) (w : T) : mlcm * res unit :=
  match yt, yp with
  | t :: yt', p :: yp' =>
      match mlcm_set m i (val t) (val p) w with
      | Ok m' => add_labels m' (i + 1) yt' yp' w
      | Raise e => (m, Raise e)
      end
  | _, _ => (m, Ok tt)
  end.

(** is_equal of 636-637 *)
Fixpoint vec_equal (yt yp : list (option Z)) : bool :=
  match yt, yp with t :: yt', p :: yp' => (val t =? val p) && vec_equal yt' yp' | _, _ => true end.

(** np.sum(np.logical_and(..)) and np.sum(np.logical_or(..)) (643-644) *)
Fixpoint count_pairs (f : bool -> bool -> bool) (yt yp : list (option Z)) : Z :=
  match yt, yp with
  | t :: yt', p :: yp' => (if f (negb (val t =? 0)) (negb (val p =? 0)) then 1 else 0) + count_pairs f yt' yp'
  | _, _ => 0
  end.

(** 645-647: the sample's Jaccard index, 0.0 when no label is set ([union_val > 0] excludes a division by zero) *)
Definition jaccard_of (yt yp : list (option Z)) : T :=
  let u := count_pairs orb yt yp in
  if 0 <? u then (nofZ (count_pairs andb yt yp) / nofZ u)%num else n0.
(** [self.jaccard_sum += ...] happens only when the union is not empty *)
Definition jac_add (s : T) (yt yp : list (option Z)) : T :=
  if 0 <? count_pairs orb yt yp then (s + jaccard_of yt yp)%num else s.

(** _classification_performance_evaluator.pyx:612-651 add_result *)
Definition mle_add (s : mle) (yt yp : list (option Z)) (w : T) : mle * res unit :=
  match check_inputs yt yp with
  | Raise e => (s, Raise e)
  | Ok false => (s, Ok tt)
  | Ok true =>
      let n := m_n s + 1 in
      match add_labels (m_cm s) 0 yt yp w with
      | (m, Raise e) => (mk_mle (m_init s) m (m_last_true s) (m_last_pred s) n (m_exact s) (m_jac s), Raise e)
      | (m, Ok _) =>
          (mk_mle (m_init s) m yt yp n (m_exact s + if vec_equal yt yp then 1 else 0) (jac_add (m_jac s) yt yp), Ok tt)
      end
  end.

(** [np.sum(data[:, 1, 1])] *)
Definition both_one (m : mlcm) : T :=
  fold_left (fun a i => (a + c_cell m (Z.of_nat i) 1 1)%num) (seq 0 (Z.to_nat (c_n m))) n0.

(** _classification_performance_evaluator.pyx:655-669 hamming_score: a numpy float divided by a Python int, so a zero
    denominator gives nan ([None]) instead of ZeroDivisionError *)
Definition mle_hamming (s : mle) : option T :=
  let d := m_n s * c_n (m_cm s) in
  if d =? 0 then None else Some (both_one (m_cm s) / nofZ d)%num.
(** _classification_performance_evaluator.pyx:671-682 hamming_loss_score *)
Definition mle_hamming_loss (s : mle) : option T := option_map (fun x => (n1 - x)%num) (mle_hamming s).
(** _classification_performance_evaluator.pyx:684-701 exact_match_score *)
Definition mle_exact (s : mle) : T := if m_n s =? 0 then n0 else (nofZ (m_exact s) / nofZ (m_n s))%num.
(** _classification_performance_evaluator.pyx:703-727 jaccard_score *)
Definition mle_jaccard (s : mle) : T := if m_n s =? 0 then n0 else (m_jac s / nofZ (m_n s))%num.
(** _classification_performance_evaluator.pyx:741-744 reset: [self.__init__()] *)
Definition mle_reset (s : mle) : mle := mle_new 2.

(** _classification_performance_evaluator.pyx:784-787: the windowed evaluator; queue entries are
    (y_true, y_pred, weight, is_equal, jaccard) *)
Record wmle : Type := mk_wmle { wm_ev : mle; wm_size : Z; wm_queue : list (list (option Z) * list (option Z) * T * Z * T) }.
Definition wmle_new (n_labels window_size : Z) : wmle := mk_wmle (mle_new n_labels) window_size [].

(** _classification_performance_evaluator.pyx:825-841: drop the oldest sample *)
Definition wmle_evict (s : wmle) : wmle * res unit :=
  match wm_queue s with
  | [] => (s, Raise IndexError)                  (* popleft on an empty deque: only when window_size == 0 *)
  | (yt, yp, w, eq, j) :: q =>
      let e := wm_ev s in
      match add_labels (m_cm e) 0 yt yp (n0 - w)%num with
      | (m, Raise x) => (mk_wmle (mk_mle (m_init e) m (m_last_true e) (m_last_pred e) (m_n e) (m_exact e) (m_jac e)) (wm_size s) q,
                         Raise x)
      | (m, Ok _) => (mk_wmle (mk_mle (m_init e) m (m_last_true e) (m_last_pred e) (m_n e - 1) (m_exact e - eq)
                                      (m_jac e - j)%num) (wm_size s) q, Ok tt)
      end
  end.

(** _classification_performance_evaluator.pyx:789-872 add_result: here the labels are counted before n_samples *)
Definition wmle_add (s : wmle) (yt yp : list (option Z)) (w : T) : wmle * res unit :=
  match check_inputs yt yp with
  | Raise e => (s, Raise e)
  | Ok false => (s, Ok tt)
  | Ok true =>
      match (if Z.of_nat (length (wm_queue s)) =? wm_size s then wmle_evict s else (s, Ok tt)) with
      | (s1, Raise e) => (s1, Raise e)
      | (s1, Ok _) =>
          let e := wm_ev s1 in
          match add_labels (m_cm e) 0 yt yp w with
          | (m, Raise x) => (mk_wmle (mk_mle (m_init e) m (m_last_true e) (m_last_pred e) (m_n e) (m_exact e) (m_jac e))
                                     (wm_size s1) (wm_queue s1), Raise x)
          | (m, Ok _) =>
              let eq := if vec_equal yt yp then 1 else 0 in
              (mk_wmle (mk_mle (m_init e) m yt yp (m_n e + 1) (m_exact e + eq) (jac_add (m_jac e) yt yp))
                       (wm_size s1) (wm_queue s1 ++ [(yt, yp, w, eq, jaccard_of yt yp)]), Ok tt)
          end
      end
  end.

(** _classification_performance_evaluator.pyx:874-877 reset *)
Definition wmle_reset (s : wmle) : wmle := wmle_new 2 (wm_size s).

(** Histories: a caller that goes on after failed calls. *)
Fixpoint mle_run (s : mle) (l : list (list (option Z) * list (option Z) * T)) : mle :=
  match l with [] => s | (yt, yp, w) :: r => mle_run (fst (mle_add s yt yp w)) r end.
Fixpoint wmle_run (s : wmle) (l : list (list (option Z) * list (option Z) * T)) : wmle :=
  match l with [] => s | (yt, yp, w) :: r => wmle_run (fst (wmle_add s yt yp w)) r end.
End MultiLabel.

Arguments mlcm : clear implicits.
Arguments mle : clear implicits.
Arguments wmle : clear implicits.
