(** Model of WindowClassificationMeasurements (metrics/measure_collection.py 341-712).

    The attributes it shares with ClassificationMeasurements are those of [measure]; its me_count is here the current size of the buffer of true labels, by
    which get_majority_class, get_accuracy, get_kappa_t and get_kappa_m (473-513, 580-614) divide.  Simplifications: labels and weights are integers (the
    matrix holds integers); the window size is at least 1; the four buffers are lists, oldest first. *)
From Coq Require Import List ZArith Bool.
From Verif Require Import Base.Py Base.Num Model.ConfMat Model.ClassMeasure.
Import ListNotations.

Section Window.
Context {T : Type} {N : Num T}.
Record wmeasure := mk_wm { wm_me : measure T; wm_size : nat; wm_true : list Z; wm_pred : list Z; wm_major_corr : list Z; wm_nochange_corr : list Z }.
(** __init__, lines 375-399 *)
Definition wm_new (targets : option (list Z)) (size : nat) : wmeasure := mk_wm (me_new targets) size [] [] [] [].
(** reset, lines 401-418 *)
Definition wm_reset (s : wmeasure) : wmeasure := mk_wm (me_reset (wm_me s)) (wm_size s) [] [] [] [].
(** FastBuffer.add_element of one element, utils/data_structures.py 68-102: the buffer and the element popped *)
Definition buf_add (size : nat) (l : list Z) (x : Z) : list Z * option Z :=
  if Nat.leb (length l + 1) size then (l ++ [x], None) else match l with [] => ([x], None) | o :: l => (l ++ [x], Some o) end.
(** FastBuffer.peek, data_structures.py 142-156 *)
Definition buf_peek (l : list Z) : Z := match l with [] => 0%Z | x :: _ => x end.
Definition me_with (s : measure T) (m : cmat) (count : Z) (major nochange : T) : measure T := mk_me (me_targets s) m (me_last s) count major nochange.
(** add_result, lines 420-468 *)
Definition wm_add (s : wmeasure) (y_true y_pred weight : Z) : res wmeasure :=
  let m := me_add_label (wm_me s) y_true in
  let i := me_index m y_true in
  let m := me_add_label m y_pred in
  let j := me_index m y_pred in
  let '(ts, old_true) := buf_add (wm_size s) (wm_true s) y_true in
  let '(ps, old_pred) := buf_add (wm_size s) (wm_pred s) y_pred in
  let m := me_with m (me_matrix m) (Z.of_nat (length ts)) (me_majority m) (me_nochange m) in
  m <- match old_true, old_pred with
       | Some t0, Some p0 =>
           let '(mx, r) := cm_remove (me_matrix m) (me_index m t0) (me_index m p0) in
           _ <- r ;; Ok (me_with m mx (me_count m) (me_majority m + nofZ (buf_peek (wm_major_corr s)))%num (me_nochange m + nofZ (buf_peek (wm_nochange_corr s)))%num)
       | _, _ => Ok m
       end ;;
  let hit := match me_majority_class m with Some c => (c =? y_true)%Z | None => false end in
  let rep := match me_last m with Some c => (c =? y_true)%Z | None => false end in
  let '(mx, r) := cm_update (me_matrix m) i j weight in
  _ <- r ;;
  Ok (mk_wm (mk_me (me_targets m) mx (Some y_true) (me_count m) (if hit then me_majority m + nofZ weight else me_majority m)%num (if rep then me_nochange m + nofZ weight else me_nochange m)%num)
        (wm_size s) ts ps (fst (buf_add (wm_size s) (wm_major_corr s) (if hit then -1 else 0)%Z)) (fst (buf_add (wm_size s) (wm_nochange_corr s) (if rep then -1 else 0)%Z))).
(** Histories; the weight is an integer *)
Definition wm_step (s : wmeasure) (e : me_event Z) : res wmeasure := match e with MAdd y p w => wm_add s y p w | MClear => Ok (wm_reset s) end.
Fixpoint wm_run (s : wmeasure) (es : list (me_event Z)) : res wmeasure := match es with [] => Ok s | e :: es => s <- wm_step s e ;; wm_run s es end.
End Window.
Arguments wmeasure : clear implicits.
