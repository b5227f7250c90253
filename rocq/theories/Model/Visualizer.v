(** Model of EvaluationVisualizer (visualization/evaluation_visualizer.py 105-145, 347-446): the lines of a performance metric, the limits of its axis,
    when the figure is drawn again, and the points of the data points plot.

    Numbers are rationals.  matplotlib is not modelled: a line is the list of its points, drawing is a fact that is noted.  One plot is modelled; the
    plots do not depend on each other.  Annotations, legends and titles are left out. *)
From Coq Require Import List ZArith QArith Bool.
From Verif Require Import Base.Py Model.FastBuffer.
Import ListNotations.

(** The metrics whose limits the code sets differently, lines 428-437; all others are [Plain] *)
Inductive kind := KappaTM | Error | Plain.
Definition min2 (a b : Q) : Q := if Qle_bool a b then a else b.
Definition max2 (a b : Q) : Q := if Qle_bool a b then b else a.
(** One call of on_new_train_step: sample_id, the clock, and the values of the models under 'mean' and under 'current' *)
Record event := mk_ev { e_id : Z; e_time : Q; e_mean : list Q; e_current : list Q }.
Record viz := mk_viz { v_ids : list Z; v_mean : list (list Q); v_current : list (list Q); v_low : Q; v_high : Q; v_frames : nat; v_last : Q; v_drawn : list bool }.

Section Viz.
Context (n_models : nat) (metric : kind).
(** plot_tracker.data[data_id][i].append(data[i]), lines 415-418; what goes wrong becomes a ValueError, lines 143-145 *)
Fixpoint set_line (i : nat) (l : list Q) (ls : list (list Q)) : list (list Q) :=
  match ls, i with [], _ => [] | _ :: r, O => l :: r | x :: r, S j => x :: set_line j l r end.
Definition append_one (data : list Q) (acc : res (list (list Q))) (i : nat) : res (list (list Q)) :=
  match acc with
  | Raise e => Raise e
  | Ok ls => match nth_error ls i, nth_error data i with Some l, Some v => Ok (set_line i (l ++ [v]) ls) | _, _ => Raise ValueError end
  end.
Definition append_values (ls : list (list Q)) (data : list Q) : res (list (list Q)) := fold_left (append_one data) (seq 0 n_models) (Ok ls).
(** the newest value of the line of model i, plot_tracker.data[...][i][-1] *)
Definition newest_of (ls : list (list Q)) (i : nat) : Q := last (nth i ls []) 0.
(** y_min, y_max and pad, lines 353-356 and 421-437 *)
Definition limit_step (means currents : list (list Q)) (acc : Q * Q * Q) (i : nat) : Q * Q * Q :=
  let '(lo, hi, pad) := acc in
  let m := newest_of means i in let c := newest_of currents i in
  match metric with
  | KappaTM => (min2 (min2 m c) lo, hi, pad)
  | Error => let hi := max2 (max2 m c) hi in (-1, hi, (1#2) * hi)
  | Plain => (lo, hi, pad)
  end.
Definition limits (means currents : list (list Q)) : Q * Q * Q := fold_left (limit_step means currents) (seq 0 n_models) (0, 1, 1#10).
(** on_new_train_step, lines 124-145, with _update_plots, lines 347-441 *)
Definition train_step (s : viz) (e : event) : res viz :=
  match append_values (v_mean s) (e_mean e), append_values (v_current s) (e_current e) with
  | Ok means, Ok currents =>
      let '(lo, hi, pad) := limits means currents in
      let draw := Nat.eqb (v_frames s) 5 || negb (Qle_bool (e_time e - v_last s) 1) in
      Ok (mk_viz (v_ids s ++ [e_id e]) means currents (lo - pad) (hi + pad) (if draw then 0%nat else S (v_frames s)) (if draw then e_time e else v_last s) (v_drawn s ++ [draw]))
  | _, _ => Raise ValueError
  end.
(** __init__, lines 56-63, and the lines of __configure, 176 and 257-261; matplotlib's own first limits are 0 and 1 *)
Definition new_viz : viz := mk_viz [] (repeat [] n_models) (repeat [] n_models) 0 1 0 0 [].
(** the first n calls of a sequence of calls *)
Fixpoint after (ev : nat -> event) (n : nat) : res viz :=
  match n with O => Ok new_viz | S k => match after ev k with Ok s => train_step s (ev k) | Raise x => Raise x end end.
End Viz.

(** ** The plot of the data points, lines 372-405 *)
Section Points.
Context {P : Type} (n_targets : nat).
(** the loop over the clusters, lines 398-401: the point is added to the buffer whose number is the prediction *)
Fixpoint add_point (prediction : Z) (x : P) (k : nat) (cl : list (fbuf P)) : list (fbuf P) :=
  match cl with
  | [] => []
  | c :: r => (if (prediction =? Z.of_nat k)%Z then fst (fb_add c [x]) else c) :: add_point prediction x (S k) r
  end.
(** one call: clusters_initialized is never set (lines 392-394), so buffers of 100 elements are appended at each call *)
Definition points_step (cl : list (fbuf P)) (call : P * Z) : list (fbuf P) :=
  add_point (snd call) (fst call) 0 (cl ++ repeat (fb_init 100 None) n_targets).
Definition points_after (h : list (P * Z)) : list (fbuf P) := fold_left points_step h [].
(** what is scattered under the label "Class k", lines 402-404 *)
Definition scattered (h : list (P * Z)) (k : nat) : list P := match nth_error (points_after h) k with Some c => fb_buf c | None => [] end.
End Points.
