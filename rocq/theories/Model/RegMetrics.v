(** Model of the regression measurements and the running time measurements of metrics/measure_collection.py.

    Numbers are a [Num]; numpy arrays of targets are lists.  Simplifications: arrays of different lengths raise ValueError
    (numpy would broadcast an array of length 1); y is always an array in the multi-target classes, not a scalar;
    last_true_label / last_prediction are only returned by get_last and are not modelled. *)
From Coq Require Import List ZArith Bool.
From Verif Require Import Base.Py Base.Num Model.FastBuffer.
Import ListNotations.
Local Open Scope Z_scope.

Section Regression.
Context {T : Type} `{Num T}.

(** np.absolute *)
Definition nabs (x : T) : T := if (x <? n0)%num then (n0 - x)%num else x.

(** measure_collection.py:1077-1090: RegressionMeasurements attributes, __init__ and reset *)
Record regm : Type := mk_regm { rm_sq : T; rm_abs : T; rm_n : Z }.
Definition regm_new : regm := mk_regm n0 n0 0.
Definition regm_reset (s : regm) : regm := mk_regm n0 n0 0.

(** measure_collection.py:1092-1109 add_result *)
Definition regm_add (s : regm) (y p : T) : regm :=
  mk_regm (rm_sq s + (y - p) * (y - p))%num (rm_abs s + nabs (y - p))%num (rm_n s + 1).

(** measure_collection.py:1111-1135 get_mean_square_error, get_average_error *)
Definition regm_mse (s : regm) : res T := if rm_n s =? 0 then Ok n0 else pydiv (rm_sq s) (nofZ (rm_n s)).
Definition regm_mae (s : regm) : res T := if rm_n s =? 0 then Ok n0 else pydiv (rm_abs s) (nofZ (rm_n s)).

(** measure_collection.py:1159-1175: WindowRegressionMeasurements attributes, __init__ and reset *)
Record wregm : Type := mk_wregm { wr_sq : T; wr_abs : T; wr_bsq : fbuf T; wr_babs : fbuf T; wr_size : Z }.
Definition wregm_new (window_size : Z) : wregm :=
  mk_wregm n0 n0 (fb_init window_size None) (fb_init window_size None) window_size.
Definition wregm_reset (s : wregm) : wregm :=
  mk_wregm n0 n0 (fb_init (wr_size s) None) (fb_init (wr_size s) None) (wr_size s).

(** old_square[0]: the first element returned by FastBuffer.add_element; an empty list raises IndexError, an element that
    is None raises TypeError when added *)
Definition first_returned (l : list (option T)) : res T :=
  match l with [] => Raise IndexError | None :: _ => Raise TypeError | Some x :: _ => Ok x end.

(** measure_collection.py:1177-1203 add_result *)
Definition wregm_add (s : wregm) (y p : T) : res wregm :=
  let sq := ((y - p) * (y - p))%num in
  let ab := nabs (y - p)%num in
  let '(b1, o1) := fb_add (wr_bsq s) [(nofZ (-1) * sq)%num] in
  let '(b2, o2) := fb_add (wr_babs s) [(nofZ (-1) * ab)%num] in
  match o1, o2 with
  | Some l1, Some l2 =>
      x1 <- first_returned l1 ;; x2 <- first_returned l2 ;;
      Ok (mk_wregm (wr_sq s + sq + x1)%num (wr_abs s + ab + x2)%num b1 b2 (wr_size s))
  | _, _ => Ok (mk_wregm (wr_sq s + sq)%num (wr_abs s + ab)%num b1 b2 (wr_size s))
  end.

(** measure_collection.py:1205-1236 get_mean_square_error, get_average_error; sample_count is the buffer's size *)
Definition wregm_count (s : wregm) : Z := fb_size (wr_bsq s).
Definition wregm_mse (s : wregm) : res T := if wregm_count s =? 0 then Ok n0 else pydiv (wr_sq s) (nofZ (wregm_count s)).
Definition wregm_mae (s : wregm) : res T := if wregm_count s =? 0 then Ok n0 else pydiv (wr_abs s) (nofZ (wregm_count s)).

Fixpoint regm_run (s : regm) (l : list (T * T)) : regm :=
  match l with [] => s | (y, p) :: r => regm_run (regm_add s y p) r end.
Fixpoint wregm_run (s : wregm) (l : list (T * T)) : res wregm :=
  match l with [] => Ok s | (y, p) :: r => s' <- wregm_add s y p ;; wregm_run s' r end.

(** ** Multi-target *)

(** elementwise operation on arrays of equal length *)
Fixpoint zip_with (f : T -> T -> T) (a b : list T) : res (list T) :=
  match a, b with
  | [], [] => Ok []
  | x :: a', y :: b' => r <- zip_with f a' b' ;; Ok (f x y :: r)
  | _, _ => Raise ValueError
  end.

(** total_square_error starts as the float 0.0 ([None]) and becomes an array at the first [+=] *)
Definition acc_add (t : option (list T)) (v : list T) : res (list T) :=
  match t with None => Ok (map (fun x => (n0 + x)%num) v) | Some a => zip_with nadd a v end.

(** measure_collection.py:1255-1270: MultiTargetRegressionMeasurements attributes, __init__ and reset *)
Record mtr : Type := mk_mtr { mt_targets : Z; mt_sq : option (list T); mt_abs : option (list T); mt_n : Z }.
Definition mtr_new : mtr := mk_mtr 0 None None 0.
Definition mtr_reset (s : mtr) : mtr := mk_mtr 0 None None 0.

(** measure_collection.py:1272-1301 add_result (the object after an exception is not modelled) *)
Definition mtr_add (s : mtr) (y p : list T) : res mtr :=
  d <- zip_with nsub y p ;;
  sq <- acc_add (mt_sq s) (map (fun e => (e * e)%num) d) ;;
  ab <- acc_add (mt_abs s) (map nabs d) ;;
  Ok (mk_mtr (Z.of_nat (length y)) (Some sq) (Some ab) (mt_n s + 1)).

Definition vsum (l : list T) : T := fold_left nadd l n0.
(** [total / sample_count] elementwise; the float 0.0 stays a scalar (one element) *)
Definition per_target (t : option (list T)) (n : Z) : list T :=
  map (fun x => (x / nofZ n)%num) (match t with None => [n0] | Some a => a end).

(** np.sum(total / sample_count) / n_targets: numpy division (no exception) *)
Definition average (t : option (list T)) (n targets : Z) : T :=
  if n =? 0 then n0 else (vsum (per_target t n) / nofZ targets)%num.
(** np.sqrt(mse, out=zeros, where=mse >= 0.0) *)
Definition root (x : T) : T := if (n0 <=? x)%num then nsqrt x else n0.
Definition average_root (t : option (list T)) (n targets : Z) : T :=
  if n =? 0 then n0 else (vsum (map root (per_target t n)) / nofZ targets)%num.

(** measure_collection.py:1303-1341 *)
Definition mtr_amse (s : mtr) : T := average (mt_sq s) (mt_n s) (mt_targets s).
Definition mtr_amae (s : mtr) : T := average (mt_abs s) (mt_n s) (mt_targets s).
Definition mtr_armse (s : mtr) : T := average_root (mt_sq s) (mt_n s) (mt_targets s).

(** measure_collection.py:1371-1388: WindowMultiTargetRegressionMeasurements attributes, __init__ and reset (n_targets is
    not reset) *)
Record wmtr : Type := mk_wmtr {
  wt_targets : Z; wt_sq : option (list T); wt_abs : option (list T);
  wt_bsq : fbuf (list T); wt_babs : fbuf (list T); wt_size : Z }.
Definition wmtr_new (window_size : Z) : wmtr :=
  mk_wmtr 0 None None (fb_init window_size None) (fb_init window_size None) window_size.
Definition wmtr_reset (s : wmtr) : wmtr :=
  mk_wmtr (wt_targets s) None None (fb_init (wt_size s) None) (fb_init (wt_size s) None) (wt_size s).

Definition first_row (l : list (option (list T))) : res (list T) :=
  match l with [] => Raise IndexError | None :: _ => Raise TypeError | Some x :: _ => Ok x end.

(** measure_collection.py:1390-1430 add_result; [-1 * d * d] is [(-1 * d) * d] *)
Definition wmtr_add (s : wmtr) (y p : list T) : res wmtr :=
  d <- zip_with nsub y p ;;
  sq <- acc_add (wt_sq s) (map (fun e => (e * e)%num) d) ;;
  ab <- acc_add (wt_abs s) (map nabs d) ;;
  let '(b1, o1) := fb_add (wt_bsq s) [map (fun e => (nofZ (-1) * e * e)%num) d] in
  let '(b2, o2) := fb_add (wt_babs s) [map (fun e => (nofZ (-1) * nabs e)%num) d] in
  match o1, o2 with
  | Some l1, Some l2 =>
      x1 <- first_row l1 ;; x2 <- first_row l2 ;;
      sq' <- zip_with nadd sq x1 ;; ab' <- zip_with nadd ab x2 ;;
      Ok (mk_wmtr (Z.of_nat (length y)) (Some sq') (Some ab') b1 b2 (wt_size s))
  | _, _ => Ok (mk_wmtr (Z.of_nat (length y)) (Some sq) (Some ab) b1 b2 (wt_size s))
  end.

(** measure_collection.py:1432-1476 *)
Definition wmtr_count (s : wmtr) : Z := fb_size (wt_bsq s).
Definition wmtr_amse (s : wmtr) : T := average (wt_sq s) (wmtr_count s) (wt_targets s).
Definition wmtr_amae (s : wmtr) : T := average (wt_abs s) (wmtr_count s) (wt_targets s).
Definition wmtr_armse (s : wmtr) : T := average_root (wt_sq s) (wmtr_count s) (wt_targets s).

Fixpoint mtr_run (s : mtr) (l : list (list T * list T)) : res mtr :=
  match l with [] => Ok s | (y, p) :: r => s' <- mtr_add s y p ;; mtr_run s' r end.
Fixpoint wmtr_run (s : wmtr) (l : list (list T * list T)) : res wmtr :=
  match l with [] => Ok s | (y, p) :: r => s' <- wmtr_add s y p ;; wmtr_run s' r end.

(** ** RunningTimeMeasurements: every method that reads the clock takes the reading of timer() as an argument. *)

(** measure_collection.py:1510-1523 attributes, __init__, reset (the start marks are kept) *)
Record rtm : Type := mk_rtm { rt_tr0 : option T; rt_te0 : option T; rt_tr : T; rt_te : T; rt_n : Z; rt_total : T }.
Definition rtm_new : rtm := mk_rtm None None n0 n0 0 n0.
Definition rtm_reset (s : rtm) : rtm := mk_rtm (rt_tr0 s) (rt_te0 s) n0 n0 0 n0.

Inductive rt_op : Type := TrainBegin (now : T) | TrainEnd (now : T) | TestBegin (now : T) | TestEnd (now : T) | Update (inc : Z).

(** measure_collection.py:1525-1558; subtracting None raises TypeError *)
Definition rtm_step (s : rtm) (o : rt_op) : res rtm :=
  match o with
  | TrainBegin t => Ok (mk_rtm (Some t) (rt_te0 s) (rt_tr s) (rt_te s) (rt_n s) (rt_total s))
  | TrainEnd t => match rt_tr0 s with
                  | None => Raise TypeError
                  | Some t0 => Ok (mk_rtm (rt_tr0 s) (rt_te0 s) (rt_tr s + (t - t0))%num (rt_te s) (rt_n s) (rt_total s))
                  end
  | TestBegin t => Ok (mk_rtm (rt_tr0 s) (Some t) (rt_tr s) (rt_te s) (rt_n s) (rt_total s))
  | TestEnd t => match rt_te0 s with
                 | None => Raise TypeError
                 | Some t0 => Ok (mk_rtm (rt_tr0 s) (rt_te0 s) (rt_tr s) (rt_te s + (t - t0))%num (rt_n s) (rt_total s))
                 end
  | Update inc => Ok (mk_rtm (rt_tr0 s) (rt_te0 s) (rt_tr s) (rt_te s)
                             (if 0 <? inc then rt_n s + inc else rt_n s + 1) (rt_tr s + rt_te s)%num)
  end.

Fixpoint rtm_run (s : rtm) (l : list rt_op) : res rtm :=
  match l with [] => Ok s | o :: r => s' <- rtm_step s o ;; rtm_run s' r end.
End Regression.

Arguments regm : clear implicits.
Arguments wregm : clear implicits.
Arguments mtr : clear implicits.
Arguments wmtr : clear implicits.
Arguments rtm : clear implicits.
Arguments rt_op : clear implicits.
