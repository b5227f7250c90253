(** Model of [TimeManager], data/time_manager.py:5-156.

    The queue is a list of rows.  Times are integers (an integer clock or datetime64).  `sort_values` is an
    argument [sort]: pandas' default algorithm leaves the order of equal keys open.  Simplification: the
    dtype conversions of the empty queue (time_manager.py:33-35) and the row labels are not modelled; every
    access in the code is positional or by boolean mask. *)
From Coq Require Import List ZArith Bool.
From Verif Require Import Base.Py Model.DataStream.
Import ListNotations.
Local Open Scope Z_scope.

Section TimeManager.
Context {X Y P W : Type}.

(** One row, time_manager.py:19; a None weight is [None]. *)
Record trow := mkRow { tr_x : X; tr_y : Y; tr_pred : P; tr_weight : option W; tr_arrival : Z; tr_available : Z }.

Variable sort : list trow -> list trow.

(** Fields, time_manager.py:20-35 *)
Record tmgr := mkTM { tm_now : Z; tm_queue : list trow; tm_use_weight : bool }.

Definition tm_new (t : Z) : tmgr := mkTM t [] true.

(** update_timestamp, time_manager.py:53-67 *)
Definition tm_update_timestamp (s : tmgr) (t : Z) : tmgr := mkTM t (tm_queue s) (tm_use_weight s).

(** get_available_samples, time_manager.py:69-91 *)
Definition tm_get_available (s : tmgr) : tmgr * list (X * Y * P) :=
  let samples := filter (fun r => tr_available r <=? tm_now s) (tm_queue s) in
  (mkTM (tm_now s) (filter (fun r => tr_available r >? tm_now s) (tm_queue s)) (tm_use_weight s),
   map (fun r => (tr_x r, tr_y r, tr_pred r)) samples).

(** list(zip(...)), time_manager.py:100-102; zip stops at the shortest argument. *)
Fixpoint tm_zip (xs : list X) (ys : list Y) (ps : list P) (ws : list (option W)) (arr av : list Z) : list trow :=
  match xs, ys, ps, ws, arr, av with
  | x :: xs', y :: ys', p :: ps', w :: ws', a :: arr', v :: av' => mkRow x y p w a v :: tm_zip xs' ys' ps' ws' arr' av'
  | _, _, _, _, _, _ => []
  end.

(** update_queue, time_manager.py:93-106 *)
Definition tm_update_queue (s : tmgr) (xs : list X) (ys : list Y) (ps : list P) (ws : option (list W)) (arr av : list Z) : tmgr :=
  let '(use, w) := match ws with
                   | None => (false, repeat None (length xs))
                   | Some l => (tm_use_weight s, map Some l)
                   end in
  mkTM (tm_now s) (sort (tm_queue s ++ tm_zip xs ys ps w arr av)) use.

(** has_more_samples, time_manager.py:108-118 *)
Definition tm_has_more (s : tmgr) : bool := Z.of_nat (length (tm_queue s)) >? 0.

(** _cleanup_samples, time_manager.py:42-51 *)
Definition tm_cleanup (s : tmgr) (b : Z) : tmgr :=
  mkTM (tm_now s) (if Z.of_nat (length (tm_queue s)) - b >=? 0 then pyslice_from (tm_queue s) b else []) (tm_use_weight s).

(** next_sample, time_manager.py:120-156.  With weights in use the frame is indexed with a column it does
    not have: KeyError, before anything is removed. *)
Definition tm_next (s : tmgr) (b : Z) : res (tmgr * list (X * Y * P)) :=
  let samples := if Z.of_nat (length (tm_queue s)) - b >=? 0 then pyslice (tm_queue s) 0 b else tm_queue s in
  if tm_use_weight s then Raise KeyError
  else Ok (tm_cleanup s b, map (fun r => (tr_x r, tr_y r, tr_pred r)) samples).

Inductive tm_op :=
| SetTime (t : Z)
| Update (xs : list X) (ys : list Y) (ps : list P) (ws : option (list W)) (arr av : list Z)
| GetAvailable
| NextSample (b : Z).

Definition tm_step (s : tmgr) (o : tm_op) : res (tmgr * list (X * Y * P)) :=
  match o with
  | SetTime t => Ok (tm_update_timestamp s t, [])
  | Update xs ys ps ws arr av => Ok (tm_update_queue s xs ys ps ws arr av, [])
  | GetAvailable => Ok (tm_get_available s)
  | NextSample b => tm_next s b
  end.

(** Runs a history; the outputs of all calls, in order. *)
Fixpoint tm_run (s : tmgr) (ops : list tm_op) : res (tmgr * list (list (X * Y * P))) :=
  match ops with
  | [] => Ok (s, [])
  | o :: r => ' (s1, x) <- tm_step s o ;; ' (s2, xs) <- tm_run s1 r ;; Ok (s2, x :: xs)
  end.
End TimeManager.
Arguments trow : clear implicits.
Arguments tmgr : clear implicits.
Arguments tm_op : clear implicits.
