(** Models of [DataStream] (data/data_stream.py:50-451), [FileStream] (data/file_stream.py:70-290) and
    [TemporalDataStream] (data/temporal_data_stream.py:72-212).

    A data frame is a list of column names, a list of column dtypes and a list of rows; cells are of an
    arbitrary type [V].  Not modelled: the warnings, the textual info methods, reading the CSV file itself
    (a [FileStream] starts from the frame the reader returned), views versus copies of the arrays. *)
From Coq Require Import List ZArith Bool.
From Verif Require Import Base.Py.
Import ListNotations.
Local Open Scope Z_scope.

(** Python/numpy slice bound: negative bounds count from the end, bounds are clipped. *)
Definition clip (len b : Z) : nat := Z.to_nat (if b <? 0 then Z.max 0 (b + len) else Z.min b len).
(** [l\[b:e\]] *)
Definition pyslice {A} (l : list A) (b e : Z) : list A :=
  let n := Z.of_nat (length l) in skipn (clip n b) (firstn (clip n e) l).
(** [l\[b:\]] *)
Definition pyslice_from {A} (l : list A) (b : Z) : list A := skipn (clip (Z.of_nat (length l)) b) l.

Inductive dtype := DInt | DFloat | DObject.
Definition is_DInt d := match d with DInt => true | _ => false end.
Definition is_DObject d := match d with DObject => true | _ => false end.

Section DataStream.
Context {V Name : Type}.
Variable name_eqb : Name -> Name -> bool.
Variable isnull : V -> bool.   (* pandas isnull of a cell *)
Variable toZ : V -> Z.         (* value of a cell of an integer column *)

Record frame := mkFrame { fr_names : list Name; fr_types : list dtype; fr_rows : list (list V) }.

(** check_data_consistency, data_stream.py:423-451 *)
Definition check_data_consistency (f : frame) (allow_nan : bool) : res unit :=
  if existsb is_DObject (fr_types f) then Raise ValueError
  else if existsb (existsb isnull) (fr_rows f) then (if allow_nan then Ok tt else Raise ValueError)
  else Ok tt.

(** What next_sample stores and returns for y: the 2-d slice, or its flattening (data_stream.py:362-364). *)
Inductive ybatch := Rows (l : list (list V)) | Flat (l : list V).

(** Fields of a stream, base_stream.py:18-33 and data_stream.py:50-75. *)
Record dstream := mkDS {
  ds_X : list (list V);              (* self.X *)
  ds_y : list (list V);              (* self.y *)
  ds_n_samples : Z;                  (* self.n_samples *)
  ds_n_features : Z;                 (* self.n_features *)
  ds_n_cat : Z;                      (* self.n_cat_features *)
  ds_n_num : Z;                      (* self.n_num_features *)
  ds_n_targets : Z;                  (* self.n_targets *)
  ds_feature_names : list Name;
  ds_target_names : list Name;
  ds_classification : bool;          (* self.task_type == 'classification' *)
  ds_n_classes : Z;
  ds_target_values : list (list Z);  (* classification only; one list when n_targets == 1 *)
  ds_idx : Z;                        (* self.sample_idx *)
  ds_cur : option (list (list V) * ybatch)  (* self.current_sample_x, self.current_sample_y *)
}.

(** np.unique: the sorted distinct values. *)
Fixpoint uinsert (x : Z) (l : list Z) : list Z :=
  match l with
  | [] => [x]
  | h :: t => if x <? h then x :: l else if x =? h then l else h :: uinsert x t
  end.
Definition np_unique (l : list Z) : list Z := fold_left (fun acc x => uinsert x acc) l [].

(** The columns of a row that are not dropped: DataFrame.drop(names, axis=1) removes every column whose
    label is one of [dropped]. *)
Definition drop_cols {A} (names dropped : list Name) (row : list A) : list A :=
  map snd (filter (fun p => negb (existsb (name_eqb (fst p)) dropped)) (combine names row)).

(** Last part of _load_X_y / _load_data, data_stream.py:274-289 and 311-327; [types] are the dtypes of
    the target columns.  `.values` of an empty selection is not of integer dtype. *)
Definition maxZ (l : list Z) : Z := fold_right Z.max (hd 0 l) l.
Definition ds_finish (X y : list (list V)) (n_samples n_features n_targets : Z) (fnames tnames : list Name)
    (types : list dtype) (cat_idx : list Z) : res dstream :=
  n_cat <- (match cat_idx with
            | [] => Ok 0
            | _ => if maxZ cat_idx <? n_features then Ok (Z.of_nat (length cat_idx)) else Raise IndexError
            end) ;;
  let cls := negb (Nat.eqb (length types) 0) && forallb is_DInt types in
  Ok (mkDS X y n_samples n_features n_cat (n_features - n_cat) n_targets fnames tnames cls
        (if cls then Z.of_nat (length (np_unique (map toZ (concat y)))) else 0)
        (if cls then
           if n_targets =? 1 then [np_unique (map toZ (concat y))]
           else map (fun i => np_unique (map (fun row => nth i (map toZ row) 0) y)) (seq 0 (Z.to_nat n_targets))
         else [])
        0 None).

(** _load_data, data_stream.py:291-327 *)
Definition ds_load (f : frame) (target_idx n_targets : Z) (cat_idx : list Z) (allow_nan : bool) : res dstream :=
  _ <- check_data_consistency f allow_nan ;;
  let cols := Z.of_nat (length (fr_names f)) in
  let sel : forall A, list A -> list A := fun A (row : list A) =>
    if (target_idx + n_targets =? cols) || (target_idx + n_targets =? 0)
    then pyslice_from row target_idx
    else pyslice row target_idx (target_idx + n_targets) in
  let tnames := sel _ (fr_names f) in
  let fnames := drop_cols (fr_names f) tnames (fr_names f) in
  ds_finish (map (drop_cols (fr_names f) tnames) (fr_rows f)) (map (sel _) (fr_rows f))
    (Z.of_nat (length (fr_rows f))) (Z.of_nat (length fnames)) n_targets fnames tnames
    (sel _ (fr_types f)) cat_idx.

(** __init__ with a y argument and _load_X_y, data_stream.py:66-73 and 260-289 *)
Definition ds_load_Xy (fx fy : frame) (cat_idx : list Z) (allow_nan : bool) : res dstream :=
  if negb (Z.of_nat (length (fr_rows fy)) =? Z.of_nat (length (fr_rows fx))) then Raise ValueError else
  _ <- check_data_consistency fy allow_nan ;;
  _ <- check_data_consistency fx allow_nan ;;
  ds_finish (fr_rows fx) (fr_rows fy) (Z.of_nat (length (fr_rows fx))) (Z.of_nat (length (fr_names fx)))
    (Z.of_nat (length (fr_names fy))) (fr_names fx) (fr_names fy) (fr_types fy) cat_idx.

(** FileStream.__init__ on the frame read from the file, file_stream.py:70-104, 179-222: the same loading code, after
    inferring target_idx for multi-output problems. *)
Definition fs_load (f : frame) (target_idx n_targets : Z) (cat_idx : list Z) (allow_nan : bool) : res dstream :=
  let t := if (1 <? n_targets) && (target_idx =? -1) then - n_targets else target_idx in
  ds_load f t n_targets cat_idx allow_nan.

Definition set_pos (s : dstream) (i : Z) (c : option (list (list V) * ybatch)) : dstream :=
  mkDS (ds_X s) (ds_y s) (ds_n_samples s) (ds_n_features s) (ds_n_cat s) (ds_n_num s) (ds_n_targets s)
       (ds_feature_names s) (ds_target_names s) (ds_classification s) (ds_n_classes s) (ds_target_values s) i c.

(** restart, data_stream.py:329-338 *)
Definition ds_restart (s : dstream) : dstream := set_pos s 0 None.

(** next_sample, data_stream.py:340-369 and file_stream.py:235-264.  Slicing never raises, so the
    `except IndexError` branch is dead. *)
Definition ds_next (s : dstream) (b : Z) : dstream * (list (list V) * ybatch) :=
  let i := ds_idx s + b in
  let x := pyslice (ds_X s) (i - b) i in
  let y := pyslice (ds_y s) (i - b) i in
  let yb := if ds_n_targets s <? 2 then Flat (concat y) else Rows y in
  (set_pos s i (Some (x, yb)), (x, yb)).

(** has_more_samples, n_remaining_samples, last_sample: data_stream.py:371-391, base_stream.py:218-228 *)
Definition ds_has_more (s : dstream) : bool := ds_n_samples s - ds_idx s >? 0.
Definition ds_n_remaining (s : dstream) : Z := ds_n_samples s - ds_idx s.
Definition ds_last (s : dstream) := ds_cur s.

Inductive ds_op := Next (b : Z) | Restart.
Inductive ds_out := Batch (x : list (list V)) (y : ybatch) | Done.
Definition ds_step (s : dstream) (o : ds_op) : dstream * ds_out :=
  match o with
  | Next b => let '(s', (x, y)) := ds_next s b in (s', Batch x y)
  | Restart => (ds_restart s, Done)
  end.
Fixpoint ds_run (s : dstream) (ops : list ds_op) : dstream * list ds_out :=
  match ops with
  | [] => (s, [])
  | o :: r => let '(s1, x) := ds_step s o in let '(s2, xs) := ds_run s1 r in (s2, x :: xs)
  end.
End DataStream.
Arguments frame : clear implicits.
Arguments ybatch : clear implicits.
Arguments dstream : clear implicits.
Arguments ds_out : clear implicits.

(** TemporalDataStream.  Times are integers (an integer clock, or datetime64 as a count of its unit). *)
Section Temporal.
Context {V Name W : Type}.

(** How the delay was given, temporal_data_stream.py:104-124: a number of samples, one time delta, or an
    array with the time each label becomes available. *)
Inductive delay_arg := DelayInt (d : Z) | DelayDelta (d : Z) | DelayTimes (l : list Z).

Record tstream := mkTS {
  ts_base : dstream V Name;
  ts_time : list Z; ts_delay : list Z; ts_weight : option (list W);
  ts_cur_time : option (list Z); ts_cur_delay : option (list Z); ts_cur_weight : option (list W)
}.

(** data\[np.argsort(time)\] *)
Definition take_idx {A} (l : list A) (idx : list nat) : res (list A) :=
  fold_right (fun i acc => r <- acc ;; match nth_error l i with Some a => Ok (a :: r) | None => Raise IndexError end)
             (Ok []) idx.

(** The time, delay, weight and row arrays set up by __init__, temporal_data_stream.py:84-148, for array
    data with an array y.  [time] is None when not given; [argsort] is numpy's, whose order of
    ties is left open; `self.time.sort()` is [sort]. *)
Definition ts_arrays (argsort : list Z -> list nat) (sort : list Z -> list Z)
    (rows ys : list (list V)) (time : option (list Z)) (weight : option (list W)) (delay : delay_arg) (ordered : bool)
  : res (list (list V) * list (list V) * list Z * list Z * option (list W)) :=
  let n := Z.of_nat (length rows) in
  ' (tm, dl) <- (match delay, time with
                 | DelayInt d, _ => Ok (map Z.of_nat (seq 0 (length rows)), map (fun i => d + Z.of_nat i) (seq 0 (length rows)))
                 | DelayDelta d, Some t => Ok (t, map (fun x => x + d) t)
                 | DelayTimes l, Some t => Ok (t, l)
                 | _, None => Raise TypeError
                 end) ;;
  if ordered then Ok (rows, ys, tm, dl, weight) else
  match time with
  | None => Raise TypeError
  | Some t =>
      let idx := argsort t in
      rows' <- take_idx rows idx ;;
      ys' <- take_idx ys idx ;;
      w' <- (match weight with None => Ok None | Some w => r <- take_idx w idx ;; Ok (Some r) end) ;;
      match delay with
      | DelayInt _ => Ok (rows', ys', tm, dl, w')
      | _ => dl' <- take_idx dl idx ;; Ok (rows', ys', sort tm, dl', w')
      end
  end.

(** next_sample, temporal_data_stream.py:151-199 *)
Definition ts_next (s : tstream) (b : Z) : tstream * (list (list V) * ybatch V * list Z * list Z * option (list W)) :=
  let '(base, (x, y)) := ds_next (ts_base s) b in
  let i := ds_idx base in
  let tm := pyslice (ts_time s) (i - b) i in
  let dl := pyslice (ts_delay s) (i - b) i in
  let w := match ts_weight s with Some w => Some (pyslice w (i - b) i) | None => None end in
  (mkTS base (ts_time s) (ts_delay s) (ts_weight s) (Some tm) (Some dl) w, (x, y, tm, dl, w)).

(** restart is inherited from DataStream: data_stream.py:329-338 *)
Definition ts_restart (s : tstream) : tstream :=
  mkTS (ds_restart (ts_base s)) (ts_time s) (ts_delay s) (ts_weight s) (ts_cur_time s) (ts_cur_delay s) (ts_cur_weight s).

(** last_sample, temporal_data_stream.py:201-212 *)
Definition ts_last (s : tstream) := (ds_last (ts_base s), ts_cur_time s, ts_cur_delay s, ts_cur_weight s).
End Temporal.
Arguments tstream : clear implicits.
