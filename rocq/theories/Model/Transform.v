(** Models of the stream transforms: [WindowedMinmaxScaler] (transform/windowed_minmax_scaler.py:18-110),
    [WindowedStandardScaler] (transform/windowed_standard_scaler.py:16-110), [MissingValuesCleaner]
    (transform/missing_values_cleaner.py:72-192) and [OneHotToCategorical] (transform/one_hot_to_categorical.py:20-77).

    The transforms work in place and the windows keep references to the rows of the caller's arrays, so rows live in a heap
    (a list of rows) and an array is a list of row references.  A cell is [Some x], or [None] for NaN, and NaN propagates
    through arithmetic.  Simplifications: arrays are two-dimensional with a floating point dtype; the object left behind by a
    call that raised is not modelled. *)
From Coq Require Import List ZArith Bool.
From Verif Require Import Base.Py Base.Num Model.FastBuffer.
Import ListNotations.
Local Open Scope nat_scope.

Section Transform.
Context {T : Type} `{Num T}.
Notation cell := (option T).
Notation row := (list cell).

Definition lift2 (f : T -> T -> T) (a b : cell) : cell :=
  match a, b with Some x, Some y => Some (f x y) | _, _ => None end.
(** [a == 0]: false for NaN *)
Definition cell_is0 (a : cell) : bool := match a with Some x => (x =? n0)%num | None => false end.

(** ** numpy reductions that skip NaN; NaN when nothing is left *)
Fixpoint nonnan (l : list cell) : list T :=
  match l with [] => [] | Some x :: r => x :: nonnan r | None :: r => nonnan r end.
Definition sum_of (l : list T) : T := fold_left nadd l n0.
Definition mean_of (l : list T) : T := (sum_of l / nofZ (Z.of_nat (length l)))%num.
(** np.nanmin, np.nanmax *)
Definition nanmin (l : list cell) : cell :=
  match nonnan l with [] => None | x :: r => Some (fold_left (fun a y => if (y <? a)%num then y else a) r x) end.
Definition nanmax (l : list cell) : cell :=
  match nonnan l with [] => None | x :: r => Some (fold_left (fun a y => if (a <? y)%num then y else a) r x) end.
(** np.nanmean *)
Definition nanmean (l : list cell) : cell :=
  match nonnan l with [] => None | v => Some (mean_of v) end.
(** np.nanstd (population standard deviation) *)
Definition nanstd (l : list cell) : cell :=
  match nonnan l with
  | [] => None
  | v => Some (nsqrt (mean_of (map (fun x => ((x - mean_of v) * (x - mean_of v))%num) v)))
  end.
(** np.nanmedian *)
Fixpoint sinsert (x : T) (l : list T) : list T :=
  match l with [] => [x] | y :: r => if (x <=? y)%num then x :: l else y :: sinsert x r end.
Definition nsort (l : list T) : list T := fold_right sinsert [] l.
Definition nanmedian (l : list cell) : cell :=
  match nonnan l with
  | [] => None
  | v => let s := nsort v in
         let n := length s in
         Some (if Nat.even n then ((nth (n / 2 - 1) s n0 + nth (n / 2) s n0) / nofZ 2)%num else nth (n / 2) s n0)
  end.
(** scipy.stats.mode(..., nan_policy='omit')[0]: the smallest of the most frequent values *)
Definition count_eq (x : T) (l : list T) : nat := length (filter (neqb x) l).
Definition nanmode (l : list cell) : cell :=
  match nsort (nonnan l) with
  | [] => None
  | x :: r => Some (fold_left (fun a y => if count_eq a (x :: r) <? count_eq y (x :: r) then y else a) r x)
  end.

(** ** Rows in memory *)
Notation heap := (list row).
Definition hget (h : heap) (i : nat) : row := nth i h [].
Fixpoint update {A} (l : list A) (i : nat) (x : A) : list A :=
  match l, i with [], _ => [] | _ :: r, O => x :: r | y :: r, S i' => y :: update r i' x end.
(** X[i][j] = v *)
Definition hset (h : heap) (i j : nat) (v : cell) : heap := update h i (update (hget h i) j v).

(** The window (a FastBuffer of rows) and the rows themselves. *)
Record tstate := mkT { t_heap : heap; t_win : fbuf nat }.

(** np.array(self.window.get_queue())[:, j]; rows of different lengths do not give a 2-d array *)
Definition column (h : heap) (ids : list nat) (j : nat) : res (list cell) :=
  match ids with
  | [] => Raise IndexError
  | i0 :: _ =>
      if forallb (fun i => length (hget h i) =? length (hget h i0)) ids && (j <? length (hget h i0))
      then Ok (map (fun i => nth j (hget h i) None) ids) else Raise IndexError
  end.

(** A statistic of column j of the window with a default for the empty window. *)
Definition win_stat (stat : list cell -> cell) (default : cell) (s : tstate) (j : nat) : res cell :=
  if fb_is_empty (t_win s) then Ok default
  else c <- column (t_heap s) (fb_buf (t_win s)) j ;; Ok (stat c).

(** windowed_minmax_scaler.py:46-54, 58-68 *)
Definition minmax_cell (s : tstate) (j : nat) (v : cell) : res cell :=
  mn <- win_stat nanmin (Some n0) s j ;;
  mx <- win_stat nanmax (Some n1) s j ;;
  if cell_is0 (lift2 nsub mx mn) then Ok (Some n0)
  else let x_std := lift2 ndiv (lift2 nsub v mn) (lift2 nsub mx mn) in
       Ok (lift2 nadd (lift2 nmul x_std (lift2 nsub mx mn)) mn).

(** windowed_standard_scaler.py:44-48, 52-64 *)
Definition standard_cell (s : tstate) (j : nat) (v : cell) : res cell :=
  mean <- win_stat nanmean (Some n0) s j ;;
  std <- win_stat nanstd (Some n1) s j ;;
  let std := if cell_is0 std then Some n1 else std in
  Ok (lift2 ndiv (lift2 nsub v mean) std).

(** for j in range(c): X[i][j] = f(j, X[i][j]) *)
Fixpoint each_cell (f : tstate -> nat -> cell -> res cell) (s : tstate) (i : nat) (js : list nat) : res tstate :=
  match js with
  | [] => Ok s
  | j :: r => v <- f s j (nth j (hget (t_heap s) i) None) ;;
              each_cell f (mkT (hset (t_heap s) i j v) (t_win s)) i r
  end.
Definition columns_of (s : tstate) (i : nat) : list nat := seq 0 (length (hget (t_heap s) i)).

(** One row of transform of the two scalers, windowed_minmax_scaler.py:42-55, windowed_standard_scaler.py:40-49: the copy
    taken first goes into the window last. *)
Definition scale_row (f : tstate -> nat -> cell -> res cell) (s : tstate) (i : nat) : res tstate :=
  let copy := length (t_heap s) in
  s1 <- each_cell f (mkT (t_heap s ++ [hget (t_heap s) i]) (t_win s)) i (columns_of s i) ;;
  Ok (mkT (t_heap s1) (fst (fb_add (t_win s1) [copy]))).

(** Strategies, missing_values_cleaner.py:72-88 *)
Inductive strategy := Zero | Mean | Median | Mode | Custom | Unknown.
Definition windowed (st : strategy) : bool := match st with Mean | Median | Mode => true | _ => false end.

(** _get_substitute, missing_values_cleaner.py:110-145; an unknown strategy returns None, which numpy stores as NaN *)
Definition substitute (st : strategy) (new_value : cell) (s : tstate) (j : nat) : res cell :=
  match st with
  | Zero => Ok (Some n0)
  | Mean => win_stat nanmean new_value s j
  | Median => win_stat nanmedian new_value s j
  | Mode => win_stat nanmode new_value s j
  | Custom => Ok new_value
  | Unknown => Ok None
  end.
(** X[i][j] in self.missing_value or np.isnan(X[i][j]); [markers]: the values of the list other than NaN *)
Definition is_missing (markers : list T) (v : cell) : bool :=
  match v with None => true | Some x => existsb (neqb x) markers end.
Definition clean_cell (st : strategy) (markers : list T) (new_value : cell) (s : tstate) (j : nat) (v : cell) : res cell :=
  if is_missing markers v then substitute st new_value s j else Ok v.

(** One row of transform, missing_values_cleaner.py:101-106: the row itself (a view) goes into the window first *)
Definition clean_row (st : strategy) (markers : list T) (new_value : cell) (s : tstate) (i : nat) : res tstate :=
  let s1 := if windowed st then mkT (t_heap s) (fst (fb_add (t_win s) [i])) else s in
  each_cell (clean_cell st markers new_value) s1 i (columns_of s i).

(** partial_fit: windowed_minmax_scaler.py:110-111, windowed_standard_scaler.py:109-110, missing_values_cleaner.py:189-192 *)
Definition fit_rows (uses_window : bool) (s : tstate) (ids : list nat) : tstate :=
  if uses_window then mkT (t_heap s) (fst (fb_add (t_win s) ids)) else s.

Fixpoint each_row (step : tstate -> nat -> res tstate) (s : tstate) (ids : list nat) : res tstate :=
  match ids with [] => Ok s | i :: r => s1 <- step s i ;; each_row step s1 r end.

(** Calls, on arrays given by their row references; transform and partial_fit_transform are the same. *)
Inductive t_op := PartialFit (ids : list nat) | TransformX (ids : list nat).
Definition t_step (uses_window : bool) (step : tstate -> nat -> res tstate) (s : tstate) (o : t_op) : res (tstate * list row) :=
  match o with
  | PartialFit ids => Ok (fit_rows uses_window s ids, [])
  | TransformX ids => s1 <- each_row step s ids ;; Ok (s1, map (hget (t_heap s1)) ids)
  end.
Fixpoint t_run (uses_window : bool) (step : tstate -> nat -> res tstate) (s : tstate) (ops : list t_op) : res (tstate * list (list row)) :=
  match ops with
  | [] => Ok (s, [])
  | o :: r => ' (s1, x) <- t_step uses_window step s o ;; ' (s2, xs) <- t_run uses_window step s1 r ;; Ok (s2, x :: xs)
  end.

(** Constructors: a new window (windowed_minmax_scaler.py:29-30 and the like) over the caller's rows. *)
Definition t_new (window_size : Z) (h : heap) : tstate := mkT h (fb_init window_size None).

Definition minmax_run ws h ops := t_run true (scale_row minmax_cell) (t_new ws h) ops.
Definition standard_run ws h ops := t_run true (scale_row standard_cell) (t_new ws h) ops.
Definition cleaner_run st markers nv ws h ops := t_run (windowed st) (clean_row st markers nv) (t_new ws h) ops.

(** ** OneHotToCategorical *)

(** The inner loop, one_hot_to_categorical.py:57-62 *)
Fixpoint hot (x : list T) (i : nat) (js : list nat) (c : nat) (found : bool) : res nat :=
  match js with
  | [] => Ok c
  | j :: r => match nth_error x (i + j) with
              | None => Raise IndexError
              | Some v => let found := if (v =? n1)%num then true else found in
                          hot x i r (if found then c else S c) found
              end
  end.
(** The loop of _transform, one_hot_to_categorical.py:50-75, with [cats] the rest of categorical_list from list_index on and
    [out] the part of ret[0] written so far *)
Fixpoint one_hot_loop (fuel : nat) (x : list T) (new_size i : nat) (cats : list (list nat)) (out : list T) : res (list T) :=
  if i <? length x then
    match fuel with
    | O => Raise TypeError (* unreachable: fuel is the length of x *)
    | S f =>
        match cats with
        | [] => Raise IndexError
        | cat :: rest =>
            if existsb (Nat.eqb i) cat then
              c <- hot x i (seq 0 (length cat)) 0 false ;;
              if length out <? new_size then one_hot_loop f x new_size (i + length cat) rest (out ++ [nofZ (Z.of_nat c)])
              else Raise IndexError
            else
              if length out <? new_size then one_hot_loop f x new_size (i + 1) cats (out ++ [nth i x n0]) else Raise IndexError
        end
    end
  else Ok (out ++ repeat n0 (new_size - length out)).
(** transform, one_hot_to_categorical.py:38-48 *)
Definition new_width (c : nat) (cats : list (list nat)) : Z :=
  fold_left (fun w l => (w - (Z.of_nat (length l) - 1))%Z) cats (Z.of_nat c).
Fixpoint one_hot_rows (cats : list (list nat)) (w : nat) (rows : list (list T)) : res (list (list T)) :=
  match rows with
  | [] => Ok []
  | x :: r => y <- one_hot_loop (length x) x w 0 cats [] ;; ys <- one_hot_rows cats w r ;; Ok (y :: ys)
  end.
Definition one_hot_transform (cats : list (list nat)) (c : nat) (rows : list (list T)) : res (list (list T)) :=
  let w := new_width c cats in
  if (w <? 0)%Z then Raise ValueError else one_hot_rows cats (Z.to_nat w) rows.
End Transform.
Arguments tstate : clear implicits.
