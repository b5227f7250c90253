(** Model of utils/data_structures.py: [ConfusionMatrix] (343-584) and [MOLConfusionMatrix] (587-867).

    A numpy array is its number of rows and a function giving the cells; reads and writes check bounds and wrap
    negative indices like numpy.  Weights are integers (the arrays are int64; truncation of fractional weights and overflow
    are not modelled).  __init__, restart and reshape only ever build square arrays, so one size is kept. *)
From Coq Require Import List ZArith Bool.
From Verif Require Import Base.Py.
Import ListNotations.
Local Open Scope Z_scope.

(** numpy index normalisation for an axis of length [n]. *)
Definition np_index (n i : Z) : res Z :=
  if (0 <=? i) && (i <? n) then Ok i
  else if (- n <=? i) && (i <? 0) then Ok (i + n)
  else Raise IndexError.

(** np.zeros with a negative dimension raises ValueError. *)
Definition np_dim (n : Z) : res Z := if n <? 0 then Raise ValueError else Ok n.

(** Attributes, data_structures.py:373-383. *)
Record cmat : Type := mkCM {
  cm_size : Z;                 (* confusion_matrix.shape[0] = shape[1] *)
  cm_cell : Z -> Z -> Z;       (* confusion_matrix[i, j] *)
  cm_count : Z                 (* sample_count *)
}.

Definition zeros2 : Z -> Z -> Z := fun _ _ => 0.

(** n_targets=None means 0, data_structures.py:375-378, 386-389 *)
Definition targets_or_0 (n : option Z) : Z := match n with Some k => k | None => 0 end.

(** __init__, data_structures.py:373-383 *)
Definition cm_init (n : option Z) : res cmat :=
  k <- np_dim (targets_or_0 n) ;; Ok (mkCM k zeros2 0).

Definition set_cell (f : Z -> Z -> Z) (i j v : Z) : Z -> Z -> Z :=
  fun a b => if (a =? i) && (b =? j) then v else f a b.

(** value_at, data_structures.py:492-508 *)
Definition cm_value_at (s : cmat) (i j : Z) : res Z :=
  a <- np_index (cm_size s) i ;; b <- np_index (cm_size s) j ;; Ok (cm_cell s a b).

(** confusion_matrix[i, j] += d followed by sample_count += c: _update 395-398 and _remove 468-471 *)
Definition cm_bump (s : cmat) (i j d c : Z) : cmat * res bool :=
  match np_index (cm_size s) i, np_index (cm_size s) j with
  | Ok a, Ok b => (mkCM (cm_size s) (set_cell (cm_cell s) a b (cm_cell s a b + d)) (cm_count s + c), Ok true)
  | Raise e, _ | _, Raise e => (s, Raise e)
  end.

(** np.max(i, j): the second argument is the axis; of a 0-d array only axes 0 and -1 exist (433) *)
Definition np_max_axis (i j : Z) : res Z := if (j =? 0) || (j =? -1) then Ok i else Raise AxisError.

(** reshape, data_structures.py:473-485 *)
Definition cm_reshape (s : cmat) (m n : Z) : cmat * bool :=
  if negb (m =? n) || (m <? cm_size s) || (n <? cm_size s) then (s, false)
  else (mkCM m (fun a b => if (0 <=? a) && (a <? cm_size s) && (0 <=? b) && (b <? cm_size s) then cm_cell s a b else 0)
          (cm_count s), true).

(** update, data_structures.py:400-440 *)
Definition cm_update (s : cmat) (i j : option Z) (weight : Z) : cmat * res bool :=
  match i, j with
  | Some i, Some j =>
      let m := cm_size s in
      if (0 <=? i) && (i <? m) && ((0 <=? j) && (j <? m)) then cm_bump s i j weight 1
      else
        match np_max_axis i j with
        | Raise e => (s, Raise e)
        | Ok mx =>
            let new_size := mx + 1 in
            if new_size <=? m then (s, Ok false)
            else let '(s1, _) := cm_reshape s new_size new_size in cm_bump s1 i j weight 1
        end
  | _, _ => (s, Ok false)
  end.

(** remove, data_structures.py:442-466 *)
Definition cm_remove (s : cmat) (i j : option Z) : cmat * res bool :=
  match i, j with
  | Some i, Some j =>
      let m := cm_size s in
      if (i <=? m) && (0 <=? i) && (j <=? m) && (0 <=? j) then cm_bump s i j (-1) (-1) else (s, Ok false)
  | _, _ => (s, Ok false)
  end.

(** restart, data_structures.py:385-393 (n_targets, which nothing reads, is not kept) *)
Definition cm_restart (s : cmat) (n : option Z) : cmat * res bool :=
  match np_dim (targets_or_0 n) with
  | Ok k => (mkCM k zeros2 0, Ok true)
  | Raise e => (s, Raise e)
  end.

Definition zrange (n : Z) : list Z := map Z.of_nat (seq 0 (Z.to_nat n)).
Definition zsum (l : list Z) : Z := fold_right Z.add 0 l.

(** get_sum_main_diagonal, data_structures.py:542-555 *)
Definition cm_diagonal (s : cmat) : Z := fold_left (fun acc i => acc + cm_cell s i i) (zrange (cm_size s)) 0.

(** row(r) / column(c), data_structures.py:510-540, for a non-negative index: the slice r:r+1, empty beyond the end *)
Definition cm_row (s : cmat) (r : Z) : list (list Z) :=
  if (0 <=? r) && (r <? cm_size s) then [map (cm_cell s r) (zrange (cm_size s))] else [].
Definition cm_column (s : cmat) (c : Z) : list (list Z) :=
  map (fun a => if (0 <=? c) && (c <? cm_size s) then [cm_cell s a c] else []) (zrange (cm_size s)).

(** Public mutating calls. *)
Inductive cm_op : Type :=
| CUpdate (i j : option Z) (weight : Z) | CRemove (i j : option Z) | CReshape (m n : Z) | CRestart (n : option Z).

Definition cm_step (s : cmat) (o : cm_op) : cmat * res bool :=
  match o with
  | CUpdate i j w => cm_update s i j w
  | CRemove i j => cm_remove s i j
  | CReshape m n => let '(s', b) := cm_reshape s m n in (s', Ok b)
  | CRestart n => cm_restart s n
  end.

(** A history: the calls with their outcomes (a caller may catch an exception and go on). *)
Fixpoint cm_run (s : cmat) (ops : list cm_op) : cmat * list (cm_op * res bool) :=
  match ops with
  | [] => (s, [])
  | o :: r => let '(s1, x) := cm_step s o in let '(s2, h) := cm_run s1 r in (s2, (o, x) :: h)
  end.

(** ** MOLConfusionMatrix *)

(** confusion_matrix of shape (t, 2, 2), data_structures.py:619-630 *)
Record mol : Type := mkMol { mo_size : Z; mo_cell : Z -> Z -> Z -> Z }.

Definition zeros3 : Z -> Z -> Z -> Z := fun _ _ _ => 0.

(** __init__ 619-630, restart 632-639 *)
Definition mol_init (n : option Z) : res mol :=
  k <- np_dim (targets_or_0 n) ;; Ok (mkMol k zeros3).
Definition mol_restart (s : mol) (n : option Z) : mol * res bool :=
  match np_dim (targets_or_0 n) with
  | Ok k => (mkMol k zeros3, Ok true)
  | Raise e => (s, Raise e)
  end.

Definition set_cell3 (f : Z -> Z -> Z -> Z) (t i j v : Z) : Z -> Z -> Z -> Z :=
  fun c a b => if (c =? t) && (a =? i) && (b =? j) then v else f c a b.

(** value_at, data_structures.py:756-775 *)
Definition mol_value_at (s : mol) (t i j : Z) : res Z :=
  c <- np_index (mo_size s) t ;; a <- np_index 2 i ;; b <- np_index 2 j ;; Ok (mo_cell s c a b).

(** _update 641-643, _remove 727-729 *)
Definition mol_bump (s : mol) (t i j d : Z) : mol * res bool :=
  match np_index (mo_size s) t, np_index 2 i, np_index 2 j with
  | Ok c, Ok a, Ok b => (mkMol (mo_size s) (set_cell3 (mo_cell s) c a b (mo_cell s c a b + d)), Ok true)
  | _, _, _ => (s, Raise IndexError)
  end.

(** reshape, data_structures.py:731-745.  A smaller [target] than before leaves a zeroed, smaller array behind and then
    raises IndexError in the copying loop; a negative one raises ValueError in np.zeros. *)
Definition mol_reshape (s : mol) (target m n : Z) : mol * res bool :=
  if (mo_size s + 1 <? target) || negb (m =? n) || negb (m =? 2) || (m <? 2) || (n <? 2) then (s, Ok false)
  else if target <? 0 then (s, Raise ValueError)
  else
    let copied := mkMol target (fun c a b => if (0 <=? c) && (c <? mo_size s) && (c <? target) then mo_cell s c a b else 0) in
    if target <? mo_size s then (copied, Raise IndexError) else (copied, Ok true).

(** update, data_structures.py:645-688 *)
Definition mol_update (s : mol) (target true_ pred : option Z) (weight : Z) : mol * res bool :=
  match target, true_, pred with
  | Some t, Some i, Some j =>
      let m := mo_size s in
      if (t <? m) && (0 <=? t) && (i <? 2) && (0 <=? i) && (j <? 2) && (0 <=? j) then mol_bump s t i j weight
      else if (1 <? i) || (i <? 0) || (1 <? j) || (j <? 0) then (s, Ok false)
      else if m <? t then (s, Ok false)
      else
        match mol_reshape s (t + 1) 2 2 with
        | (s1, Raise e) => (s1, Raise e)
        | (s1, Ok _) => mol_bump s1 t i j weight
        end
  | _, _, _ => (s, Ok false)
  end.

(** remove, data_structures.py:690-725 *)
Definition mol_remove (s : mol) (target true_ pred : option Z) : mol * res bool :=
  match target, true_, pred with
  | Some t, Some i, Some j =>
      if (t <=? mo_size s) && (0 <=? t) && (i <=? 2) && (0 <=? i) && (0 <=? j) && (j <=? 2)
      then mol_bump s t i j (-1) else (s, Ok false)
  | _, _, _ => (s, Ok false)
  end.

(** get_sum_main_diagonal, data_structures.py:822-838 *)
Definition mol_diagonal (s : mol) : Z :=
  fold_left (fun acc t => acc + mo_cell s t 0 0 + mo_cell s t 1 1) (zrange (mo_size s)) 0.
(** get_total_sum, data_structures.py:840-849: np.sum over all cells *)
Definition mol_total (s : mol) : Z :=
  zsum (map (fun t => mo_cell s t 0 0 + mo_cell s t 0 1 + mo_cell s t 1 0 + mo_cell s t 1 1) (zrange (mo_size s))).
(** get_total_discordance, data_structures.py:851-864 *)
Definition mol_discordance (s : mol) : Z := mol_total s - mol_diagonal s.

Inductive mol_op : Type :=
| MUpdate (t i j : option Z) (weight : Z) | MRemove (t i j : option Z) | MReshape (t m n : Z) | MRestart (n : option Z).

Definition mol_step (s : mol) (o : mol_op) : mol * res bool :=
  match o with
  | MUpdate t i j w => mol_update s t i j w
  | MRemove t i j => mol_remove s t i j
  | MReshape t m n => mol_reshape s t m n
  | MRestart n => mol_restart s n
  end.

Fixpoint mol_run (s : mol) (ops : list mol_op) : mol * list (mol_op * res bool) :=
  match ops with
  | [] => (s, [])
  | o :: r => let '(s1, x) := mol_step s o in let '(s2, h) := mol_run s1 r in (s2, (o, x) :: h)
  end.
