(** Model of the functions hamming_score, j_index, exact_match and of the classes MultiTargetClassificationMeasurements and
    WindowMultiTargetClassificationMeasurements of metrics/measure_collection.py.

    Labels are integers; a matrix of labels is a list of rows.  Numpy divisions never raise ([ndiv]).  Simplification:
    matrices (or vectors) of different shapes raise ValueError; the object left behind by a failed add_result is not modelled. *)
From Coq Require Import List ZArith Bool.
From Verif Require Import Base.Py Base.Num Model.FastBuffer Model.FastComplexBuffer Model.ConfMat.
Import ListNotations.
Local Open Scope Z_scope.

Section S.
Context {T : Type} `{Num T}.

(** [N, L = true_labels.shape] on a list of rows: an empty list has shape (0,), which cannot be unpacked; ragged rows or
    different shapes are rejected *)
Definition shape2 (t p : list (list Z)) : res (Z * Z) :=
  match t with
  | [] => Raise ValueError
  | r :: _ =>
      let L := length r in
      if forallb (fun x => Nat.eqb (length x) L) t && forallb (fun x => Nat.eqb (length x) L) p && Nat.eqb (length t) (length p)
      then Ok (Z.of_nat (length t), Z.of_nat L) else Raise ValueError
  end.

(** number of positions of two vectors at which [f] holds *)
Fixpoint count_where (f : Z -> Z -> bool) (a b : list Z) : Z :=
  match a, b with x :: a', y :: b' => (if f x y then 1 else 0) + count_where f a' b' | _, _ => 0 end.
Definition sum_rows (f : list Z -> list Z -> Z) (t p : list (list Z)) : Z := zsum (map (fun r => f (fst r) (snd r)) (combine t p)).

(** measure_collection.py:1576-1609 hamming_score *)
Definition hamming_score (t p : list (list Z)) : res T :=
  '(N, L) <- shape2 t p ;;
  Ok (nofZ (sum_rows (count_where Z.eqb) t p) / nofZ N / nofZ L)%num.

(** the Jaccard index of one row, measure_collection.py:1647-1653 (and 799-804): [None] adds nothing *)
Definition row_j (a b : list Z) : option T :=
  let inter := count_where (fun x y => 0 <? x * y) a b in
  let union := count_where (fun x y => 0 <? x + y) a b in
  if 0 <? union then Some (nofZ inter / nofZ union)%num
  else if zsum a =? 0 then Some n1 else None.
Definition opt_add (s : T) (o : option T) : T := match o with Some x => (s + x)%num | None => s end.

(** measure_collection.py:1612-1655 j_index *)
Definition j_index (t p : list (list Z)) : res T :=
  '(N, _) <- shape2 t p ;;
  Ok (fold_left (fun s r => opt_add s (row_j (fst r) (snd r))) (combine t p) n0 * n1 / nofZ N)%num.

(** measure_collection.py:1658-1692 exact_match *)
Definition exact_match (t p : list (list Z)) : res T :=
  '(N, L) <- shape2 t p ;;
  Ok (nofZ (sum_rows (fun a b => if Z.eqb (count_where Z.eqb a b) L then 1 else 0) t p) * n1 / nofZ N)%num.

(** measure_collection.py:738-764: MultiTargetClassificationMeasurements ([targets]: its length, if given) *)
Record mtc : Type := mk_mtc { k_targets : option Z; k_n_targets : Z; k_cm : mol; k_n : Z; k_exact : Z; k_j : T }.
Definition mtc_new (targets : option Z) : res mtc :=
  m <- mol_init (Some (targets_or_0 targets)) ;; Ok (mk_mtc targets (targets_or_0 targets) m 0 0 n0).
Definition mtc_reset (s : mtc) : mtc :=
  mk_mtc (k_targets s) (targets_or_0 (k_targets s)) (fst (mol_restart (k_cm s) (Some (targets_or_0 (k_targets s))))) 0 0 n0.

(** the loop [for i in range(m): confusion_matrix.update(i, y_true[i], y_pred[i])], measure_collection.py:787-789, 978-979 *)
Fixpoint update_all (m : mol) (i : Z) (a b : list Z) : mol * res unit :=
  match a, b with
  | x :: a', y :: b' =>
      match mol_update m (Some i) (Some x) (Some y) 1 with
      | (m', Raise e) => (m', Raise e)
      | (m', Ok _) => update_all m' (i + 1) a' b'
      end
  | [], _ => (m, Ok tt)
  | _, [] => (m, Raise IndexError)
  end.

(** measure_collection.py:766-806 add_result *)
Definition mtc_add (s : mtc) (y p : list Z) : res mtc :=
  match update_all (k_cm s) 0 y p with
  | (_, Raise e) => Raise e
  | (m, Ok _) =>
      if negb (Nat.eqb (length y) (length p)) then Raise ValueError
      else Ok (mk_mtc (k_targets s) (Z.of_nat (length y)) m (k_n s + 1)
                 (if count_where Z.eqb y p =? Z.of_nat (length y) then k_exact s + 1 else k_exact s)
                 (opt_add (k_j s) (row_j y p)))
  end.

(** measure_collection.py:811-863: [None] is nan (a numpy integer divided by 0); get_exact_match and get_j_index divide Python
    numbers *)
Definition mtc_hamming (s : mtc) : option T :=
  let d := k_n s * k_n_targets s in
  if d =? 0 then (if mo_size (k_cm s) =? 0 then Some n0 else None) else Some (nofZ (mol_diagonal (k_cm s)) / nofZ d)%num.
Definition mtc_exact (s : mtc) : res T := pydiv (nofZ (k_exact s)) (nofZ (k_n s)).
Definition mtc_j (s : mtc) : res T := pydiv (k_j s) (nofZ (k_n s)).
(** get_total_sum, measure_collection.py:865-866 *)
Definition mtc_total (s : mtc) : Z := mol_total (k_cm s).

Fixpoint mtc_run (s : mtc) (l : list (list Z * list Z)) : res mtc :=
  match l with [] => Ok s | (y, p) :: r => s' <- mtc_add s y p ;; mtc_run s' r end.

(** measure_collection.py:918-951: WindowMultiTargetClassificationMeasurements *)
Record wmtc : Type := mk_wmtc { v_targets : option Z; v_n_targets : Z; v_cm : mol; v_size : Z; v_true : fcb Z; v_pred : fcb Z }.
Definition wmtc_new (targets : option Z) (window_size : Z) : res wmtc :=
  let k := targets_or_0 targets in
  m <- mol_init (Some k) ;;
  Ok (mk_wmtc targets k m window_size (fcb_init window_size (Z.to_nat k)) (fcb_init window_size (Z.to_nat k))).

(** [for i in range(m): confusion_matrix.remove(old_true[0][i], old_predict[0][i])], measure_collection.py:985-987: the label pair
    is passed as (target, true) and the third parameter keeps its default None *)
Fixpoint remove_all (m : mol) (n : nat) (a b : list Z) : mol * res unit :=
  match n, a, b with
  | O, _, _ => (m, Ok tt)
  | S n', x :: a', y :: b' =>
      match mol_remove m (Some x) (Some y) None with
      | (m', Raise e) => (m', Raise e)
      | (m', Ok _) => remove_all m' n' a' b'
      end
  | _, _, _ => (m, Raise IndexError)
  end.

(** old_true[0] *)
Definition first_entry (l : list (option (stored Z))) : res (list Z) :=
  match l with Some (Flat e) :: _ => Ok e | Some (Nested (e :: _)) :: _ => Ok e | [] => Raise IndexError | _ => Raise TypeError end.

(** measure_collection.py:953-987 add_result *)
Definition wmtc_add (s : wmtc) (y p : list Z) : res wmtc :=
  match update_all (v_cm s) 0 y p with
  | (_, Raise e) => Raise e
  | (m, Ok _) =>
      let '(t', o1) := fcb_add (v_true s) (Entry y) in
      let '(p', o2) := fcb_add (v_pred s) (Entry p) in
      r1 <- o1 ;; r2 <- o2 ;;
      match r1, r2 with
      | Some l1, Some l2 =>
          a <- first_entry l1 ;; b <- first_entry l2 ;;
          match remove_all m (length y) a b with
          | (_, Raise e) => Raise e
          | (m', Ok _) => Ok (mk_wmtc (v_targets s) (Z.of_nat (length y)) m' (v_size s) t' p')
          end
      | _, _ => Ok (mk_wmtc (v_targets s) (Z.of_nat (length y)) m (v_size s) t' p')
      end
  end.

(** get_queue() of a buffer that holds plain entries *)
Definition rows_of (b : fcb Z) : list (list Z) := map (fun x => match x with Flat e => e | Nested r => concat r end) (fb_buf (fc_fb b)).

(** measure_collection.py:992-1043 *)
Definition wmtc_hamming (s : wmtc) : res T := hamming_score (rows_of (v_true s)) (rows_of (v_pred s)).
Definition wmtc_exact (s : wmtc) : res T := exact_match (rows_of (v_true s)) (rows_of (v_pred s)).
Definition wmtc_j (s : wmtc) : res T := j_index (rows_of (v_true s)) (rows_of (v_pred s)).
Definition wmtc_total (s : wmtc) : Z := mol_total (v_cm s).

Fixpoint wmtc_run (s : wmtc) (l : list (list Z * list Z)) : res wmtc :=
  match l with [] => Ok s | (y, p) :: r => s' <- wmtc_add s y p ;; wmtc_run s' r end.
End S.
Arguments mtc : clear implicits.
