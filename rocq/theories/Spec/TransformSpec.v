(** What the stream transforms should compute, on plain rows (no memory): [None] is NaN. *)
From Coq Require Import List Reals Bool Permutation Sorted.
From Verif Require Import Spec.Lists.
Import ListNotations.

Section Calls.
Context {T : Type}.
Notation cell := (option T).
Notation row := (list cell).

(** A history: rows given to partial_fit, rows given to transform. *)
Inductive call := CFit (rows : list row) | CTransform (rows : list row).

Definition col (j : nat) (rows : list row) : list cell := map (fun r => nth j r None) rows.

(** Every cell of a row is replaced by [f j (column j of the window) (old value)]. *)
Definition map_row (f : list cell -> cell -> cell) (window : list row) (x : row) : row :=
  map (fun j => f (col j window) (nth j x None)) (seq 0 (length x)).

(** A scaler: the window is the last [ws] original rows before the current one. *)
Fixpoint scale_rows (f : list cell -> cell -> cell) (ws : nat) (hist rows : list row) : list row :=
  match rows with [] => [] | x :: r => map_row f (lastn ws hist) x :: scale_rows f ws (hist ++ [x]) r end.
Fixpoint scale_calls (f : list cell -> cell -> cell) (ws : nat) (hist : list row) (cs : list call) : list (list row) :=
  match cs with
  | [] => []
  | CFit rows :: r => [] :: scale_calls f ws (hist ++ rows) r
  | CTransform rows :: r => scale_rows f ws hist rows :: scale_calls f ws (hist ++ rows) r
  end.

(** A cleaner: the window is the last [ws] rows up to and including the current one, earlier ones cleaned. *)
Fixpoint clean_rows (f : list cell -> cell -> cell) (ws : nat) (hist rows : list row) : list row :=
  match rows with
  | [] => []
  | x :: r => let y := map_row f (lastn ws (hist ++ [x])) x in y :: clean_rows f ws (hist ++ [y]) r
  end.
Fixpoint clean_calls (f : list cell -> cell -> cell) (ws : nat) (hist : list row) (cs : list call) : list (list row) :=
  match cs with
  | [] => []
  | CFit rows :: r => [] :: clean_calls f ws (hist ++ rows) r
  | CTransform rows :: r => let ys := clean_rows f ws hist rows in ys :: clean_calls f ws (hist ++ ys) r
  end.

(** The values of a column that are not NaN. *)
Definition present (l : list cell) : list T := flat_map (fun c => match c with Some x => [x] | None => [] end) l.
End Calls.
Arguments call : clear implicits.

Local Open Scope R_scope.
(** Standardisation of v by the values of a column of the window. *)
Definition standardised (column : list (option R)) (v : option R) : option R :=
  match v with
  | None => None
  | Some x => match column with
              | [] => Some x
              | _ => match present column with
                     | [] => None
                     | vs => Some ((x - Rmean vs) / (if Req_EM_T (Rvariance vs) 0 then 1 else sqrt (Rvariance vs)))
                     end
              end
  end.

(** The values are all the same. *)
Definition constant (vs : list R) : Prop := forall x y, In x vs -> In y vs -> x = y.

(** [m] is the median of the non-empty list [vs]. *)
Definition is_median (vs : list R) (m : R) : Prop :=
  exists s, Permutation vs s /\ StronglySorted Rle s /\
    (Nat.Odd (length s) -> m = nth (length s / 2) s 0) /\
    (Nat.Even (length s) -> m = (nth (length s / 2 - 1) s 0 + nth (length s / 2) s 0) / 2).
(** [m] is the smallest most frequent value. *)
Definition is_mode (vs : list R) (m : R) : Prop :=
  In m vs /\ forall x, In x vs ->
    (count_occ Req_EM_T vs x <= count_occ Req_EM_T vs m)%nat /\ (count_occ Req_EM_T vs x = count_occ Req_EM_T vs m -> m <= x).

(** Rows with one-hot blocks: a plain column, or a block of [k] columns with a single 1 at index [i]. *)
Inductive part := Plain (x : R) | Block (k i : nat).
Definition well_formed_part (p : part) : Prop := match p with Plain _ => True | Block k i => (i < k)%nat end.
Definition encode_part (p : part) : list R :=
  match p with Plain x => [x] | Block k i => map (fun j => if Nat.eqb j i then 1 else 0) (seq 0 k) end.
Definition decode_part (p : part) : R := match p with Plain x => x | Block _ i => INR i end.
Definition encode (ps : list part) : list R := flat_map encode_part ps.
Definition decode (ps : list part) : list R := map decode_part ps.
(** The layout of a row and the categorical_list that describes it. *)
Definition layout (ps : list part) : list (option nat) := map (fun p => match p with Plain _ => None | Block k _ => Some k end) ps.
Fixpoint categories (pos : nat) (l : list (option nat)) : list (list nat) :=
  match l with
  | [] => []
  | None :: r => categories (S pos) r
  | Some k :: r => seq pos k :: categories (pos + k) r
  end.
Definition ends_with_block (l : list (option nat)) : Prop := exists l' k, l = l' ++ [Some k].
