(** Model of [FastBuffer], utils/data_structures.py:9-162.

    Elements are of an arbitrary type.  Sizes are Python ints ([Z]): nothing forces
    [max_size] to be positive.  Simplification: [get_queue] returns the internal list object; aliasing
    by the caller is not modelled. *)
From Coq Require Import List ZArith.
Import ListNotations.

(** Fields set by __init__, data_structures.py:52-66. *)
Record fbuf (A : Type) : Type := mkFB {
  fb_size : Z;          (* self.current_size *)
  fb_max  : Z;          (* self.max_size *)
  fb_buf  : list A      (* self.buffer *)
}.
Arguments mkFB {A}.
Arguments fb_size {A}.
Arguments fb_max {A}.
Arguments fb_buf {A}.

Section FastBuffer.
Context {A : Type}.

(** is_full, data_structures.py:133-134 *)
Definition fb_is_full (s : fbuf A) : bool := (fb_size s =? fb_max s)%Z.

(** is_empty, data_structures.py:136-137 *)
Definition fb_is_empty (s : fbuf A) : bool := (fb_size s =? 0)%Z.

(** get_next_element, data_structures.py:104-119; [None] is Python's None. *)
Definition fb_get_next (s : fbuf A) : fbuf A * option A :=
  match fb_buf s with
  | [] => (s, None)
  | x :: r => (mkFB (fb_size s - 1) (fb_max s) r, Some x)
  end.

(** The loop of the else branch, data_structures.py:97-101. [aux] collects what get_next_element returned
    (possibly Python's None, hence [option A]). *)
Fixpoint fb_add_loop (s : fbuf A) (aux : list (option A)) (xs : list A) : fbuf A * list (option A) :=
  match xs with
  | [] => (s, aux)
  | x :: xs' =>
      let '(s1, aux1) :=
        if fb_is_full s then let '(s0, r) := fb_get_next s in (s0, aux ++ [r]) else (s, aux) in
      fb_add_loop (mkFB (fb_size s1 + 1) (fb_max s1) (fb_buf s1 ++ [x])) aux1 xs'
  end.

(** add_element, data_structures.py:68-102.  [None] is the "no return" of the if branch. *)
Definition fb_add (s : fbuf A) (xs : list A) : fbuf A * option (list (option A)) :=
  if (fb_size s + Z.of_nat (length xs) <=? fb_max s)%Z
  then (mkFB (fb_size s + Z.of_nat (length xs)) (fb_max s) (fb_buf s ++ xs), None)
  else let '(s', aux) := fb_add_loop s [] xs in (s', Some aux).

(** clear_queue / _clear_all, data_structures.py:121-128 *)
Definition fb_clear (s : fbuf A) : fbuf A := mkFB 0 (fb_max s) [].

(** peek, data_structures.py:142-156 *)
Definition fb_peek (s : fbuf A) : option A := hd_error (fb_buf s).

(** __init__(max_size, object_list=None), data_structures.py:52-66 *)
Definition fb_init (max : Z) (objs : option (list A)) : fbuf A :=
  let s := mkFB 0 max [] in
  match objs with None => s | Some l => fst (fb_add s l) end.

(** Public mutating calls, and one call on a buffer. *)
Inductive fb_op : Type := FAdd (xs : list A) | FNext | FClear.

Inductive fb_ret : Type :=
| RAdd (r : option (list (option A))) | RNext (r : option A) | RClear.

Definition fb_step (s : fbuf A) (o : fb_op) : fbuf A * fb_ret :=
  match o with
  | FAdd xs => let '(s', r) := fb_add s xs in (s', RAdd r)
  | FNext => let '(s', r) := fb_get_next s in (s', RNext r)
  | FClear => (fb_clear s, RClear)
  end.

(** A history of calls: final buffer and the results returned, in order. *)
Fixpoint fb_run (s : fbuf A) (ops : list fb_op) : fbuf A * list fb_ret :=
  match ops with
  | [] => (s, [])
  | o :: ops' =>
      let '(s1, r) := fb_step s o in
      let '(s2, rs) := fb_run s1 ops' in (s2, r :: rs)
  end.

End FastBuffer.
Arguments fb_op : clear implicits.
Arguments fb_ret : clear implicits.
