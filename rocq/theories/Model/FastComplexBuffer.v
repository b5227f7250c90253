(** Model of [FastComplexBuffer], utils/data_structures.py:165-340.

    The list handling of add_element 261-274, get_next_element 276-289 and _clear_all is the same text as in FastBuffer
    and reuses its model; what differs is how the argument is turned into the list of items to store.
    Simplification: an argument is a list or array of numbers (one entry), a list of lists, or a 2-D array. *)
From Coq Require Import List ZArith.
From Verif Require Import Base.Py Model.FastBuffer.
Import ListNotations.

Inductive fcb_arg (A : Type) : Type :=
| Entry (l : list A)              (* one entry: flat list or 1-D array *)
| ListRows (rows : list (list A)) (* list of entries *)
| ArrayRows (cols : nat) (rows : list (list A)).   (* 2-D array *)
Arguments Entry {A}. Arguments ListRows {A}. Arguments ArrayRows {A}.

(** What ends up in the buffer: an entry, or (lines 249-258, size == 1) the whole one-row argument. *)
Inductive stored (A : Type) : Type := Flat (l : list A) | Nested (rows : list (list A)).
Arguments Flat {A}. Arguments Nested {A}.

Record fcb (A : Type) : Type := mkFCB { fc_fb : fbuf (stored A); fc_width : option nat }.
Arguments mkFCB {A}. Arguments fc_fb {A}. Arguments fc_width {A}.

Section FCB.
Context {A : Type}.

(** Lines 221-258: (width, items).  The test "width != self.width" comes after the assignment self.width = width, so it
    never rejects. element_list[0] of an empty list raises IndexError. *)
Definition fcb_items (a : fcb_arg A) : res (nat * list (stored A)) :=
  match a with
  | Entry [] => Raise IndexError
  | Entry l => Ok (length l, [Flat l])
  | ListRows [] => Raise IndexError
  | ListRows [r] => Ok (length r, [Nested [r]])
  | ListRows (r :: rows) => Ok (length r, map Flat (r :: rows))
  | ArrayRows w [r] => Ok (w, [Nested [r]])
  | ArrayRows w rows => Ok (w, map Flat rows)
  end.

(** __init__, data_structures.py:192-205 *)
Definition fcb_init (max : Z) (width : nat) : fcb A := mkFCB (fb_init max None) (Some width).

(** add_element, data_structures.py:207-274 *)
Definition fcb_add (s : fcb A) (a : fcb_arg A) : fcb A * res (option (list (option (stored A)))) :=
  match fcb_items a with
  | Raise e => (s, Raise e)
  | Ok (w, items) => let '(f, r) := fb_add (fc_fb s) items in (mkFCB f (Some w), Ok r)
  end.

(** get_next_element, 276-289; clear_queue, 291-298 *)
Definition fcb_next (s : fcb A) : fcb A * option (stored A) :=
  let '(f, r) := fb_get_next (fc_fb s) in (mkFCB f (fc_width s), r).
Definition fcb_clear (s : fcb A) : fcb A := mkFCB (fb_clear (fc_fb s)) None.

Inductive fcb_op : Type := CAdd (a : fcb_arg A) | CNext | CClear.
Inductive fcb_ret : Type := QAdd (r : option (list (option (stored A)))) | QNext (r : option (stored A)) | QClear | QRaise (e : exc).

Definition fcb_step (s : fcb A) (o : fcb_op) : fcb A * fcb_ret :=
  match o with
  | CAdd a => match fcb_add s a with (s', Ok r) => (s', QAdd r) | (s', Raise e) => (s', QRaise e) end
  | CNext => let '(s', r) := fcb_next s in (s', QNext r)
  | CClear => (fcb_clear s, QClear)
  end.

Fixpoint fcb_run (s : fcb A) (ops : list fcb_op) : fcb A * list fcb_ret :=
  match ops with
  | [] => (s, [])
  | o :: r => let '(s1, x) := fcb_step s o in let '(s2, xs) := fcb_run s1 r in (s2, x :: xs)
  end.
End FCB.
Arguments fcb_op : clear implicits.
Arguments fcb_ret : clear implicits.
