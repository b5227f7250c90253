(** Model of check_weights and check_random_state (utils/validation.py 7-62).

    Values are told apart as the isinstance tests do: [Num v] is an int, bool, float or numpy integer or float64; [Odd] is any other value that is neither a
    list nor an array (None, a string, a float32, a numpy bool, ...).  An array is given by its number of dimensions and contents: [Arr0] has none, [Arr1]
    one, [Arr2] is a list of rows (every array of more dimensions behaves as one of those). *)
From Coq Require Import List ZArith Bool.
From Verif Require Import Base.Py.
Import ListNotations.

Section Weights.
Context {T : Type}.
Inductive item := Number (v : T) | Odd.
Inductive value := Scalar (i : item) | PyList (l : list item) | Arr0 (i : item) | Arr1 (l : list item) | Arr2 (rows : list (list item)).
(** isinstance(x, (int, float, np.integer, np.float)) *)
Definition is_number (i : item) : bool := match i with Number _ => true | Odd => false end.
(** np.array([weight] * expand_length): copies of a number make an array of one dimension, copies of an array of length 1 one of two *)
Definition copies {A} (n : Z) (a : A) : list A := repeat a (Z.to_nat n).
(** check_weights, lines 33-62 *)
Definition check_weights (w : value) (expand : Z) : res value :=
  match w with
  | Scalar (Number v) => if (1 <=? expand)%Z then Ok (Arr1 (copies expand (Number v))) else Raise ValueError
  | Scalar Odd => Raise ValueError
  | PyList l => if forallb is_number l then (if (expand =? 1)%Z then Ok (PyList l) else Raise ValueError) else Raise ValueError
  | Arr0 _ => Raise IndexError
  | Arr1 l =>
      if Nat.ltb 1 (length l) && forallb is_number l then (if (expand =? 1)%Z then Ok (Arr1 l) else Raise ValueError)
      else match l with
           | [Number v] => if (expand =? 1)%Z then Ok (Arr1 l) else if (1 <? expand)%Z then Ok (Arr2 (copies expand l)) else Raise ValueError
           | _ => Raise ValueError
           end
  | Arr2 rows => Raise ValueError
  end.
(** check_random_state, lines 7-30, on a heap of generators: each has the seed it was made with and the number of draws made from it; address 0 is the
    generator of np.random *)
Inductive seed := NoSeed | NumpyRandom | IntSeed (z : Z) | Generator (address : nat) | OtherSeed.
Definition heap := list (option Z * nat).
Definition check_random_state (h : heap) (s : seed) : res (nat * heap) :=
  match s with
  | NoSeed | NumpyRandom => Ok (0%nat, h)
  | IntSeed z => if ((0 <=? z) && (z <? 2 ^ 32))%Z then Ok (length h, h ++ [(Some z, 0%nat)]) else Raise ValueError
  | Generator a => Ok (a, h)
  | OtherSeed => Raise ValueError
  end.
(** One draw from a generator: the number drawn is a function of its seed and of how many came before *)
Definition draw (h : heap) (a : nat) : option (option Z * nat) * heap :=
  match nth_error h a with
  | Some (s, n) => (Some (s, n), firstn a h ++ (s, S n) :: skipn (S a) h)
  | None => (None, h)
  end.
Fixpoint draws (h : heap) (a : nat) (k : nat) : list (option (option Z * nat)) * heap :=
  match k with O => ([], h) | S k => let '(x, h) := draw h a in let '(xs, h) := draws h a k in (x :: xs, h) end.
End Weights.
Arguments item : clear implicits. Arguments value : clear implicits.
