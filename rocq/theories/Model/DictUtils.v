(** Model of the dictionary helpers of utils/utils.py: normalize_values_in_dict (39-64), get_max_value_key (67-83), add_dict_values (184-215).

    Dictionaries are cells of a heap, so that what happens in place and what happens in a copy can be told apart.  Simplification: the test for nan of
    normalize_values_in_dict has no counterpart in real arithmetic and is left out; keys are integers. *)
From Coq Require Import List ZArith Bool.
From Verif Require Import Base.Py Base.Num Base.Dict.
Import ListNotations.

Section DictUtils.
Context {T : Type} {N : Num T}.
Definition cells := list (list (Z * T)).
Definition cell (h : cells) (r : nat) : list (Z * T) := nth r h [].
Fixpoint store (h : cells) (r : nat) (d : list (Z * T)) : cells :=
  match h, r with [], _ => [] | _ :: h, O => d :: h | c :: h, S r => c :: store h r d end.
(** copy.deepcopy unless in place *)
Definition target (h : cells) (r : nat) (inplace : bool) : nat * cells := if inplace then (r, h) else (length h, h ++ [cell h r]).
(** normalize_values_in_dict, lines 54-64 *)
Definition normalize_values (h : cells) (r : nat) (factor : option T) (inplace : bool) : res (nat * cells) :=
  let factor := match factor with Some f => f | None => fold_left nadd (dvals (cell h r)) n0 end in
  if (factor =? n0)%num then Raise ValueError
  else let '(r', h) := target h r inplace in
       Ok (r', store h r' (fold_left (fun d kv => dset d (fst kv) (snd kv / factor)%num) (cell h r') (cell h r'))).
(** add_dict_values, lines 204-215 *)
Definition add_dicts (h : cells) (a b : nat) (inplace : bool) : nat * cells :=
  let '(r, h) := target h a inplace in
  (r, store h r (fold_left (fun d kv => match dget d (fst kv) with Some v => dset d (fst kv) (v + snd kv)%num | None => dset d (fst kv) (snd kv) end) (cell h b) (cell h r))).
(** get_max_value_key, lines 80-83: max keeps the first of the greatest *)
Definition max_value_key (d : list (Z * T)) : Z :=
  match d with
  | [] => 0%Z
  | kv :: d => fst (fold_left (fun best kv => if (snd best <? snd kv)%num then kv else best) d kv)
  end.
End DictUtils.
