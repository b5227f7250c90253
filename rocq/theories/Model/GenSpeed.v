(** Model of EvaluateStreamGenerationSpeed (evaluation/evaluate_stream_gen_speed.py 5-84).

    The clock is an argument: [within k] tells whether the time limit has not been reached at the k-th test of the outer loop.  The percentages, which the
    code compares as floats, are compared exactly (both sides times 20).  The time messages are not modelled.  Loops have fuel; the last component tells
    whether they ended by themselves. *)
From Coq Require Import List ZArith Bool.
Import ListNotations.
Local Open Scope Z_scope.

Section Speed.
Context (num_samples batch_size : Z).
(** the inner loop, lines 77-80: percentages told, the new true_percentage_index *)
Fixpoint tell (fuel : nat) (count : Z) (idx : nat) : list Z * nat * bool :=
  match fuel with
  | O => ([], idx, false)
  | S f => if ((Z.of_nat idx + 1) * num_samples <=? 20 * (count + batch_size))%Z
           then let '(l, i, e) := tell f count (S idx) in (5 * Z.of_nat (S idx) :: l, i, e) else ([], idx, true)
  end.
Record report := mk_rep { asked : list Z; told : list Z; ended : bool }.
(** the outer loop, lines 72-80; [limit] is stream_local_max, [None] if the stream has no end (lines 70-71) *)
Fixpoint generate (within : nat -> bool) (limit : option Z) (fuel : nat) (k : nat) (count : Z) (idx : nat) : report :=
  match fuel with
  | O => mk_rep [] [] false
  | S f =>
      if within k && (count + batch_size <=? num_samples) && match limit with None => true | Some m => count + batch_size <=? m end
      then let count := count + batch_size in
           let '(l, idx, e) := tell (S (Z.to_nat (20 * (count + batch_size)))) count idx in
           let r := generate within limit f (S k) count idx in
           mk_rep (batch_size :: asked r) (l ++ told r) (e && ended r)
      else mk_rep [] [] true
  end.
(** _measure_stream_speed, lines 63-84; n_remaining_samples() answers -1 for a stream without end *)
Definition measure_speed (within : nat -> bool) (remaining : Z) : report :=
  generate within (if remaining =? -1 then None else Some remaining) (S (Z.to_nat num_samples)) 0 0 0.
End Speed.
