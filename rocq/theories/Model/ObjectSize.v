(** Model of calculate_object_size (utils/utils.py 86-149).

    Objects are numbers (their ids); a heap gives each its own size (sys.getsizeof) and its kind.  Simplification: the objects exist before the call
    and keep their ids during it, so values that an iteration creates (the scalars of a numpy array) and the ids they reuse are not modelled; no size is
    refused. *)
From Coq Require Import List ZArith Bool.
From Verif Require Import Base.Py Base.Num.
Import ListNotations.

(** The cases of lines 129-140: a dictionary (key, value pairs), an object with a __dict__, an iterable that is not text, anything else *)
Inductive kind := KDict (items : list (nat * nat)) | KAttrs (d : nat) | KIter (items : list nat) | KAtom.
Record heap := mk_heap { own_size : nat -> Z; kind_of : nat -> kind }.
(** what is appended to to_visit: lines 129-140, the values before the keys *)
Definition appended (k : kind) : list nat :=
  match k with KDict items => map snd items ++ map fst items | KAttrs d => [d] | KIter items => items | KAtom => [] end.
(** The loop, lines 112-140; [None]: it has not ended after so many rounds *)
Fixpoint size_loop (fuel : nat) (h : heap) (seen : list nat) (to_visit : list nat) (byte_size : Z) : option Z :=
  match fuel with
  | O => None
  | S fuel =>
      match to_visit with
      | [] => Some byte_size
      | obj :: rest =>
          if existsb (Nat.eqb obj) seen then size_loop fuel h seen rest byte_size
          else size_loop fuel h (obj :: seen) (rest ++ appended (kind_of h obj)) (byte_size + own_size h obj)%Z
      end
  end.
Inductive unit_name := Byte | KB | MB.
(** lines 142-149 *)
Definition in_unit {T} {N : Num T} (u : unit_name) (bytes : Z) : T :=
  match u with KB => (nofZ bytes / nofZ 1024)%num | MB => (nofZ bytes / nofZ (2 ^ 20))%num | Byte => nofZ bytes end.
(** lines 106-149 *)
Definition object_size {T} {N : Num T} (fuel : nat) (h : heap) (obj : nat) (u : unit_name) : option T :=
  match size_loop fuel h [] [obj] 0%Z with Some b => Some (in_unit u b) | None => None end.
