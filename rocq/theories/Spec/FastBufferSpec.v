(** How calls and answers of the FastBuffer model are read in terms of the bounded FIFO of
    [Spec/BoundedFifo.v], and which elements a call takes out of the buffer. *)
From Coq Require Import List.
From Verif Require Import Spec.BoundedFifo Model.FastBuffer.
Import ListNotations.

Section S.
Context {A : Type}.

Definition to_op (o : op A) : fb_op A :=
  match o with Add xs => FAdd xs | Pop => FNext | Clear => FClear end.

Definition to_ret (a : answer A) : fb_ret A :=
  match a with
  | Evicted e => RAdd (option_map (map Some) e)
  | Popped x => RNext x
  | Cleared => RClear
  end.

(** The elements a call takes out of the buffer, read off the result of the call; a clear takes
    out what get_queue() showed just before. *)
Definition leaves (s : fbuf A) (o : fb_op A) : list (option A) :=
  match snd (fb_step s o) with
  | RAdd None => []
  | RAdd (Some l) => l
  | RNext None => []
  | RNext (Some x) => [Some x]
  | RClear => map Some (fb_buf s)
  end.

Fixpoint all_leaves (s : fbuf A) (ops : list (fb_op A)) : list (option A) :=
  match ops with
  | [] => []
  | o :: ops' => leaves s o ++ all_leaves (fst (fb_step s o)) ops'
  end.

End S.
