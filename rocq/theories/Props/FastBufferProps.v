(** C01, C02: FastBuffer (utils/data_structures.py:9-162). *)
From Coq Require Import List ZArith.
From Verif Require Import Spec.Lists Spec.BoundedFifo Model.FastBuffer Spec.FastBufferSpec Proofs.FastBufferProofs.
Import ListNotations.

(** C01.  For every max_size >= 1 and every sequence of add/pop/clear calls on a new buffer: the stored list
    and all answers are those of the bounded-FIFO specification ([Spec/BoundedFifo.v]); the reported size is the number
    of stored elements, never above max_size; is_full / is_empty agree with it. *)
Theorem fast_buffer_is_bounded_fifo :
  forall (A : Type) (max_size : nat) (ops : list (op A)),
    1 <= max_size ->
    let '(s, answers) := fb_run (fb_init (Z.of_nat max_size) None) (map to_op ops) in
    fb_buf s = fst (run max_size [] ops)
    /\ answers = map to_ret (snd (run max_size [] ops))
    /\ fb_size s = Z.of_nat (length (fb_buf s))
    /\ length (fb_buf s) <= max_size
    /\ (fb_is_full s = true <-> length (fb_buf s) = max_size)
    /\ (fb_is_empty s = true <-> fb_buf s = []).
Proof. exact fast_buffer_is_bounded_fifo_proof. Qed.

(** C01.  In particular, with insertions only, the buffer holds the last max_size of all elements ever added. *)
Theorem fast_buffer_holds_most_recent :
  forall (A : Type) (max_size : nat) (batches : list (list A)),
    1 <= max_size ->
    fb_buf (fst (fb_run (fb_init (Z.of_nat max_size) None) (map FAdd batches)))
    = lastn max_size (concat batches).
Proof. exact fast_buffer_holds_most_recent_proof. Qed.

(** C02.  Everything the calls took out (evictions reported by add_element, popped elements, cleared content), in
    order, followed by what is still stored, is exactly the sequence of elements added. *)
Theorem fast_buffer_conserves_elements :
  forall (A : Type) (max_size : nat) (ops : list (op A)),
    1 <= max_size ->
    all_leaves (fb_init (Z.of_nat max_size) None) (map to_op ops)
      ++ map Some (fb_buf (fst (fb_run (fb_init (Z.of_nat max_size) None) (map to_op ops))))
    = map Some (added ops).
Proof. exact fast_buffer_conserves_elements_proof. Qed.

(** The hypothesis 1 <= max_size is needed: with max_size = 0 the buffer grows without bound
    (is_full compares for equality only). *)
Theorem fast_buffer_zero_capacity_refuted :
  forall n : nat, 1 <= n ->
    length (fb_buf (fst (fb_run (fb_init 0 None) (repeat (FAdd [tt]) n)))) = n.
Proof. exact fast_buffer_zero_capacity_proof. Qed.

Example fast_buffer_nontrivial :
  fb_run (fb_init 3 None) (map to_op [Add [1;2]; Add [3;4;5]; Pop; Add [6]; Add [7;8;9;10]])
  = (mkFB 3 3 [8;9;10],
     [RAdd None; RAdd (Some [Some 1; Some 2]); RNext (Some 3); RAdd None;
      RAdd (Some [Some 4; Some 5; Some 6; Some 7])]).
Proof. vm_compute. reflexivity. Qed.

Print Assumptions fast_buffer_is_bounded_fifo.
Print Assumptions fast_buffer_holds_most_recent.
Print Assumptions fast_buffer_conserves_elements.
Print Assumptions fast_buffer_zero_capacity_refuted.
