(** C03, C04: SlidingWindow (utils/data_structures.py:878-999). *)
From Coq Require Import List ZArith.
From Verif Require Import Base.Py Spec.Lists Spec.WindowSpec Spec.SlidingWindowSpec Model.SlidingWindow
  Proofs.SlidingWindowProofs.
Import ListNotations.

(** C03.  For every window_size >= 1 and every history of single-sample additions (consistent shapes between resets),
    deletions of the oldest sample and resets: no call raises, feature row i and target row i are the i-th pair of the
    specified window ([Spec/WindowSpec.v]), both buffers have the same length, and the size is at most window_size. *)
Theorem sliding_window_most_recent :
  forall (A : Type) (n : nat) (ops : list (wop A)),
    1 <= n -> consistent None ops ->
    let '(s, outcomes) := sw_run (sw_init (Z.of_nat n)) (map to_sw_op ops) in
    (forall r, In r outcomes -> r = Ok tt)
    /\ combine (sw_features s) (sw_targets s) = wrun n [] ops
    /\ length (sw_features s) = length (sw_targets s)
    /\ sw_size s = Z.of_nat (length (wrun n [] ops))
    /\ (sw_size s <= Z.of_nat n)%Z.
Proof. exact sliding_window_most_recent_proof. Qed.

(** C03.  Additions only: the window is the last n samples. *)
Theorem sliding_window_last_samples :
  forall (A : Type) (n nf nt : nat) (ps : list (list A * list A)),
    1 <= n -> (forall p, In p ps -> length (fst p) = nf /\ length (snd p) = nt) ->
    let s := fst (sw_run (sw_init (Z.of_nat n)) (map to_sw_op (map WAdd ps))) in
    combine (sw_features s) (sw_targets s) = lastn n ps.
Proof. exact sliding_window_last_samples_proof. Qed.

Example sliding_window_nontrivial :
  let ops := [WAdd ([1;2],[0]); WAdd ([3;4],[1]); WAdd ([5;6],[0]); WDeleteOldest; WAdd ([7;8],[1]);
              WReset; WAdd ([9],[1;1]); WAdd ([10],[0;0]); WAdd ([11],[1;0])] in
  consistent None ops /\
  sw_features (fst (sw_run (sw_init 2) (map to_sw_op ops))) = [[10];[11]] /\
  sw_targets (fst (sw_run (sw_init 2) (map to_sw_op ops))) = [[0;0];[1;0]].
Proof. vm_compute. repeat split. Qed.

(** C04 (holds for a wrong number of features): the call raises ValueError and changes nothing.
    Missing from the full property: a wrong number of targets, see the refutation below. *)
Theorem sliding_window_rejected_sample_partial :
  forall (A : Type) (s : swin A) (X y : nd2 A),
    sw_inited s = true -> sw_nfeat s <> Z.of_nat (nd_cols X) ->
    sw_add s X y = (s, Raise ValueError).
Proof. exact sliding_window_feature_mismatch_proof. Qed.

(** C04 is false in general: a sample with a wrong number of targets raises, but its features stay in the window
    and (when full) the oldest sample has been dropped: features and targets are out of step from then on. *)
Theorem sliding_window_rejected_sample_refuted :
  exists (s : swin nat) (X y : nd2 nat),
    s = fst (sw_run (sw_init 2) (map to_sw_op [WAdd ([1],[10]); WAdd ([2],[20])])) /\
    snd (sw_add s X y) = Raise ValueError /\
    sw_features s = [[1];[2]] /\ sw_targets s = [[10];[20]] /\
    sw_features (fst (sw_add s X y)) = [[2];[3]] /\ sw_targets (fst (sw_add s X y)) = [[20]].
Proof.
  exists (fst (sw_run (sw_init 2) (map to_sw_op [WAdd ([1],[10]); WAdd ([2],[20])]))), (row1 [3]), (row1 [30;31]).
  vm_compute. repeat split.
Qed.

(** The documented use is one sample per call; a 2-row array passed at once steps over the equality test
    size == window_size and the window then grows without bound. *)
Theorem sliding_window_batch_overrun_refuted :
  exists ops : list (sw_op nat),
    sw_size (fst (sw_run (sw_init 2) ops)) = 6%Z.
Proof.
  exists [SAdd (row1 [1]) (row1 [1]); SAdd (mkND 1 [[2];[3]]) (mkND 1 [[2];[3]]);
          SAdd (row1 [4]) (row1 [4]); SAdd (row1 [5]) (row1 [5]); SAdd (row1 [6]) (row1 [6])].
  vm_compute. reflexivity.
Qed.

Print Assumptions sliding_window_most_recent.
Print Assumptions sliding_window_last_samples.
Print Assumptions sliding_window_rejected_sample_partial.
Print Assumptions sliding_window_rejected_sample_refuted.
Print Assumptions sliding_window_batch_overrun_refuted.
