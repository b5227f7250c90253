(** C113-C115: the nearest neighbour learners KNNClassifier, KNNRegressor and KNNADWINClassifier
    (lazy/knn_classifier.py, lazy/knn_regressor.py, lazy/knn_adwin.py). *)
From Coq Require Import List ZArith QArith Reals Lra Lia Bool.
From Verif Require Import Base.Py Base.Num Spec.Lists Spec.WindowSpec Spec.KnnSpec Model.SlidingWindow Model.Adwin Model.Knn
  Proofs.KnnProofs Proofs.KnnAdwinProofs Proofs.KnnRegProofs.
Import ListNotations.
Local Open Scope nat_scope.

(** C113.  n_neighbors >= 1, max_window_size >= 1.  After any history of partial_fit, predict and reset calls, with
    samples of one shape between resets and labels >= 0, no call raises, and for a batch X, with w the last
    max_window_size samples since the reset:
    - fewer than n_neighbors samples: every row gets the single probability 0 and the prediction 0;
    - otherwise every row x has its own n_neighbors nearest samples of w, the probability of each label is the share of
      these neighbours carrying it, and the prediction is the smallest of the labels they carry most. *)
Theorem knn_votes_of_nearest :
  forall (V : Type) (vint : V -> Z) query (dist : list V -> list V -> R) (n k : nat) (ops : list (kop V)) (X : list (list V)),
    1 <= n -> 1 <= k ->
    (forall pts x, k <= length pts -> k_nearest dist pts x k (query pts x (Z.of_nat k))) ->
    Forall (labels_ok vint) ops -> consistent None (flat_map window_ops ops) ->
    let w := wrun n [] (flat_map window_ops ops) in
    exists s, knn_run R vint query (knn_new (Z.of_nat k) (Z.of_nat n)) ops = Ok s
      /\ (length w < k ->
            knn_proba (T := R) vint query s X = Ok (map (fun _ => [0%R]) X, s)
            /\ knn_predict (T := R) vint query s X = Ok (map (fun _ => 0) X, s))
      /\ (k <= length w -> exists probas preds s',
            knn_proba (T := R) vint query s X = Ok (probas, s') /\ knn_predict (T := R) vint query s X = Ok (preds, s')
            /\ Forall2 (fun x '(row, c) => exists idx, k_nearest dist (map fst w) x k idx
                  /\ (forall c', nth c' row 0%R = (INR (votes_for vint w idx c') / INR k)%R)
                  /\ majority vint w idx c) X (combine probas preds)).
Proof.
  intros V vint query dist n k ops X Hn Hk Hq Hl Hc w.
  destruct (run_inv vint query n k dist ops Hn Hk Hq [] None _ (new_inv vint n k) Hl Hc) as (s & sh & E & Hi).
  exists s. split; auto. destruct (predict_ok vint query n k dist _ _ _ X Hk Hq Hi) as (A & B). split; auto.
  intros H. destruct (B H) as (p & l & t & E1 & E2 & F). exists p, l, t. split; auto. split; auto.
  eapply Forall2_imp; [|exact F]. intros x [row c] (idx & _ & R). eauto.
Qed.

(** Two neighbours of label 2, one of label 1: a nearest neighbour oracle on the line, computed by brute force. *)
Definition line_query (pts : list (list Z)) (x : list Z) (k : Z) : list nat :=
  let d i := Z.abs (hd 0%Z (nth i pts []) - hd 0%Z x) in
  let fix ins i l := match l with [] => [i] | j :: r => if (d i <? d j)%Z then i :: l else j :: ins i r end in
  firstn (Z.to_nat k) (fold_left (fun l i => ins i l) (seq 0 (length pts)) []).

Example knn_votes_example :
  let ops := [KFit [([0], 2); ([9], 0)] None; KPredict [[1]]; KReset; KFit [([7], 0); ([1], 2); ([2], 1); ([3], 2); ([9], 0)] (Some [3])]%Z in
  Forall (labels_ok (fun v => v)) ops /\ consistent None (flat_map window_ops ops)
  /\ match knn_run Q (fun v => v) line_query (knn_new 3 4) ops with
     | Ok s => knn_proba (T := Q) (fun v => v) line_query s [[2]; [8]]%Z =
               Ok ([[0; 1 # 3; 2 # 3; 0]; [1 # 3; 1 # 3; 1 # 3; 0]]%Q, mk_knn 3 (kn_win s) [3; 1; 2; 0]%Z)
               /\ knn_predict (T := Q) (fun v => v) line_query s [[2]; [8]]%Z = Ok ([2; 0], mk_knn 3 (kn_win s) [3; 1; 2; 0]%Z)
     | Raise _ => False
     end.
Proof.
  intros ops. split; [|split; [|vm_compute; repeat split]].
  - repeat (apply Forall_cons || apply Forall_nil || split); simpl; lia.
  - vm_compute. repeat split.
Qed.

(** The oracle hypothesis of C113 can be met: for n_neighbors = 1 and a constant distance, the first sample. *)
Example knn_oracle_exists :
  forall pts (x : list nat), 1 <= length pts -> k_nearest (fun _ _ => 0%R) pts x 1 [0].
Proof.
  intros pts x H. split; [reflexivity|]. split; [repeat constructor; simpl; tauto|].
  split; [intros i [<-|[]]; lia|]. intros; lra.
Qed.

(** C113 is false for labels that are negative, although only int labels are asked for: the vote of label -1 goes to
    the last column.  With labels -1 and 1, -1 is never predicted: three samples of label -1 and one of label 1 answer
    1 for a query at the label -1 samples. *)
Theorem knn_negative_labels_refuted :
  let ops := [KFit [([0], -1); ([1], -1); ([2], -1); ([9], 1)] (Some [-1; 1])]%Z in
  exists s, knn_run Q (fun v => v) line_query (knn_new 3 10) ops = Ok s
    /\ line_query (sw_features (kn_win s)) [1]%Z 3 = [1; 0; 2]
    /\ match knn_predict (T := Q) (fun v => v) line_query s [[1]]%Z with Ok (l, _) => l = [1] | Raise _ => False end.
Proof. eexists. split; [vm_compute; reflexivity|]. vm_compute. auto. Qed.

(** and with label -1 alone predict raises IndexError. *)
Theorem knn_only_negative_labels_raises_refuted :
  let ops := [KFit [([0], -1); ([1], -1)] None]%Z in
  exists s, knn_run Q (fun v => v) line_query (knn_new 1 10) ops = Ok s
    /\ knn_predict (T := Q) (fun v => v) line_query s [[1]]%Z = Raise IndexError.
Proof. eexists. split; vm_compute; reflexivity. Qed.

(** C116.  reset does not give a fresh learner: the labels seen before stay and decide the width of predict_proba. *)
Theorem knn_reset_is_fresh_refuted :
  let before := [KFit [([0], 5)] None; KPredict [[0]]; KReset; KFit [([0], 0)] None]%Z in
  let fresh := [KFit [([0], 0)] None]%Z in
  exists s s', knn_run Q (fun v => v) line_query (knn_new 1 10) before = Ok s
    /\ knn_run Q (fun v => v) line_query (knn_new 1 10) fresh = Ok s'
    /\ sw_features (kn_win s) = sw_features (kn_win s')
    /\ match knn_proba (T := Q) (fun v => v) line_query s [[0]]%Z, knn_proba (T := Q) (fun v => v) line_query s' [[0]]%Z with
       | Ok (p, _), Ok (p', _) => p = [[1; 0; 0; 0; 0; 0]]%Q /\ p' = [[1]]%Q
       | _, _ => False
       end.
Proof. eexists _, _. split; [vm_compute; reflexivity|]. split; [vm_compute; reflexivity|]. vm_compute. auto. Qed.

(** C116 (what holds).  The predictions after reset do not depend on what came before: any two histories, each ended by
    reset and followed by the same calls, give the same neighbours, hence the same probability for every label and the
    same predictions. *)
Theorem knn_reset_forgets_samples_partial :
  forall (V : Type) (vint : V -> Z) query (dist : list V -> list V -> R) (n k : nat) (before ops : list (kop V)) (X : list (list V)),
    1 <= n -> 1 <= k ->
    (forall pts x, k <= length pts -> k_nearest dist pts x k (query pts x (Z.of_nat k))) ->
    Forall (labels_ok vint) (before ++ KReset :: ops) -> consistent None (flat_map window_ops (before ++ KReset :: ops)) ->
    exists s s', knn_run R vint query (knn_new (Z.of_nat k) (Z.of_nat n)) (before ++ KReset :: ops) = Ok s
      /\ knn_run R vint query (knn_new (Z.of_nat k) (Z.of_nat n)) ops = Ok s'
      /\ combine (sw_features (kn_win s)) (sw_targets (kn_win s)) = combine (sw_features (kn_win s')) (sw_targets (kn_win s'))
      /\ exists p p' l t t', knn_proba (T := R) vint query s X = Ok (p, t) /\ knn_proba (T := R) vint query s' X = Ok (p', t')
         /\ Forall2 (fun r r' => forall c, nth c r 0%R = nth c r' 0%R) p p'
         /\ knn_predict (T := R) vint query s X = Ok (l, t) /\ knn_predict (T := R) vint query s' X = Ok (l, t').
Proof. exact knn_reset_forgets. Qed.

(** C117.  A max_window_size below n_neighbors is accepted by the constructor, and then every prediction is 0 whatever the
    history. *)
Theorem knn_small_window_always_zero_refuted :
  forall (V : Type) (vint : V -> Z) query (dist : list V -> list V -> R) (n k : nat) (ops : list (kop V)) (X : list (list V)),
    1 <= n -> n < k ->
    (forall pts x, k <= length pts -> k_nearest dist pts x k (query pts x (Z.of_nat k))) ->
    Forall (labels_ok vint) ops -> consistent None (flat_map window_ops ops) ->
    exists s, knn_run R vint query (knn_new (Z.of_nat k) (Z.of_nat n)) ops = Ok s
      /\ knn_predict (T := R) vint query s X = Ok (map (fun _ => 0) X, s).
Proof.
  intros V vint query dist n k ops X Hn Hnk Hq Hl Hc.
  assert (Hk : 1 <= k) by lia.
  destruct (run_inv vint query n k dist ops Hn Hk Hq [] None _ (new_inv vint n k) Hl Hc) as (s & sh & E & Hi).
  exists s. split; auto. destruct (predict_ok vint query n k dist _ _ _ X Hk Hq Hi) as (A & _).
  apply A. destruct Hi as (_ & (_ & B & _) & _). lia.
Qed.

(** C114.  KNNRegressor, one row at a time: before n_neighbors samples the prediction is 0; from then on it is the mean
    (or the median) of the targets of the n_neighbors nearest of the last max_window_size samples since the reset. *)
Theorem knn_regressor_single_row_partial :
  forall query (dist : list R -> list R -> R) (n k : nat) (agg : aggregation) (ops : list (kop R)) (x : list R),
    1 <= n -> 1 <= k ->
    (forall pts x, k <= length pts -> k_nearest dist pts x k (query pts x (Z.of_nat k))) ->
    consistent None (flat_map window_ops ops) ->
    let w := wrun n [] (flat_map window_ops ops) in
    exists s, knr_run (knr_new (Z.of_nat k) (Z.of_nat n) agg) ops = Ok s
      /\ (length w < k -> knr_predict query s [x] = Ok [0%R])
      /\ (k <= length w -> exists idx v, knr_predict query s [x] = Ok [v]
            /\ k_nearest dist (map fst w) x k idx
            /\ match agg with
               | AggMean => v = Rmean (targets_of w idx)
               | AggMedian => is_median v (targets_of w idx)
               end).
Proof.
  intros query dist n k agg ops x Hn Hk Hq Hc w.
  destruct (knr_run_inv n k agg ops Hn [] None _ (knr_new_inv n k agg) Hc) as (s & sh & E & Hi).
  exists s. split; auto. eapply knr_single; eauto.
Qed.

(** C114 is false for a batch of several rows: the neighbours of all rows are pooled, so whatever the history and the
    batch, all rows get the same value. *)
Theorem knn_regressor_batch_refuted :
  forall (query : list (list R) -> list R -> Z -> list nat) (s : @knr R) (X : list (list R)) (out : list R),
    knr_predict query s X = Ok out -> forall a b, In a out -> In b out -> a = b.
Proof. intros query s X out E. eapply knr_batch_same; eauto. Qed.

(** The target is the attribute; two rows at 0 and at 10 get 5 each, although alone they get 0 and 10. *)
Definition line_queryQ (pts : list (list Q)) (x : list Q) (k : Z) : list nat :=
  line_query (map (map Qnum) pts) (map Qnum x) k.
Example knn_regressor_batch_example :
  exists s, knr_run (knr_new 1 10 AggMean) [KFit [([0], 0); ([10], 10)] None]%Q = Ok s
    /\ knr_predict line_queryQ s [[0]]%Q = Ok [0]%Q
    /\ knr_predict line_queryQ s [[10]]%Q = Ok [10]%Q
    /\ knr_predict line_queryQ s [[0]; [10]]%Q = Ok [5; 5]%Q.
Proof. eexists. split; [vm_compute; reflexivity|]. vm_compute. auto. Qed.

Example knn_regressor_median_example :
  exists s, knr_run (knr_new 3 4 AggMedian) [KFit [([0], 100); ([1], 7); ([2], 3); ([3], 5); ([9], 50)] None; KPredict [[1]]]%Q = Ok s
    /\ knr_predict line_queryQ s [[2]]%Q = Ok [5]%Q.
Proof. eexists. split; [vm_compute; reflexivity|]. vm_compute. auto. Qed.

(** and before n_neighbors samples a batch of two rows raises ValueError instead of giving zeros. *)
Theorem knn_regressor_empty_batch_raises_refuted :
  forall (T : Type) (N : Num T) query (k n : Z) agg (x x' : list T) rest, (0 < k)%Z ->
    knr_predict query (knr_new k n agg) (x :: x' :: rest) = Raise ValueError.
Proof.
  intros T N query k n agg x x' rest Hk. unfold knr_predict. cbn [mapM]. unfold knr_predict1.
  replace (sw_size (kr_win (knr_new k n agg)) <? kr_k (knr_new k n agg))%Z with true
    by (symmetry; apply Z.ltb_lt; exact Hk).
  reflexivity.
Qed.

(** C115.  KNNADWINClassifier with any detector whose window grows by one with every element and shrinks only when
    detected_change says so: after any history no call has raised and the stored window is exactly the last
    min(max_window_size, detector width) samples since the reset. *)
Theorem knn_adwin_window_follows_detector :
  forall (V D : Type) (vint : V -> Z) query (P : detector D) eqv (dist : list V -> list V -> R) (n k : nat) (ops : list (kop V)),
    1 <= n -> 1 <= k -> window_detector P ->
    (forall pts x, k <= length pts -> k_nearest dist pts x k (query pts x (Z.of_nat k))) ->
    Forall (labels_ok vint) ops -> consistent None (flat_map window_ops ops) ->
    exists s, kad_run R vint query P eqv (kad_new P (Z.of_nat k) (Z.of_nat n)) ops = Ok s
      /\ combine (sw_features (kn_win (ka_knn s))) (sw_targets (kn_win (ka_knn s)))
         = lastn (Nat.min n (Z.to_nat (d_width P (ka_det s)))) (samples_seen ops)
      /\ (0 <= d_width P (ka_det s))%Z
      /\ Z.to_nat (d_width P (ka_det s)) <= length (samples_seen ops).
Proof.
  intros V D vint query P eqv dist n k ops Hn Hk (I & HI & HW & Ha & Hd) Hq Hl Hc.
  destruct (kad_run_inv vint query P eqv I Ha Hd n k dist ops Hn Hk HI HW Hq [] None
              (kad_new P (Z.of_nat k) (Z.of_nat n))) as (s & sh & E & A & B & C & (Ek & Hr & Hg)); auto.
  - split; auto. cbn [ka_det kad_new ka_knn]. rewrite HW. split; [lia|]. split; [simpl; lia|]. apply new_inv.
  - exists s. split; auto. split; auto.
    rewrite (srep_features _ _ _ _ Hr), (srep_targets _ _ _ _ Hr), combine_fst_snd. reflexivity.
Qed.

(** C115.  The shipped ADWIN is such a detector, for every delta and every number type. *)
Theorem knn_adwin_detector :
  forall (T : Type) (N : Num T) (delta : T), window_detector (adwin_detector delta).
Proof. intros; apply adwin_is_window_detector. Qed.

Definition zeqv (c : nat) (y : Z) : bool := Z.eqb (Z.of_nat c) y.
Example knn_adwin_example :
  let ops := [KFit [([0], 1); ([9], 0)] None; KPredict [[1]]; KFit [([7], 0); ([1], 1)] None]%Z in
  exists s, kad_run Q (fun v => v) line_query (adwin_detector (2 # 1000)%Q) zeqv (kad_new (adwin_detector (2 # 1000)%Q) 1 3) ops = Ok s
    /\ combine (sw_features (kn_win (ka_knn s))) (sw_targets (kn_win (ka_knn s))) = [([9], [0]); ([7], [0]); ([1], [1])]%Z
    /\ ad_width (ka_det s) = 4%Z.
Proof. eexists. split; [vm_compute; reflexivity|]. vm_compute. auto. Qed.

Print Assumptions knn_votes_of_nearest.
Print Assumptions knn_reset_forgets_samples_partial.
Print Assumptions knn_small_window_always_zero_refuted.
Print Assumptions knn_negative_labels_refuted.
Print Assumptions knn_regressor_single_row_partial.
Print Assumptions knn_regressor_batch_refuted.
Print Assumptions knn_regressor_empty_batch_raises_refuted.
Print Assumptions knn_adwin_window_follows_detector.
Print Assumptions knn_adwin_detector.
