(** C33-C35, C67: MultiLabelConfusionMatrix and the multi-label evaluators of
    metrics/_classification_performance_evaluator.pyx (exact arithmetic). *)
From Coq Require Import List ZArith QArith Bool Reals Lia Lra.
From Verif Require Import Base.Py Base.Num Model.MultiLabelMetrics Spec.Lists Spec.MultiLabelSpec Proofs.MultiLabelProofs
  Proofs.ListFacts.
Import ListNotations.
Local Open Scope Z_scope.

(** C35.  For every sequence of samples whose two vectors have the same length (lengths may vary between samples):
    exact_match_score() is the fraction of samples with equal vectors, jaccard_score() the mean of the samples' Jaccard
    indices, both 0 before any sample and in [0,1]. *)
Theorem exact_match_and_jaccard :
  forall n l, Forall (fun s => length (fst s) = length (snd s)) l ->
    let s := mle_run (mle_new n) (calls l) in
    m_n s = Z.of_nat (length l)
    /\ (l = [] -> mle_exact s = 0%R /\ mle_jaccard s = 0%R)
    /\ (l <> [] -> mle_exact s = (INR (length (filter same_labels l)) / INR (length l))%R
                   /\ mle_jaccard s = Rmean (map jaccard l))
    /\ (0 <= mle_exact s <= 1)%R /\ (0 <= mle_jaccard s <= 1)%R.
Proof.
  intros n l Hb s. destruct (mle_run_inv l (mle_new n) [] (mle_new_inv n) Hb) as [HI _]. fold s in HI. simpl in HI.
  destruct (scores_of_inv s l HI) as (E1 & E2 & R1 & R2). split; [apply (mi_n _ _ HI)|].
  split; [intros ->; auto|]. split; auto. intros Hne. destruct l; [congruence|]. auto.
Qed.

(** C35, windowed: the same, over the last window_size samples. *)
Theorem windowed_exact_match_and_jaccard :
  forall n W h, 1 <= W -> Forall (fun s => length (fst s) = length (snd s)) h ->
    let s := wm_ev (wmle_run (wmle_new n W) (calls h)) in
    let l := lastn (Z.to_nat W) h in
    m_n s = Z.of_nat (length l)
    /\ (l = [] -> mle_exact s = 0%R /\ mle_jaccard s = 0%R)
    /\ (l <> [] -> mle_exact s = (INR (length (filter same_labels l)) / INR (length l))%R
                   /\ mle_jaccard s = Rmean (map jaccard l))
    /\ (0 <= mle_exact s <= 1)%R /\ (0 <= mle_jaccard s <= 1)%R.
Proof.
  intros n W h HW Hb s l.
  assert (HI : MInv s l).
  { apply (wm_inv W). apply (wmle_run_inv W h (wmle_new n W) []); auto.
    constructor; [apply mle_new_inv|constructor|constructor|reflexivity]. }
  destruct (scores_of_inv s l HI) as (E1 & E2 & R1 & R2). split; [apply (mi_n _ _ HI)|].
  split; [intros E; rewrite E in *; auto|]. split; auto. intros Hne. destruct l; [congruence|]. auto.
Qed.

Example multilabel_run :
  let l := [([true; false; true], [true; true; false]); ([false; true; true], [false; true; true]);
            ([false; false; false], [false; false; false])] in
  let s := mle_run (mle_new 3) (map (fun x => (enc (fst x), enc (snd x), 1%Q)) l) in
  m_n s = 3 /\ mle_exact s = (2 # 3)%Q /\ mle_jaccard s = (4 # 9)%Q /\ mle_hamming s = Some (1 # 3)%Q
  /\ let w := wm_ev (wmle_run (wmle_new 3 2) (map (fun x => (enc (fst x), enc (snd x), 1%Q)) l)) in
     m_n w = 2 /\ mle_exact w = 1%Q /\ mle_jaccard w = (1 # 2)%Q.
Proof. vm_compute. repeat split; reflexivity. Qed.

(** C34 (partial): what hamming_score() computes: the number of (sample, label) pairs where both values are 1, divided by the
    number of samples times max(2, number of labels).  So it is the Hamming score exactly when there are at least two labels
    and no label is correctly predicted as 0.  Missing: correctly predicted zeros (false, next theorem). *)
Theorem hamming_counts_common_ones_partial :
  forall n L l, well_formed L l -> l <> [] ->
    let s := mle_run (mle_new n) (calls l) in
    mle_hamming s = Some (Rsum (map (fun x => INR (n_both x)) l) / (INR (length l) * INR (Nat.max 2 L)))%R
    /\ ((2 <= L)%nat -> (forall x, In x l -> n_agree x = n_both x) ->
        mle_hamming s = Some (Rsum (map (fun x => INR (n_agree x)) l) / INR (length l * L))%R)
    /\ mle_hamming_loss s = Some (1 - Rsum (map (fun x => INR (n_both x)) l) / (INR (length l) * INR (Nat.max 2 L)))%R.
Proof.
  intros n L l HL Hne s. destruct (mle_run_inv l (mle_new n) [] (mle_new_inv n) (wf_balanced L l HL)) as [HI Hn].
  fold s in HI, Hn. simpl in HI. specialize (Hn L HL Hne). simpl in Hn.
  assert (H1 : mle_hamming s = Some (Rsum (map (fun x => INR (n_both x)) l) / (INR (length l) * INR (Nat.max 2 L)))%R).
  { unfold mle_hamming. rewrite (both_one_ok s L l HI HL) by lia. rewrite Hn, (mi_n _ _ HI).
    assert (0 < Z.of_nat (length l)) by (destruct l; [congruence|simpl length; lia]).
    destruct (Z.of_nat (length l) * Z.max 2 (Z.of_nat L) =? 0) eqn:E; [apply Z.eqb_eq in E; nia|].
    cbn [ndiv nofZ NumR]. f_equal. f_equal. rewrite mult_IZR. rewrite <- INR_IZR_INZ. f_equal.
    rewrite INR_IZR_INZ. f_equal. lia. }
  split; [exact H1|]. split; [|unfold mle_hamming_loss; rewrite H1; reflexivity].
  intros H2 Hx. rewrite H1. f_equal. rewrite mult_INR. f_equal.
  - f_equal. apply map_ext_in. intros x Hin. rewrite Hx; auto.
  - f_equal. f_equal. f_equal. lia.
Qed.

(** C34 is false: a classifier that is right on every label gets the Hamming score 1/2 (loss 1/2) when half of the labels are
    0, a correct all-zero prediction gets 0; and before any sample the score is nan. *)
Theorem hamming_score_refuted :
  mle_hamming (mle_run (T:=Q) (mle_new 2) [([Some 1; Some 0], [Some 1; Some 0], 1%Q)]) = Some (1 # 2)%Q
  /\ mle_hamming_loss (mle_run (T:=Q) (mle_new 2) [([Some 1; Some 0], [Some 1; Some 0], 1%Q)]) = Some (1 # 2)%Q
  /\ mle_hamming (mle_run (T:=Q) (mle_new 2) [([Some 0; Some 0], [Some 0; Some 0], 1%Q)]) = Some 0%Q
  /\ mle_hamming (mle_new (T:=Q) 2) = None.
Proof. vm_compute. repeat split; reflexivity. Qed.

(** C33 is false for the multi-label evaluators: reset() forgets n_labels, visible in get_last(). *)
Theorem multilabel_reset_refuted :
  m_last_true (mle_reset (mle_new (T:=Q) 4)) = [Some 0; Some 0]
  /\ m_last_true (mle_new (T:=Q) 4) = [Some 0; Some 0; Some 0; Some 0]
  /\ m_last_true (wm_ev (wmle_reset (wmle_new (T:=Q) 4 10))) = [Some 0; Some 0].
Proof. vm_compute. repeat split; reflexivity. Qed.
(** C33 for MultiLabelConfusionMatrix: reset() is the constructed matrix, after any accepted or rejected updates. *)
Theorem multilabel_matrix_reset :
  forall {T} `{Num T} n (ks : list (Z * Z * Z * T)),
    mlcm_reset (fold_left (fun m '(i, t, p, w) => match mlcm_set m i t p w with Ok m' => m' | Raise _ => m end) ks (mlcm_new n))
    = mlcm_new n.
Proof.
  intros T N n ks. unfold mlcm_reset.
  assert (G : forall ks m, c_init (fold_left (fun m '(i, t, p, w) => match mlcm_set m i t p w with Ok m' => m' | Raise _ => m end) ks m)
                           = c_init m).
  { clear. induction ks as [|[[[i t] p] w] ks IH]; intros m; simpl; auto. rewrite IH. unfold mlcm_set.
    destruct (negb _ || negb _); reflexivity. }
  rewrite G. unfold mlcm_new; simpl. destruct (n <? 2) eqn:E; simpl; rewrite ?E; reflexivity.
Qed.

(** C67: a result with vectors of different lengths (ValueError) or with NaN (skipped) leaves both evaluators unchanged. *)
Theorem multilabel_bad_shape_ignored :
  forall {T} `{Num T} (s : mle T) (ws : wmle T) yt yp w,
    length yt <> length yp \/ In None yt \/ In None yp ->
    fst (mle_add s yt yp w) = s /\ fst (wmle_add ws yt yp w) = ws
    /\ (snd (mle_add s yt yp w) = Raise ValueError <-> length yt <> length yp).
Proof.
  intros T N s ws yt yp w Hc. unfold mle_add, wmle_add, check_inputs.
  destruct (Z.of_nat (length yt) =? Z.of_nat (length yp)) eqn:E.
  - apply Z.eqb_eq in E. assert (existsb is_nan yt || existsb is_nan yp = true)%bool as ->.
    { apply orb_true_iff. rewrite !existsb_exists. destruct Hc as [Hc|[Hc|Hc]]; [lia|left; exists None; auto|right; exists None; auto]. }
    simpl. split; [reflexivity|]. split; [reflexivity|]. split; intros Hx; [discriminate|lia].
  - apply Z.eqb_neq in E. simpl. split; [reflexivity|]. split; [reflexivity|]. split; intros Hx; [lia|reflexivity].
Qed.
(** C67 is false for label values other than 0 and 1: the call raises ValueError, but the sample has been counted, and the
    scores change.  In the windowed evaluator the oldest sample has been dropped instead. *)
Theorem multilabel_invalid_label_refuted :
  let s := mle_run (T:=Q) (mle_new 2) [([Some 1; Some 1], [Some 1; Some 1], 1%Q)] in
  let '(s', r) := mle_add s [Some 1; Some 2] [Some 1; Some 1] 1%Q in
  r = Raise ValueError /\ mle_exact s = 1%Q /\ mle_exact s' = (1 # 2)%Q /\ mle_hamming s' = Some (3 # 4)%Q
  /\ let w := wmle_run (T:=Q) (wmle_new 2 1) [([Some 1; Some 1], [Some 1; Some 1], 1%Q)] in
     let '(w', r') := wmle_add w [Some 1; Some 2] [Some 1; Some 1] 1%Q in
     r' = Raise ValueError /\ m_n (wm_ev w) = 1 /\ m_n (wm_ev w') = 0.
Proof. vm_compute. repeat split; reflexivity. Qed.

Print Assumptions exact_match_and_jaccard.
Print Assumptions windowed_exact_match_and_jaccard.
Print Assumptions hamming_counts_common_ones_partial.
Print Assumptions hamming_score_refuted.
Print Assumptions multilabel_bad_shape_ignored.
