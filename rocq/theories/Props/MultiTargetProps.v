(** C70-C72: multi-label batch functions and the (deprecated) multi-target measurement classes. *)
From Coq Require Import List ZArith Bool Reals Lia Lra QArith.
From Verif Require Import Base.Py Base.Num Model.FastBuffer Model.FastComplexBuffer Model.ConfMat Model.MultiTargetClass
  Spec.Lists Spec.MultiLabelSpec Spec.MultiTargetSpec Proofs.DdmProofs Proofs.MultiTargetProofs.
Import ListNotations.
Local Open Scope Z_scope.

(** C70. On any non-empty matrix of 0/1 labels the three functions compute the textbook scores, in [0, 1], with
    exact_match <= j_index <= hamming_score, and a score of 1 for all three exactly when the prediction is right everywhere. *)
Theorem multilabel_scores_textbook : forall (L : nat) (l : list (list bool * list bool)),
  (1 <= L)%nat -> well_formed L l -> l <> [] ->
  hamming_score (trues l) (preds l) = Ok (label_accuracy L l)
  /\ exact_match (trues l) (preds l) = Ok (subset_accuracy l)
  /\ j_index (trues l) (preds l) = Ok (mean_jaccard l)
  /\ (0 <= subset_accuracy l <= mean_jaccard l)%R /\ (mean_jaccard l <= label_accuracy L l <= 1)%R
  /\ (label_accuracy L l = 1%R <-> Forall (fun s => fst s = snd s) l)
  /\ (subset_accuracy l = 1%R <-> Forall (fun s => fst s = snd s) l).
Proof.
  intros L l HL Hw Hne. pose proof (scores_ordered L l HL Hw Hne) as [H1 H2].
  split; [apply hamming_ok; auto|]. split; [apply (exact_ok L); auto|]. split; [apply (j_ok L); auto|]. split; [auto|]. split; [auto|].
  split; split; intros H.
  - apply (label_accuracy_1 L); auto.
  - pose proof (all_same_scores l Hne H). lra.
  - apply (label_accuracy_1 L); auto. lra.
  - apply all_same_scores; auto.
Qed.

(** C71. The incremental class agrees with the batch functions on everything it was given, whatever [targets] was. *)
Theorem multitarget_incremental_is_batch : forall (L : nat) (targets : option Z) (l : list (list bool * list bool)) (s0 : mtc R),
  (1 <= L)%nat -> well_formed L l -> l <> [] -> mtc_new targets = Ok s0 ->
  exists s, mtc_run s0 (combine (trues l) (preds l)) = Ok s
    /\ option_map Ok (mtc_hamming s) = Some (hamming_score (trues l) (preds l))
    /\ mtc_exact s = exact_match (trues l) (preds l)
    /\ mtc_j s = j_index (trues l) (preds l)
    /\ mtc_total s = Z.of_nat (length l * L).
Proof.
  intros L targets l s0 HL Hw Hne H0. destruct (mtc_run_ok L l s0 [] (MTC_new _ _ _ H0) Hw) as (s & Hs & [C1 C2 C3 C4 C5 C6 C7]). simpl app in *.
  exists s. split; [exact Hs|]. rewrite (hamming_ok L), (exact_ok L), (j_ok L) by auto.
  pose proof (nonempty_INR l Hne) as Hn. assert (HLp : (0 < INR L)%R) by (apply lt_0_INR; lia).
  assert (Hlen : (1 <= length l)%nat) by (destruct l; [congruence|simpl; lia]).
  unfold mtc_hamming, mtc_exact, mtc_j, mtc_total. rewrite C4, C7 by auto.
  replace (Z.of_nat (length l) * Z.of_nat L =? 0) with false by (symmetry; apply Z.eqb_neq; nia).
  rewrite C2, C3, C5, C6. cbn [nofZ NumR]. rewrite <- Nat2Z.inj_mul, <- !INR_IZR_INZ. rewrite !pydiv_R by lra.
  split; [|split; [reflexivity|split; [|reflexivity]]].
  - simpl. rewrite mult_INR. reflexivity.
  - unfold mean_jaccard, Rmean. rewrite map_length. reflexivity.
Qed.

(** C71, windowed: the batch functions on the last window_size samples. *)
Theorem windowed_multitarget_is_batch : forall (L w : nat) (targets : option Z) (l : list (list bool * list bool)) s0,
  (1 <= L)%nat -> (1 <= w)%nat -> well_formed L l -> wmtc_new targets (Z.of_nat w) = Ok s0 ->
  exists s, wmtc_run s0 (combine (trues l) (preds l)) = Ok s
    /\ forall T (N : Num T),
       wmtc_hamming (T := T) s = hamming_score (trues (lastn w l)) (preds (lastn w l))
    /\ wmtc_exact (T := T) s = exact_match (trues (lastn w l)) (preds (lastn w l))
    /\ wmtc_j (T := T) s = j_index (trues (lastn w l)) (preds (lastn w l)).
Proof.
  intros L w targets l s0 HL Hw1 Hw H0. destruct (wmtc_run_ok L w l HL Hw1 s0 [] (WMC_new _ _ _ L H0) (Forall_nil _) Hw) as (s & Hs & [C1 C2 C3 C4]).
  simpl app in *. exists s. split; [exact Hs|]. intros T N. unfold wmtc_hamming, wmtc_exact, wmtc_j.
  rewrite (rows_of_rep _ _ _ C3), (rows_of_rep _ _ _ C4). auto.
Qed.

(** C72 (partial): what get_total_sum() of the windowed class really is: all labels ever seen.  Missing: it should count the
    window only (false, next theorem). *)
Theorem windowed_total_sum_partial : forall (L w : nat) (targets : option Z) (l : list (list bool * list bool)) s0,
  (1 <= L)%nat -> (1 <= w)%nat -> well_formed L l -> wmtc_new targets (Z.of_nat w) = Ok s0 ->
  exists s, wmtc_run s0 (combine (trues l) (preds l)) = Ok s /\ wmtc_total s = Z.of_nat (length l * L).
Proof.
  intros L w targets l s0 HL Hw1 Hw H0. destruct (wmtc_run_ok L w l HL Hw1 s0 [] (WMC_new _ _ _ L H0) (Forall_nil _) Hw) as (s & Hs & [C1 C2 C3 C4]).
  exists s. auto.
Qed.
(** C72 refuted: with a window of one sample the matrix still counts two. *)
Theorem windowed_total_sum_refuted : exists s0, wmtc_new None 1 = Ok s0 /\
  exists s, wmtc_run s0 [([1; 0], [1; 1]); ([0; 1], [0; 1])] = Ok s /\ wmtc_total s = 4 /\ length (rows_of (v_true s)) = 1%nat.
Proof. apply ok_ex. cbn [wmtc_new]. apply ok_ex. vm_compute. split; reflexivity. Qed.

(** Before any result: exact_match and j_index raise; hamming is 0.0 or nan. *)
Theorem multitarget_before_any_result : forall targets (s : mtc R), mtc_new targets = Ok s ->
  mtc_exact s = Raise ZeroDivisionError /\ mtc_j s = Raise ZeroDivisionError
  /\ mtc_hamming s = if targets_or_0 targets =? 0 then Some 0%R else None.
Proof.
  intros targets s H. unfold mtc_new, mol_init, np_dim in H. simpl targets_or_0 in H at 1.
  destruct (targets_or_0 targets <? 0); [discriminate|]. cbn [bind] in H. inversion H; subst.
  unfold mtc_exact, mtc_j, mtc_hamming, pydiv, n0. cbn [k_n k_n_targets k_cm mo_size neqb nofZ NumR].
  replace (Reqb 0 0) with true by (symmetry; apply Reqb_true; reflexivity). simpl. auto.
Qed.

Example multilabel_scores_run :
  let t := [[0;1;0;1];[0;0;0;1];[1;1;0;1];[1;1;1;1]] in let p := [[0;1;0;1];[0;1;1;0];[0;1;0;1];[1;1;1;1]] in
  hamming_score t p = Ok (3#4)%Q /\ j_index t p = Ok (2#3)%Q /\ exact_match t p = Ok (1#2)%Q.
Proof. vm_compute. repeat split. Qed.

Print Assumptions multilabel_scores_textbook.
Print Assumptions multitarget_incremental_is_batch.
Print Assumptions windowed_multitarget_is_batch.
