From Coq Require Import List Reals Lra Lia ZArith.
From Verif Require Import Spec.Lists Proofs.ListFacts.
Import ListNotations.
Local Open Scope R_scope.

Definition sumsq (l : list R) : R := Rsum (map (fun x => x * x) l).

Lemma Rsum_scal_sq m l :
  Rsum (map (fun x => (x - m) * (x - m)) l) = sumsq l - 2 * m * Rsum l + INR (length l) * (m * m).
Proof.
  unfold sumsq. induction l as [|x l IH].
  - simpl. ring.
  - cbn [map Rsum length]. rewrite IH, S_INR. ring.
Qed.

Lemma INR_pos_len {A} (l : list A) : l <> [] -> 0 < INR (length l).
Proof. destruct l; [congruence|]. intros _. simpl length. apply lt_0_INR. lia. Qed.

Lemma Rsqdev_eq l : l <> [] -> Rsqdev l = sumsq l - Rsum l * Rsum l / INR (length l).
Proof.
  intros H. unfold Rsqdev. rewrite Rsum_scal_sq. unfold Rmean.
  pose proof (INR_pos_len l H). field. lra.
Qed.

Lemma sumsq_app a b : sumsq (a ++ b) = sumsq a + sumsq b.
Proof. unfold sumsq. rewrite map_app, Rsum_app. reflexivity. Qed.

Lemma Rsqdev_app a b : a <> [] -> b <> [] ->
  let na := INR (length a) in let nb := INR (length b) in
  let d := Rsum a / na - Rsum b / nb in
  Rsqdev (a ++ b) = Rsqdev a + Rsqdev b + na * nb * d * d / (na + nb).
Proof.
  intros Ha Hb na nb d.
  assert (Hab : a ++ b <> []) by (destruct a; simpl; congruence).
  rewrite !Rsqdev_eq by assumption. rewrite sumsq_app, Rsum_app, app_length, plus_INR.
  pose proof (INR_pos_len a Ha). pose proof (INR_pos_len b Hb).
  unfold d. fold na nb. field. unfold na, nb. lra.
Qed.

Lemma Rsqdev_nil : Rsqdev [] = 0.
Proof. reflexivity. Qed.

Lemma Rsqdev_single x : Rsqdev [x] = 0.
Proof. unfold Rsqdev, Rmean; simpl. field. Qed.

Lemma Rsqdev_nonneg l : 0 <= Rsqdev l.
Proof.
  unfold Rsqdev. apply Rsum_nonneg. intros x H. apply in_map_iff in H.
  destruct H as (y & <- & _). apply Rle_0_sqr.
Qed.
