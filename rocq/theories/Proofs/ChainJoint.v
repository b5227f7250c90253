(** Proofs about the probabilistic classifier chains over the real numbers. *)
From Coq Require Import List ZArith Bool Arith Lia Permutation Reals Lra Psatz.
From Verif Require Import Base.Py Base.Num Model.Adwin Model.Knn Model.Chains Spec.ChainSpec Proofs.ChainProofs.
Import ListNotations.

Section Joint.
Context {B : Type} (q : B -> list R -> R) (L : tlearner (list R) R B) (GP : gives_probabilities q L).
Local Open Scope R_scope.

Lemma fold_prod (l : list R) : forall a, fold_left (@nmul R NumR) l a = a * fold_left (@nmul R NumR) l 1.
Proof.
  induction l as [|x l IH]; intros a; cbn [fold_left]; [ring|]. rewrite (IH (nmul a x)), (IH (nmul 1 x)).
  change (a * x * fold_left (@nmul R NumR) l 1 = a * (1 * x * fold_left (@nmul R NumR) l 1)); ring.
Qed.
Lemma payoffs_ok y : forall l x, (length y <= length l)%nat -> Forall (fun v => v = 0%Z \/ v = 1%Z) y ->
  exists ps, payoffs L l y x = Ok ps /\ fold_left (@nmul R NumR) ps 1 = joint q l x y.
Proof.
  induction y as [|v y IH]; intros l x Hl F; [exists []; split; [reflexivity|destruct l; reflexivity]|].
  destruct l as [|b l]; cbn [length] in Hl; [lia|]. inversion F as [|? ? F1 F2]; subst.
  cbn [payoffs joint]. destruct (GP b x) as [E _]; rewrite E; cbn [bind].
  destruct (IH l (x ++ [nofZ v]) ltac:(lia) F2) as [ps [P1 P2]].
  assert (Gp : forall p, fold_left (@nmul R NumR) (p :: ps) 1 = p * joint q l (x ++ [nofZ v]) y).
  { intros p; cbn [fold_left]; rewrite fold_prod, P2. change (@nmul R NumR 1 p) with (1 * p); ring. }
  destruct F1 as [-> | ->].
  - exists ((1 - q b x) :: ps); split; [|exact (Gp _)]. change (py_get [1 - q b x; q b x] 0%Z) with (Ok (1 - q b x)); cbn [bind]; rewrite P1; reflexivity.
  - exists (q b x :: ps); split; [|exact (Gp _)]. change (py_get [1 - q b x; q b x] 1%Z) with (Ok (q b x)); cbn [bind]; rewrite P1; reflexivity.
Qed.
Lemma payoff_ok l x y : binary_labels (length l) y -> payoff L l y x = Ok (joint q l x y).
Proof.
  intros [H F]; unfold payoff. destruct (payoffs_ok y l x ltac:(lia) F) as [ps [P1 P2]]; rewrite P1; cbn [bind].
  f_equal; exact P2.
Qed.
Lemma joint_nonneg l : forall x y, 0 <= joint q l x y.
Proof.
  induction l as [|b l IH]; intros x y; cbn [joint]; [lra|]. destruct y as [|v y]; [lra|].
  destruct (GP b x) as [_ Hq]. apply Rmult_le_pos; [destruct (Z.eqb v 1); lra|apply IH].
Qed.
Lemma joint_positive l : forall x, exists y, binary_labels (length l) y /\ 0 < joint q l x y.
Proof.
  induction l as [|b l IH]; intros x; [exists []; split; [split; [reflexivity|constructor]|cbn [joint]; lra]|].
  destruct (GP b x) as [_ Hq]. destruct (Rle_dec (q b x) 0) as [H|H].
  - destruct (IH (x ++ [IZR 0])) as [y [[Y1 Y2] Y3]]. exists (0%Z :: y). split; [split; [cbn [length]; congruence|constructor; auto]|].
    cbn [joint Z.eqb]. apply Rmult_lt_0_compat; [lra|exact Y3].
  - destruct (IH (x ++ [IZR 1])) as [y [[Y1 Y2] Y3]]. exists (1%Z :: y). split; [split; [cbn [length]; congruence|constructor; auto]|].
    cbn [joint]. rewrite Z.eqb_refl. apply Rmult_lt_0_compat; [lra|exact Y3].
Qed.

(** *** Label vectors *)
Lemma bits_binary k b : binary_labels k (bits k b).
Proof.
  unfold bits; split; [rewrite map_length, seq_length; reflexivity|]. apply Forall_forall; intros v I; apply in_map_iff in I.
  destruct I as [i [<- _]]; destruct (Nat.testbit b (k - 1 - i)); cbn [Z.b2z]; auto.
Qed.
Lemma bits_S k (v : bool) b : (b < 2 ^ k)%nat -> bits (S k) ((if v then 2 ^ k else 0) + b)%nat = Z.b2z v :: bits k b.
Proof.
  intros Hb. unfold bits; cbn [seq map]. f_equal.
  - f_equal. replace (S k - 1 - 0)%nat with k by lia.
    assert (D : (((if v then 2 ^ k else 0) + b) / 2 ^ k = (if v then 1 else 0))%nat).
    { destruct v; [rewrite <- (Nat.mul_1_l (2 ^ k)) at 1; rewrite Nat.div_add_l by (apply Nat.pow_nonzero; lia); rewrite Nat.div_small by exact Hb; reflexivity|].
      apply Nat.div_small; exact Hb. }
    pose proof (Nat.testbit_spec' ((if v then 2 ^ k else 0) + b)%nat k) as S0; rewrite D in S0.
    destruct (Nat.testbit _ k), v; cbn in S0; congruence.
  - rewrite <- seq_shift, map_map. apply map_ext_in; intros i I; apply in_seq in I. f_equal.
    replace (S k - 1 - S i)%nat with (k - 1 - i)%nat by lia.
    rewrite <- (Nat.mod_pow2_bits_low _ k) by lia. f_equal.
    destruct v; [|apply Nat.mod_small; exact Hb]. rewrite <- (Nat.mul_1_l (2 ^ k)) at 1. rewrite Nat.add_comm, Nat.mod_add by (apply Nat.pow_nonzero; lia).
    apply Nat.mod_small; exact Hb.
Qed.
Lemma bits_all k : forall y, binary_labels k y -> exists b, (b < 2 ^ k)%nat /\ bits k b = y.
Proof.
  induction k as [|k IH]; intros y [Y1 Y2].
  - destruct y; [|discriminate]. exists O; split; [cbn; lia|reflexivity].
  - destruct y as [|v y]; [discriminate|]. inversion Y2 as [|? ? F1 F2]; subst.
    destruct (IH y) as [b [B1 B2]]; [split; [cbn [length] in Y1; lia|exact F2]|].
    destruct F1 as [-> | ->].
    + exists b; split; [cbn [Nat.pow]; lia|]. pose proof (bits_S k false b B1) as S0; cbn [Nat.add] in S0; rewrite S0, B2; reflexivity.
    + exists (2 ^ k + b)%nat; split; [cbn [Nat.pow]; lia|]. pose proof (bits_S k true b B1) as S0; rewrite S0, B2; reflexivity.
Qed.

(** *** Exhaustive search *)
Lemma pcc_fold l x (bs : list nat) : forall y w,
  binary_labels (length l) y -> 0 <= w -> w <= joint q l x y ->
  exists y' w', foldM (fun acc b => w <- payoff L l (bits (length l) b) x ;; Ok (keep_best acc (bits (length l) b) w)) bs (y, w) = Ok (y', w') /\
    binary_labels (length l) y' /\ w <= w' /\ w' <= joint q l x y' /\ Forall (fun b => joint q l x (bits (length l) b) <= w') bs.
Proof.
  induction bs as [|b bs IH]; intros y w Y W J; cbn [foldM]; [exists y, w; split; [reflexivity|]; split; [exact Y|]; split; [lra|]; split; [exact J|constructor]|].
  rewrite payoff_ok by apply bits_binary; cbn [bind]. unfold keep_best at 2; cbn [fst snd].
  change (@nltb R NumR) with Rltb. destruct (Rltb w (joint q l x (bits (length l) b))) eqn:E.
  - apply Rltb_true in E. destruct (IH (bits (length l) b) (joint q l x (bits (length l) b))) as (y' & w' & F & Y' & W' & J' & A); [apply bits_binary|lra|lra|].
    exists y', w'; split; [exact F|]; split; [exact Y'|]; split; [lra|]; split; [exact J'|]. constructor; [lra|exact A].
  - apply Rltb_false in E. destruct (IH y w Y W J) as (y' & w' & F & Y' & W' & J' & A).
    exists y', w'; split; [exact F|]; split; [exact Y'|]; split; [lra|]; split; [exact J'|]. constructor; [lra|exact A].
Qed.
Lemma zeros_binary k : binary_labels k (repeat 0%Z k).
Proof. split; [apply repeat_length|]. apply Forall_forall; intros v I; apply repeat_spec in I; auto. Qed.
Lemma pcc_row_ok l x : exists y, pcc_row L l (length l) x = Ok y /\ binary_labels (length l) y /\ 0 < joint q l x y /\
  forall z, binary_labels (length l) z -> joint q l x z <= joint q l x y.
Proof.
  unfold pcc_row. destruct (pcc_fold l x (seq 0 (2 ^ length l)) (repeat 0%Z (length l)) 0) as (y & w & F & Y & W & J & A);
    [apply zeros_binary|lra|apply joint_nonneg|].
  change (@n0 R NumR) with 0; rewrite F; cbn [bind]. exists y; split; [reflexivity|]; split; [exact Y|].
  assert (M : forall z, binary_labels (length l) z -> joint q l x z <= w).
  { intros z Z. destruct (bits_all _ z Z) as [b [B1 <-]]. rewrite Forall_forall in A; apply A, in_seq; lia. }
  split; [|intros z Z; specialize (M z Z); lra].
  destruct (joint_positive l x) as [z [Z P]]. specialize (M z Z); lra.
Qed.

(** *** Sampling *)
Section Sampling.
Context {G : Type} (choice : list R -> G -> res (Z * G)).
(** choice(2, 1, p) gives 0 or 1 *)
Hypothesis Ch : forall p g v g', choice p g = Ok (v, g') -> v = 0%Z \/ v = 1%Z.
Lemma sample_binary l : forall xy g y g', mcc_sample L choice (length l) l xy g = Ok (y, g') -> binary_labels (length l) y.
Proof.
  induction l as [|b l IH]; intros xy g y g' H; cbn [mcc_sample length] in H; [injection H as <- _; split; [reflexivity|constructor]|].
  apply bind_Ok in H; destruct H as [m [M H]]. destruct m as [|r m]; [discriminate|].
  apply bind_Ok in H; destruct H as [[v g1] [V H]]. apply bind_Ok in H; destruct H as [u [_ H]].
  apply bind_Ok in H; destruct H as [[y1 g2] [Y H]]. injection H as <- <-. apply IH in Y; destruct Y as [Y1 Y2].
  split; [cbn [length]; congruence|]. constructor; [eapply Ch; exact V|exact Y2].
Qed.
Lemma tries_ok l x M : forall y w g y' w' g', binary_labels (length l) y -> w = joint q l x y ->
  mcc_tries L choice M l (length l) x (y, w) g = Ok (y', w', g') ->
  exists ys, drawn (mcc_sample L choice (length l) l x) M g ys g' /\ In y' (y :: ys) /\ Forall (fun z => joint q l x z <= joint q l x y') (y :: ys) /\ binary_labels (length l) y'.
Proof.
  induction M as [|M IH]; intros y w g y' w' g' Y W H; cbn [mcc_tries] in H.
  - injection H as <- <- <-; exists []; split; [constructor|]. split; [left; reflexivity|]. split; [constructor; [lra|constructor]|exact Y].
  - apply bind_Ok in H; destruct H as [[z g1] [Z H]]. pose proof (sample_binary _ _ _ _ _ Z) as Zb. rewrite payoff_ok in H by exact Zb; cbn [bind] in H.
    unfold keep_best in H; cbn [fst snd] in H. change (@nltb R NumR) with Rltb in H. destruct (Rltb w (joint q l x z)) eqn:E.
    + apply Rltb_true in E. apply IH in H; [|exact Zb|reflexivity]. destruct H as (ys & D & I & F & Y'). exists (z :: ys).
      split; [econstructor; eauto|]. split; [right; exact I|]. split; [|exact Y']. constructor; [inversion F; subst; lra|exact F].
    + apply Rltb_false in E. apply IH in H; [|exact Y|exact W]. destruct H as (ys & D & I & F & Y'). exists (z :: ys).
      split; [econstructor; eauto|]. split; [destruct I as [I|I]; [left; exact I|right; right; exact I]|]. split; [|exact Y'].
      inversion F as [|? ? F1 F2]; subst. constructor; [exact F1|]. constructor; [lra|exact F2].
Qed.
End Sampling.
End Joint.
