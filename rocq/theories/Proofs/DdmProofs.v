From Coq Require Import List ZArith Lia Bool Reals Lra.
From Verif Require Import Base.Py Base.Num Spec.Lists Spec.DetectorSpec Spec.DdmSpec Model.Ddm
  Proofs.ListFacts Proofs.StatFacts.
Import ListNotations.

Lemma Rmean_snoc l (x : R) :
  (Rmean (l ++ [x]) = (INR (length l) * Rmean l + x) / (INR (length l) + 1))%R \/ l = [].
Proof.
  destruct l as [|y l]; [right; reflexivity|left].
  unfold Rmean. rewrite Rsum_app, app_length, plus_INR. cbn [Rsum length]. 
  pose proof (INR_pos_len (y :: l) ltac:(discriminate)). simpl length in *.
  simpl (INR 1). cbn [Rsum] in *. field. lra.
Qed.

(** incremental mean: m + (x - m)/(n+1) *)
Lemma Rmean_incr l (x : R) :
  l <> [] -> (Rmean l + (x - Rmean l) / (INR (length l) + 1) = Rmean (l ++ [x]))%R.
Proof.
  intros H. destruct (Rmean_snoc l x) as [E|E]; [|congruence]. rewrite E.
  pose proof (INR_pos_len l H). field. lra.
Qed.

Lemma Rmean_single x : Rmean [x] = x.
Proof. unfold Rmean; simpl. field. Qed.

Lemma pydiv_R a b : (b <> 0)%R -> pydiv a b = Ok (a / b)%R.
Proof. intros H. unfold pydiv. simpl. unfold n0; simpl. destruct (Reqb b 0) eqn:E; auto. rcase. congruence. Qed.

Lemma IZR_succ_ne n : IZR (Z.of_nat n + 1) <> 0%R.
Proof. apply not_0_IZR. lia. Qed.

Section DdmR.
Variable par : ddm_par R.
Let add := ddm_add par.
Let sinceD := since (ddm_init (T := R)) add ddm_reset dd_change.

Definition minima (s : ddm R) (seg : list R) : Prop :=
  if (Z.of_nat (length seg) + 1 <? dp_min_instances par)%Z then
    dd_psmin s = None /\ dd_pmin s = None /\ dd_smin s = None
  else exists b, best (dp_min_instances par) b seg /\
    dd_psmin s = Some (err_rate b + err_std b)%R /\ dd_pmin s = Some (err_rate b) /\ dd_smin s = Some (err_std b).

Definition rule (s : ddm R) (seg : list R) : Prop :=
  if (Z.of_nat (length seg) + 1 <? dp_min_instances par)%Z then dd_change s = false /\ dd_warning s = false
  else exists b, best (dp_min_instances par) b seg /\
    (dd_change s = true <-> err_rate b + dp_out par * err_std b < err_rate seg + err_std seg)%R /\
    (dd_warning s = true <->
       ~ (err_rate b + dp_out par * err_std b < err_rate seg + err_std seg)%R /\
       (err_rate b + dp_warning par * err_std b < err_rate seg + err_std seg)%R).

Definition DInv (seg : list R) (s : ddm R) : Prop :=
  (seg = [] /\ s = ddm_init) \/
  (seg <> [] /\ dd_count s = (Z.of_nat (length seg) + 1)%Z /\ dd_prob s = err_rate seg /\ dd_std s = err_std seg
   /\ dd_estimation s = err_rate seg /\ minima s seg /\ rule s seg).

Lemma prefix_snoc {A} (p l : list A) x : prefix_of p (l ++ [x]) -> p = l ++ [x] \/ prefix_of p l.
Proof.
  intros (s & E). destruct s as [|y s] using rev_ind.
  - left. rewrite app_nil_r in E. auto.
  - right. rewrite app_assoc in E. apply app_inj_tail in E. destruct E as [-> _]. exists s; auto.
Qed.

Lemma prefix_len {A} (p l : list A) : prefix_of p l -> length p <= length l.
Proof. intros (s & ->). rewrite app_length. lia. Qed.

Lemma prefix_refl {A} (l : list A) : prefix_of l l.
Proof. exists []. rewrite app_nil_r. auto. Qed.

Lemma prefix_app {A} (p l x : list A) : prefix_of p l -> prefix_of p (l ++ x).
Proof. intros (s & ->). exists (s ++ x). rewrite app_assoc. auto. Qed.

Lemma add_fresh (s0 : ddm R) x : dd_change s0 = true -> ddm_add par s0 x = ddm_add par ddm_init x.
Proof. intros H. unfold ddm_add. rewrite H. reflexivity. Qed.

(** one step from a state that is not flagged *)
Lemma add_step seg s x :
  DInv seg s -> dd_change s = false ->
  exists s', ddm_add par s x = Ok s' /\ DInv (seg ++ [x]) s'.
Proof.
  intros HI Hc. unfold ddm_add. rewrite Hc.
  assert (Hcnt : dd_count s = (Z.of_nat (length seg) + 1)%Z).
  { destruct HI as [(-> & ->)|(_ & H & _)]; [reflexivity|auto]. }
  rewrite Hcnt. simpl (nofZ _). rewrite pydiv_R by apply IZR_succ_ne. cbn [bind].
  assert (Hp : (dd_prob s + (x - dd_prob s) / IZR (Z.of_nat (length seg) + 1))%R = err_rate (seg ++ [x])).
  { unfold err_rate. destruct HI as [(-> & ->)|(Hne & _ & Hpr & _)].
    - simpl. unfold n1; simpl. rewrite Rmean_single. field.
    - rewrite Hpr. unfold err_rate. rewrite plus_IZR, <- INR_IZR_INZ. apply Rmean_incr; auto. }
  simpl (nadd _ _). simpl (nsub _ _). rewrite Hp.
  rewrite pydiv_R by apply IZR_succ_ne. cbn [bind].
  assert (Hs : sqrt (err_rate (seg ++ [x]) * (1 - err_rate (seg ++ [x])) / IZR (Z.of_nat (length seg) + 1))
               = err_std (seg ++ [x])).
  { unfold err_std. rewrite app_length. simpl length. rewrite plus_INR, (INR_IZR_INZ (length seg)), plus_IZR.
    reflexivity. }
  simpl (nsqrt _). simpl (nmul _ _). unfold n1. simpl (nofZ 1). rewrite Hs.
  assert (Hlen : Z.of_nat (length (seg ++ [x])) = (Z.of_nat (length seg) + 1)%Z).
  { rewrite app_length. simpl. lia. }
  assert (Hne' : seg ++ [x] <> []) by (destruct seg; discriminate).
  rewrite <- Hlen.
  destruct (Z.of_nat (length (seg ++ [x])) + 1 <? dp_min_instances par)%Z eqn:Em.
  - eexists. split; [reflexivity|]. right. simpl. split; auto. split; auto. split; auto. split; auto. split; auto.
    unfold minima, rule. rewrite Em. simpl. split; [|auto].
    destruct HI as [(-> & ->)|(_ & _ & _ & _ & _ & Hm & _)]; [auto|].
    unfold minima in Hm. apply Z.ltb_lt in Em.
    replace (Z.of_nat (length seg) + 1 <? dp_min_instances par)%Z with true in Hm
      by (symmetry; apply Z.ltb_lt; lia). auto.
  - apply Z.ltb_ge in Em.
    assert (Hel : seg ++ [x] <> [] /\ prefix_of (seg ++ [x]) (seg ++ [x])
                  /\ (dp_min_instances par - 1 <= Z.of_nat (length (seg ++ [x])))%Z).
    { split; auto. split; [apply prefix_refl|]. lia. }
    set (P := err_rate (seg ++ [x])) in *. set (D := err_std (seg ++ [x])) in *.
    assert (Hbest : exists b, best (dp_min_instances par) b (seg ++ [x]) /\
      (if le_inf (P + D)%R (dd_psmin s) then (Some (P + D)%R, Some P, Some D) else (dd_psmin s, dd_pmin s, dd_smin s))
      = (Some (err_rate b + err_std b)%R, Some (err_rate b), Some (err_std b))).
    { assert (Hm : (dd_psmin s = None /\ forall p, p <> [] -> prefix_of p seg ->
                        (dp_min_instances par - 1 <= Z.of_nat (length p))%Z -> False)
                   \/ exists b, best (dp_min_instances par) b seg /\
                        dd_psmin s = Some (err_rate b + err_std b)%R /\ dd_pmin s = Some (err_rate b)
                        /\ dd_smin s = Some (err_std b)).
      { destruct HI as [(-> & ->)|(Hne & _ & _ & _ & _ & Hm & _)].
        - left. split; [reflexivity|]. intros p Hp1 (sfx & Hp2) _. destruct p; [congruence|discriminate].
        - unfold minima in Hm. destruct (Z.of_nat (length seg) + 1 <? dp_min_instances par)%Z eqn:Em2.
          + left. split; [apply Hm|]. intros p _ Hp2 Hp3. apply prefix_len in Hp2. apply Z.ltb_lt in Em2. lia.
          + right. exact Hm. }
      destruct Hm as [(Hn & Hno)|(b & Hb & E1 & E2 & E3)].
      - exists (seg ++ [x]). rewrite Hn. simpl.
        replace (Reqb (P + D) (P + D)) with true by (symmetry; apply Reqb_true; auto).
        split; [|reflexivity]. split; auto. intros p (Hp1 & Hp2 & Hp3).
        apply prefix_snoc in Hp2. destruct Hp2 as [->|Hp2]; [|exfalso; eauto].
        fold P D. split; [lra|lia].
      - rewrite E1. simpl. destruct Hb as ((Hb1 & Hb2 & Hb3) & Hb4).
        destruct (Rleb (P + D) (err_rate b + err_std b)) eqn:El; rcase.
        + exists (seg ++ [x]). split; [|reflexivity]. split; auto. intros p (Hp1 & Hp2 & Hp3).
          apply prefix_snoc in Hp2. destruct Hp2 as [->|Hp2]; [fold P D; split; [lra|lia]|].
          destruct (Hb4 p (conj Hp1 (conj Hp2 Hp3))) as [Hle _]. fold P D. split; [lra|].
          intros Hl. apply prefix_len in Hp2. rewrite app_length in Hl. simpl in Hl. lia.
        + exists b. rewrite E2, E3. split; [|reflexivity].
          split; [split; auto; split; [apply prefix_app; auto|auto]|].
          intros p (Hp1 & Hp2 & Hp3).
          apply prefix_snoc in Hp2. destruct Hp2 as [->|Hp2]; [fold P D; split; lra|].
          apply (Hb4 p (conj Hp1 (conj Hp2 Hp3))). }
    destruct Hbest as (b & Hb & ->). simpl.
    assert (Em' : (Z.of_nat (length (seg ++ [x])) + 1 <? dp_min_instances par)%Z = false)
      by (apply Z.ltb_ge; lia).
    destruct (Rltb (err_rate b + dp_out par * err_std b) (P + D)) eqn:Eo; rcase.
    + eexists. split; [reflexivity|]. right. simpl. split; auto. split; auto. split; auto. split; auto. split; auto.
      unfold minima, rule. rewrite Em'. simpl. fold P D. split; exists b; (split; [exact Hb|]); [auto|].
      split; [tauto|]. split; [discriminate|]. intros [H _]. lra.
    + eexists. split; [reflexivity|]. right. simpl. split; auto. split; auto. split; auto. split; auto. split; auto.
      unfold minima, rule. rewrite Em'. simpl. fold P D. split; exists b; (split; [exact Hb|]); [auto|].
      split; [split; [discriminate|intros; lra]|].
      rewrite Rltb_true. split; [|tauto]. intros H; split; auto. lra.
Qed.

Lemma since_inv seg s : sinceD seg s -> DInv seg s.
Proof.
  induction 1 as [|seg s x s' H IH E|seg s H IH].
  - left; auto.
  - unfold add in E. destruct (dd_change s) eqn:Ec.
    + rewrite (add_fresh s x Ec) in E.
      destruct (add_step [] ddm_init x) as (s2 & E2 & I2); [left; auto|reflexivity|].
      assert (s2 = s') by congruence. subst. exact I2.
    + destruct (add_step seg s x IH Ec) as (s2 & E2 & I2).
      assert (s2 = s') by congruence. subst. exact I2.
  - left; auto.
Qed.

Lemma ddm_never_raises_proof seg s x : sinceD seg s -> exists s', ddm_add par s x = Ok s'.
Proof.
  intros H. apply since_inv in H. destruct (dd_change s) eqn:Ec.
  - rewrite (add_fresh s x Ec).
    destruct (add_step [] ddm_init x) as (s2 & E2 & I2); [left; auto|reflexivity|]. eauto.
  - destruct (add_step seg s x H Ec) as (s2 & E2 & I2). eauto.
Qed.

Lemma ddm_estimates_proof seg s :
  sinceD seg s -> seg <> [] ->
  dd_prob s = err_rate seg /\ dd_estimation s = err_rate seg /\ dd_std s = err_std seg.
Proof.
  intros H Hn. apply since_inv in H. destruct H as [(? & _)|(_ & _ & H1 & H2 & H3 & _)]; [congruence|auto].
Qed.

Lemma ddm_rule_proof seg s :
  sinceD seg s -> seg <> [] -> rule s seg.
Proof.
  intros H Hn. apply since_inv in H. destruct H as [(? & _)|(_ & _ & H1 & H2 & H3 & _ & H4)]; [congruence|auto].
Qed.

Lemma err_std_nonneg l : (0 <= err_std l)%R.
Proof. apply sqrt_pos. Qed.

Lemma ddm_quiet_proof seg s :
  (1 <= dp_warning par)%R -> (1 <= dp_out par)%R ->
  sinceD seg s -> (Z.of_nat (length seg) < dp_min_instances par)%Z ->
  dd_change s = false /\ dd_warning s = false.
Proof.
  intros Hw Ho H Hl. apply since_inv in H. destruct H as [(-> & ->)|(Hne & _ & _ & _ & _ & _ & Hr)]; [auto|].
  unfold rule in Hr. destruct (Z.of_nat (length seg) + 1 <? dp_min_instances par)%Z eqn:E; [auto|].
  apply Z.ltb_ge in E. destruct Hr as (b & ((Hb1 & Hb2 & Hb3) & _) & Hc & Hwa).
  assert (b = seg).
  { destruct Hb2 as (sf & ->). rewrite app_length in *. destruct sf; [rewrite app_nil_r; auto|]. simpl in *. lia. }
  subst b. pose proof (err_std_nonneg seg) as Hs.
  assert (forall L, 1 <= L -> err_std seg <= L * err_std seg)%R.
  { intros L HL. rewrite <- (Rmult_1_l (err_std seg)) at 1. apply Rmult_le_compat_r; auto. }
  pose proof (H _ Hw). pose proof (H _ Ho). split.
  - destruct (dd_change s); auto. assert (true = true) by auto. apply Hc in H2. lra.
  - destruct (dd_warning s); auto. assert (true = true) by auto. apply Hwa in H2. lra.
Qed.

Lemma Rmean_01 l : l <> [] -> (forall x, In x l -> x = 0 \/ x = 1)%R -> (0 <= Rmean l <= 1)%R.
Proof.
  intros Hn H. pose proof (INR_pos_len l Hn) as Hp.
  assert (Hb : (0 <= Rsum l <= INR (length l))%R).
  { clear Hn Hp. induction l as [|x l IH]; [simpl; lra|]. cbn [Rsum length]. rewrite S_INR.
    assert (Hx := H x (or_introl eq_refl)).
    assert (0 <= Rsum l <= INR (length l))%R by (apply IH; intros; apply H; right; auto).
    lra. }
  unfold Rmean. split.
  - apply Rmult_le_pos; [apply Hb|]. left. apply Rinv_0_lt_compat; auto.
  - apply Rmult_le_reg_r with (INR (length l)); auto. unfold Rdiv. rewrite Rmult_assoc, Rinv_l by lra. lra.
Qed.
End DdmR.

(** flags: any arithmetic *)
Lemma ddm_flags_exclusive_proof {T} {N : Num T} (par : ddm_par T) seg s :
  since ddm_init (ddm_add par) ddm_reset dd_change seg s -> dd_change s && dd_warning s = false.
Proof.
  induction 1 as [|seg s x s' H IH E|seg s H IH]; try reflexivity.
  unfold ddm_add in E.
  apply bind_Ok in E. destruct E as (d & _ & E). apply bind_Ok in E. destruct E as (q & _ & E).
  destruct (_ <? _)%Z in E; [inversion E; reflexivity|].
  match type of E with context[let '(_, _) := ?t in _] => destruct t as [[? ?] ?] end.
  destruct (ddm_above _ _ _ (dp_out par)) in E; inversion E; subst; simpl; auto.
Qed.
