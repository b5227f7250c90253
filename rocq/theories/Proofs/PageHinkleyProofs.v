From Coq Require Import List ZArith Lia Bool Reals Lra.
From Verif Require Import Base.Py Base.Num Spec.Lists Spec.DetectorSpec Spec.PageHinkleySpec Model.PageHinkley
  Proofs.ListFacts Proofs.StatFacts Proofs.DdmProofs.
Import ListNotations.

Section PhR.
Variable par : ph_par R.
Let sinceP := since (ph_init (T := R)) (ph_add par) ph_reset ph_change.
Let stat := ph_stat (pp_alpha par) (pp_delta par).

Definition PInv (seg : list R) (s : ph R) : Prop :=
  (seg = [] /\ s = ph_init) \/
  (seg <> [] /\ ph_count s = (Z.of_nat (length seg) + 1)%Z /\ ph_mean s = Rmean seg /\ ph_estimation s = Rmean seg
   /\ ph_sum s = stat seg
   /\ (ph_change s = true <->
         (pp_min_instances par - 1 <= Z.of_nat (length seg))%Z /\ (pp_threshold par < stat seg)%R)).

Lemma py_max_R a b : py_max a b = Rmax a b.
Proof.
  unfold py_max. simpl. destruct (Rltb a b) eqn:E; rcase.
  - rewrite Rmax_right; auto. lra.
  - rewrite Rmax_left; auto.
Qed.

Lemma ph_add_fresh s x : ph_change s = true -> ph_add par s x = ph_add par ph_init x.
Proof. intros H. unfold ph_add. rewrite H. reflexivity. Qed.

Lemma ph_step seg s x : PInv seg s -> ph_change s = false ->
  exists s', ph_add par s x = Ok s' /\ PInv (seg ++ [x]) s'.
Proof.
  intros HI Hc. unfold ph_add. rewrite Hc.
  assert (Hcnt : ph_count s = (Z.of_nat (length seg) + 1)%Z).
  { destruct HI as [(-> & ->)|(_ & H & _)]; [reflexivity|auto]. }
  assert (Hsum : ph_sum s = stat seg).
  { destruct HI as [(-> & ->)|(_ & _ & _ & _ & H & _)]; [reflexivity|auto]. }
  rewrite Hcnt. simpl (nofZ _). rewrite pydiv_R by apply IZR_succ_ne. cbn [bind].
  assert (Hp : (ph_mean s + (x - ph_mean s) / IZR (Z.of_nat (length seg) + 1))%R = Rmean (seg ++ [x])).
  { destruct HI as [(-> & ->)|(Hne & _ & Hpr & _)].
    - simpl. unfold n0; simpl. rewrite Rmean_single. field.
    - rewrite Hpr. rewrite plus_IZR, <- INR_IZR_INZ. apply Rmean_incr; auto. }
  simpl (nadd _ _). simpl (nsub _ _). rewrite Hp, py_max_R, Hsum. simpl (nmul _ _). unfold n0. simpl (nofZ 0).
  assert (Hst : Rmax 0 (pp_alpha par * stat seg + (x - Rmean (seg ++ [x]) - pp_delta par)) = stat (seg ++ [x])).
  { unfold stat, ph_stat. rewrite rev_app_distr. simpl. rewrite rev_involutive. reflexivity. }
  rewrite Hst.
  eexists. split; [reflexivity|]. right. simpl.
  assert (Hlen : Z.of_nat (length (seg ++ [x])) = (Z.of_nat (length seg) + 1)%Z).
  { rewrite app_length. simpl. lia. }
  split; [destruct seg; discriminate|]. split; [lia|]. split; auto. split; auto. split; auto.
  rewrite Hlen. destruct (Z.of_nat (length seg) + 1 + 1 <? pp_min_instances par)%Z eqn:E.
  - apply Z.ltb_lt in E. split; [discriminate|]. lia.
  - apply Z.ltb_ge in E. rewrite Rltb_true. split; [intros; split; auto; lia|tauto].
Qed.

Lemma ph_inv seg s : sinceP seg s -> PInv seg s.
Proof.
  induction 1 as [|seg s x s' H IH E|seg s H IH].
  - left; auto.
  - destruct (ph_change s) eqn:Ec.
    + rewrite (ph_add_fresh s x Ec) in E.
      destruct (ph_step [] ph_init x) as (s2 & E2 & I2); [left; auto|reflexivity|].
      assert (s2 = s') by congruence. subst. exact I2.
    + destruct (ph_step seg s x IH Ec) as (s2 & E2 & I2).
      assert (s2 = s') by congruence. subst. exact I2.
  - left; auto.
Qed.

Lemma ph_never_raises_proof seg s x : sinceP seg s -> exists s', ph_add par s x = Ok s'.
Proof.
  intros H. apply ph_inv in H. destruct (ph_change s) eqn:Ec.
  - rewrite (ph_add_fresh s x Ec).
    destruct (ph_step [] ph_init x) as (s2 & E2 & I2); [left; auto|reflexivity|]. eauto.
  - destruct (ph_step seg s x H Ec) as (s2 & E2 & I2). eauto.
Qed.

Lemma ph_stat_nonneg a d l : (0 <= ph_stat a d l)%R.
Proof. unfold ph_stat. destruct (rev l); simpl; [lra|apply Rmax_l]. Qed.

Lemma ph_rule_proof seg s :
  sinceP seg s -> seg <> [] ->
  ph_mean s = Rmean seg /\ ph_estimation s = Rmean seg /\ ph_sum s = stat seg /\ (0 <= ph_sum s)%R
  /\ (ph_change s = true <->
         (pp_min_instances par - 1 <= Z.of_nat (length seg))%Z /\ (pp_threshold par < stat seg)%R).
Proof.
  intros H Hn. apply ph_inv in H. destruct H as [(? & _)|(_ & _ & H1 & H2 & H3 & H4)]; [congruence|].
  rewrite H3. repeat split; auto; try apply H4; auto. apply ph_stat_nonneg.
Qed.

(** Constant streams *)
Lemma Rsum_repeat c n : Rsum (repeat c n) = (INR n * c)%R.
Proof. induction n; [simpl; ring|]. cbn [repeat Rsum]. rewrite IHn, S_INR. ring. Qed.

Lemma Rmean_const c l : l <> [] -> (forall x, In x l -> x = c) -> Rmean l = c.
Proof.
  intros Hn H. assert (El : l = repeat c (length l)).
  { clear Hn. induction l as [|y l IH]; simpl; auto. f_equal; [apply H; left; auto|].
    apply IH. intros; apply H; right; auto. }
  rewrite El. unfold Rmean. rewrite Rsum_repeat, repeat_length.
  pose proof (INR_pos_len l Hn). field. lra.
Qed.

Lemma ph_stat_const a d c l :
  (0 <= d)%R -> (forall x, In x l -> x = c) -> ph_stat a d l = 0%R.
Proof.
  intros Hd H. unfold ph_stat.
  assert (G : forall rl, (forall x, In x rl -> x = c) -> ph_stat_rev a d rl = 0%R).
  { induction rl as [|x rl IH]; intros Hr; [reflexivity|].
    cbn [ph_stat_rev]. rewrite IH by (intros; apply Hr; right; auto).
    rewrite (Rmean_const c (rev (x :: rl))).
    - rewrite (Hr x) by (left; auto). apply Rmax_left. lra.
    - intros E. apply (f_equal (@length R)) in E. rewrite rev_length in E. discriminate.
    - intros y Hy. apply Hr. apply in_rev. auto. }
  apply G. intros x Hx. apply H. apply in_rev. auto.
Qed.

Lemma ph_const_quiet_proof seg s c :
  (0 <= pp_delta par)%R -> (0 <= pp_threshold par)%R ->
  sinceP seg s -> (forall x, In x seg -> x = c) -> ph_change s = false.
Proof.
  intros Hd Ht H Hc. apply ph_inv in H. destruct H as [(_ & ->)|(_ & _ & _ & _ & _ & H4)]; [reflexivity|].
  destruct (ph_change s); auto. assert (E : true = true) by auto. apply H4 in E.
  unfold stat in E. rewrite (ph_stat_const _ _ c) in E; auto. lra.
Qed.
End PhR.
