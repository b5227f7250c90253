(** No detector alarms on a constant stream. *)
From Coq Require Import List ZArith Lia Bool Reals Lra.
From Verif Require Import Base.Py Base.Num Spec.Lists Spec.DetectorSpec Spec.DdmSpec Spec.EddmSpec Spec.HddmASpec
  Spec.HddmWSpec Model.Ddm Model.Eddm Model.PageHinkley Model.HddmA Model.HddmW
  Proofs.ListFacts Proofs.StatFacts Proofs.DdmProofs Proofs.EddmProofs Proofs.PageHinkleyProofs Proofs.HddmAProofs
  Proofs.HddmWProofs.
Import ListNotations.
Local Open Scope R_scope.

Definition constant (c : R) (l : list R) : Prop := forall x, In x l -> x = c.

Lemma constant_prefix c p l : prefix_of p l -> constant c l -> constant c p.
Proof. intros (s & ->) H x Hx. apply H. apply in_or_app; auto. Qed.

(** if all earlier segments are constant, `since` segments of a constant stream are constant *)
Lemma ddm_const_quiet_proof (par : ddm_par R) seg s c :
  c = 0 \/ c = 1 -> since ddm_init (ddm_add par) ddm_reset dd_change seg s -> constant c seg ->
  dd_change s = false /\ dd_warning s = false.
Proof.
  intros Hc H Hk. destruct seg as [|x seg].
  - apply since_inv in H. destruct H as [(_ & ->)|(? & _)]; [split; reflexivity|congruence].
  - pose proof (ddm_rule_proof par _ s H ltac:(discriminate)) as Hr. unfold rule in Hr.
    destruct (_ <? _)%Z; [auto|]. destruct Hr as (b & ((Hb1 & Hb2 & _) & _) & H1 & H2).
    assert (Es : forall l, l <> [] -> constant c l -> err_rate l = c /\ err_std l = 0).
    { intros l Hl Hkl. assert (err_rate l = c) by (apply Rmean_const; auto). split; auto.
      unfold err_std. rewrite H0. replace (c * (1 - c)) with 0 by (destruct Hc; subst; ring).
      unfold Rdiv. rewrite Rmult_0_l. apply sqrt_0. }
    destruct (Es (x :: seg) ltac:(discriminate) Hk) as (R1 & R2).
    destruct (Es b Hb1 (constant_prefix _ _ _ Hb2 Hk)) as (R3 & R4).
    rewrite R1, R2, R3, R4 in H1, H2. split.
    + destruct (dd_change s); auto. assert (c + dp_out par * 0 < c + 0) by (apply H1; auto). lra.
    + destruct (dd_warning s); auto. destruct H2 as (H2 & _). destruct (H2 eq_refl). lra.
Qed.

Lemma error_positions_all l k : constant 1 l -> error_positions k l = seq (S k) (length l).
Proof.
  revert k. induction l as [|x l IH]; intros k H; simpl; auto.
  assert (E : is_error x = true).
  { unfold is_error. rewrite (H x) by (left; auto). unfold Reqb. destruct (Req_EM_T 1 1); congruence. }
  rewrite E. simpl. f_equal. apply IH. intros y Hy. apply H; right; auto.
Qed.

Lemma gaps_seq n : forall k, gaps k (seq (S k) n) = repeat 1 n.
Proof.
  induction n as [|n IH]; intros k; [reflexivity|].
  cbn [seq gaps repeat]. rewrite IH. f_equal. replace (S k - k)%nat with 1%nat by lia. reflexivity.
Qed.

Lemma m2s_const l : l <> [] -> constant 1 l -> m2s l = 1.
Proof.
  intros Hn H. unfold m2s, distances. rewrite error_positions_all by auto. rewrite (gaps_seq (length l) 0).
  assert (Hr : repeat 1 (length l) <> []) by (destruct l; [congruence|discriminate]).
  assert (Hc : constant 1 (repeat 1 (length l))) by (intros x Hx; apply repeat_spec in Hx; auto).
  rewrite (Rmean_const 1) by auto.
  assert (Hv : Rvariance (repeat 1 (length l)) = 0).
  { unfold Rvariance, Rsqdev. rewrite (Rmean_const 1) by auto.
    assert (G : forall k, Rsum (map (fun x => (x - 1) * (x - 1)) (repeat 1 k)) = 0).
    { induction k; simpl; auto. simpl in IHk. rewrite IHk. ring. }
    rewrite repeat_length. rewrite G. unfold Rdiv. ring. }
  rewrite Hv, sqrt_0. ring.
Qed.

Lemma prefixes_prefix p l : In p (prefixes l) -> p <> [] /\ prefix_of p l.
Proof.
  unfold prefixes. intros H. apply in_map_iff in H. destruct H as (k & <- & Hk). apply in_seq in Hk.
  split.
  - intros E. apply (f_equal (@length R)) in E. rewrite firstn_length in E. simpl in E. lia.
  - exists (skipn k l). symmetry. apply firstn_skipn.
Qed.

Lemma m2s_max_const l : constant 1 l -> m2s_max l <= 1.
Proof.
  intros H. unfold m2s_max.
  assert (G : forall p, In p (filter evaluated (prefixes l)) -> m2s p <= 1).
  { intros p Hp. apply filter_In in Hp. destruct Hp as (Hp & _). apply prefixes_prefix in Hp.
    destruct Hp as (Hn & Hp). rewrite m2s_const; auto; [lra|]. eapply constant_prefix; eauto. }
  induction (filter evaluated (prefixes l)) as [|p ps IH]; simpl; [lra|].
  apply Rmax_lub; [apply G; left; auto|]. apply IH. intros q Hq. apply G; right; auto.
Qed.

Lemma upto_prefix l : prefix_of (upto_last_error l) l.
Proof.
  unfold upto_last_error.
  assert (G : forall rl, exists s, rl = s ++ drop_ok rl).
  { intros rl. induction rl as [|x rl IH]; simpl; [exists []; auto|]. destruct (is_error x); [exists []; auto|].
    destruct IH as (s & E). exists (x :: s). simpl. f_equal. auto. }
  destruct (G (rev l)) as (s & E). exists (rev s). rewrite <- rev_app_distr, <- E, rev_involutive. auto.
Qed.

Lemma error_positions_none c l : c <> 1 -> constant c l -> forall k, error_positions k l = [].
Proof.
  intros Hc. induction l as [|x l IH]; intros H k; simpl; auto.
  assert (E : is_error x = false).
  { unfold is_error. rewrite (H x) by (left; auto). unfold Reqb. destruct (Req_EM_T c 1); congruence. }
  rewrite E. simpl. apply IH. intros y Hy. apply H; right; auto.
Qed.

Lemma n_errors_none c l : c <> 1 -> constant c l -> n_errors l = 0%nat.
Proof. intros Hc H. unfold n_errors. rewrite (error_positions_none c) by auto. reflexivity. Qed.

Lemma eddm_const_quiet_proof seg (s : eddm R) c :
  since eddm_init eddm_add eddm_reset ed_change seg s -> constant c seg ->
  ed_change s = false /\ ed_warning s = false.
Proof.
  intros H Hk. destruct (eddm_rule_proof _ _ H) as (H1 & H2). unfold at_change, at_warning in *.
  destruct (Req_dec c 1) as [->|Hc].
  - assert (G : forall l, prefix_of l seg -> evaluated l = true -> m2s l = 1 /\ m2s_max l <= 1).
    { intros l Hl He. assert (constant 1 l) by (eapply constant_prefix; eauto). split.
      - apply m2s_const; auto. intros ->. discriminate.
      - apply m2s_max_const; auto. }
    split.
    + destruct (ed_change s); auto. destruct H1 as (H1 & _). destruct (H1 eq_refl) as (A & _ & B).
      destruct (G seg (prefix_refl _) A). lra.
    + destruct (ed_warning s); auto. destruct H2 as (H2 & _). destruct (H2 eq_refl) as (A & _ & B).
      destruct (G _ (upto_prefix seg) A). lra.
  - split.
    + destruct (ed_change s); auto. destruct H1 as (H1 & _). destruct (H1 eq_refl) as (_ & A & _).
      rewrite (n_errors_none c) in A by auto. lia.
    + destruct (ed_warning s); auto. destruct H2 as (H2 & _). destruct (H2 eq_refl) as (_ & A & _).
      rewrite (n_errors_none c) in A; auto; [lia|]. eapply constant_prefix; [apply upto_prefix|auto].
Qed.

Lemma diff_radius_pos conf p seg : 0 < conf <= 1 -> p <> [] -> prefix_of p seg -> length p <> length seg ->
  0 < diff_radius conf p seg.
Proof.
  intros Hc Hp Hl Hn. unfold diff_radius. apply sqrt_lt_R0.
  pose proof (INR_pos_len p Hp) as P1. apply prefix_len in Hl.
  assert (P2 : INR (length p) < INR (length seg)) by (apply lt_INR; lia).
  assert (P3 : 0 < ln (2 / conf)).
  { rewrite <- ln_1. apply ln_increasing; [lra|]. apply Rmult_lt_reg_r with conf; [lra|].
    unfold Rdiv. rewrite Rmult_assoc, Rinv_l by lra. lra. }
  repeat apply Rmult_lt_0_compat; auto; try lra; try (apply Rinv_0_lt_compat; lra).
Qed.

Lemma textbook_const d w t hist blk seg ch wn c : 0 < d <= 1 -> 0 < w <= 1 ->
  textbook d w t hist blk seg ch wn -> constant c hist ->
  ch = false /\ wn = false /\ seg = hist /\ blk = [].
Proof.
  intros Hd Hw H. induction H as [|h b s c0 w0 x p rest H IH L E I|h b s c0 w0 x p q rest w' H IH L N W T HC E D|h b s c0 w0 x p w' H IH L N W D];
    intros Hk; auto.
  - destruct IH as (_ & _ & -> & _); [intros y Hy; apply Hk; apply in_or_app; auto|].
    exfalso. destruct L as (Hp & Hpre & _). destruct I as (I1 & I2).
    pose proof (diff_radius_pos d p _ Hd Hp Hpre I1).
    rewrite (Rmean_const c (h ++ [x])), (Rmean_const c p) in I2; auto; try lra.
    + eapply constant_prefix; eauto.
    + apply snoc_ne.
  - destruct IH as (_ & _ & -> & _); [intros y Hy; apply Hk; apply in_or_app; auto|].
    exfalso. destruct HC as (Hp & Hpre & _). destruct D as (I1 & I2).
    pose proof (diff_radius_pos d q _ Hd Hp Hpre I1).
    rewrite (Rmean_const c (h ++ [x])), (Rmean_const c q) in I2; auto; try lra.
    + eapply constant_prefix; eauto.
    + apply snoc_ne.
  - destruct IH as (_ & _ & -> & ->); [intros y Hy; apply Hk; apply in_or_app; auto|].
    repeat split; auto. destruct w'; auto. exfalso. destruct W as (W & _). destruct (W eq_refl) as (I1 & I2).
    destruct L as (Hp & Hpre & _).
    pose proof (diff_radius_pos w p _ Hw Hp Hpre I1).
    rewrite (Rmean_const c (h ++ [x])), (Rmean_const c p) in I2; auto; try lra.
    + eapply constant_prefix; eauto.
    + apply snoc_ne.
Qed.

Lemma hddm_a_const_quiet_proof (par : ha_par R) : 0 < hp_drift par <= 1 -> 0 < hp_warn par <= 1 ->
  forall hist s c, after hddm_a_init (hddm_a_add par) hist s -> constant c hist ->
  ha_change s = false /\ ha_warning s = false /\ (hist <> [] -> ha_estimation s = c).
Proof.
  intros Hd Hw hist s c H Hk.
  destruct (hddm_a_refines_proof par Hd Hw _ _ H) as (blk & seg & T & _ & _ & E & _).
  destruct (textbook_const _ _ _ _ _ _ _ _ c Hd Hw T Hk) as (-> & -> & -> & ->). repeat split; auto.
  intros Hn. rewrite E. replace (length hist <? length [])%nat with false by (symmetry; apply Nat.ltb_ge; simpl; lia).
  apply Rmean_const; auto.
Qed.

Lemma ewma_const lam c l : l <> [] -> constant c l -> ewma lam l = c.
Proof.
  induction l as [|x l IH] using rev_ind; [congruence|]. intros _ H. rewrite (ewma_snoc (mkHwPar 0 0 lam false)).
  cbn [wp_lambda]. assert (x = c) by (apply H; apply in_or_app; right; left; auto).
  destruct l as [|y l]; auto. rewrite IH; [subst; ring|discriminate|]. intros z Hz. apply H. apply in_or_app; auto.
Qed.

Lemma hddm_w_const_quiet_proof (par : hw_par R) :
  0 < wp_drift par <= 1 -> 0 < wp_warn par <= 1 -> 0 <= wp_lambda par <= 1 ->
  forall seg s c, since hddm_w_init (hddm_w_add par) hddm_w_reset hw_change seg s -> 0 <= c -> constant c seg ->
  hw_change s = false /\ hw_warning s = false.
Proof.
  intros Hd Hw Hl seg s c H Hc Hk.
  assert (Hnn : forall x, In x seg -> 0 <= x) by (intros x Hx; rewrite (Hk x Hx); auto).
  destruct seg as [|x seg].
  - apply (hddm_w_inv par Hd Hw Hl) in H; auto.
    destruct H as [(_ & ->)|[(_ & _ & _ & (p & rest & E & (F & _) & _) & _)|(_ & A & _)]].
    + split; reflexivity.
    + symmetry in E. apply app_eq_nil in E. destruct E; congruence.
    + congruence.
  - destruct (hddm_w_rule_proof par Hd Hw Hl _ _ H Hnn ltac:(discriminate)) as (p & rest & E & (F & Fp & _) & H1 & H2).
    assert (G : forall conf, ~ rises (wp_lambda par) conf p rest).
    { intros conf (R1 & R2). rewrite (ewma_const _ c rest), (ewma_const _ c p) in R2; auto.
      - pose proof (sqrt_pos ((weights2 (wp_lambda par) (length p) + weights2 (wp_lambda par) (length rest)) * ln (1 / conf) / 2)).
        unfold mradius in R2. lra.
      - eapply constant_prefix; eauto.
      - intros y Hy. apply Hk. rewrite E. apply in_or_app; auto. }
    split.
    + destruct (hw_change s); auto. exfalso. apply (G (wp_drift par)). apply H1; auto.
    + destruct (hw_warning s); auto. exfalso. apply (G (wp_warn par)). apply H2; auto.
Qed.
