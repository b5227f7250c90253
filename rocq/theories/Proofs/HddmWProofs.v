From Coq Require Import List ZArith Lia Bool Reals Lra.
From Verif Require Import Base.Py Base.Num Spec.Lists Spec.DetectorSpec Spec.DdmSpec Spec.HddmWSpec Model.HddmW
  Proofs.ListFacts Proofs.StatFacts Proofs.DdmProofs Proofs.HddmAProofs.
Import ListNotations.
Local Open Scope R_scope.

(** *** two_side_option has no effect *)
Section NoEffect.
Context {T : Type} {N : Num T}.
Hypothesis neg1 : nltb (nofZ (-1)) n0 = true.

Definition decr_dead (s : hddm_w T) : Prop := hw_decr_cut s = None /\ hw_s1_decr s = si_new.

Definition set_two_side (par : hw_par T) (b : bool) : hw_par T :=
  mkHwPar (wp_drift par) (wp_warn par) (wp_lambda par) b.

Lemma hw_update_decr_dead par s x r : hw_decr_cut s = None -> hw_update_decr par s x = Ok r ->
  fst (fst r) = None /\ snd (fst r) = hw_s1_decr s.
Proof.
  intros H E. unfold hw_update_decr in E. rewrite H in E.
  apply bind_Ok in E. destruct E as (b & _ & E). apply bind_Ok in E. destruct E as (d & _ & E). cbv zeta in E.
  apply bind_Ok in E. destruct E as (s2 & _ & E). inversion E; subst; simpl. auto.
Qed.

Lemma hw_detect_new (a : sinfo T) c : hw_detect a si_new c = Ok false.
Proof. unfold hw_detect, si_new. simpl. rewrite neg1, orb_true_r. reflexivity. Qed.

Lemma hddm_w_add_same par s x b : decr_dead s ->
  hddm_w_add (set_two_side par b) s x = hddm_w_add (set_two_side par false) s x.
Proof.
  intros (H1 & H2). destruct b; auto. unfold hddm_w_add. simpl wp_lambda.
  destruct (si_update (wp_lambda par) (hw_total s) x); cbn [bind]; auto.
  change (hw_update_incr (set_two_side par true)) with (hw_update_incr (set_two_side par false)).
  destruct (hw_update_incr _ _ _) as [[[[cut s1] s2] delay]|]; cbn [bind]; auto. simpl wp_drift. simpl wp_warn.
  destruct (hw_detect s1 s2 (wp_drift par)) as [[|]|]; cbn [bind]; auto.
  destruct (hw_detect s1 s2 (wp_warn par)); cbn [bind]; auto.
  change (hw_update_decr (set_two_side par true)) with (hw_update_decr (set_two_side par false)).
  destruct (hw_update_decr _ _ _) as [[[dcut d1] d2]|] eqn:E; cbn [bind]; auto.
  apply hw_update_decr_dead in E; [|simpl; auto]. simpl in E. destruct E as (_ & ->). rewrite H2.
  rewrite hw_detect_new. reflexivity.
Qed.

Lemma hddm_w_add_dead par s x s' : decr_dead s -> hddm_w_add par s x = Ok s' -> decr_dead s'.
Proof.
  intros (H1 & H2) E. unfold hddm_w_add in E.
  apply bind_Ok in E. destruct E as (total & _ & E). cbv zeta in E.
  apply bind_Ok in E. destruct E as ([[[cut s1] s2] delay] & _ & E).
  apply bind_Ok in E. destruct E as (dr & _ & E). destruct dr; [inversion E; subst; split; reflexivity|].
  apply bind_Ok in E. destruct E as (w & _ & E).
  apply bind_Ok in E. destruct E as ([[dcut d1] d2] & E1 & E).
  apply hw_update_decr_dead in E1; [|simpl; auto]. simpl in E1. destruct E1 as (-> & ->).
  apply bind_Ok in E. destruct E as (dc & _ & E). inversion E; subst.
  destruct dc; split; simpl; auto.
Qed.

Lemma hddm_w_two_side_proof par l : forall s, decr_dead s -> forall b,
  feed (hddm_w_add (set_two_side par b)) s l = feed (hddm_w_add (set_two_side par false)) s l.
Proof.
  induction l as [|x l IH]; intros s H b; simpl; auto.
  rewrite hddm_w_add_same by auto.
  destruct (hddm_w_add (set_two_side par false) s x) eqn:E; cbn [bind]; auto.
  apply IH. eapply hddm_w_add_dead; eauto.
Qed.

Lemma hddm_w_flags_proof par s x s' : hddm_w_add par s x = Ok s' ->
  ~ (hw_change s' = true /\ hw_warning s' = true).
Proof.
  intros E (Hc & Hw). unfold hddm_w_add in E.
  apply bind_Ok in E. destruct E as (total & _ & E). cbv zeta in E.
  apply bind_Ok in E. destruct E as ([[[cut s1] s2] delay] & _ & E).
  apply bind_Ok in E. destruct E as (dr & _ & E). destruct dr; [inversion E; subst; discriminate|].
  apply bind_Ok in E. destruct E as (w & _ & E).
  apply bind_Ok in E. destruct E as ([[dcut d1] d2] & E1 & E).
  apply bind_Ok in E. destruct E as (dc & _ & E). inversion E; subst. destruct dc; simpl in *; discriminate.
Qed.
End NoEffect.

(** *** exact values *)
Section Exact.
Variable par : hw_par R.
Hypothesis Hdrift : 0 < wp_drift par <= 1.
Hypothesis Hwarn : 0 < wp_warn par <= 1.
Hypothesis Hlam : 0 <= wp_lambda par <= 1.
Let lam := wp_lambda par.
Let dc := wp_drift par.

Definition nonneg (l : list R) : Prop := forall x, In x l -> 0 <= x.

Lemma ewma_snoc l x : ewma lam (l ++ [x]) = match l with [] => x | _ => lam * x + (1 - lam) * ewma lam l end.
Proof.
  unfold ewma. rewrite rev_app_distr. simpl. destruct l as [|y l]; auto.
  destruct (rev (y :: l)) eqn:E; auto.
  apply (f_equal (@length R)) in E. rewrite rev_length in E. discriminate.
Qed.

Lemma ewma_bounds lo hi l : l <> [] -> (forall x, In x l -> lo <= x <= hi) -> lo <= ewma lam l <= hi.
Proof.
  induction l as [|x l IH] using rev_ind; [congruence|]. intros _ H. rewrite ewma_snoc.
  assert (Hx : lo <= x <= hi) by (apply H; apply in_or_app; right; left; auto).
  destruct l as [|y l]; auto.
  assert (Hl : lo <= ewma lam (y :: l) <= hi).
  { apply IH; [discriminate|]. intros z Hz. apply H. apply in_or_app; auto. }
  unfold lam in *. nra.
Qed.

Lemma ewma_nonneg l : nonneg l -> l <> [] -> 0 <= ewma lam l.
Proof.
  induction l as [|x l IH] using rev_ind; [congruence|]. intros H _. rewrite ewma_snoc.
  assert (Hx : 0 <= x) by (apply H; apply in_or_app; right; left; auto).
  destruct l as [|y l]; auto.
  assert (Hl : 0 <= ewma lam (y :: l)).
  { apply IH; [|discriminate]. intros z Hz. apply H. apply in_or_app; auto. }
  unfold lam in *. nra.
Qed.

Lemma weights2_nonneg n : 0 <= weights2 lam n.
Proof.
  induction n as [|n IH]; [simpl; lra|]. cbn [weights2]. destruct n; [lra|].
  apply Rplus_le_le_0_compat; [|apply Rmult_le_pos; auto]; apply Rle_0_sqr.
Qed.

Definition si (l : list R) : sinfo R :=
  match l with [] => si_new | _ => mkSI (ewma lam l) (Some (weights2 lam (length l))) end.

Lemma si_ne l : l <> [] -> si l = mkSI (ewma lam l) (Some (weights2 lam (length l))).
Proof. destruct l; [congruence|reflexivity]. Qed.

Lemma si_update_R l x : nonneg l -> si_update lam (si l) x = Ok (si (l ++ [x])).
Proof.
  intros H. rewrite (si_ne (l ++ [x])) by apply snoc_ne. unfold si_update.
  destruct l as [|y l].
  - simpl. unfold n0, n1; simpl. destruct (Rltb (-1) 0) eqn:E; rcase; [reflexivity|lra].
  - rewrite si_ne by discriminate. cbn [si_ewma nltb NumR]. unfold n0, n1. cbn [nofZ NumR].
    pose proof (ewma_nonneg (y :: l) H ltac:(discriminate)) as Hn.
    destruct (Rltb (ewma lam (y :: l)) 0) eqn:E; rcase; [lra|].
    unfold ibc. cbn [si_ibc bind nadd nmul nsub NumR]. rewrite ewma_snoc. do 3 f_equal.
    rewrite app_length, Nat.add_1_r. reflexivity.
Qed.

Lemma hw_bound_R v c : 0 < c <= 1 -> 0 <= v -> hw_bound v c = Ok (mradius v c).
Proof.
  intros Hc Hv. unfold hw_bound, mradius, n1. cbn [nofZ NumR]. rewrite pydiv_R by lra. cbn [bind].
  pose proof (div_ge_1 1 c Hc ltac:(lra)). rewrite py_log_R by lra. cbn [bind nmul ndiv NumR].
  apply py_sqrt_R. pose proof (ln_nonneg (1 / c) H). unfold Rdiv at 1. apply Rmult_le_pos; [|lra].
  apply Rmult_le_pos; auto.
Qed.

Lemma hw_detect_R p rest c : 0 < c <= 1 -> nonneg p -> nonneg rest -> p <> [] ->
  exists b, hw_detect (si p) (si rest) c = Ok b /\ (b = true <-> rises lam c p rest).
Proof.
  intros Hc Hp Hr Hn. unfold hw_detect, rises, n0. cbn [nltb nofZ NumR].
  rewrite (si_ne p Hn). cbn [si_ewma].
  pose proof (ewma_nonneg p Hp Hn). destruct (Rltb (ewma lam p) 0) eqn:E; rcase; [lra|]. simpl orb.
  destruct rest as [|y rest].
  - simpl. destruct (Rltb (-1) 0) eqn:E2; rcase; [|lra]. exists false. split; auto.
    split; [discriminate|intros (A & _); congruence].
  - rewrite (si_ne (y :: rest)) by discriminate. cbn [si_ewma].
    pose proof (ewma_nonneg (y :: rest) Hr ltac:(discriminate)).
    destruct (Rltb (ewma lam (y :: rest)) 0) eqn:E2; rcase; [lra|]. unfold ibc. cbn [si_ibc bind nadd NumR].
    rewrite hw_bound_R; auto; [|apply Rplus_le_le_0_compat; apply weights2_nonneg].
    cbn [bind nsub NumR]. eexists. split; [reflexivity|].
    destruct (Rltb _ _) eqn:E3; rcase; split; auto; try discriminate.
    + intros _. split; [discriminate|auto].
    + intros (_ & A). lra.
Qed.

Definition WInv (seg : list R) (s : hddm_w R) : Prop :=
  (seg = [] /\ s = hddm_w_init)
  \/ (hw_change s = true /\ hw_warning s = false /\ hw_estimation s = 0
      /\ (exists p rest, seg = p ++ rest /\ first_low lam dc p seg /\ rises lam dc p rest)
      /\ forall x, hddm_w_add par s x = hddm_w_add par hddm_w_init x)
  \/ (hw_change s = false /\ seg <> [] /\ hw_width s = Z.of_nat (length seg) /\ hw_total s = si seg
      /\ hw_estimation s = ewma lam seg
      /\ hw_s1_decr s = si_new /\ hw_decr_cut s = None /\ hw_s2_decr s = si seg
      /\ exists p rest, seg = p ++ rest /\ first_low lam dc p seg
         /\ hw_incr_cut s = Some (upper_w lam dc p) /\ hw_s1_incr s = si p /\ hw_s2_incr s = si rest
         /\ hw_delay s = Z.of_nat (length rest)
         /\ ~ rises lam dc p rest
         /\ (hw_warning s = true <-> rises lam (wp_warn par) p rest)).

(** the state before a call, seen as statistics of [seg] *)
Definition Pre (seg : list R) (s : hddm_w R) : Prop :=
  hw_width s = Z.of_nat (length seg) /\ hw_total s = si seg
  /\ hw_s1_decr s = si_new /\ hw_decr_cut s = None /\ hw_s2_decr s = si seg
  /\ (seg = [] /\ hw_incr_cut s = None \/
      exists p rest, seg = p ++ rest /\ first_low lam dc p seg
         /\ hw_incr_cut s = Some (upper_w lam dc p) /\ hw_s1_incr s = si p /\ hw_s2_incr s = si rest
         /\ hw_delay s = Z.of_nat (length rest)).

Lemma hddm_w_step seg s x : Pre seg s -> nonneg (seg ++ [x]) ->
  exists s', hddm_w_add par s x = Ok s' /\ WInv (seg ++ [x]) s'.
Proof.
  intros (H1 & H2 & H3 & H4 & H5 & H6) Hnn. set (seg1 := seg ++ [x]) in *.
  assert (Hseg : nonneg seg) by (intros z Hz; apply Hnn; apply in_or_app; auto).
  assert (Hne : seg1 <> []) by apply snoc_ne.
  assert (Hlen : length seg1 = S (length seg)) by (unfold seg1; rewrite app_length; simpl; lia).
  unfold hddm_w_add. fold lam. rewrite H2, si_update_R by auto. cbn [bind]. fold seg1.
  cbv zeta.
  set (s0 := mkHw _ _ _ _ _ _ _ _ _ _ _ _).
  assert (Hb : hw_bound (weights2 lam (length seg1)) dc = Ok (mradius (weights2 lam (length seg1)) dc))
    by (apply hw_bound_R; [apply Hdrift|apply weights2_nonneg]).
  (* the increment statistics *)
  assert (HI : exists p rest, seg1 = p ++ rest /\ first_low lam dc p seg1 /\
     hw_update_incr par s0 x = Ok (Some (upper_w lam dc p), si p, si rest, Z.of_nat (length rest))).
  { unfold hw_update_incr, ibc, s0. cbn [hw_total hw_incr_cut hw_s2_incr hw_s1_incr hw_delay].
    rewrite (si_ne seg1 Hne). cbn [si_ibc si_ewma bind]. fold dc lam. rewrite Hb. cbn [bind nadd NumR].
    rewrite <- (si_ne seg1 Hne).
    change (ewma lam seg1 + mradius (weights2 lam (length seg1)) dc) with (upper_w lam dc seg1).
    destruct H6 as [(E & ->)|(p & rest & Es & (F1 & F2 & F3) & -> & -> & -> & ->)].
    - exists seg1, []. split; [rewrite app_nil_r; auto|]. split; [|reflexivity].
      split; auto. split; [apply prefix_refl|]. intros q Hq Hp.
      apply prefix_snoc in Hp. destruct Hp as [->|Hp]; [fold seg1; split; [lra|lia]|].
      subst seg. apply prefix_len in Hp. destruct q; [congruence|simpl in Hp; lia].
    - cbn [nltb NumR]. destruct (Rltb (upper_w lam dc seg1) (upper_w lam dc p)) eqn:E; rcase.
      + exists seg1, []. split; [rewrite app_nil_r; auto|]. split; [|reflexivity].
        split; auto. split; [apply prefix_refl|]. intros q Hq Hp.
        apply prefix_snoc in Hp. destruct Hp as [->|Hp]; [fold seg1; split; [lra|lia]|].
        destruct (F3 q Hq Hp) as (A & _). split; [lra|intros; lra].
      + exists p, (rest ++ [x]). split; [unfold seg1; rewrite Es, app_assoc; auto|]. split.
        * split; auto. split; [apply prefix_app; auto|]. intros q Hq Hp.
          apply prefix_snoc in Hp. destruct Hp as [->|Hp]; [|apply F3; auto].
          fold seg1. split; [lra|]. apply prefix_len in F2. lia.
        * rewrite si_update_R.
          -- cbn [bind]. rewrite app_length. simpl length. do 2 f_equal. lia.
          -- intros z Hz. apply Hseg. rewrite Es. apply in_or_app; auto. }
  destruct HI as (p & rest & Es & FL & ->). cbn [bind].
  assert (Hpn : nonneg p) by (intros z Hz; apply Hnn; rewrite Es; apply in_or_app; auto).
  assert (Hrn : nonneg rest) by (intros z Hz; apply Hnn; rewrite Es; apply in_or_app; auto).
  pose proof FL as (Hp & _).
  destruct (hw_detect_R p rest dc Hdrift Hpn Hrn Hp) as (b & Eb & Bb). fold dc. rewrite Eb. cbn [bind].
  destruct b.
  - eexists. split; [reflexivity|]. right; left. cbn [hw_change hw_warning hw_estimation].
    repeat split; auto. exists p, rest. split; auto. split; auto. apply Bb; auto.
  - destruct (hw_detect_R p rest (wp_warn par) Hwarn Hpn Hrn Hp) as (w & Ew & Bw). rewrite Ew. cbn [bind].
    set (s2 := mkHw _ _ _ _ _ _ _ _ _ _ _ _).
    assert (HD : hw_update_decr par s2 x = Ok (None, si_new, si seg1)).
    { unfold hw_update_decr, ibc, s2, s0. cbn [hw_total hw_decr_cut hw_s2_decr hw_s1_decr].
      rewrite (si_ne seg1 Hne). cbn [si_ibc si_ewma bind]. fold dc lam. rewrite Hb. cbn [bind nsub NumR].
      rewrite H4, H5, H3, si_update_R by auto. cbn [bind]. rewrite <- (si_ne seg1 Hne). reflexivity. }
    rewrite HD. cbn [bind].
    assert (Edecr : (if wp_two_side par then hw_detect (si seg1) si_new dc else Ok false) = Ok false).
    { destruct (wp_two_side par); auto. apply hw_detect_new. simpl. unfold n0; simpl.
      destruct (Rltb (-1) 0) eqn:E; rcase; auto. lra. }
    rewrite Edecr. cbn [bind]. eexists. split; [reflexivity|]. right; right.
    unfold set_estimation, s2, s0.
    cbn [hw_change hw_warning hw_estimation hw_width hw_total hw_s1_decr hw_decr_cut hw_s2_decr hw_incr_cut
         hw_s1_incr hw_s2_incr hw_delay].
    repeat (split; [solve [auto | rewrite H1, Hlen; lia | rewrite (si_ne seg1 Hne); reflexivity]|]).
    exists p, rest. do 6 (split; [solve [auto]|]). split; [|exact Bw].
    intros A. apply Bb in A. discriminate.
Qed.

Lemma hddm_w_inv seg s : since hddm_w_init (hddm_w_add par) hddm_w_reset hw_change seg s -> nonneg seg -> WInv seg s.
Proof.
  assert (P0 : Pre [] hddm_w_init) by (repeat split; auto).
  induction 1 as [|seg s x s' H IH E|seg s H IH]; intros Hnn.
  - left; auto.
  - destruct (hw_change s) eqn:Ec.
    + (* nonneg of the finished segment is not needed: the state is fresh *)
      assert (F : hddm_w_add par s x = hddm_w_add par hddm_w_init x).
      { clear IH Hnn E. inversion H as [|seg0 s0 x0 s1 H0 E0|seg0 s0 H0]; subst; try discriminate.
        unfold hddm_w_add in E0.
        apply bind_Ok in E0. destruct E0 as (total & _ & E0). cbv zeta in E0.
        apply bind_Ok in E0. destruct E0 as ([[[cut s2] s3] delay] & _ & E0).
        apply bind_Ok in E0. destruct E0 as (dr & _ & E0). destruct dr; [inversion E0; subst; reflexivity|].
        apply bind_Ok in E0. destruct E0 as (w & _ & E0).
        apply bind_Ok in E0. destruct E0 as ([[dcut d1] d2] & E1 & E0).
        apply bind_Ok in E0. destruct E0 as (dd & _ & E0). inversion E0; subst. destruct dd; discriminate. }
      rewrite F in E. destruct (hddm_w_step [] hddm_w_init x P0 Hnn) as (s2 & E2 & I2).
      assert (s2 = s') by congruence. subst. exact I2.
    + assert (Hs : nonneg seg) by (intros z Hz; apply Hnn; apply in_or_app; auto).
      specialize (IH Hs).
      assert (P : Pre seg s).
      { destruct IH as [(-> & ->)|[(A & _)|(_ & A1 & A2 & A3 & A4 & A5 & A6 & A7 & p & rest & B)]]; auto.
        - congruence.
        - repeat split; auto. right. exists p, rest. tauto. }
      destruct (hddm_w_step seg s x P Hnn) as (s2 & E2 & I2).
      assert (s2 = s') by congruence. subst. exact I2.
  - left; auto.
Qed.

Lemma hddm_w_never_raises_proof seg s x :
  since hddm_w_init (hddm_w_add par) hddm_w_reset hw_change seg s -> nonneg (seg ++ [x]) ->
  exists s', hddm_w_add par s x = Ok s'.
Proof.
  assert (P0 : Pre [] hddm_w_init) by (repeat split; auto).
  intros H Hnn. assert (Hs : nonneg seg) by (intros z Hz; apply Hnn; apply in_or_app; auto).
  pose proof (hddm_w_inv _ _ H Hs) as I.
  assert (Hx : nonneg [x]) by (intros z Hz; apply Hnn; apply in_or_app; auto).
  destruct I as [(-> & ->)|[(A & _ & _ & _ & F)|(_ & A1 & A2 & A3 & A4 & A5 & A6 & A7 & p & rest & B)]].
  - destruct (hddm_w_step [] hddm_w_init x P0 Hx) as (s2 & E2 & _). eauto.
  - rewrite F. destruct (hddm_w_step [] hddm_w_init x P0 Hx) as (s2 & E2 & _). eauto.
  - destruct (hddm_w_step seg s x) as (s2 & E2 & _); eauto.
    repeat split; auto. right. exists p, rest. tauto.
Qed.

Lemma hddm_w_estimation_proof seg s lo hi :
  since hddm_w_init (hddm_w_add par) hddm_w_reset hw_change seg s ->
  0 <= lo -> (forall x, In x seg -> lo <= x <= hi) -> seg <> [] ->
  (hw_change s = true /\ hw_estimation s = 0)
  \/ (hw_change s = false /\ hw_estimation s = ewma lam seg /\ lo <= hw_estimation s <= hi).
Proof.
  intros H Hlo Hb Hne.
  assert (Hs : nonneg seg) by (intros z Hz; specialize (Hb z Hz); lra).
  destruct (hddm_w_inv _ _ H Hs) as [(-> & ->)|[(A & _ & B & _)|(A & A1 & A2 & A3 & A4 & _)]]; [congruence|auto|].
  right. split; auto. split; auto. rewrite A4. apply ewma_bounds; auto.
Qed.

Lemma hddm_w_rule_proof seg s :
  since hddm_w_init (hddm_w_add par) hddm_w_reset hw_change seg s -> nonneg seg -> seg <> [] ->
  exists p rest, seg = p ++ rest /\ first_low lam dc p seg
    /\ (hw_change s = true <-> rises lam dc p rest)
    /\ (hw_warning s = true <-> ~ rises lam dc p rest /\ rises lam (wp_warn par) p rest).
Proof.
  intros H Hs Hne.
  destruct (hddm_w_inv _ _ H Hs) as [(-> & ->)|[(A & W & B & (p & rest & E & F & R) & _)|
     (A & A1 & A2 & A3 & A4 & A5 & A6 & A7 & p & rest & E & F & _ & _ & _ & _ & NR & W)]]; [congruence| |];
    exists p, rest; split; auto; split; auto; split; try tauto.
  - rewrite W. split; [discriminate|tauto].
  - rewrite A. split; [discriminate|tauto].
Qed.
End Exact.
