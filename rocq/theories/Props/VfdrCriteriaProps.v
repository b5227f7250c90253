(** VeryFastDecisionRulesClassifier: narrowing, kept halves, FOIL gain, drift and disabled attributes. *)
From Coq Require Import List ZArith Bool Lia Reals Lra.
From Verif Require Import Base.Py Base.Num Base.Dict Model.Suggestion Model.Adwin Model.Knn Model.NaiveBayes Model.SplitTests Model.SplitCriteria Model.HoeffdingTree Model.Ddm Model.Vfdr
  Spec.Lists Spec.CriteriaSpec Spec.SplitRuleSpec Spec.VfdrSpec Proofs.ExpertRunProofs Proofs.CriteriaProofs Proofs.SplitRuleProofs Proofs.VfdrProofs Props.VfdrProps Props.HoeffdingMemoryProps.
Import ListNotations.

(** *** C280: a rule that takes up a condition fires less *)
Lemma tightened_effective (ps : list (pred R)) p : effective ps p -> forall key x, (forall q, In q (tightened ps p) -> meets key x q) <-> (forall q, In q ps -> meets key x q) /\ meets key x p.
Proof.
  intros He key x. induction ps as [|q ps IH]; cbn [tightened].
  - split; [intros H; split; [intros q []|apply H; now left]|intros [_ H] q [<-|[]]; auto].
  - assert (He' : effective ps p) by (destruct p; cbn in *; auto; intros q' Hq; apply He; now right). specialize (IH He'). destruct (same_kind q p) eqn:Es.
    + assert (Q : meets key x (stricter q p) <-> meets key x q /\ meets key x p).
      { destruct q as [a v|a v|a z|a z], p as [a' v'|a' v'|a' z'|a' z']; cbn [same_kind] in Es; try discriminate; apply Z.eqb_eq in Es; subst a'; cbn [stricter meets].
        - change (@nltb R NumR) with Rltb. change (@nleb R NumR) with Rleb. split.
          + intros (u & E & H). split; exists u; (split; [auto|]); destruct (Rltb v' v) eqn:El; apply Rleb_true; apply Rleb_true in H; [apply Rltb_true in El|apply Rltb_false in El| |apply Rltb_false in El]; lra.
          + intros [(u & E & H) (u' & E' & H')]. rewrite E in E'. injection E' as <-. exists u. split; auto. destruct (Rltb v' v); auto.
        - change (@nltb R NumR) with Rltb. split.
          + intros (u & E & H). split; exists u; (split; [auto|]); destruct (Rltb v v') eqn:El; apply Rltb_true; apply Rltb_true in H; [apply Rltb_true in El|apply Rltb_false in El| |apply Rltb_false in El]; lra.
          + intros [(u & E & H) (u' & E' & H')]. rewrite E in E'. injection E' as <-. exists u. split; auto. destruct (Rltb v v'); auto.
        - exfalso. cbn [effective] in He. specialize (He (PEq a z) (or_introl eq_refl)). cbn in He. now rewrite Z.eqb_refl in He.
        - exfalso. cbn [effective] in He. specialize (He (PNe a z) (or_introl eq_refl)). cbn in He. now rewrite Z.eqb_refl in He. }
      split.
      * intros H. assert (S1 : meets key x (stricter q p)) by (apply H; now left). apply Q in S1 as [A B]. split; auto. intros q' [<-|Hq]; auto. apply H. now right.
      * intros [H B] q' [<-|Hq]; [apply Q; split; auto; apply H; now left|apply H; now right].
    + split.
      * intros H. assert (H1 : forall q0, In q0 (tightened ps p) -> meets key x q0) by (intros q0 H0; apply H; now right). apply IH in H1 as [A B]. split; auto. intros q' [<-|Hq]; auto. apply H. now left.
      * intros [H B] q' [<-|Hq]; [apply H; now left|]. revert q' Hq. apply IH. split; auto. intros q' Hq. apply H. now right.
Qed.
(** A rule that takes up a condition fires on the samples it fired on that meet the condition: exactly those, unless the condition is an = or !=
    on an attribute that has one already, when it fires as before. *)
Theorem vfdr_narrows : forall D (r r' : rule R D) p key x, r_preds r' = tightened (r_preds r) p ->
  (effective (r_preds r) p -> (fires key r' x <-> fires key r x /\ meets key x p)) /\ (~ effective (r_preds r) p -> (fires key r' x <-> fires key r x)) /\ (fires key r' x -> fires key r x).
Proof.
  intros D r r' p key x E. unfold fires. rewrite E.
  assert (Ne : ~ effective (r_preds r) p -> tightened (r_preds r) p = r_preds r).
  { generalize (r_preds r). clear. intros ps. destruct p; cbn [effective]; try tauto; intros H;
    (induction ps as [|q ps IH]; [exfalso; apply H; intros q []|]); cbn [tightened]; destruct q; cbn [same_kind stricter] in *; try (f_equal; apply IH; intros C; apply H; intros q' [<-|Hq]; auto);
      (destruct (Z.eqb_spec att0 att) as [->|N]; [reflexivity|f_equal; apply IH; intros C; apply H; intros q' [<-|Hq]; [cbn; now apply Z.eqb_neq|auto]]). }
  split; [intros He; now apply tightened_effective|]. split; [intros He; now rewrite (Ne He)|].
  destruct p as [a v|a v|a z|a z].
  - intros H. now apply tightened_effective in H.
  - intros H. now apply tightened_effective in H.
  - destruct (existsb (fun q => same_kind q (PEq a z)) (r_preds r)) eqn:Ex.
    + rewrite Ne; auto. intros C. apply existsb_exists in Ex as (q & I & S). rewrite (C q I) in S. discriminate.
    + intros H. assert (He : effective (r_preds r) (PEq a z)) by (intros q I; destruct (same_kind q (PEq a z)) eqn:S; auto; exfalso; assert (existsb (fun q => same_kind q (PEq a z)) (r_preds r) = true) by (apply existsb_exists; eauto); congruence).
      now apply tightened_effective in H.
  - destruct (existsb (fun q => same_kind q (PNe a z)) (r_preds r)) eqn:Ex.
    + rewrite Ne; auto. intros C. apply existsb_exists in Ex as (q & I & S). rewrite (C q I) in S. discriminate.
    + intros H. assert (He : effective (r_preds r) (PNe a z)) by (intros q I; destruct (same_kind q (PNe a z)) eqn:S; auto; exfalso; assert (existsb (fun q => same_kind q (PNe a z)) (r_preds r) = true) by (apply existsb_exists; eauto); congruence).
      now apply tightened_effective in H.
Qed.

(** *** C281: which half a rule keeps (information gain) *)
(** The first split a criterion is asked about: the half of smaller entropy, the first one when they are equal. *)
Theorem vfdr_first_side : forall D (cfg : vfdr_config R D) pre a b g m, v_criterion cfg = InfoGain -> distribution a -> distribution b -> (0 < weight a)%R -> (0 < weight b)%R ->
  rule_merit cfg cm_new pre a b = Ok (Some g, m) -> (cm_best m = true <-> (entropy a <= entropy b)%R).
Proof.
  intros D cfg pre a b g m Ec Da Db Wa Wb H. unfold rule_merit in H. rewrite Ec in H. unfold ig_rule_merit in H. apply bind_Ok in H as (n & _ & H). destruct (Nat.ltb n 2); [discriminate|]. apply bind_Ok in H as (e & _ & H). injection H as _ <-.
  rewrite !entropy_dict_ok by auto. destruct (Req_EM_T (weight a) 0); [lra|]. destruct (Req_EM_T (weight b) 0); [lra|]. unfold cm_new, ig_note at 2. cbn [cm_lowest cm_class]. unfold ig_note. cbn [cm_lowest]. change (@nltb R NumR) with Rltb.
  destruct (Rltb (entropy b) (entropy a)) eqn:E; cbn [cm_best]; [apply Rltb_true in E|apply Rltb_false in E]; split; try discriminate; auto; lra.
Qed.
(** Any later split of the same round: unless one of the halves is purer than all halves before, the side is that of an earlier split. *)
Theorem vfdr_later_side : forall {T D} {N : Num T} (cfg : vfdr_config T D) m pre a b g m' l, v_criterion cfg = InfoGain -> cm_lowest m = Some l ->
  (entropy_dict a <? l)%num = false -> (entropy_dict b <? l)%num = false -> rule_merit cfg m pre a b = Ok (g, m') -> cm_best m' = cm_best m.
Proof.
  intros T D N cfg m pre a b g m' l Ec El Ha Hb H. unfold rule_merit in H. rewrite Ec in H. unfold ig_rule_merit in H. apply bind_Ok in H as (n & _ & H). destruct (Nat.ltb n 2); [injection H as _ <-; auto|]. apply bind_Ok in H as (e & _ & H). injection H as _ <-.
  unfold ig_note at 2. rewrite El, Ha. unfold ig_note. rewrite El, Hb. reflexivity.
Qed.

(** *** C282: FOIL gain *)
Lemma log2_R x : log2 (x : R) = (ln x / ln 2)%R. Proof. reflexivity. Qed.
Lemma log2_mono x y : (0 < x)%R -> (x <= y)%R -> (log2 (x : R) <= log2 (y : R))%R.
Proof. intros Hx Hy. rewrite !log2_R. pose proof ln2_pos. unfold Rdiv. apply Rmult_le_compat_r; [left; now apply Rinv_0_lt_compat|]. destruct (Req_dec x y) as [->|]; [lra|]. left. apply ln_increasing; lra. Qed.
Lemma foil_log_R d c v : dget d c = Some v -> (0 < v)%R -> (0 < weight d)%R -> foil_log d c = Ok (Some (log2 (v / weight d)%R)).
Proof.
  intros E Hv Hw. unfold foil_log, pydiv. rewrite E, vsum_weight. cbn [neqb NumR ndiv]. unfold n0. cbn [nofZ NumR]. assert (Q : Reqb (weight d) 0 = false) by (apply Reqb_false; lra). rewrite Q. cbn [bind].
  assert (P : (0 < v / weight d)%R) by (apply Rdiv_lt_0_compat; auto). assert (Q2 : Reqb (v / weight d) 0 = false) by (apply Reqb_false; lra). rewrite Q2. reflexivity.
Qed.
(** The gain of a label is measured with the worse of the two halves: when both contain the label, no split has a gain above zero. *)
Theorem vfdr_foil_gain_refuted : forall m pre a b g m' va vb, distribution a -> distribution b -> distribution pre -> split_of pre [a; b] ->
  dget a (cm_class m) = Some va -> dget b (cm_class m) = Some vb -> (0 < va)%R -> (0 < vb)%R -> foil_merit m pre a b = Ok (Some g, m') ->
  (g <= 0)%R /\ ((va / weight a)%R <> (vb / weight b)%R -> (g < 0)%R).
Proof.
  intros m pre a b g m' va vb Da Db Dp Sp Ea Eb Pa Pb H.
  assert (Wa : (va <= weight a)%R) by (pose proof (class_le_weight a (cm_class m) Da) as Q; unfold class_weight in Q; now rewrite Ea in Q).
  assert (Wb : (vb <= weight b)%R) by (pose proof (class_le_weight b (cm_class m) Db) as Q; unfold class_weight in Q; now rewrite Eb in Q).
  assert (Cp : class_weight pre (cm_class m) = (va + vb)%R) by (rewrite (Sp (cm_class m)); cbn; unfold class_weight; rewrite Ea, Eb; lra).
  assert (Wp : weight pre = (weight a + weight b)%R) by (rewrite (split_weight pre [a; b]); auto; cbn; lra).
  assert (Ep : dget pre (cm_class m) = Some (va + vb)%R) by (unfold class_weight in Cp; destruct (dget pre (cm_class m)); [congruence|lra]).
  unfold foil_merit in H. apply bind_Ok in H as (n & _ & H). destruct (Nat.ltb n 2); [discriminate|]. rewrite (foil_log_R a _ va), (foil_log_R b _ vb), (foil_log_R pre _ (va + vb)) in H by (auto; lra). cbn [bind] in H.
  cbn [oge cm_class] in H. change (@nleb R NumR) with Rleb in H. rewrite Wp in H.
  set (ra := (va / weight a)%R) in *. set (rb := (vb / weight b)%R) in *. set (rp := ((va + vb) / (weight a + weight b))%R) in *.
  assert (Ra : (0 < ra)%R) by (apply Rdiv_lt_0_compat; lra). assert (Rb : (0 < rb)%R) by (apply Rdiv_lt_0_compat; lra).
  assert (Va : va = (ra * weight a)%R) by (unfold ra; field; lra). assert (Vb : vb = (rb * weight b)%R) by (unfold rb; field; lra). assert (Vp : (va + vb)%R = (rp * (weight a + weight b))%R) by (unfold rp; field; lra).
  assert (Low : forall r, (0 < r)%R -> (r <= ra)%R -> (r <= rb)%R -> (r <= rp)%R /\ (ra <> rb -> (r < rp)%R)).
  { intros r Hr Hra Hrb. assert (X : (rp * (weight a + weight b) = ra * weight a + rb * weight b)%R) by lra. assert (0 < weight a)%R by lra. assert (0 < weight b)%R by lra. split.
    - apply Rmult_le_reg_r with (weight a + weight b)%R; [lra|]. rewrite X. nra.
    - intros Nab. apply Rmult_lt_reg_r with (weight a + weight b)%R; [lra|]. rewrite X. destruct (Rlt_dec ra rb); nra. }
  assert (Fin : forall r v, (0 < v)%R -> (0 < r)%R -> (r <= ra)%R -> (r <= rb)%R -> g = (v * (log2 (r : R) - log2 (rp : R)))%R -> (g <= 0)%R /\ (ra <> rb -> (g < 0)%R)).
  { intros r v Hv Hr H1 H2 ->. destruct (Low r Hr H1 H2) as [L1 L2]. pose proof (log2_mono r rp Hr L1). split; [nra|]. intros Nab. specialize (L2 Nab).
    assert (log2 (r : R) < log2 (rp : R))%R by (rewrite !log2_R; pose proof ln2_pos; unfold Rdiv; apply Rmult_lt_compat_r; [now apply Rinv_0_lt_compat|]; apply ln_increasing; lra). nra. }
  destruct (Rleb (log2 (rb : R)) (log2 (ra : R))) eqn:El; cbn [cm_class] in H.
  - rewrite Ea in H. injection H as H _. cbn [nmul nsub NumR] in H. apply Rleb_true in El. assert (rb <= ra)%R by (destruct (Rle_dec rb ra); auto; exfalso; assert (log2 (ra : R) < log2 (rb : R))%R by (rewrite !log2_R; pose proof ln2_pos; unfold Rdiv; apply Rmult_lt_compat_r; [now apply Rinv_0_lt_compat|]; apply ln_increasing; lra); lra).
    apply (Fin rb va); auto; lra.
  - rewrite Eb in H. injection H as H _. cbn [nmul nsub NumR] in H. apply Rleb_false in El. assert (ra <= rb)%R by (destruct (Rle_dec ra rb); auto; exfalso; pose proof (log2_mono rb ra Rb ltac:(lra)); lra).
    apply (Fin ra vb); auto; lra.
Qed.
(** A half that lacks the label counts as the better one when the other half is mixed: the gain is zero, hence no smaller than that of any split
    with the label on both sides, and the condition kept is that of the half without the label. *)
Theorem vfdr_foil_side_refuted : forall m pre a b g m' vb, distribution b -> dget a (cm_class m) = None -> dget b (cm_class m) = Some vb -> (0 < vb)%R -> (vb < weight b)%R ->
  foil_merit m pre a b = Ok (Some g, m') -> g = 0%R /\ cm_best m' = true.
Proof.
  intros m pre a b g m' vb Db Ea Eb Pb Wb H. unfold foil_merit in H. apply bind_Ok in H as (n & _ & H). destruct (Nat.ltb n 2); [discriminate|].
  assert (La : foil_log a (cm_class m) = Ok (Some 0%R)) by (unfold foil_log; rewrite Ea; reflexivity). rewrite La, (foil_log_R b _ vb) in H by (auto; lra). cbn [bind] in H. apply bind_Ok in H as (p & _ & H).
  cbn [oge cm_class] in H. change (@nleb R NumR) with Rleb in H. assert (Lg : (log2 (vb / weight b)%R < 0)%R).
  { assert (vb / weight b < 1)%R by (apply Rmult_lt_reg_r with (weight b); [lra|]; unfold Rdiv; rewrite Rmult_assoc, Rinv_l by lra; lra). assert (0 < vb / weight b)%R by (apply Rdiv_lt_0_compat; lra).
    rewrite log2_R. pose proof ln2_pos. assert (ln (vb / weight b) < 0)%R by (rewrite <- ln_1; apply ln_increasing; lra). unfold Rdiv at 1. apply Rmult_lt_reg_r with (ln 2)%R; auto. rewrite Rmult_assoc, Rinv_l by lra. lra. }
  assert (El : Rleb (log2 (vb / weight b)%R) 0 = true) by (apply Rleb_true; lra). rewrite El in H. cbn [cm_class] in H. rewrite Ea in H. injection H as <- <-. split; reflexivity.
Qed.

(** *** C283: drift detection *)
Section Drift.
Context {T D : Type} {N : Num T}.
Variables (k : T) (phi : T -> T) (key : T -> Z) (order : list Z -> list Z).
Variables (det_add : D -> T -> res D) (det_change : D -> bool).
Variable cfg : vfdr_config T D.
(** The detector of a rule that fires is told 1 when the majority label of the rule is the true one and 0 when it is not: the opposite of what the
    detectors expect.  A rule is removed when its detector then signals a change and it has seen more than min_weight. *)
Theorem vfdr_drift_input_refuted : forall (r : rule T D) x y w o new d0, ordered T -> v_detector cfg = Some d0 -> fit_rule k phi key order det_add det_change cfg r x y w = Ok (o, new) ->
  exists d d' c, r_det r = Some d /\ majority (r_dist r) c /\ det_add d (if (c =? y)%Z then n1 else n0) = Ok d'
  /\ (o = None <-> det_change d' = true /\ (v_min_weight cfg <? vsum (r_dist r))%num = true).
Proof.
  intros r x y w o new d0 Ho Ed H. unfold fit_rule in H. rewrite Ed in H. apply bind_Ok in H as ([r1 gone] & E & H). apply bind_Ok in E as (p & Ep & E). destruct (r_det r) as [d|]; [|discriminate]. apply bind_Ok in E as (d' & Ea & E). injection E as <- <-.
  unfold r_correct in Ep. apply bind_Ok in Ep as (c & Ec & Ep). injection Ep as <-. exists d, d', c. split; auto. split.
  { destruct (r_dist r) as [|kv dd]; [injection Ec as <-; left; auto|]. now apply max_key_majority. }
  split; auto. unfold r_weight in H. destruct (det_change d' && (v_min_weight cfg <? vsum (r_dist r))%num) eqn:G.
  - injection H as <- _. apply andb_true_iff in G. tauto.
  - apply bind_Ok in H as (r2 & _ & H). split; [|intros [A B]; rewrite A, B in G; discriminate]. intros ->. destruct (v_grace cfg <=? _)%num; [apply bind_Ok in H as ([? ?] & _ & H)|]; discriminate.
Qed.
(** A sample on which the only rule that fires is removed teaches no rule, and not the default rule either. *)
Theorem vfdr_removal_loses_sample_refuted : forall s x y w r pre post, v_rules s = pre ++ r :: post ->
  (forall q, In q pre -> r_covers key q x = Ok false) -> (forall q, In q post -> r_covers key q x = Ok false) -> r_covers key r x = Ok true ->
  fit_rule k phi key order det_add det_change cfg r x y w = Ok (None, []) ->
  vfdr_one k phi key order det_add det_change cfg s x y w = Ok (mk_v (pre ++ post) (v_default s) (v_classes s)).
Proof.
  intros s x y w r pre post E Hpre Hpost Hr Hf. unfold vfdr_one. rewrite E.
  assert (Q : forall l sk, (forall q, In q l -> r_covers key q x = Ok false) -> fit_rules k phi key order det_add det_change cfg l sk x y w = Ok (l, [], false)).
  { induction l as [|q l IH]; intros sk Hl; [reflexivity|]. cbn [fit_rules]. assert (IH' : forall sk, fit_rules k phi key order det_add det_change cfg l sk x y w = Ok (l, [], false)) by (intros sk'; apply IH; intros q' Hq; apply Hl; now right).
    destruct sk; [now rewrite IH'|]. rewrite (Hl q (or_introl eq_refl)). cbn [bind]. now rewrite IH'. }
  assert (Q2 : fit_rules k phi key order det_add det_change cfg (pre ++ r :: post) false x y w = Ok (pre ++ post, [], true)).
  { clear E. induction pre as [|q pre IH]; cbn [app fit_rules].
    - rewrite Hr. cbn [bind]. rewrite Hf. cbn [bind]. rewrite Q by auto. reflexivity.
    - rewrite (Hpre q (or_introl eq_refl)). cbn [bind]. rewrite IH by (intros q' Hq; apply Hpre; now right). reflexivity. }
  rewrite Q2. cbn [bind]. now rewrite app_nil_r.
Qed.
(** An unordered set: the rule behind a removed rule is passed over, whether it fires or not. *)
Theorem vfdr_removal_skips_refuted : forall r q post x y w rs f, r_covers key r x = Ok true ->
  fit_rule k phi key order det_add det_change cfg r x y w = Ok (None, []) -> fit_rules k phi key order det_add det_change cfg (r :: q :: post) false x y w = Ok (rs, [], f) ->
  exists rest, rs = q :: rest /\ f = true.
Proof.
  intros r q post x y w rs f Hr Hf H. cbn [fit_rules] in H. rewrite Hr in H. cbn [bind] in H. rewrite Hf in H. cbn [bind] in H.
  destruct (fit_rules k phi key order det_add det_change cfg post false x y w) as [[[rest nw] f1]|]; [|discriminate]. cbn [bind] in H. injection H as <- _ <-. exists rest. auto.
Qed.
(** A disabled attribute has probability 0 for every label: the Naive Bayes votes of the rule are zero. *)
Lemma nb_zero (x : list T) obs c : forall i v u, (forall a : T, (a * n0)%num = n0) -> (forall a : T, (n0 * a)%num = n0) -> (n0 =? n0)%num = true ->
  (exists j, (i <= j < i + Z.of_nat (length x))%Z /\ dget obs j = Some CNull) \/ v = n0 -> nb_attributes k key obs i x c v = Ok u -> u = n0.
Proof.
  induction x as [|a x IH]; intros i v u H1 H2 H3 H4 H; cbn [nb_attributes] in H.
  - injection H as <-. destruct H4 as [(j & L & _)|]; auto. cbn in L. lia.
  - destruct (dget obs i) as [o|] eqn:Eo.
    + apply bind_Ok in H as (p & Ep & H). cbv zeta in H. refine (IH _ _ _ H1 H2 H3 _ H). destruct H4 as [(j & L & Ej)| ->].
      * destruct (Z.eq_dec j i) as [->|Nj]; [right|left; exists j; split; auto; cbn [length] in L; lia]. rewrite Eo in Ej. injection Ej as ->. cbn [co_prob] in Ep. injection Ep as <-. rewrite H1, H3. reflexivity.
      * right. rewrite H2, H3. reflexivity.
    + refine (IH _ _ _ H1 H2 H3 _ H). destruct H4 as [(j & L & Ej)| ->]; auto. left. exists j. split; auto. destruct (Z.eq_dec j i) as [->|Nj]; [congruence|cbn [length] in L; lia].
Qed.
Theorem vfdr_disabled_votes_refuted : forall (r : rule T D) a x v, (forall b : T, (b * n0)%num = n0) -> (forall b : T, (n0 * b)%num = n0) -> (n0 =? n0)%num = true ->
  In a (dkeys (r_obs r)) -> (0 <= a < Z.of_nat (length x))%Z -> (vsum (r_dist r) =? n0)%num = false -> v_nb cfg = true -> (v_nb_threshold cfg <=? vsum (r_dist r))%num = true ->
  r_votes k key cfg (r_disable r a) x = Ok v -> forall c u, In (c, u) v -> u = n0.
Proof.
  intros r a x v H1 H2 H3 Ia La Hs Hn Ht H c u Hin. unfold r_disable in H. apply dmem_true in Ia. rewrite Ia in H. unfold r_votes, r_weight in H. cbn [r_dist r_obs] in H. rewrite Hn, Ht in H. cbn [andb] in H. unfold nb_votes in H.
  destruct (r_dist r) as [|kv d] eqn:Ed; cbn [orb] in H; [injection H as <-; destruct Hin as [[= _ <-]|[]]; auto|]. rewrite <- Ed in *. rewrite Hs in H. apply (HoeffdingProofs.mapM_in _ _ _ H) in Hin as ((c' & w') & _ & E).
  apply bind_Ok in E as (u' & E & E'). injection E' as <- ->. refine (nb_zero _ _ _ _ _ _ H1 H2 H3 _ E). left. exists a. split; [lia|]. rewrite dget_dset. now rewrite Z.eqb_refl.
Qed.
End Drift.
(** DDM, told of zeros only, never signals a change: with its default detector a rule whose majority label is always wrong stays. *)
Inductive told_zeros (par : ddm_par R) : ddm R -> Prop :=
| Zeros0 : told_zeros par ddm_init
| ZerosS d d' : told_zeros par d -> ddm_add par d 0%R = Ok d' -> told_zeros par d'.
Lemma zeros_quiet par d : told_zeros par d -> dd_change d = false /\ (1 <= dd_count d)%Z /\ ((dd_count d = 1%Z /\ dd_prob d = 1%R /\ dd_psmin d = None /\ dd_pmin d = None /\ dd_smin d = None)
   \/ ((dd_count d > 1)%Z /\ dd_prob d = 0%R /\ ((dd_psmin d = None /\ dd_pmin d = None /\ dd_smin d = None) \/ (dd_psmin d = Some 0 /\ dd_pmin d = Some 0 /\ dd_smin d = Some 0)%R))).
Proof.
  induction 1 as [|d d' Hd (C & L & S) Ha]; [cbn; split; auto; split; [lia|]; left; auto 6|].
  unfold ddm_add in Ha. rewrite C in Ha. unfold pydiv in Ha. cbn [neqb NumR ndiv nsub nmul nadd nofZ n0 n1] in Ha. unfold n0, n1 in Ha. cbn [nofZ NumR] in Ha.
  assert (Nz : Reqb (IZR (dd_count d)) 0 = false) by (apply Reqb_false; apply not_0_IZR; lia). rewrite Nz in Ha. cbn [bind] in Ha.
  assert (P0 : (dd_prob d + (0 - dd_prob d) / IZR (dd_count d) = 0)%R).
  { destruct S as [(E1 & E2 & _)|(_ & E2 & _)]; rewrite E2; [rewrite E1; field|]. field. apply not_0_IZR. lia. }
  rewrite P0 in Ha. assert (Q0 : (0 * (1 - 0) / IZR (dd_count d) = 0)%R) by (field; apply not_0_IZR; lia). rewrite Q0 in Ha. cbn [nsqrt NumR] in Ha. rewrite sqrt_0, Rplus_0_r in Ha.
  assert (Mins : (dd_psmin d = None /\ dd_pmin d = None /\ dd_smin d = None) \/ (dd_psmin d = Some 0 /\ dd_pmin d = Some 0 /\ dd_smin d = Some 0)%R) by (destruct S as [(_ & _ & A & B & F)|(_ & _ & A)]; auto).
  destruct (dd_count d + 1 <? dp_min_instances par)%Z.
  - injection Ha as <-. cbn. split; auto. split; [lia|]. right. split; [lia|]. split; auto.
  - assert (Le : le_inf 0%R (dd_psmin d) = true) by (destruct Mins as [(-> & _)|(-> & _)]; cbn; [now apply Reqb_true|apply Rleb_true; lra]). rewrite Le in Ha. unfold ddm_above in Ha. cbn [nltb NumR nadd nmul] in Ha.
    assert (Ab : forall lv, Rltb (0 + lv * 0) 0 = false) by (intros lv; apply Rltb_false; lra). rewrite !Ab in Ha. injection Ha as <-. cbn. split; auto. split; [lia|]. right. split; [lia|]. split; auto.
Qed.
Theorem vfdr_wrong_rule_stays_refuted : forall k phi key order par (cfg : vfdr_config R (ddm R)) (r : rule R (ddm R)) x y w o new d d0, v_detector cfg = Some d0 -> r_det r = Some d -> told_zeros par d -> ~ majority (r_dist r) y ->
  fit_rule k phi key order (ddm_add par) (@dd_change R) cfg r x y w = Ok (o, new) -> exists r' d', o = Some r' /\ r_det r' = Some d' /\ told_zeros par d'.
Proof.
  intros k phi key order par cfg r x y w o new d d0 Ev Ed Hz Hm H. unfold fit_rule in H. rewrite Ev in H. apply bind_Ok in H as ([r1 gone] & E & H). apply bind_Ok in E as (p & Ep & E). rewrite Ed in E. apply bind_Ok in E as (d' & Ea & E). injection E as <- <-.
  unfold r_correct in Ep. apply bind_Ok in Ep as (c & Ec & Ep). injection Ep as <-.
  assert (Mc : majority (r_dist r) c) by (destruct (r_dist r) as [|kv dd]; [injection Ec as <-; left; auto|]; apply max_key_majority; auto; apply ordered_R).
  destruct (Z.eqb_spec c y) as [->|Nc]; [contradiction|]. unfold n0 in Ea. cbn [nofZ NumR] in Ea. assert (Hz' : told_zeros par d') by (eapply ZerosS; eauto). destruct (zeros_quiet _ _ Hz') as [Q _]. rewrite Q in H. cbn [andb] in H.
  apply bind_Ok in H as (r2 & El & H). apply r_learn_learned in El as (_ & _ & _ & _ & _ & E2). cbn [r_det] in E2. destruct (v_grace cfg <=? _)%num.
  - apply bind_Ok in H as ([r3 n3] & E3 & H). injection H as <- _. exists (mark r3), d'. split; auto. split; auto. unfold mark. cbn [r_det]. rewrite <- E2. clear - E3. unfold expand_rule in E3. destruct (Nat.ltb _ 2); [injection E3 as <- _; auto|].
    apply bind_Ok in E3 as ([r1 dd] & E & H). assert (K : r_det r1 = r_det r2).
    { unfold consult in E. apply bind_Ok in E as ([bs m] & _ & E). cbv zeta in E. apply bind_Ok in E as ([v b] & _ & E). injection E as <- _. destruct (rev _); auto. destruct b as [b|]; auto. destruct (v_poor cfg); auto. apply (disable_keeps (poor_of s b (by_merit bs)) r2). }
    destruct dd as [s|]; [|injection H as <- _; auto]. destruct (r_expand r1 s) as [r4 ad] eqn:Er. apply bind_Ok in H as (nw & _ & H). injection H as <- _. pose proof (r_expand_obs r1 s) as (_ & _ & Q & _). rewrite Er in Q. cbn in Q. congruence.
  - injection H as <- _. exists r2, d'. auto.
Qed.

Print Assumptions vfdr_narrows.
Print Assumptions vfdr_first_side.
Print Assumptions vfdr_later_side.
Print Assumptions vfdr_foil_gain_refuted.
Print Assumptions vfdr_foil_side_refuted.
Print Assumptions vfdr_drift_input_refuted.
Print Assumptions vfdr_removal_loses_sample_refuted.
Print Assumptions vfdr_removal_skips_refuted.
Print Assumptions vfdr_disabled_votes_refuted.
Print Assumptions vfdr_wrong_rule_stays_refuted.
