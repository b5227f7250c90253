(** Online boosting and bagging for imbalanced streams: OnlineBoostingClassifier, OnlineAdaC2Classifier, OnlineCSB2Classifier,
    OnlineRUSBoostClassifier, OnlineUnderOverBaggingClassifier and OnlineSMOTEBaggingClassifier.  [L] is any base estimator,
    [base] the object given by the user, [P] any change detector, [pois], [randint], [rand] any source of random numbers; the
    theorems about all six quantify over the algorithm [A]. *)
From Coq Require Import List ZArith QArith Bool Reals Lra Lia.
From Verif Require Import Base.Py Base.Num Spec.Lists Spec.NaiveBayesSpec Spec.BaggingSpec Spec.OnlineSpec Model.Adwin Model.Knn
  Model.Learner Model.Bagging Model.OnlineEnsembles Proofs.ListFacts Proofs.KnnProofs Proofs.NaiveBayesProofs Proofs.BaggingProofs Proofs.OnlineProofs Proofs.OnlineAlgoProofs Props.BaggingProps.
Import ListNotations.
Local Open Scope R_scope.

(** ** All six *)
(** C152: the classes contract, and the number of members. *)
Theorem online_classes_contract : forall {X T B G D St E} {N : Num T} (L : learner X T B) (P : edet T D) (A : algo X T B G St E) base n drift seed (s : ons B G D St E) rows classes sw,
  on_reached L P A base n drift seed s ->
  let contract := match on_classes s, classes with None, None => False | Some c, Some c' => same_labels c c' | _, _ => True end in
  (~ contract -> on_fit L P A base n drift seed s rows classes sw = Raise ValueError) /\
  (forall s', on_fit L P A base n drift seed s rows classes sw = Ok s' -> contract /\ exists cl, on_classes s' = Some cl /\
     cl = match on_classes s, classes with Some c, _ => c | None, Some c => c | None, None => [] end /\
     length (on_ens s') = Nat.max n (length cl) /\ length (on_stats s') = length (on_ens s')) /\
  (contract -> rows = [] -> exists s', on_fit L P A base n drift seed s rows classes sw = Ok s').
Proof.
  intros X T B G D St E N L P A base n drift seed s rows classes sw R contract. subst contract.
  destruct (on_reached_inv L P A base n drift seed (fun _ => True) (fun _ => True) (fun _ => True) Logic.I (conj Logic.I Logic.I) Logic.I ltac:(auto) s R) as [Hs Hi].
  assert (Ec : on_classes (if on_ready s then s else on_reset L P A base n seed s) = on_classes s) by (destruct (on_ready s); reflexivity).
  split; [|split].
  - intros C. unfold on_fit, check_classes. cbv zeta. rewrite Ec. destruct (on_classes s) as [c|], classes as [c'|]; try (exfalso; tauto); [|reflexivity].
    destruct (same_set c c') eqn:E1; [apply same_set_ok in E1; contradiction|reflexivity].
  - intros s' H. apply (on_fit_inv L P A base n drift seed (fun _ => True) (fun _ => True) (fun _ => True) Logic.I (conj Logic.I Logic.I) Logic.I ltac:(auto)) in H as (_ & (H1 & _) & cl & H2 & H3 & H4); auto.
    apply check_classes_ok in H3. destruct (on_classes s) as [c|], classes as [c'|]; try discriminate.
    + destruct H3 as [-> H3]. split; [exact H3|]. exists c. auto.
    + destruct H3 as [-> H3]. split; [exact H3|]. exists c. auto.
    + injection H3 as ->. split; auto. exists cl. auto.
  - intros C ->. destruct (check_classes (on_classes s) classes) as [cl|e] eqn:E1; [exists (fit_start L P A base n seed s cl); now rewrite (on_fit_start L P A base n drift seed s [] classes sw cl E1)|].
    exfalso. unfold check_classes in E1. destruct (on_classes s) as [c|], classes as [c'|]; try discriminate; [|contradiction]. destruct (same_set c c') eqn:E2; [discriminate|]. apply same_set_ok in C. congruence.
Qed.
Print Assumptions online_classes_contract.

(** C153, refuted: reset keeps the classes, so that the classes of another problem are refused which a new object takes. *)
Theorem online_reset_refuted : forall {X T B G D St E} {N : Num T} (L : learner X T B) (P : edet T D) (A : algo X T B G St E) base n drift seed (s : ons B G D St E) c c' rows sw,
  on_classes s = Some c -> ~ same_labels c c' ->
  on_fit L P A base n drift seed (on_reset L P A base n seed s) rows (Some c') sw = Raise ValueError /\
  exists s', on_fit L P A base n drift seed (on_new A seed) [] (Some c') sw = Ok s'.
Proof.
  intros X T B G D St E N L P A base n drift seed s c c' rows sw Ec NS. split.
  - unfold on_fit. cbv zeta. cbn [on_reset on_ready on_classes]. rewrite Ec. cbn [check_classes]. destruct (same_set c c') eqn:E1; [apply same_set_ok in E1; contradiction|reflexivity].
  - eexists. rewrite (on_fit_start L P A base n drift seed (on_new A seed) [] (Some c') sw c' eq_refl). reflexivity.
Qed.
Print Assumptions online_reset_refuted.

(** C162: drift detection.  After the members learned the row, every member predicts the whole batch and its ADWIN gets a mark
    for each of its rows (1 for a right label).  Then either nothing else happens, or a member whose estimate (so: of accuracy)
    is the greatest is reset - refuting "the worst classifier is reset". *)
Theorem online_drift_refuted : forall {X B G D St E} (L : learner X R B) (P : edet R D) (A : algo X R B G St E) rows classes sw (s : ons B G D St E) row s',
  length (on_stats s) = length (on_ens s) -> on_row L P A true rows classes sw s row = Ok s' ->
  exists after, length after = length (on_ens s) /\
    (forall i m, nth_error (on_ens s) i = Some m -> exists b m', nth_error after i = Some m' /\
       (exists lam st e g b' st' e' lam' g', al_step A classes sw i (length (on_ens s)) lam row (fst m) st e g = Ok (b', st', e', lam', g') /\ b = b') /\
       ((exists rose, watched L P Z.eqb 0 b rows classes sw (b, snd m) m' rose) \/ (m' = (b, snd m) /\ lr_predict L b (map fst rows) = Raise ValueError))) /\
    (on_ens s' = after \/
     exists i m, nth_error after i = Some m /\ (forall m', In m' after -> e_est P (snd m') <= e_est P (snd m)) /\ replaced L P i after (on_ens s')).
Proof.
  intros X B G D St E L P A rows classes sw s row s' Hl H. unfold on_row in H. apply bind_Ok in H as ([[[[ens sts] e] g] ch] & E1 & H). injection H as <-. cbn [on_ens].
  destruct (on_members_ok L P A true _ _ _ _ _ _ _ _ _ _ _ _ _ _ _ _ _ (eq_sym Hl) E1) as (L1 & L2 & lams & es & gs & _ & _ & _ & _ & _ & Q). exists ens. split; auto. split.
  - intros i m Hi. destruct (nth_error (on_stats s) i) as [st|] eqn:Et; [|apply nth_error_None in Et; assert (i < length (on_ens s))%nat by (apply nth_error_Some; congruence); lia].
    destruct (Q i m st Hi Et) as (b & st' & bd' & _ & Q2 & Q3 & Q4). exists b, bd'. split; auto. split; [do 9 eexists; split; [exact Q3|reflexivity]|]. destruct Q4 as [[C _]|[_ Q4]]; [discriminate|exact Q4].
  - destruct ch; cbn [andb]; auto. destruct (Forall_Exists_dec (fun m : B * D => e_est P (snd m) <= 0) (fun m => match Rle_dec (e_est P (snd m)) 0 with left h => left h | right h => right h end) ens) as [F|F].
    + left. apply reset_max_none. now apply Forall_forall.
    + right. apply reset_max_ok. apply Exists_exists in F as (m & Hm & Hn). exists m. split; auto. lra.
Qed.
Print Assumptions online_drift_refuted.

(** C163, refuted: an ADWIN does not get one mark per sample.  As long as no change is announced, a partial_fit with [r] rows
    gives each of them r * r marks. *)
Theorem online_marks_refuted : forall {X T B G D St E} {N : Num T} (L : learner X T B) (P : edet T D) (A : algo X T B G St E) base n seed (count : D -> nat) (s : ons B G D St E) rows classes sw s' c,
  (forall d b d', e_add P d b = Ok d' -> count d' = S (count d)) -> (forall d d' c, e_change P d = Ok (d', c) -> count d' = count d /\ c = false) ->
  (forall b xs, lr_predict L b xs <> Raise ValueError) ->
  on_reached L P A base n true seed s -> on_ready s = true -> on_classes s = Some c -> (length c <= length (on_ens s))%nat ->
  on_fit L P A base n true seed s rows classes sw = Ok s' ->
  forall i b d, nth_error (on_ens s) i = Some (b, d) -> exists b' d', nth_error (on_ens s') i = Some (b', d') /\ count d' = (count d + length rows * length rows)%nat.
Proof.
  intros X T B G D St E N L P A base n seed count s rows classes sw s' c H1 H2 H3 R Hr Hc Hl H i b d Hi.
  destruct (on_reached_inv L P A base n true seed (fun _ => True) (fun _ => True) (fun _ => True) Logic.I (conj Logic.I Logic.I) Logic.I ltac:(auto) s R) as [(Hs & _) _].
  unfold on_fit in H. cbv zeta in H. rewrite Hr in H. apply bind_Ok in H as (cl & Ec & H). apply check_classes_ok in Ec. rewrite Hc in Ec. destruct Ec as [-> _].
  unfold on_adjust in H. cbn [on_ens on_ready on_stats on_ext on_classes on_rng] in H. destruct (Nat.ltb_spec (length (on_ens s)) (length c)); [lia|].
  eapply on_rows_count in H as ([b' d'] & Q1 & Q2); eauto. exists b', d'. auto.
Qed.
Print Assumptions online_marks_refuted.

(** C164: with an estimator and a detector that do not fail, no sequence of calls of partial_fit fails - AdaC2 when there are
    not more classes than n_estimators. *)
Section NeverFails.
Context {X B G D : Type} (L : learner X R B) (P : edet R D) (pois : R -> G -> nat * G) (base : B) (n : nat) (drift : bool) (seed : G).
Definition run {St E} (A : algo X R B G St E) (cl : list Z) (sw : option (list R)) (batches : list (list (X * Z))) : res (ons B G D St E) :=
  foldM (fun s rows => on_fit L P A base n drift seed s rows (Some cl) sw) batches (on_new A seed).
End NeverFails.
Theorem online_never_fails : forall {X B G D} (L : learner X R B) (P : edet R D) (pois : R -> G -> nat * G) base n drift seed Q cl sw IB ID batches cp cn rate alg,
  unfailing L Q (Some cl) sw IB -> IB (lr_reset L base) -> sound_detector P ID -> Forall (Forall Q) batches -> 0 < cp -> 0 < cn -> 0 < rate ->
  (exists s, run L P base n drift seed (boosting L pois) cl sw batches = Ok s) /\
  (exists s, run L P base n drift seed (csb2 L pois cp cn) cl sw batches = Ok s) /\
  (exists s, run L P base n drift seed (rusboost L pois rate alg) cl sw batches = Ok s) /\
  (exists s, run L P base n drift seed (uobagging L pois rate) cl sw batches = Ok s) /\
  ((length cl <= n)%nat -> exists s, run L P base n drift seed (adac2 L pois cp cn) cl sw batches = Ok s).
Proof.
  intros X B G D L P pois base n drift seed Q cl sw IB ID batches cp cn rate alg HL HB HP HQ Hcp Hcn Hr. unfold run. split; [|split; [|split; [|split]]].
  - apply (on_run_total L P (boosting L pois) base n drift seed Q cl sw IB ID HL HP boost_ok (fun lam => 0 < lam) (fun _ _ => True)); auto.
    + cbn. unfold boost_ok, n0. cbn. repeat split; try lra; unfold Rdiv; lra.
    + unfold n1. cbn. lra.
    + intros i m lam row b st e g _ Hq Hb Hst Hl _. destruct (boost_step_total L pois Q (Some cl) sw IB HL i m lam row b st e g Hq Hb Hst Hl) as (b' & st' & e' & lam' & g' & E1 & E2 & E3 & E4). do 5 eexists. split; [exact E1|]. auto.
  - apply (on_run_total L P (csb2 L pois cp cn) base n drift seed Q cl sw IB ID HL HP (csb_ok cp) (fun lam => 0 < lam) (fun _ _ => True)); auto.
    + cbn. unfold csb_ok, n0. cbn. repeat split; lra.
    + unfold n1. cbn. lra.
    + intros i m lam row b st e g _ Hq Hb Hst Hl _. destruct (csb_step_total L pois Q (Some cl) sw IB HL cp cn i m lam row b st e g Hcp Hcn Hq Hb Hst Hl) as (b' & st' & e' & lam' & g' & E1 & E2 & E3 & E4). do 5 eexists. split; [exact E1|]. auto.
  - apply (on_run_total L P (rusboost L pois rate alg) base n drift seed Q cl sw IB ID HL HP rus_ok (fun lam => 0 < lam) (fun _ e => (0 <= fst e /\ 0 <= snd e)%Z)); auto.
    + cbn. unfold rus_ok, n0. cbn. repeat split; try lra; unfold Rdiv; lra.
    + unfold n1. cbn. lra.
    + intros i m lam row b st e g _ Hq Hb Hst Hl He. destruct (rus_step_total L pois Q (Some cl) sw IB HL alg rate i m lam row b st e g Hr Hq Hb Hst Hl He) as (b' & st' & e' & lam' & g' & E1 & E2 & E3 & E4 & E5). do 5 eexists. split; [exact E1|]. auto.
    + cbn. lia.
  - apply (on_run_total L P (uobagging L pois rate) base n drift seed Q cl sw IB ID HL HP (fun _ => True) (fun _ => True) (fun _ _ => True)); auto.
    intros i m lam row b st e g Hi Hq Hb _ _ _. destruct (uob_step_total L pois rate Q (Some cl) sw IB ltac:(lra) HL i m lam row b st e g Hi Hq Hb) as (b' & st' & e' & lam' & g' & E1 & E2). do 5 eexists. split; [exact E1|]. auto.
  - intros Hn. apply (on_run_total L P (adac2 L pois cp cn) base n drift seed Q cl sw IB ID HL HP ada_ok (fun lam => 0 < lam) (fun m e => (m <= length (fst e))%nat /\ (m <= length (snd e))%nat)); auto.
    + cbn. unfold ada_ok, n0. cbn. repeat split; lra.
    + unfold n1. cbn. lra.
    + intros i m lam row b st e g Hi Hq Hb Hst Hl [He1 He2]. destruct (ada_step_total L pois Q (Some cl) sw IB HL cp cn i m lam row b st e g Hcp Hcn ltac:(lia) ltac:(lia) Hq Hb Hst Hl) as (b' & st' & e' & lam' & g' & E1 & E2 & E3 & E4 & E5 & E6).
      do 5 eexists. split; [exact E1|]. rewrite E5, E6. auto.
    + cbn [al_ext adac2 fst snd]. rewrite !repeat_length. lia.
Qed.
Print Assumptions online_never_fails.

(** C164, SMOTE bagging: whether a sample is fit for the estimator depends on its label only, since the features are invented. *)
Theorem smote_never_fails : forall {B G D} (L : learner (list R) R B) (P : edet R D) (pois : R -> G -> nat * G) (randint : nat -> G -> nat * G) (rand : G -> R * G) base n drift seed (Q : list R * Z -> Prop) cl sw IB ID batches rate,
  (forall k g, (0 < k)%nat -> (fst (randint k g) < k)%nat) -> (forall x x' y, Q (x, y) -> Q (x', y)) ->
  unfailing L Q (Some cl) sw IB -> IB (lr_reset L base) -> sound_detector P ID -> Forall (Forall Q) batches -> 0 <= rate ->
  exists s, run L P base n drift seed (smotebagging L pois randint rand rate) cl sw batches = Ok s.
Proof.
  intros B G D L P pois randint rand base n drift seed Q cl sw IB ID batches rate Hri HQ2 HL HB HP HQ Hr. unfold run.
  apply (on_run_total L P (smotebagging L pois randint rand rate) base n drift seed Q cl sw IB ID HL HP (fun _ => True) (fun lam => 0 <= lam) (fun _ _ => True)); auto.
  - unfold n1. cbn. lra.
  - intros i m lam row b st e g Hi Hq Hb _ Hl _. destruct (smote_step_total L pois randint rand Hri Q (Some cl) sw IB HL HQ2 rate i m lam row b st e g Hr Hl Hi Hq Hb) as (b' & st' & e' & lam' & g' & E1 & E2 & E3). do 5 eexists. split; [exact E1|]. auto.
Qed.
Print Assumptions smote_never_fails.

(** ** OnlineBoostingClassifier *)
(** C154: in every state that can be reached, also between two rows, the rates are positive and the error share of a member is
    the sum of the rates of the samples it got wrong over that of all samples it learned; the rate for the next member is
    changed by the rule of [boost_rule].  A member that draws 0 learns nothing, and its statistics and the rate stay. *)
Theorem boosting_row : forall {X B G D} (L : learner X R B) (P : edet R D) (pois : R -> G -> nat * G) base n drift seed s rows classes sw row s',
  on_seen L P (boosting L pois) base n drift seed s -> on_row L P (boosting L pois) drift rows classes sw s row = Ok s' ->
  Forall boost_ok (on_stats s) /\ row_pass drift s s' (boost_visit L pois classes sw row).
Proof.
  intros X B G D L P pois base n drift seed s rows classes sw row s' Hs H.
  assert (I0 : boost_ok (al_st (boosting L pois))) by (cbn; unfold boost_ok, n0; cbn; repeat split; try lra; unfold Rdiv; lra).
  assert (J1 : 0 < @n1 R NumR) by (unfold n1; cbn; lra).
  assert (Hst : forall classes sw i m lam row b st (e : unit) g b' st' e' lam' g', boost_ok st -> 0 < lam -> True -> al_step (boosting L pois) classes sw i m lam row b st e g = Ok (b', st', e', lam', g') -> boost_ok st' /\ 0 < lam' /\ True).
  { intros. cbn [al_step boosting adac2 csb2 rusboost uobagging smotebagging] in H3; eapply boost_step_ok in H3; eauto; destruct H3 as ((_ & _ & V & _) & V2). auto. }
  destruct (on_seen_inv L P (boosting L pois) base n drift seed boost_ok (fun lam => 0 < lam) (fun _ => True) I0 (conj Logic.I Logic.I) J1 Hst s Hs) as [Hi Hl]. split; [apply Hi|].
  eapply row_pass_impl; [|eapply (on_row_pass L P (boosting L pois) drift boost_ok (fun lam => 0 < lam) (fun _ => True)); eauto].
  intros i lam b st e g b' st' e' lam' g' (Z1 & Z2 & _ & Z4). cbn [al_step boosting adac2 csb2 rusboost uobagging smotebagging] in Z4; eapply boost_step_ok in Z4; eauto; try apply Z4.
Qed.
Print Assumptions boosting_row.

(** C155: the votes.  Each member has the weight [vote_weight] of its error share; CSB2 and RUSBoost likewise. *)
Theorem boosting_votes : forall {X B G D} (L : learner X R B) (P : edet R D) (pois : R -> G -> nat * G) base n drift seed s xs classes ps l',
  on_reached L P (boosting L pois) base n drift seed s -> on_ready s = true -> on_classes s = Some classes -> regular L xs classes (map fst (on_ens s)) ps l' ->
  votes L (boosting L pois) s xs ps l' (map (fun st => vote_weight (b_eps st)) (on_stats s)).
Proof.
  intros X B G D L P pois base n drift seed s xs classes ps l' R Hr Hc Hg.
  destruct (on_reached_inv L P (boosting L pois) base n drift seed (fun _ => True) (fun _ => True) (fun _ => True) Logic.I (conj Logic.I Logic.I) Logic.I ltac:(auto) s R) as [(Hs & _) _].
  eapply votes_ok; eauto. apply on_weights_map; auto. intros i st _. apply log_odds_acts.
Qed.
Print Assumptions boosting_votes.
Theorem csb2_votes : forall {X B G D} (L : learner X R B) (P : edet R D) (pois : R -> G -> nat * G) cp cn base n drift seed s xs classes ps l',
  on_reached L P (csb2 L pois cp cn) base n drift seed s -> on_ready s = true -> on_classes s = Some classes -> regular L xs classes (map fst (on_ens s)) ps l' ->
  votes L (csb2 L pois cp cn) s xs ps l' (map (fun st => vote_weight (c_eps st)) (on_stats s)).
Proof.
  intros X B G D L P pois cp cn base n drift seed s xs classes ps l' R Hr Hc Hg.
  destruct (on_reached_inv L P (csb2 L pois cp cn) base n drift seed (fun _ => True) (fun _ => True) (fun _ => True) Logic.I (conj Logic.I Logic.I) Logic.I ltac:(auto) s R) as [(Hs & _) _].
  eapply votes_ok; eauto. apply on_weights_map; auto. intros i st _. apply log_odds_acts.
Qed.
Print Assumptions csb2_votes.
Theorem rusboost_votes : forall {X B G D} (L : learner X R B) (P : edet R D) (pois : R -> G -> nat * G) rate alg base n drift seed s xs classes ps l',
  on_reached L P (rusboost L pois rate alg) base n drift seed s -> on_ready s = true -> on_classes s = Some classes -> regular L xs classes (map fst (on_ens s)) ps l' ->
  votes L (rusboost L pois rate alg) s xs ps l' (map (fun st => vote_weight (r_eps st)) (on_stats s)).
Proof.
  intros X B G D L P pois rate alg base n drift seed s xs classes ps l' R Hr Hc Hg.
  destruct (on_reached_inv L P (rusboost L pois rate alg) base n drift seed (fun _ => True) (fun _ => True) (fun _ => True) Logic.I (conj Logic.I Logic.I) Logic.I ltac:(auto) s R) as [(Hs & _) _].
  eapply votes_ok; eauto. apply on_weights_map; auto. intros i st _. apply log_odds_acts.
Qed.
Print Assumptions rusboost_votes.

(** C155, refuted: better members do not have a greater say: a member without errors has none.  If the base estimator gives
    the right label for a sample that it has just learned, then the ensemble predicts 0 for every sample, for ever, with
    probabilities that are all 0. *)
Theorem boosting_perfect_refuted : forall {X B G D} (L : learner X R B) (P : edet R D) (pois : R -> G -> nat * G) base n drift seed s xs classes ps l',
  (forall k row b c b' classes sw, (0 < k)%nat -> trained L classes sw k row b c b' -> c = snd row) ->
  on_reached L P (boosting L pois) base n drift seed s -> on_ready s = true -> on_classes s = Some classes -> regular L xs classes (map fst (on_ens s)) ps l' ->
  exists Pr q s', on_proba L (boosting L pois) s xs = Ok (Pr, s') /\ on_predict L (boosting L pois) s xs = Ok (q, s') /\
    (forall i c, (i < length xs)%nat -> nth c (nth i Pr []) 0 = 0) /\ q = repeat 0%nat (length xs).
Proof.
  intros X B G D L P pois base n drift seed s xs classes ps l' Hperf Rs Hr Hc Hg.
  assert (I0 : boost_ok (al_st (boosting L pois)) /\ b_sw (al_st (boosting L pois)) = 0) by (cbn; unfold boost_ok, n0; cbn; repeat split; try lra; unfold Rdiv; lra).
  assert (J1 : 0 < @n1 R NumR) by (unfold n1; cbn; lra).
  assert (Hst : forall classes sw i m lam row b st (e : unit) g b' st' e' lam' g', boost_ok st /\ b_sw st = 0 -> 0 < lam -> True -> al_step (boosting L pois) classes sw i m lam row b st e g = Ok (b', st', e', lam', g') -> (boost_ok st' /\ b_sw st' = 0) /\ 0 < lam' /\ True).
  { intros cl0 sw0 i m lam row b st e g b' st' e' lam' g' [V0 V1] Hlam _ Hst. cbn [al_step boosting adac2 csb2 rusboost uobagging smotebagging] in Hst; eapply boost_step_ok in Hst; eauto; destruct Hst as ((_ & _ & V & V3) & V2). split; auto. split; auto. cbv zeta in V3. destruct (Nat.eqb_spec (fst (pois lam g)) 0) as [Hk|Hk].
    - destruct V3 as (_ & -> & _). auto.
    - destruct V3 as (c & Ht & _ & Hw & _). apply Hperf in Ht; [|lia]. subst c. rewrite Z.eqb_refl in Hw. lra. }
  destruct (on_reached_inv L P (boosting L pois) base n drift seed _ (fun lam => 0 < lam) (fun _ => True) I0 (conj Logic.I Logic.I) J1 Hst s Rs) as [_ [Hi _]].
  destruct (boosting_votes L P pois base n drift seed s xs classes ps l' Rs Hr Hc Hg) as (Pr & q & E1 & [S1 S2] & E2 & F). cbv zeta in *.
  assert (Hw : forall (f : list (list R) -> R), Rsum (map (fun wp => fst wp * f (snd wp)) (combine (map (fun st => vote_weight (b_eps st)) (on_stats s)) ps)) = 0).
  { intros f. clear - Hi. revert ps. induction Hi as [|st l [(_ & _ & He) Hs0] Hi IH]; intros ps; cbn; auto. destruct ps as [|p ps]; cbn; auto. unfold Rsum in *. cbn [combine map fold_right fst snd]. rewrite IH. rewrite He, Hs0. unfold vote_weight, Rdiv. rewrite Rmult_0_l. destruct (Req_EM_T 0 0); lra. }
  assert (Z : forall i c, (i < length xs)%nat -> nth c (nth i Pr []) 0 = 0).
  { intros i c Hi'. destruct (S2 i c Hi') as [_ V]. rewrite V by (unfold weighted_total; rewrite (Hw (fun p => Rsum (nth i p []))); lra). unfold weighted_sum. apply (Hw (fun p => nth c (nth i p []) 0)). }
  exists Pr, q. eexists. split; [exact E1|]. split; [exact E2|]. split; auto.
  assert (Lq : length q = length Pr) by (clear - F; induction F; cbn; congruence). rewrite <- S1, <- Lq. clear - F Z S1. rewrite <- S1 in Z. revert Z. clear S1.
  induction F as [|row c Pr q (H1 & H2 & H3) F IH]; intros Z; cbn [length repeat]; auto. f_equal.
  - destruct c as [|c]; auto. exfalso. specialize (H3 0%nat ltac:(lia)). rewrite !(Z 0%nat) in H3 by (cbn; lia). lra.
  - apply IH. intros i c' Hi. apply (Z (S i) c'). cbn; lia.
Qed.
Print Assumptions boosting_perfect_refuted.

(** ** OnlineAdaC2Classifier *)
(** C156: the costs of the right and wrong answers of each member, the rate, the weighted accuracy and the weighted error. *)
Theorem adac2_row : forall {X B G D} (L : learner X R B) (P : edet R D) (pois : R -> G -> nat * G) cp cn base n drift seed s rows classes sw row s',
  0 < cp -> 0 < cn -> on_seen L P (adac2 L pois cp cn) base n drift seed s -> on_row L P (adac2 L pois cp cn) drift rows classes sw s row = Ok s' ->
  Forall ada_ok (on_stats s) /\ row_pass drift s s' (ada_visit L pois cp cn classes sw row).
Proof.
  intros X B G D L P pois cp cn base n drift seed s rows classes sw row s' Hcp Hcn Hs H.
  assert (I0 : ada_ok (al_st (adac2 L pois cp cn))) by (cbn; unfold ada_ok, n0; cbn; repeat split; lra).
  assert (J1 : 0 < @n1 R NumR) by (unfold n1; cbn; lra).
  assert (Hst : forall classes sw i m lam row b st e g b' st' e' lam' g', ada_ok st -> 0 < lam -> True -> al_step (adac2 L pois cp cn) classes sw i m lam row b st e g = Ok (b', st', e', lam', g') -> ada_ok st' /\ 0 < lam' /\ True).
  { intros. cbn [al_step boosting adac2 csb2 rusboost uobagging smotebagging] in H3; eapply ada_step_ok in H3; eauto; destruct H3 as ((_ & _ & V & _) & V2). auto. }
  destruct (on_seen_inv L P (adac2 L pois cp cn) base n drift seed ada_ok (fun lam => 0 < lam) (fun _ => True) I0 (conj Logic.I Logic.I) J1 Hst s Hs) as [Hi Hl]. split; [apply Hi|].
  eapply row_pass_impl; [|eapply (on_row_pass L P (adac2 L pois cp cn) drift ada_ok (fun lam => 0 < lam) (fun _ => True)); eauto].
  intros i lam b st e g b' st' e' lam' g' (Z1 & Z2 & _ & Z4). cbn [al_step boosting adac2 csb2 rusboost uobagging smotebagging] in Z4; eapply ada_step_ok in Z4; eauto; try apply Z4.
Qed.
Print Assumptions adac2_row.
Theorem adac2_votes : forall {X B G D} (L : learner X R B) (pois : R -> G -> nat * G) cp cn (s : ons B G D (ast R) (list R * list R)) xs classes ps l',
  on_ready s = true -> on_classes s = Some classes -> regular L xs classes (map fst (on_ens s)) ps l' ->
  length (fst (on_ext s)) = length (on_ens s) -> length (snd (on_ext s)) = length (on_ens s) -> length (on_stats s) = length (on_ens s) ->
  votes L (adac2 L pois cp cn) s xs ps l' (map (fun ae => odds_weight (fst ae) (snd ae)) (combine (fst (on_ext s)) (snd (on_ext s)))).
Proof.
  intros X B G D L pois cp cn s xs classes ps l' Hr Hc Hg H1 H2 H3. eapply votes_ok; eauto. unfold on_weights. set (m := length (on_ens s)) in *.
  assert (Z : forall (a r : list R) k, (forall i, (i < length a)%nat -> nth_error (fst (on_ext s)) (k + i) = nth_error a i /\ nth_error (snd (on_ext s)) (k + i) = nth_error r i) -> length r = length a -> (k + length a <= m)%nat ->
    Forall2 acts (map (fun i => match nth_error (on_stats s) i with Some st => al_weight (adac2 L pois cp cn) i st (on_ext s) | None => WSkip end) (seq k (length a))) (map (fun ae => odds_weight (fst ae) (snd ae)) (combine a r))).
  { induction a as [|a l IH]; intros [|r rs] k Hk Lr Lk; try discriminate; cbn [length seq map combine]; constructor.
    - destruct (Hk 0%nat ltac:(cbn; lia)) as [K1 K2]. rewrite Nat.add_0_r in K1, K2. destruct (nth_error (on_stats s) k) as [st|] eqn:Ek; [|apply nth_error_None in Ek; cbn in Lk; lia].
      cbn [al_weight adac2]. unfold adac2_weight. rewrite K1, K2. cbn [nth_error fst snd]. unfold odds_weight, n0. cbn [neqb nofZ NumR nln ndiv nmul].
      destruct (Req_EM_T r 0) as [->|Hr0]; [replace (Reqb 0 0) with true by (symmetry; now apply Reqb_true); cbn; auto|]. replace (Reqb r 0) with false by (symmetry; now apply Reqb_false).
      destruct (Req_EM_T a 0) as [->|Ha0]; [replace (Reqb 0 0) with true by (symmetry; now apply Reqb_true); cbn; auto|]. replace (Reqb a 0) with false by (symmetry; now apply Reqb_false). cbn [orb acts]. reflexivity.
    - apply IH; [|now injection Lr|cbn in Lk; lia]. intros i Hi. replace (S k + i)%nat with (k + S i)%nat by lia. apply (Hk (S i)). cbn; lia. }
  rewrite <- H1. apply Z; auto; lia.
Qed.
Print Assumptions adac2_votes.

(** C157, refuted: more classes than n_estimators.  The ensemble is enlarged but its arrays of errors are not: a member whose
    index is n_estimators or more never takes part in a row that partial_fit gets through, unless it draws 0 or its label is
    neither 0 nor 1; in every other case there is an IndexError (adac2_more_classes_case). *)
Theorem adac2_more_classes_refuted : forall {X B G D} (L : learner X R B) (P : edet R D) (pois : R -> G -> nat * G) cp cn base n drift seed s rows classes sw row s',
  0 < cp -> 0 < cn -> on_seen L P (adac2 L pois cp cn) base n drift seed s -> (snd row = 0 \/ snd row = 1)%Z ->
  on_row L P (adac2 L pois cp cn) drift rows classes sw s row = Ok s' ->
  row_pass drift s s' (fun i lam b _ _ g _ _ _ _ _ => (n <= i)%nat -> fst (pois lam g) = 0%nat \/ exists c b1, trained L classes sw (fst (pois lam g)) row b c b1 /\ c <> 0%Z /\ c <> 1%Z).
Proof.
  intros X B G D L P pois cp cn base n drift seed s rows classes sw row s' Hcp Hcn Hs Hy H.
  assert (I0 : ada_ok (al_st (adac2 L pois cp cn))) by (cbn; unfold ada_ok, n0; cbn; repeat split; lra).
  assert (J1 : 0 < @n1 R NumR) by (unfold n1; cbn; lra).
  assert (K0 : (length (fst (al_ext (adac2 (G := G) L pois cp cn) 0)) <= n)%nat /\ (length (fst (al_ext (adac2 (G := G) L pois cp cn) n)) <= n)%nat) by (cbn [al_ext adac2 fst]; rewrite !repeat_length; lia).
  assert (Hst : forall classes sw i m lam row b st e g b' st' e' lam' g', ada_ok st -> 0 < lam -> (length (fst e) <= n)%nat -> al_step (adac2 L pois cp cn) classes sw i m lam row b st e g = Ok (b', st', e', lam', g') -> ada_ok st' /\ 0 < lam' /\ (length (fst e') <= n)%nat).
  { intros cl0 sw0 i m lam row0 b st e g b' st' e' lam' g' V0 Hlam Hle Hst. assert (Hst2 := Hst). cbn [al_step adac2] in Hst2; eapply ada_step_ok in Hst2; eauto; destruct Hst2 as ((_ & _ & V & _) & V2). split; auto. split; auto.
    cbn [al_step adac2] in Hst. unfold adac2_step in Hst. cbv zeta in Hst. apply bind_Ok in Hst as ([k g1] & _ & Hst). destruct (Nat.ltb 0 k); [|injection Hst as _ _ <- _ _; auto]. apply bind_Ok in Hst as (b1 & _ & Hst). apply bind_Ok in Hst as ([c b2] & _ & Hst).
    assert (SE : forall st0 e0, set_errors i st0 e = Ok e0 -> length (fst e0) = length (fst e)) by (intros st0 e0 He; unfold set_errors in He; match type of He with (if ?t then _ else _) = _ => destruct t end; [injection He as <-; apply set_nth_len|discriminate]).
    repeat match type of Hst with context [if ?t then _ else _] => destruct t end; try (injection Hst as _ _ <- _ _; auto; fail).
    all: apply bind_Ok in Hst as (e0 & He & Hst); apply SE in He; injection Hst as _ _ <- _ _; lia. }
  destruct (on_seen_inv L P (adac2 L pois cp cn) base n drift seed ada_ok (fun lam => 0 < lam) (fun e => (length (fst e) <= n)%nat) I0 K0 J1 Hst s Hs) as [Hi Hl].
  eapply row_pass_impl; [|eapply (on_row_pass L P (adac2 L pois cp cn) drift ada_ok (fun lam => 0 < lam) (fun e => (length (fst e) <= n)%nat)); eauto].
  intros i lam b st e g b' st' e' lam' g' (Z1 & Z2 & Z3 & Z4) Hni. cbn [al_step adac2] in Z4. apply (ada_step_beyond L pois classes sw) in Z4; auto; [lra|lia].
Qed.
Print Assumptions adac2_more_classes_refuted.

(** ** OnlineCSB2Classifier *)
(** C158: what the code does.  Refuted with it: "for correctly classified examples CSB2 treats them in the same way as
    AdaBoost" - the rate after a right answer does not depend on the rate before; "cost_negative: the cost of misclassifying a
    negative sample" - the weighted error counts every error with cost_positive. *)
Theorem csb2_row_refuted : forall {X B G D} (L : learner X R B) (P : edet R D) (pois : R -> G -> nat * G) cp cn base n drift seed s rows classes sw row s',
  0 < cp -> 0 < cn -> on_seen L P (csb2 L pois cp cn) base n drift seed s -> on_row L P (csb2 L pois cp cn) drift rows classes sw s row = Ok s' ->
  Forall (csb_ok cp) (on_stats s) /\ row_pass drift s s' (csb_visit L pois cp cn classes sw row).
Proof.
  intros X B G D L P pois cp cn base n drift seed s rows classes sw row s' Hcp Hcn Hs H.
  assert (I0 : csb_ok cp (al_st (csb2 L pois cp cn))) by (cbn; unfold csb_ok, n0; cbn; repeat split; lra).
  assert (J1 : 0 < @n1 R NumR) by (unfold n1; cbn; lra).
  assert (Hst : forall classes sw i m lam row b st (e : unit) g b' st' e' lam' g', csb_ok cp st -> 0 < lam -> True -> al_step (csb2 L pois cp cn) classes sw i m lam row b st e g = Ok (b', st', e', lam', g') -> csb_ok cp st' /\ 0 < lam' /\ True).
  { intros. cbn [al_step boosting adac2 csb2 rusboost uobagging smotebagging] in H3; eapply csb_step_ok in H3; eauto; destruct H3 as ((_ & _ & V & _) & V2). auto. }
  destruct (on_seen_inv L P (csb2 L pois cp cn) base n drift seed (csb_ok cp) (fun lam => 0 < lam) (fun _ => True) I0 (conj Logic.I Logic.I) J1 Hst s Hs) as [Hi Hl]. split; [apply Hi|].
  eapply row_pass_impl; [|eapply (on_row_pass L P (csb2 L pois cp cn) drift (csb_ok cp) (fun lam => 0 < lam) (fun _ => True)); eauto].
  intros i lam b st e g b' st' e' lam' g' (Z1 & Z2 & _ & Z4). cbn [al_step boosting adac2 csb2 rusboost uobagging smotebagging] in Z4; eapply csb_step_ok in Z4; eauto; try apply Z4.
Qed.
Print Assumptions csb2_row_refuted.

(** ** OnlineRUSBoostClassifier *)
(** C159: the rates of the draws are those of [rus_rate], never negative, with numbers of positive and negative samples that
    count each sample once per member; the error shares and the rate change for every member and row. *)
Theorem rusboost_row : forall {X B G D} (L : learner X R B) (P : edet R D) (pois : R -> G -> nat * G) rate alg base n drift seed s rows classes sw row s',
  0 < rate -> on_seen L P (rusboost L pois rate alg) base n drift seed s -> on_row L P (rusboost L pois rate alg) drift rows classes sw s row = Ok s' ->
  Forall rus_ok (on_stats s) /\ row_pass drift s s' (rus_visit L pois alg rate classes sw row).
Proof.
  intros X B G D L P pois rate alg base n drift seed s rows classes sw row s' Hr Hs H.
  assert (I0 : rus_ok (al_st (rusboost L pois rate alg))) by (cbn; unfold rus_ok, n0; cbn; repeat split; try lra; unfold Rdiv; lra).
  assert (J1 : 0 < @n1 R NumR) by (unfold n1; cbn; lra).
  assert (Hst : forall classes sw i m lam row b st e g b' st' e' lam' g', rus_ok st -> 0 < lam -> (0 <= fst e /\ 0 <= snd e)%Z -> al_step (rusboost L pois rate alg) classes sw i m lam row b st e g = Ok (b', st', e', lam', g') -> rus_ok st' /\ 0 < lam' /\ (0 <= fst e' /\ 0 <= snd e')%Z).
  { intros. cbn [al_step boosting adac2 csb2 rusboost uobagging smotebagging] in H3; eapply rus_step_ok in H3; eauto; destruct H3 as ((_ & _ & _ & _ & _ & _ & V & _) & V2 & V3). auto. }
  assert (K0 : (0 <= fst (al_ext (rusboost (G := G) L pois rate alg) 0) /\ 0 <= snd (al_ext (rusboost (G := G) L pois rate alg) 0))%Z /\ (0 <= fst (al_ext (rusboost (G := G) L pois rate alg) n) /\ 0 <= snd (al_ext (rusboost (G := G) L pois rate alg) n))%Z) by (cbn; lia).
  destruct (on_seen_inv L P (rusboost L pois rate alg) base n drift seed rus_ok (fun lam => 0 < lam) (fun e => (0 <= fst e /\ 0 <= snd e)%Z) I0 K0 J1 Hst s Hs) as [Hi Hl]. split; [apply Hi|].
  eapply row_pass_impl; [|eapply (on_row_pass L P (rusboost L pois rate alg) drift rus_ok (fun lam => 0 < lam) (fun e => (0 <= fst e /\ 0 <= snd e)%Z)); eauto].
  intros i lam b st e g b' st' e' lam' g' (Z1 & Z2 & Z3 & Z4). cbn [al_step boosting adac2 csb2 rusboost uobagging smotebagging] in Z4; eapply rus_step_ok in Z4; eauto; try apply Z4.
Qed.
Print Assumptions rusboost_row.

(** ** OnlineUnderOverBaggingClassifier *)
(** C160: the rates and the training; all members have the same vote. *)
Theorem uobagging_row : forall {X B G D} (L : learner X R B) (P : edet R D) (pois : R -> G -> nat * G) rate drift (s : ons B G D unit unit) rows classes sw row s',
  length (on_stats s) = length (on_ens s) -> on_row L P (uobagging L pois rate) drift rows classes sw s row = Ok s' ->
  row_pass drift s s' (uob_visit L pois rate (length (on_ens s)) classes sw row).
Proof.
  intros X B G D L P pois rate drift s rows classes sw row s' Hl H.
  eapply row_pass_impl; [|eapply (on_row_pass L P (uobagging L pois rate) drift (fun _ => True) (fun _ => True) (fun _ => True)); eauto; split; auto; now apply Forall_forall].
  intros i lam b st e g b' st' e' lam' g' (_ & _ & _ & Z4). cbn [al_step boosting adac2 csb2 rusboost uobagging smotebagging] in Z4; eapply uob_step_ok in Z4; eauto; try apply Z4.
Qed.
Print Assumptions uobagging_row.
Theorem uobagging_votes : forall {X B G D} (L : learner X R B) (pois : R -> G -> nat * G) rate (s : ons B G D unit unit) xs classes ps l',
  on_ready s = true -> on_classes s = Some classes -> regular L xs classes (map fst (on_ens s)) ps l' -> length (on_stats s) = length (on_ens s) ->
  votes L (uobagging L pois rate) s xs ps l' (map (fun _ => 1) (on_stats s)).
Proof.
  intros X B G D L pois rate s xs classes ps l' Hr Hc Hg Hl. eapply votes_ok; eauto. apply on_weights_map; auto. intros i st _. cbn. intros p. lra.
Qed.
Print Assumptions uobagging_votes.

(** ** OnlineSMOTEBaggingClassifier *)
(** C161, refuted: "a synthetic sample lies between the sample and one of its nearest neighbours of the positive class".  The
    distance matrix has one column, and its first row is taken: the neighbour is always the first positive sample that was
    ever stored, and the synthetic sample lies beyond the sample, on the side away from it.  Each positive sample is stored
    once per member. *)
Theorem smote_row_refuted : forall {B G D} (L : learner (list R) R B) (P : edet R D) (pois : R -> G -> nat * G) randint rand rate drift (s : ons B G D unit (list (list R))) rows classes sw row s',
  (forall k g, (0 < k)%nat -> (fst (randint k g) < k)%nat) ->
  length (on_stats s) = length (on_ens s) -> on_row L P (smotebagging L pois randint rand rate) drift rows classes sw s row = Ok s' ->
  row_pass drift s s' (smote_visit L pois rate (length (on_ens s)) classes sw row) /\
  on_ext s' = on_ext s ++ (if Z.eqb (snd row) 1 then repeat (fst row) (length (on_ens s)) else []).
Proof.
  intros B G D L P pois randint rand rate drift s rows classes sw row s' Hri Hl H.
  assert (Hp := on_row_pass L P (smotebagging L pois randint rand rate) drift (fun _ => True) (fun _ => True) (fun _ => True) Logic.I ltac:(auto) rows classes sw s row s' Hl ltac:(split; auto; now apply Forall_forall) H).
  destruct Hp as (lams & es & gs & Z1 & Z2 & Z3 & Z4 & Z5 & Q).
  assert (V : forall j, (j <= length (on_ens s))%nat -> lams j = 1 \/ snd row = 1%Z).
  { destruct (Z.eq_dec (snd row) 1) as [Hy|Hy]; [auto|]. intros j Hj. left. induction j as [|j IH]; [rewrite Z1; reflexivity|]. specialize (IH ltac:(lia)).
    destruct (nth_error (on_ens s) j) as [bd|] eqn:Eb; [|apply nth_error_None in Eb; lia]. destruct (nth_error (on_stats s) j) as [st|] eqn:Et; [|apply nth_error_None in Et; lia].
    destruct (Q j bd st Eb Et) as (b' & st' & _ & _ & _ & _ & _ & Es). apply (smote_step_ok L pois randint rand Hri) in Es as [_ Es]; auto. rewrite (Es Hy). exact IH. }
  assert (W : forall j bd st, nth_error (on_ens s) j = Some bd -> nth_error (on_stats s) j = Some st -> exists b' st', nth_error (on_stats s') j = Some st' /\ (drift = false -> nth_error (on_ens s') j = Some (b', snd bd)) /\
    smote_visit L pois rate (length (on_ens s)) classes sw row j (lams j) (fst bd) st (es j) (gs j) b' st' (es (S j)) (lams (S j)) (gs (S j))).
  { intros j bd st Eb Et. destruct (Q j bd st Eb Et) as (b' & st' & Q1 & Q2 & _ & _ & _ & Es). assert (j < length (on_ens s))%nat by (apply nth_error_Some; congruence).
    apply (smote_step_ok L pois randint rand Hri) in Es as [Es _]; [|apply V; lia]. exists b', st'. auto. }
  split; [exists lams, es, gs; repeat split; auto|]. rewrite <- Z4, <- Z2.
  assert (Y : forall j, (j <= length (on_ens s))%nat -> es j = es 0%nat ++ (if Z.eqb (snd row) 1 then repeat (fst row) j else [])).
  { induction j as [|j IH]; intros Hj; [destruct (_ =? _)%Z; cbn; now rewrite app_nil_r|]. specialize (IH ltac:(lia)).
    destruct (nth_error (on_ens s) j) as [bd|] eqn:Eb; [|apply nth_error_None in Eb; lia]. destruct (nth_error (on_stats s) j) as [st|] eqn:Et; [|apply nth_error_None in Et; lia].
    destruct (W j bd st Eb Et) as (b' & st' & _ & _ & Ws). unfold smote_visit in Ws. cbv zeta in Ws. destruct (snd row =? 1)%Z; [|destruct Ws as [-> _]; exact IH].
    destruct Ws as [-> _]. rewrite IH, <- app_assoc. f_equal. symmetry. apply (repeat_cons j (fst row)). }
  apply Y; auto.
Qed.
Print Assumptions smote_row_refuted.

(** ** Concrete cases *)
(** An estimator that always answers 0 with probabilities [a; b], and counts what it learned. *)
Definition stubborn {T} (a b : T) : learner unit T nat :=
  mk_learner _ _ _ (fun s rows _ _ => Ok (s + length rows)%nat) (fun s xs => Ok (map (fun _ => 0%Z) xs, s)) (fun s xs => Ok (map (fun _ => [a; b]) xs, s)) (fun _ => 0%nat).
Definition silent {T} {N : Num T} : edet T nat := mk_edet (fun d _ => Ok (S d)) (fun d => Ok (d, false)) (fun _ => nofZ 0) 0%nat.
Lemma stubborn_unfailing classes sw : unfailing (stubborn 1 3) (fun _ => True) classes sw (fun _ => True).
Proof. split; [|split]; auto; intros b xs _; cbn; eauto. eexists _, _. split; [reflexivity|]. rewrite map_length. auto. Qed.
Lemma silent_sound : sound_detector (@silent R NumR) (fun _ => True).
Proof. split; [exact Logic.I|]. split; intros; cbn; eauto. Qed.
(** Two members, the label 1 (wrong) and the label 0 (right): the rates are 1, 1/2; then 1, 1 / (2 (1 - 1/2)) = 1. *)
Example boosting_run_case :
  on_fit (stubborn 1%Q 3%Q) silent (boosting (stubborn 1%Q 3%Q) pop) 0%nat 2 false [2; 1; 1; 0]%nat (on_new (boosting (stubborn 1%Q 3%Q) pop) [2; 1; 1; 0]%nat) [(tt, 1%Z); (tt, 0%Z)] (Some [0; 1]%Z) None
  = Ok (mk_ons true [(3%nat, 0%nat); (1%nat, 0%nat)] [mk_bst 1%Q 1%Q (1#2)%Q; mk_bst 0%Q (1#2)%Q 1%Q] tt (Some [0; 1]%Z) []).
Proof. vm_compute. reflexivity. Qed.
(** The theorems over the reals: states exist that satisfy their hypotheses, after any stream. *)
Example online_never_fails_case : forall batches, exists s, run (stubborn 1 3) (@silent R NumR) 0%nat 2 true [1; 1; 2]%nat (boosting (stubborn 1 3) pop) [0; 1]%Z None batches = Ok s.
Proof. intros batches. apply (online_never_fails (stubborn 1 3) silent pop 0%nat 2 true [1; 1; 2]%nat (fun _ => True) [0; 1]%Z None (fun _ => True) (fun _ => True) batches 1 1 1 1%Z); auto using stubborn_unfailing, silent_sound; try lra. apply Forall_forall. intros l _. now apply Forall_forall. Qed.
Example online_contract_case : exists s, on_reached (stubborn 1%Q 3%Q) silent (boosting (stubborn 1%Q 3%Q) pop) 0%nat 2 false [2; 1; 1; 0]%nat s /\ on_classes s = Some [0; 1; 2]%Z /\ length (on_ens s) = 3%nat /\ ~ same_labels [0; 1; 2]%Z [0; 1]%Z.
Proof.
  destruct (foldM (on_op (stubborn 1%Q 3%Q) silent (boosting (stubborn 1%Q 3%Q) pop) 0%nat 2 false [2; 1; 1; 0]%nat) [OFit [(tt, 1%Z)] (Some [0; 1; 2]%Z) None; OPredict [tt]] (on_new (boosting (stubborn 1%Q 3%Q) pop) [2; 1; 1; 0]%nat)) as [s|e] eqn:E1; [|vm_compute in E1; discriminate].
  exists s. split; [eexists; exact E1|]. vm_compute in E1. injection E1 as <-. split; [reflexivity|]. split; [reflexivity|]. intros H. destruct (proj1 (H 2%Z)) as [|[|[]]]; try discriminate. cbn; auto.
Qed.
(** An estimator that remembers the last label is right about each sample that it has just learned. *)
Lemma memo_perfect : forall k row b c b' classes sw, (0 < k)%nat -> trained (memo 1 3) classes sw k row b c b' -> c = snd row.
Proof.
  intros k row b c b' classes sw Hk (b1 & E1 & E2). cbn in E2. injection E2 as <- _. revert b E1. induction k as [|k IH]; [lia|]. intros b E1. cbn [times] in E1. apply bind_Ok in E1 as (b2 & E2 & E1). injection E2 as <-.
  destruct k as [|k]; [injection E1 as <-; cbn; apply last_last|]. apply (IH ltac:(lia) _ E1).
Qed.
Example boosting_perfect_case : forall rows, exists s, on_reached (memo 1 3) (@silent R NumR) (boosting (memo 1 3) pop) [] 2 false [1; 1; 2; 1]%nat s /\ on_ready s = true /\ on_classes s = Some [0; 1]%Z /\
  on_fit (memo 1 3) silent (boosting (memo 1 3) pop) [] 2 false [1; 1; 2; 1]%nat (on_new (boosting (memo 1 3) pop) [1; 1; 2; 1]%nat) rows (Some [0; 1]%Z) None = Ok s /\
  regular (memo 1 3) [tt] [0; 1]%Z (map fst (on_ens s)) (map (fun _ => [[1; 3]]) (on_ens s)) (map fst (on_ens s)).
Proof.
  intros rows. assert (U : unfailing (memo 1 3) (fun _ => True) (Some [0; 1]%Z) None (fun _ => True)).
  { split; [|split]; auto; intros b xs _; cbn; eauto. eexists _, _. split; [reflexivity|]. rewrite map_length. auto. }
  destruct (on_fit_total (memo 1 3) (@silent R NumR) (boosting (memo 1 3) pop) [] 2 false [1; 1; 2; 1]%nat (fun _ => True) (Some [0; 1]%Z) None (fun _ => True) (fun _ => True) U silent_sound boost_ok (fun lam => 0 < lam) (fun _ _ => True)) with (s := on_new (D := nat) (boosting (memo 1 3) pop) [1; 1; 2; 1]%nat) (rows := rows) as (s & E1 & E2 & E3); auto.
  - cbn. unfold boost_ok, n0. cbn. repeat split; try lra; unfold Rdiv; lra.
  - unfold n1. cbn. lra.
  - intros i m lam row b st e g _ Hq Hb Hst Hl _. destruct (boost_step_total (memo 1 3) pop (fun _ => True) (Some [0; 1]%Z) None (fun _ => True) U i m lam row b st e g Hq Hb Hst Hl) as (b' & st' & e' & lam' & g' & V1 & V2 & V3 & V4). do 5 eexists. split; [exact V1|]. auto.
  - now apply Forall_forall.
  - discriminate.
  - exists [0; 1]%Z. reflexivity.
  - assert (Rs : on_reached (memo 1 3) (@silent R NumR) (boosting (memo 1 3) pop) [] 2 false [1; 1; 2; 1]%nat s) by (exists [OFit rows (Some [0; 1]%Z) None]; cbn [foldM on_op]; rewrite E1; reflexivity).
    exists s. split; auto. split; auto. destruct (online_classes_contract (memo 1 3) (@silent R NumR) (boosting (memo 1 3) pop) [] 2 false [1; 1; 2; 1]%nat _ rows (Some [0; 1]%Z) None (ex_intro _ [] eq_refl)) as (_ & C & _). destruct (C s E1) as (_ & cl & C1 & C2 & C3 & _). cbn in C2. subst cl.
    split; auto. split; auto. split; [discriminate|]. split; [intros C4; apply (f_equal (@length _)) in C4; rewrite map_length, C3 in C4; discriminate|]. split; [split|].
    + clear C3. induction (on_ens s) as [|bd l IH]; cbn; constructor; auto.
    + now rewrite !map_length.
    + exists 2%nat, 1%Z. split; [lia|]. split; [|split; [cbn; auto|lia]]. apply Forall_forall. intros p Hp. apply in_map_iff in Hp as (bd & <- & _). split; [reflexivity|]. repeat constructor.
Qed.
(** Three classes, two estimators in AdaC2: IndexError. *)
Example adac2_more_classes_case :
  on_fit (stubborn 1%Q 3%Q) silent (adac2 (stubborn 1%Q 3%Q) pop 1%Q (1#10)%Q) 0%nat 2 false [1; 1; 1]%nat (on_new (adac2 (stubborn 1%Q 3%Q) pop 1%Q (1#10)%Q) [1; 1; 1]%nat) [(tt, 1%Z)] (Some [0; 1; 2]%Z) None = Raise IndexError.
Proof. vm_compute. reflexivity. Qed.
Example adac2_row_case :
  on_fit (stubborn 1%Q 3%Q) silent (adac2 (stubborn 1%Q 3%Q) pop 2%Q (1#10)%Q) 0%nat 2 false [1; 1; 1; 1]%nat (on_new (adac2 (stubborn 1%Q 3%Q) pop 2%Q (1#10)%Q) [1; 1; 1; 1]%nat) [(tt, 1%Z); (tt, 0%Z)] (Some [0; 1]%Z) None
  = Ok (mk_ons true [(2%nat, 0%nat); (2%nat, 0%nat)] [mk_ast 0%Q 2%Q (1#10)%Q 0%Q 2%Q; mk_ast 0%Q 1%Q (1#10)%Q 0%Q (3#2)%Q] ([1#20; 1#15]%Q, [1; 2#3]%Q) (Some [0; 1]%Z) []).
Proof. vm_compute. reflexivity. Qed.
(** CSB2 with cost_positive 2, cost_negative 1/10: a wrong answer for label 1, then a right one for label 0: the rate for the second member is 2/((2 - 1) (1 + 2)) = 2/3. *)
Example csb2_row_case :
  on_fit (stubborn 1%Q 3%Q) silent (csb2 (stubborn 1%Q 3%Q) pop 2%Q (1#10)%Q) 0%nat 2 false [1; 0; 1; 0]%nat (on_new (csb2 (stubborn 1%Q 3%Q) pop 2%Q (1#10)%Q) [1; 0; 1; 0]%nat) [(tt, 1%Z); (tt, 0%Z)] (Some [0; 1]%Z) None
  = Ok (mk_ons true [(2%nat, 0%nat); (0%nat, 0%nat)] [mk_cst 0%Q 2%Q 2%Q 1%Q 1%Q (1#2)%Q; mk_cst 0%Q 0%Q (4#3)%Q 0%Q 0%Q 0%Q] tt (Some [0; 1]%Z) []).
Proof. vm_compute. reflexivity. Qed.
Example rusboost_row_case :
  on_fit (stubborn 1%Q 3%Q) silent (rusboost (stubborn 1%Q 3%Q) pop 3%Q 1%Z) 0%nat 2 false [1; 0; 1; 2]%nat (on_new (rusboost (stubborn 1%Q 3%Q) pop 3%Q 1%Z) [1; 0; 1; 2]%nat) [(tt, 1%Z); (tt, 0%Z)] (Some [0; 1]%Z) None
  = Ok (mk_ons true [(2%nat, 0%nat); (2%nat, 0%nat)] [mk_rst 1%Q 1%Q 1%Q 1%Q (1#2)%Q; mk_rst 1%Q (1#2)%Q 1%Q (1#2)%Q (1#3)%Q] (2, 2)%Z (Some [0; 1]%Z) []).
Proof. vm_compute. reflexivity. Qed.
(** A random source that answers with the rate's numerator shows the rates of under/over bagging: 1/2 * 4 and 1 * 4 for label 1. *)
Example uobagging_row_case :
  on_fit (stubborn 1%Q 3%Q) silent (uobagging (stubborn 1%Q 3%Q) (fun lam (g : list Q) => (1%nat, g ++ [lam])) 4%Q) 0%nat 2 false [] (on_new (uobagging (stubborn 1%Q 3%Q) (fun lam (g : list Q) => (1%nat, g ++ [lam])) 4%Q) []) [(tt, 1%Z); (tt, 0%Z)] (Some [0; 1]%Z) None
  = Ok (mk_ons true [(2%nat, 0%nat); (2%nat, 0%nat)] [tt; tt] tt (Some [0; 1]%Z) [2; 4; 1#2; 1]%Q).
Proof. vm_compute. reflexivity. Qed.
(** SMOTE: the positive samples 0, 10, 11; at the third the neighbour is 0, not 10, and the synthetic sample is 11 + 11/2. *)
Definition keeper : learner (list Q) Q (list (list Q)) :=
  mk_learner _ _ _ (fun s rows _ _ => Ok (s ++ map fst rows)) (fun s xs => Ok (map (fun _ => 0%Z) xs, s)) (fun s xs => Ok (map (fun _ => [1%Q; 3%Q]) xs, s)) (fun _ => []).
Example smote_case :
  on_fit keeper silent (smotebagging keeper pop (fun _ g => (0%nat, g)) (fun g => ((1#2)%Q, g)) 4%Q) [] 1 false [1; 0; 0; 0; 0; 1]%nat
    (on_new (smotebagging keeper pop (fun _ g => (0%nat, g)) (fun g => ((1#2)%Q, g)) 4%Q) [1; 0; 0; 0; 0; 1]%nat) [([0]%Q, 1%Z); ([10]%Q, 1%Z); ([11]%Q, 1%Z)] (Some [0]%Z) None
  = Ok (mk_ons true [([[0]; [33#2]]%Q, 0%nat)] [tt] [[0]; [10]; [11]]%Q (Some [0]%Z) []).
Proof. vm_compute. reflexivity. Qed.
(** A batch of three rows: nine marks. *)
Example online_marks_case : exists s s', on_reached (stubborn 1%Q 3%Q) silent (uobagging (stubborn 1%Q 3%Q) pop 1%Q) 0%nat 2 true [] s /\ on_ready s = true /\ on_classes s = Some [0; 1]%Z /\ length (on_ens s) = 2%nat /\
  on_fit (stubborn 1%Q 3%Q) silent (uobagging (stubborn 1%Q 3%Q) pop 1%Q) 0%nat 2 true [] s [(tt, 0%Z); (tt, 1%Z); (tt, 1%Z)] None None = Ok s' /\ map snd (on_ens s) = [0; 0]%nat /\ map snd (on_ens s') = [9; 9]%nat.
Proof.
  destruct (foldM (on_op (stubborn 1%Q 3%Q) silent (uobagging (stubborn 1%Q 3%Q) pop 1%Q) 0%nat 2 true []) [OFit [] (Some [0; 1]%Z) None] (on_new (uobagging (stubborn 1%Q 3%Q) pop 1%Q) [])) as [s|e] eqn:E1; [|vm_compute in E1; discriminate].
  exists s. eexists. split; [eexists; exact E1|]. vm_compute in E1. injection E1 as <-. repeat split; vm_compute; reflexivity.
Qed.
(** Two members, the first is right and the second wrong, the detectors announce a change: the first is reset. *)
Example online_drift_case :
  on_fit (memo 1%Q 3%Q) marks (uobagging (memo 1%Q 3%Q) pop 1%Q) [] 2 true [1; 0]%nat (on_new (uobagging (memo 1%Q 3%Q) pop 1%Q) [1; 0]%nat) [(tt, 1%Z)] (Some [0; 1]%Z) None
  = Ok (mk_ons true [([], []); ([], [false])] [tt; tt] tt (Some [0; 1]%Z) []).
Proof. vm_compute. reflexivity. Qed.
