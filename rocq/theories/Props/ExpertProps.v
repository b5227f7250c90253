(** Weighted expert ensembles: DynamicWeightedMajorityClassifier and AdditiveExpertEnsembleClassifier.
    [L] is any base estimator that predicts nonnegative labels, [base] the object given by the user. *)
From Coq Require Import List ZArith QArith Bool Reals Lra Lia Permutation.
From Verif Require Import Base.Py Base.Num Spec.Lists Spec.ExpertSpec Spec.LearnerSpec Model.Adwin Model.Knn Model.NaiveBayes
  Model.Learner Model.LearnerInstances Model.Experts Spec.ExpertRuns Proofs.ListFacts Proofs.ExpertProofs Proofs.ExpertRunProofs.
Import ListNotations.
Local Open Scope R_scope.

(** ** Dynamic Weighted Majority *)
(** C132: after any successful sequence of partial_fit, predict and reset calls the ensemble has between 1 and n_estimators
    members; every weight is in (0, 1] and not under theta, and some weight is 1. *)
Theorem dwm_members_and_weights : forall {X B} (L : learner X R B) base n period beta theta s,
  (1 <= n)%Z -> 0 < beta -> theta <= 1 -> nonneg_labels L ->
  dwm_reached L base Rtrunc n period beta theta s ->
  (1 <= length (dw_experts s) <= Z.to_nat n)%nat /\
  (forall e, In e (dw_experts s) -> 0 < ex_weight e <= 1 /\ theta <= ex_weight e) /\
  (exists e, In e (dw_experts s) /\ ex_weight e = 1).
Proof.
  intros X B L base n period beta theta s Hn Hb Ht HL Hr.
  pose proof (dwm_reach_inv L base n period beta theta Hn Hb Ht HL s Hr) as I. pose proof (dwm_inv_nonempty n theta s I) as Hne.
  destruct I as (I1 & I2 & I3). rewrite Forall_forall in I2. rewrite Exists_exists in I3.
  split; [destruct (dw_experts s); [congruence|cbn [length] in *; lia]|]. auto.
Qed.
Print Assumptions dwm_members_and_weights.

(** C133: each sample is one round of Dynamic Weighted Majority.  The members answer; when the number of the sample is a
    multiple of the period the wrong ones lose the factor beta; the answer of the ensemble is the label of greatest support;
    at a multiple of the period the weights are divided by the greatest one, members under theta leave, and after a wrong
    answer a new member of weight 1 enters (in a full ensemble instead of one of least weight).  Then every member learns the
    sample. *)
Theorem dwm_sample_is_round : forall {X B} (L : learner X R B) base n period beta theta s x y classes sw s',
  (1 <= n)%Z -> 0 < beta -> theta <= 1 -> nonneg_labels L ->
  dwm_reached L base Rtrunc n period beta theta s ->
  dwm_fit L base n period beta theta s [(x, y)] classes sw = Ok s' ->
  let hit := (((dw_epochs s + 1) mod period) =? 0)%Z in
  exists answers h mid,
    answer_all L x (dw_experts s) answers /\
    plurality (Z.max (Z.max (match classes with Some c => Z.of_nat (length c) | None => 0%Z end) (y + 1)) (dw_classes s))
              (votes_of (map ex_weight (after_vote beta hit y (dw_experts s) answers)) answers) h /\
    (if hit then round (Z.to_nat n) theta base (map pair_of (after_vote beta hit y (dw_experts s) answers)) (negb (Z.eqb h y)) mid
     else mid = map pair_of (after_vote beta hit y (dw_experts s) answers)) /\
    Forall2 (fun m e => lr_fit L (fst m) [(x, y)] classes sw = Ok (ex_est e) /\ ex_weight e = snd m) mid (dw_experts s') /\
    dw_epochs s' = (dw_epochs s + 1)%Z.
Proof.
  intros X B L base n period beta theta s x y classes sw s' Hn Hb Ht HL Hr E hit.
  pose proof (dwm_reach_inv L base n period beta theta Hn Hb Ht HL s Hr) as I. pose proof (dwm_inv_nonempty n theta s I) as Hne.
  destruct I as (I1 & I2 & I3). unfold dwm_fit in E. cbn [foldM] in E. apply bind_Ok in E as (s1 & E & E'). injection E' as ->. cbn [fst snd] in E.
  apply dwm_one_spec in E; auto; [|apply nonneg_x; auto|eapply Forall_impl; [|exact I2]; cbn; tauto].
  destruct E as (_ & answers & h & mid & A1 & A2 & A3 & A4 & A5 & A6). fold hit in A2, A3. exists answers, h, mid. repeat split; auto.
  all: unfold class_count in A2; destruct A2 as (P1 & P2 & P3).
  - lia.
  - lia.
  - intros d Hd. apply P2. lia.
  - intros d Hd. apply P3. lia.
Qed.
Print Assumptions dwm_sample_is_round.

(** C134: with 0 < beta < 1 and a base estimator that does not fail, no call fails. *)
Theorem dwm_never_fails : forall {X B} (L : learner X R B) base n period beta theta classes ops,
  (1 <= n)%Z -> 0 < beta < 1 -> theta <= 1 -> period <> 0%Z -> nonneg_labels L -> well_behaved L base classes ->
  Forall (plain_op classes) ops -> exists s, dwm_run L base Rtrunc n period beta theta ops = Ok s.
Proof. intros X B L base n period beta theta classes ops Hn Hb Ht Hp HL HW Ho. eapply dwm_total; eauto; lra. Qed.
Print Assumptions dwm_never_fails.
(** NaiveBayes, the default base estimator, is such an estimator: it works with any parameters in range. *)
Theorem dwm_never_fails_naive_bayes : forall k key nominal b0 n period beta theta ops,
  k > 0 -> nb_new (option_map PyList nominal) = Ok b0 ->
  (1 <= n)%Z -> 0 < beta < 1 -> theta <= 1 -> period <> 0%Z -> Forall (plain_op None) ops ->
  exists s, dwm_run (nb_learner k key) b0 Rtrunc n period beta theta ops = Ok s.
Proof.
  intros k key nominal b0 n period beta theta ops Hk E Hn Hb Ht Hp Ho. eapply dwm_never_fails; eauto; [apply nb_nonneg|].
  eapply nb_well_behaved; eauto.
Qed.
(** A reachable state with a following sample, for the theorems above. *)
Example dwm_applies : forall k key, k > 0 -> exists b0 s s',
  nb_new None = Ok b0 /\ dwm_reached (nb_learner k key) b0 Rtrunc 3 2 (1 / 2) (1 / 100) s /\ dw_epochs s = 5%Z /\
  dwm_fit (nb_learner k key) b0 3 2 (1 / 2) (1 / 100) s [([4], 1%Z)] None None = Ok s'.
Proof.
  intros k key Hk. set (ops := [EFit [([1], 0%Z); ([2], 1%Z); ([1], 0%Z); ([3], 2%Z)] None None; EPredict [[1]; [5]]; EFit [([7], 2%Z)] None None] : list (eop (list R) R)).
  destruct (dwm_never_fails_naive_bayes k key None (mk_nb [] [] None (fun _ => false)) 3 2 (1 / 2) (1 / 100) (ops ++ [EFit [([4], 1%Z)] None None])) as (s' & E);
    auto; try lia; try lra.
  { repeat constructor; cbn; lia. }
  unfold dwm_run in E. rewrite foldM_app in E. apply bind_Ok in E as (s & E1 & E2). cbn [foldM] in E2. apply bind_Ok in E2 as (s2 & E2 & E3). injection E3 as ->.
  exists (mk_nb [] [] None (fun _ => false)), s, s'. repeat split; auto; [exists ops; exact E1|].
  assert (Hinc : forall l s1 s2, dwm_fit (nb_learner k key) (mk_nb [] [] None (fun _ => false)) 3 2 (1 / 2) (1 / 100) s1 l None None = Ok s2 -> dw_epochs s2 = (dw_epochs s1 + Z.of_nat (length l))%Z).
  { clear. induction l as [|[x y] l IH]; intros s1 s2 E; unfold dwm_fit in E; cbn [foldM] in E; [injection E as <-; cbn; lia|].
    apply bind_Ok in E as (s3 & E1 & E2). apply IH in E2. rewrite E2. cbn [fst snd] in E1. unfold dwm_one in E1. cbv zeta in E1.
    apply bind_Ok in E1 as (hit & _ & E1). apply bind_Ok in E1 as ((ex & v) & _ & E1). apply bind_Ok in E1 as (h & _ & E1). apply bind_Ok in E1 as (ex2 & _ & E1). apply bind_Ok in E1 as (ex3 & _ & E1). injection E1 as <-.
    cbn [dw_epochs length]. lia. }
  unfold ops in E1. cbn [foldM] in E1. apply bind_Ok in E1 as (s3 & F1 & E1). apply bind_Ok in E1 as (s4 & F2 & E1). apply bind_Ok in E1 as (s5 & F3 & E1). injection E1 as ->.
  cbn [dwm_op] in F1, F2, F3. apply Hinc in F1, F3. apply bind_Ok in F2 as ((p & s6) & F2 & F4). injection F4 as ->. unfold dwm_predict in F2. apply bind_Ok in F2 as ((q & l) & _ & F2). injection F2 as _ <-.
  cbn [dw_epochs length dwm_new] in *. lia.
Qed.

(** With beta = 1 (wrong members keep their weight) a full ensemble that answers wrongly makes partial_fit raise TypeError:
    there is no weakest member to remove.  (Numbers are rational here; the base estimator is NaiveBayes.) *)
Definition q_nb : nb Q := mk_nb [] [] None (fun _ => true).
Definition q_learner : learner (list Q) Q (nb Q) := nb_learner 1%Q (fun q => Qnum q).
Definition q_trunc (q : Q) : Z := Z.quot (Qnum q) (Zpos (Qden q)).
Theorem dwm_beta_one_refuted : dwm_run q_learner q_nb q_trunc 1 1 1%Q (1 # 100) [EFit [([1%Q], 0%Z)] None None] <> Raise TypeError /\
  dwm_run q_learner q_nb q_trunc 1 1 1%Q (1 # 100) [EFit [([1%Q], 0%Z); ([1%Q], 1%Z)] None None] = Raise TypeError.
Proof. split; vm_compute; [discriminate|reflexivity]. Qed.

(** C135: a prediction is the mean of the labels given by the members, weighted, rounded to the nearest integer. *)
Theorem dwm_predicts_mean : forall {X B} (L : learner X R B) base n period beta theta s xs out s',
  (1 <= n)%Z -> 0 < beta -> theta <= 1 -> nonneg_labels L -> label_per_row L ->
  dwm_reached L base Rtrunc n period beta theta s -> dwm_predict L Rtrunc s xs = Ok (out, s') ->
  exists ps, Forall2 (fun e p => exists b', lr_predict L (ex_est e) xs = Ok (p, b')) (dw_experts s) ps /\ length out = length xs /\
    forall i, (i < length xs)%nat -> nth i out 0%Z = Rtrunc (mean_label (row_votes_of (dw_experts s) ps i) + 1 / 2) /\
      (forall v, In v (row_votes_of (dw_experts s) ps i) -> 0 < snd v) /\ row_votes_of (dw_experts s) ps i <> [].
Proof.
  intros X B L base n period beta theta s xs out s' Hn Hb Ht HL HR Hr E.
  pose proof (dwm_reach_inv L base n period beta theta Hn Hb Ht HL s Hr) as I. pose proof (dwm_inv_nonempty n theta s I) as Hne.
  unfold dwm_predict in E. apply bind_Ok in E as ((p & l) & E & E'). injection E' as -> _.
  destruct (experts_predict_mean L _ _ _ _ HR Hne E) as (ps & H1 & H2 & _ & H4). exists ps. split; auto. split; auto.
  intros i Hi. split; [auto|]. destruct I as (_ & I2 & _). rewrite Forall_forall in I2. pose proof (F2_len _ _ _ H1) as Hl. split.
  - intros [c w] Hv. unfold row_votes_of in Hv. apply in_combine_r in Hv. apply in_map_iff in Hv as (e & <- & He). apply I2 in He. cbn. lra.
  - unfold row_votes_of. destruct (dw_experts s); [congruence|]. destruct ps; [discriminate|]. discriminate.
Qed.
Print Assumptions dwm_predicts_mean.
(** So it is the weighted majority when the members answer with 0 and 1 only (a tie gives 1), and a label on which all agree. *)
Theorem mean_of_two_labels_is_majority : forall votes, votes <> [] -> (forall v, In v votes -> (fst v = 0 \/ fst v = 1)%Z /\ 0 < snd v) ->
  Rtrunc (mean_label votes + 1 / 2) = (if Rle_dec (support votes 0) (support votes 1) then 1 else 0)%Z.
Proof.
  intros votes Hn H. destruct (mean_binary votes Hn H) as (-> & H1 & H2 & H3).
  set (a := support votes 0) in *. set (b := support votes 1) in *.
  assert (Hq : forall q, q = b / (a + b) -> q * (a + b) = b) by (intros q ->; field; lra). specialize (Hq _ eq_refl). set (q := b / (a + b)) in *.
  destruct (Rle_dec a b) as [Hab|Hab]; apply trunc_int; try lia.
  - split; [nra|]. assert (q <= 1) by nra. lra.
  - split; [assert (0 <= q) by nra; lra|]. nra.
Qed.
Theorem mean_of_one_label_is_it : forall votes c, (0 <= c)%Z -> votes <> [] -> (forall v, In v votes -> fst v = c /\ 0 < snd v) ->
  Rtrunc (mean_label votes + 1 / 2) = c.
Proof. intros votes c Hc Hn H. rewrite (mean_const votes c Hn H). apply trunc_int; auto. lra. Qed.
(** But it is not the vote of the members when there are three labels: two members of equal weight answer 0 and 2, and the
    ensemble predicts 1, a label that no member gives and that no sample ever had. *)
Theorem dwm_prediction_is_vote_refuted : exists s,
  dwm_reached q_learner q_nb q_trunc 2 1 (1 # 2)%Q (1 # 100) s /\
  map (fun e => (ex_weight e, match lr_predict q_learner (ex_est e) [[1%Q]] with Ok (p, _) => p | Raise _ => [] end)) (dw_experts s) = [(1%Q, [0%Z]); (1%Q, [2%Z])] /\
  match dwm_predict q_learner q_trunc s [[1%Q]] with Ok (p, _) => p = [1%Z] | Raise _ => False end.
Proof.
  destruct (dwm_run q_learner q_nb q_trunc 2 1 (1 # 2)%Q (1 # 100) [EFit [([1%Q], 0%Z); ([1%Q], 0%Z); ([1%Q], 0%Z); ([1%Q], 2%Z)] None None]) as [s|e] eqn:E; [|vm_compute in E; discriminate].
  exists s. split; [eexists; exact E|]. vm_compute in E. injection E as <-. split; vm_compute; reflexivity.
Qed.

(** C136 (refuted): sample weights, one per row, cannot be used with a batch of two rows or more: the weights of the whole
    batch are handed to the members with each single row, and NaiveBayes refuses. *)
Lemma nb_fit_lengths k key b x y classes a c (sw : list R) b' : lr_fit (nb_learner k key) b [(x, y)] classes (Some (a :: c :: sw)) <> Ok b'.
Proof. cbn [lr_fit nb_learner]. unfold nb_fit. intros H. apply bind_Ok in H as (t & _ & H). cbn in H. discriminate. Qed.
Theorem dwm_sample_weight_refuted : forall k key b0 n period beta theta s rows classes sw s',
  (1 <= n)%Z -> 0 < beta -> theta <= 1 ->
  dwm_reached (nb_learner k key) b0 Rtrunc n period beta theta s -> (2 <= length rows)%nat -> length sw = length rows ->
  dwm_fit (nb_learner k key) b0 n period beta theta s rows classes (Some sw) <> Ok s'.
Proof.
  intros k key b0 n period beta theta s rows classes sw s' Hn Hb Ht Hr H2 Hl E.
  destruct rows as [|[x y] rows]; [cbn in H2; lia|]. destruct sw as [|a [|c sw]]; cbn in Hl, H2; try lia.
  unfold dwm_fit in E. cbn [foldM] in E. apply bind_Ok in E as (s1 & E & _).
  assert (E1 : dwm_fit (nb_learner k key) b0 n period beta theta s [(x, y)] classes (Some (a :: c :: sw)) = Ok s1) by (unfold dwm_fit; cbn [foldM]; rewrite E; reflexivity).
  assert (Hr1 : dwm_inv n theta s1).
  { eapply dwm_fit_inv; eauto; [apply nb_nonneg|]. eapply dwm_reach_inv; eauto. apply nb_nonneg. }
  apply dwm_sample_is_round in E1; auto; [|apply nb_nonneg]. destruct E1 as (ans & h & mid & _ & _ & _ & F & _).
  pose proof (dwm_inv_nonempty n theta s1 Hr1) as Hne. destruct F as [|m e mid es [F _] _]; [congruence|].
  eapply nb_fit_lengths; eauto.
Qed.
Print Assumptions dwm_sample_weight_refuted.
(** Without weights a batch is the same as its samples one after the other. *)
Theorem dwm_batch_is_one_by_one : forall {X T B} `{Num T} (L : learner X T B) base n period beta theta s a b classes,
  dwm_fit L base n period beta theta s (a ++ b) classes None =
  (s' <- dwm_fit L base n period beta theta s a classes None ;; dwm_fit L base n period beta theta s' b classes None).
Proof. intros. apply foldM_app. Qed.

(** ** Additive Expert Ensemble *)
(** C137: between 1 and n_estimators members, weights positive; they sum to 1 except when the number of samples learned is a
    multiple of 1000. *)
Theorem addexp_members_and_weights : forall {X B} (L : learner X R B) base n beta gamma prune ops s,
  (1 <= n)%Z -> 0 < beta -> 0 < gamma -> nonneg_labels L ->
  ae_run L base Rtrunc n beta gamma prune ops = Ok s ->
  (1 <= length (ae_experts s) <= Z.to_nat n)%nat /\ (forall e, In e (ae_experts s) -> 0 < ex_weight e) /\
  ((samples_since ops mod 1000 <> 0)%Z -> Rsum (map ex_weight (ae_experts s)) = 1).
Proof.
  intros X B L base n beta gamma prune ops s Hn Hb Hg HL E. destruct (ae_run_state L base n beta gamma prune Hn Hb Hg HL ops s E) as ((H1 & H2) & _ & H3).
  rewrite Forall_forall in H2. split; [lia|]. auto.
Qed.
Print Assumptions addexp_members_and_weights.
Theorem addexp_never_fails : forall {X B} (L : learner X R B) base n beta gamma prune classes ops,
  (1 <= n)%Z -> 0 < beta -> 0 < gamma -> nonneg_labels L -> well_behaved L base classes ->
  Forall (plain_op classes) ops -> exists s, ae_run L base Rtrunc n beta gamma prune ops = Ok s.
Proof. intros. eapply ae_total; eauto. Qed.
Theorem addexp_never_fails_naive_bayes : forall k key nominal b0 n beta gamma prune ops,
  k > 0 -> nb_new (option_map PyList nominal) = Ok b0 -> (1 <= n)%Z -> 0 < beta -> 0 < gamma -> Forall (plain_op None) ops ->
  exists s, ae_run (nb_learner k key) b0 Rtrunc n beta gamma prune ops = Ok s.
Proof.
  intros k key nominal b0 n beta gamma prune ops Hk E Hn Hb Hg Ho. eapply addexp_never_fails; eauto; [apply nb_nonneg|]. eapply nb_well_behaved; eauto.
Qed.
Print Assumptions addexp_never_fails_naive_bayes.

(** One sample.  [old]: the members after the wrong ones lost the factor beta; [w]: the weight for a new member; [mid]: the
    members that learn the sample. *)
Definition addexp_step {X B} (L : learner X R B) (gamma beta : R) (s : addexp R B) x y classes sw (s' : addexp R B)
    (P : list (B * R) -> bool -> R -> list (B * R) -> Prop) : Prop :=
  exists answers h mid t,
    answer_all L x (ae_experts s) answers /\
    plurality (Z.max (Z.max (match classes with Some c => Z.of_nat (length c) | None => 0%Z end) (y + 1)) (ae_classes s))
              (votes_of (map ex_weight (ae_experts s)) answers) h /\
    let old := map pair_of (after_vote beta true y (ae_experts s) answers) in
    P old (negb (Z.eqb h y)) (Rsum (map snd old) * gamma) mid /\
    (t = if ((ae_epochs s + 1) mod 1000 =? 0)%Z then 1 else Rsum (map snd mid)) /\
    Forall2 (fun m e => lr_fit L (fst m) [(x, y)] classes sw = Ok (ex_est e) /\ ex_weight e = snd m / t) mid (ae_experts s').

Lemma addexp_step_of {X B} (L : learner X R B) base n beta gamma prune s x y classes sw s' (P : list (B * R) -> bool -> R -> list (B * R) -> Prop) :
  (1 <= n)%Z -> 0 < beta -> 0 < gamma -> nonneg_labels L -> ae_reached L base Rtrunc n beta gamma prune s ->
  ae_fit L base n beta gamma prune s [(x, y)] classes sw = Ok s' ->
  (forall old wrong, length old = length (ae_experts s) ->
     P (map pair_of old) wrong (Rsum (map ex_weight old) * gamma) (map pair_of (ae_mid base n gamma prune old wrong))) ->
  addexp_step L gamma beta s x y classes sw s' P.
Proof.
  intros Hn Hb Hg HL Hr E HP. unfold ae_fit in E. cbn [foldM] in E. apply bind_Ok in E as (s1 & E & E'). injection E' as ->. cbn [fst snd] in E.
  destruct (ae_step L base n beta gamma prune Hn Hb Hg HL _ _ _ _ _ _ Hr E) as (ans & h & A1 & A2 & A3 & _).
  set (old := after_vote beta true y (ae_experts s) ans) in *. assert (Hl : length old = length (ae_experts s)) by (apply after_vote_len; symmetry; apply (F2_len _ _ _ A1)).
  exists ans, h, (map pair_of (ae_mid base n gamma prune old (negb (Z.eqb h y)))). eexists. split; [exact A1|]. split.
  { destruct A2 as (P1 & P2 & P3). unfold class_count in *. split; [lia|]. split; intros d Hd; [apply P2|apply P3]; lia. }
  cbv zeta. fold old. split; [|split; [reflexivity|]].
  - replace (map snd (map pair_of old)) with (map ex_weight old) by (rewrite map_map; reflexivity). apply HP. exact Hl.
  - replace (map snd (map pair_of (ae_mid base n gamma prune old (negb (Z.eqb h y))))) with (map ex_weight (ae_mid base n gamma prune old (negb (Z.eqb h y)))) by (rewrite map_map; reflexivity). exact A3.
Qed.

(** C138: with pruning='oldest' the members are always the n_estimators youngest: a new member is appended after a wrong
    answer and the first member goes when there are too many. *)
Theorem addexp_oldest : forall {X B} (L : learner X R B) base n beta gamma s x y classes sw s',
  (1 <= n)%Z -> 0 < beta -> 0 < gamma -> nonneg_labels L -> ae_reached L base Rtrunc n beta gamma Oldest s ->
  ae_fit L base n beta gamma Oldest s [(x, y)] classes sw = Ok s' ->
  addexp_step L gamma beta s x y classes sw s' (fun old wrong w mid => mid = lastn (Z.to_nat n) (old ++ if wrong then [(base, w)] else [])).
Proof.
  intros X B L base n beta gamma s x y classes sw s' Hn Hb Hg HL Hr E. eapply addexp_step_of; eauto. intros old wrong Hl.
  destruct (ae_reach_inv L base n beta gamma Oldest Hn Hb Hg HL s Hr) as ((_ & I1) & _).
  rewrite (ae_mid_oldest base n gamma Oldest old wrong eq_refl) by lia. unfold lastn. rewrite <- skipn_map, map_app, app_length, app_length, map_length. destruct wrong; reflexivity.
Qed.
Print Assumptions addexp_oldest.

(** C139 (refuted): pruning='weakest' does not remove the weakest member.  After a wrong answer of a full ensemble, either
    the new member is heavier than some old one, and it is the new one that is thrown away; or it is the weakest of all, and
    then it stays and an old one goes. *)
Theorem addexp_weakest_refuted : forall {X B} (L : learner X R B) base n beta gamma s x y classes sw s',
  (1 <= n)%Z -> 0 < beta -> 0 < gamma -> nonneg_labels L -> ae_reached L base Rtrunc n beta gamma Weakest s ->
  Z.of_nat (length (ae_experts s)) = n ->
  ae_fit L base n beta gamma Weakest s [(x, y)] classes sw = Ok s' ->
  addexp_step L gamma beta s x y classes sw s' (fun old wrong w mid => wrong = true ->
    ((exists m, In m old /\ snd m < w) -> Permutation old mid) /\
    ((forall m, In m old -> w <= snd m) -> exists m r, Permutation old (m :: r) /\ mid = r ++ [(base, w)])).
Proof.
  intros X B L base n beta gamma s x y classes sw s' Hn Hb Hg HL Hr Hf E. eapply addexp_step_of; eauto. intros old wrong Hl ->.
  destruct (min_exists old) as (w0 & Hin & Hmin); [destruct old; [cbn in Hl; lia|discriminate]|].
  pose proof (ae_mid_weakest base n gamma Weakest old w0 eq_refl) as M. rewrite Hl in M. specialize (M Hf Hn). cbv zeta in M. cbn [ex_weight] in M. specialize (M Hin Hmin).
  split; intros H.
  - destruct H as (m & Hm & Hw). apply in_map_iff in Hm as (e & <- & He). cbn in Hw. specialize (Hmin e He).
    destruct (Rlt_dec w0 _) as [_|Hge]; [|cbn in *; lra]. apply Permutation_map. apply M.
  - destruct Hin as (e & He & ->). specialize (H (pair_of e) (in_map pair_of _ _ He)). cbn in H.
    destruct (Rlt_dec _ _) as [Hlt|_]; [cbn in *; lra|]. destruct M as (e' & r & P & _ & ->). exists (pair_of e'), (map pair_of r). split; [apply (Permutation_map pair_of P)|]. rewrite map_app. reflexivity.
Qed.
Print Assumptions addexp_weakest_refuted.
(** When n_estimators * gamma > 1 a full ensemble never changes its members any more. *)
Theorem addexp_weakest_frozen_refuted : forall {X B} (L : learner X R B) base n beta gamma s x y classes sw s',
  (1 <= n)%Z -> 0 < beta -> 0 < gamma -> nonneg_labels L -> ae_reached L base Rtrunc n beta gamma Weakest s ->
  Z.of_nat (length (ae_experts s)) = n -> 1 < IZR n * gamma ->
  ae_fit L base n beta gamma Weakest s [(x, y)] classes sw = Ok s' ->
  addexp_step L gamma beta s x y classes sw s' (fun old wrong w mid => (forall m, In m old -> 0 < snd m) -> Permutation old mid).
Proof.
  intros X B L base n beta gamma s x y classes sw s' Hn Hb Hg HL Hr Hf Hng E. eapply addexp_step_of; eauto. intros old wrong Hl Hpos.
  assert (Hne : old <> []) by (destruct old; [cbn in Hl; lia|discriminate]).
  destruct (min_exists old Hne) as (w0 & Hin & Hmin).
  destruct wrong.
  - pose proof (ae_mid_weakest base n gamma Weakest old w0 eq_refl) as M. rewrite Hl in M. specialize (M Hf Hn). cbv zeta in M. cbn [ex_weight] in M. specialize (M Hin Hmin).
    pose proof (min_sum old w0 Hmin) as Hs. rewrite Hl, INR_IZR_INZ, Hf in Hs.
    assert (0 < w0) by (destruct Hin as (e & He & ->); apply (Hpos (pair_of e) (in_map pair_of _ _ He))).
    destruct (Rlt_dec w0 _) as [_|Hge]; [apply Permutation_map; apply M|]. exfalso. apply Hge. cbn [ex_weight] in *.
    assert (w0 * (IZR n * gamma) <= Rsum (map ex_weight old) * gamma) by nra. nra.
  - unfold ae_mid. cbv zeta. destruct (Z.ltb_spec n (Z.of_nat (length (TreeSkeleton.sort_stable wkey old)))) as [Hb'|_].
    + rewrite sorted_len in Hb'. lia.
    + apply Permutation_map. apply TreeProofs.sort_stable_perm.
Qed.
Print Assumptions addexp_weakest_frozen_refuted.

(** A run: n_estimators = 2, gamma = 1.  The third sample, of a new label, is answered wrongly by the full ensemble, yet
    both members afterwards have learned more than that sample: the new member is gone. *)
Example addexp_weakest_run : exists s s',
  ae_reached q_learner q_nb q_trunc 2 (1 # 2)%Q 1%Q Weakest s /\ length (ae_experts s) = 2%nat /\
  ae_fit q_learner q_nb 2 (1 # 2)%Q 1%Q Weakest s [([1%Q], 5%Z)] None None = Ok s' /\
  map (fun e => match lr_predict q_learner (ex_est e) [[1%Q]] with Ok (p, _) => p | Raise _ => [] end) (ae_experts s) = [[0%Z]; [1%Z]] /\
  map (fun e => nb_dist (ex_est e)) (ae_experts s') = [[(0%Z, 1%Q); (1%Z, 1%Q); (5%Z, 1%Q)]; [(1%Z, 1%Q); (5%Z, 1%Q)]].
Proof.
  destruct (ae_run q_learner q_nb q_trunc 2 (1 # 2)%Q 1%Q Weakest [EFit [([1%Q], 0%Z); ([1%Q], 1%Z)] None None]) as [s|e] eqn:E; [|vm_compute in E; discriminate].
  assert (R : ae_reached q_learner q_nb q_trunc 2 (1 # 2)%Q 1%Q Weakest s) by (eexists; exact E).
  destruct (ae_fit q_learner q_nb 2 (1 # 2)%Q 1%Q Weakest s [([1%Q], 5%Z)] None None) as [s'|e] eqn:F.
  - exists s, s'. split; [exact R|]. vm_compute in E. injection E as <-. vm_compute in F. injection F as <-. repeat split; vm_compute; reflexivity.
  - vm_compute in E. injection E as <-. vm_compute in F. discriminate.
Qed.
