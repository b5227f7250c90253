(** Multi-target regression trees: counters, where samples go, the split rule, the leaf predictions, the order of the targets, reset. *)
From Coq Require Import List ZArith QArith Reals Bool Lia Lra Permutation Qabs Floats.
From Verif Require Import Base.Py Base.Num Base.NumFloat Base.Dict Spec.Lists Model.Suggestion Model.TargetStats Model.Ebst Model.NominalObs Model.SplitTests Model.SplitCriteria
  Model.Knn Model.TreeSkeleton Model.HoeffdingTree Model.HoeffdingRegressor Model.ISoup Spec.TreeSpec Spec.TreeRelSpec Spec.SplitRuleSpec Spec.HoeffdingRegressorSpec Spec.ISoupSpec
  Proofs.SplitTestProofs Proofs.TreeProofs Proofs.TreeRelProofs Proofs.HoeffdingProofs Proofs.SplitRuleProofs Proofs.ISoupRelProofs Proofs.ISoupProofs Proofs.ISoupInvProofs Proofs.StatRangeProofs Proofs.ISoupRangeProofs Proofs.RegressorPerceptronProofs Proofs.ISoupPerceptronProofs.
Import ListNotations.
Local Open Scope Z_scope.

Section Props.
Context {T : Type} {N : Num T} (key : T -> Z) (cfg : htr_config T) (nt : nat) (M : model T).
Variable sz : sizes T (mleaf M) (minactive M) (option (stat T nat)) (htest T).
Local Notation O := (mt_ops key cfg nt M).
Local Notation reached := (mt_reached key cfg nt M sz).
Local Notation fit := (mt_fit key cfg nt M sz).
Local Notation run := (mt_run key cfg nt M sz).
Local Notation mgood := (mgood M (fun _ => True) (fun _ => True)).
Local Notation K := (keeps_true key cfg nt M).

(** Sorting uses the features only *)
Lemma route_feat (t : node (mleaf M) (minactive M) (option (stat T nat)) (htest T)) i i' : mi_x i = mi_x i' -> route O t i = route O t i'.
Proof.
  intros E. induction t as [l|l|te st ch IH] using node_rect'; auto. rewrite !route_split. cbn [o_branch mt_ops]. rewrite E. destruct (ht_branch key te (mi_x i')) as [b|e]; cbn [bind]; auto.
  destruct (0 <=? b)%Z; auto. destruct (dget ch b) as [c|] eqn:Ec; auto. rewrite Forall_forall in IH. apply dget_In in Ec. specialize (IH _ Ec). cbn [snd] in IH. now rewrite IH.
Qed.
Lemma reached_mgood s : reached s -> mgood (mt_tree M s).
Proof. intros (es & H). refine (proj1 (hinv_run key cfg nt M _ _ _ K sz (fun _ => True) _ _ _ es s H _)); auto. Qed.

(** C320: the counters of get_model_measurements are the numbers of nodes of each kind, tree_size is the number of nodes and
    tree_depth the length of the longest chain of split nodes, in every history of partial_fit and reset. *)
Theorem mt_measurements : forall s, reached s -> counters_right (mt_tree M s)
  /\ match t_root (mt_tree M s) with
     | None => mt_depth M s = 0%nat
     | Some r => t_decision (mt_tree M s) + t_active (mt_tree M s) + t_inactive (mt_tree M s) = Z.of_nat (length (nodes r)) /\ has_depth r (mt_depth M s)
     end.
Proof.
  intros s H. destruct (reached_mgood _ H) as [C _]. split; auto. unfold counters_right, mt_depth in *. destruct (t_root (mt_tree M s)) as [r|]; auto.
  destruct C as (-> & -> & ->). split; [apply count_sum|apply depth_ok].
Qed.

Lemma fit_cases s a w s' : fit s [a] (Some [w]) = Ok s' -> (w =? n0)%num = true /\ mt_tree M s' = mt_tree M s \/ (w =? n0)%num = false /\ exists g, g = msums_add (mt_sums M s) (ms_x a) (ms_y a) w /\ mt_sums M s' = g /\
  fit_one O (r_memory cfg) sz (madd M (mt_tree M s) w) (mseen M s a w) (ms_y a) w = Ok (mt_tree M s').
Proof.
  unfold mt_fit. cbn [length Nat.eqb mt_rows]. intros H. apply bind_Ok in H as (s1 & E & H). injection H as <-. apply mt_one_cases in E as [[A ->]|(A & g & -> & B & F)]; [now left|]. right. split; auto. eauto.
Qed.
Lemma feat_reaches r i p n : route O r i = Ok (p, Some n) <-> reaches O r (mfeat (mi_x i)) p n.
Proof. rewrite <- route_reaches. rewrite (route_feat r i (mfeat (mi_x i)) eq_refl). tauto. Qed.

(** C321: a sample changes the tree only where it arrives.  Every instance that reaches another node keeps its path, and the
    node there keeps its statistics; an active leaf stays the same, object for object, when the memory limit does not bind
    and no size estimate is due. *)
Theorem mt_sample_is_local : forall s a w s' r p n x2 q m, reached s -> fit s [a] (Some [w]) = Ok s' -> t_root (mt_tree M s) = Some r ->
  reaches O r (mfeat (ms_x a)) p n -> reaches O r (mfeat x2) q m -> q <> p ->
  exists r' m', t_root (mt_tree M s') = Some r' /\ reaches O r' (mfeat x2) q m' /\ stats_of O m' = stats_of O m
    /\ (enough_memory (r_memory cfg) (mt_tree M s) -> c_period_due (r_memory cfg) (t_weight (mt_tree M s) + w)%num = false -> is_active m = true -> m' = m).
Proof.
  intros s a w s' r p n x2 q m R H Er R1 R2 Ne. pose proof (reached_mgood _ R) as G. apply fit_cases in H as [[_ ->]|(_ & g & -> & _ & F)]; [exists r, m; repeat split; auto|].
  pose proof (mgood_add _ _ _ _ w G) as G'.
  assert (E : root_or_new O (madd M (mt_tree M s) w) = r) by (unfold root_or_new, madd; cbn [t_root]; now rewrite Er).
  set (i := mseen M s a w) in *. apply (feat_reaches r i) in R1. apply (feat_reaches r (mfeat x2)) in R2. rewrite <- E in R1, R2.
  destruct (mframe key cfg nt M _ _ _ K sz _ i (ms_y a) w _ _ _ (mfeat x2) _ _ Logic.I G' F R1 R2 Ne) as (m' & r' & A & B & C & D).
  exists r', m'. split; auto. split; [now apply (feat_reaches r' (mfeat x2))|]. split; auto.
Qed.
(** Every node of a trained tree has statistics. *)
Definition seen_stats (s : option (stat T nat)) : Prop := s <> None.
Lemma reached_seen s : reached s -> match t_root (mt_tree M s) with None => True | Some r => every O seen_stats r end.
Proof.
  intros (es & H). refine (proj2 (hinv_run key cfg nt M _ _ _ K sz seen_stats _ _ _ es s H _)); auto.
  - intros l i y w l' _ _ E. unfold mleaf_learn in E. cbv zeta in E. apply bind_Ok in E as (p & _ & E). injection E as <-. discriminate.
  - intros l i y w l' _ _ E. unfold minactive_learn in E. cbv zeta in E. apply bind_Ok in E as (p & _ & E). injection E as <-. discriminate.
  - intros l l' te ds _ _ E d Hd. apply mdecide_cases in E as (pre & bs & _ & Eb & _ & best & Hin & Et & <-).
    destruct (msuggestions_in _ _ _ _ _ _ _ Eb Hin) as [->|(i & o & Hio & E)]; [discriminate Et|]. destruct o as [t|dd|]; cbn [mbest_of] in E; [| |discriminate].
    + apply bind_Ok in E as (b & Ee & E). injection E as <-. destruct (sg_test b); [|discriminate Et]. destruct (sg_dists b) as [[u v]|]; [|discriminate Et]. destruct Hd as [<-|[<-|[]]]; discriminate.
    + destruct (nr_best _ _ _ _) as [b|]; [|discriminate]. injection E as <-. cbn [sg_dists] in Hd. apply in_map_iff in Hd as (u & <- & _). discriminate.
Qed.
Lemma reached_fit s rows ws s' : reached s -> fit s rows ws = Ok s' -> reached s'.
Proof. intros (es & H) F. exists (es ++ [MFit rows ws]). rewrite mrun_app, H. cbn [bind mt_run mt_step]. now rewrite F. Qed.

(** C321: the leaf that a sample reaches gains its weight w, w * y and w * y * y, whether it splits or not; and nothing else. *)
Definition gains (s s' : option (stat T nat)) (y : nat -> T) (w : T) : Prop :=
  exists d, s' = Some d /\ st_w d = match s with Some a => st_w a + w | None => w end%num /\ forall i : nat,
    st_s d i = match s with Some a => st_s a i + y i * w | None => y i * w end%num /\ st_q d i = match s with Some a => st_q a i + y i * y i * w | None => y i * y i * w end%num.
Theorem mt_sample_is_counted : forall s a w s' p n, reached s -> fit s [a] (Some [w]) = Ok s' -> (w =? n0)%num = false ->
  reaches O (mmet M s) (mfeat (ms_x a)) p n -> is_split n = false ->
  exists r' n', t_root (mt_tree M s') = Some r' /\ node_at r' p = Some n' /\ gains (stats_of O n) (stats_of O n') (ms_y a) w.
Proof.
  intros s a w s' p n R H Hw R1 Hn. pose proof (reached_mgood _ R) as G. apply fit_cases in H as [[C _]|(_ & g & -> & _ & F)]; [congruence|].
  set (i := mseen M s a w) in *. apply (feat_reaches (mmet M s) i) in R1.
  destruct (mfit_one key cfg nt M _ _ _ K sz _ i (ms_y a) w _ Logic.I (mgood_add _ _ _ _ w G) F) as (_ & _ & _ & _ & p0 & n0' & n' & r1 & r' & R0 & U & Er' & SS & _ & Le).
  change (root_or_new O (madd M (mt_tree M s) w)) with (mmet M s) in R0, U. rewrite R1 in R0. injection R0 as <- <-.
  assert (Q : gains (stats_of O n) (stats_of O n') (ms_y a) w).
  { assert (QQ : forall b, gains b (Some (mstats_add b (ms_y a) w)) (ms_y a) w) by (intros b; exists (mstats_add b (ms_y a) w); destruct b; repeat split).
    destruct n as [l|l|te st ch]; [| |discriminate]; cbn [learned] in Le.
    - destruct Le as (l' & EL & ->). cbn [o_learn mt_ops stats_of o_stats] in EL |- *. unfold mleaf_learn in EL. cbv zeta in EL. apply bind_Ok in EL as (q & _ & EL). injection EL as <-. cbn [ml_stats]. apply QQ.
    - destruct Le as (i' & EL & ->). cbn [o_learn_inactive mt_ops stats_of o_stats_inactive] in EL |- *. unfold minactive_learn in EL. cbv zeta in EL. apply bind_Ok in EL as (q & _ & EL). injection EL as <-. cbn [mn_stats]. apply QQ. }
  destruct (update_at_inv _ _ _ _ U) as (n1 & n2 & _ & E2 & N2 & _). injection E2 as <-.
  destruct (same_stats_at _ _ _ _ _ SS N2) as (m' & A & B). exists r', m'. split; auto. split; auto. now rewrite <- (same_stats_eq _ _ _ B).
Qed.

(** C322: between resets the tree only grows: a call never removes a split node; one sample makes at most one split; once growth
    has stopped there are no further splits; and a path can only become longer. *)
Theorem mt_only_grows : forall s rows ws s', reached s -> fit s rows ws = Ok s' ->
  t_decision (mt_tree M s) <= t_decision (mt_tree M s') <= t_decision (mt_tree M s) + Z.of_nat (length rows)
  /\ (t_growth (mt_tree M s) = false -> t_decision (mt_tree M s') = t_decision (mt_tree M s) /\ t_growth (mt_tree M s') = false).
Proof.
  intros s rows ws s' R H. pose proof (reached_mgood _ R) as G. clear R. unfold mt_fit in H. cbv zeta in H. destruct (Nat.eqb _ _); [|discriminate].
  revert H. generalize (match ws with Some ws => ws | None => repeat n1 (length rows) end) as ws'. clear ws. change (mt_tree M s) with (mt_tree M (mk_mt M (mt_tree M s) (mt_sums M s) true)) in G. change (mt_tree M s) with (mt_tree M (mk_mt M (mt_tree M s) (mt_sums M s) true)) at 2 3 4 5.
  revert G. generalize (mk_mt M (mt_tree M s) (mt_sums M s) true) as s0. clear s. intros s G. revert s G.
  induction rows as [|a rows IH]; intros s G ws' E; cbn [mt_rows] in E; [destruct ws'; injection E as <-; cbn; split; auto; lia|].
  destruct ws' as [|w ws']; [injection E as <-; cbn [length]; split; auto; lia|]. apply bind_Ok in E as (s1 & E1 & E). cbn [length].
  apply mt_one_cases in E1 as [[_ ->]|(_ & g & -> & _ & F)]; [destruct (IH _ G _ E) as [A B]; split; auto; lia|].
  destruct (mfit_one key cfg nt M _ _ _ K sz _ _ (ms_y a) w _ Logic.I (mgood_add _ _ _ _ w G) F) as (G1 & D1 & Gr & _). cbn [madd t_decision t_growth] in D1, Gr.
  destruct (IH _ G1 _ E) as [A B]. split; [destruct D1 as [D1|[D1 _]]; lia|]. intros Hf. destruct D1 as [D1|[D1 D2]]; [|congruence].
  destruct B as [B1 B2]; [destruct Gr; congruence|]. split; auto. lia.
Qed.
Theorem mt_paths_extend : forall s a w s' r r' x2 q m q' m', reached s -> fit s [a] (Some [w]) = Ok s' -> t_root (mt_tree M s) = Some r ->
  t_root (mt_tree M s') = Some r' -> reaches O r (mfeat x2) q m -> reaches O r' (mfeat x2) q' m' -> exists e, q' = q ++ e.
Proof.
  intros s a w s' r r' x2 q m q' m' R H Er Er' R2 R2'. apply route_reaches in R2, R2'. pose proof (reached_mgood _ R) as G.
  apply fit_cases in H as [[_ ET]|(_ & g & -> & _ & F)]; [rewrite ET, Er in Er'; injection Er' as <-; rewrite R2 in R2'; injection R2' as <- <-; exists []; now rewrite app_nil_r|].
  pose proof (mgood_add _ _ _ _ w G) as G'.
  assert (E : root_or_new O (madd M (mt_tree M s) w) = r) by (unfold root_or_new, madd; cbn [t_root]; now rewrite Er).
  destruct (mfit_one key cfg nt M _ _ _ K sz _ _ (ms_y a) w _ Logic.I G' F) as (_ & _ & _ & _ & p & n & n' & r1 & r2 & R0 & U & Er2 & SS & _ & _).
  rewrite Er' in Er2. injection Er2 as <-. rewrite E in R0, U. destruct (list_eq_dec Z.eq_dec q p) as [->|Ne].
  - apply same_stats_sym in SS. destruct (same_stats_route _ _ _ _ _ _ SS R2') as (m1 & R1 & _). exact (route_prefix _ _ p _ _ _ _ _ _ U R2 R1).
  - rewrite <- E in R0, R2. destruct (mframe key cfg nt M _ _ _ K sz _ _ (ms_y a) w _ _ _ _ _ _ Logic.I G' F R0 R2 Ne) as (m1 & r3 & A & B & _). rewrite A in Er'. injection Er' as ->.
    rewrite B in R2'. injection R2' as <- <-. exists []. now rewrite app_nil_r.
Qed.

(** C323: a sample splits the leaf it reaches exactly when growth is allowed, grace_period of weight has come since the last
    attempt, and the best suggestion is a test whose merit is positive and whose merit times (1 - bound) exceeds every other
    merit, or the bound is below tie_threshold; a single suggestion is taken as it is. *)
Definition multi_split_conditions (s : mt M) (a : msample T) (w : T) (p : list Z) (l' : mleaf M) (te : htest T) (ds : list (option (stat T nat))) : Prop :=
  exists l pre bs best others, reaches O (mmet M s) (mfeat (ms_x a)) p (Active l)
    /\ mleaf_learn key cfg M l (mseen M s a w) (ms_y a) w = Ok l' /\ ml_stats M l' = Some pre /\ t_growth (mt_tree M s) = true
    /\ (r_grace cfg <=? st_w pre - ml_last M l)%num = true
    /\ msuggestions cfg nt M l' pre = Ok bs /\ best_is bs best others /\ sg_test best = Some te /\ sg_dists best = ds
    /\ ratio_wins (epsilon n1 (r_confidence cfg) (st_w pre)) (r_tie cfg) best others.
(** Merits are numbers (see the criterion's properties): the leaf's suggestions have no -inf. *)
Definition merits_ok (s : mt M) (a : msample T) (w : T) : Prop :=
  forall p l l' pre bs, reaches O (mmet M s) (mfeat (ms_x a)) p (Active l) -> mleaf_learn key cfg M l (mseen M s a w) (ms_y a) w = Ok l' ->
    ml_stats M l' = Some pre -> msuggestions cfg nt M l' pre = Ok bs -> numeric_merits bs.
Lemma mdecide_iff l pre bs d te ds : ordered T -> divisive T -> ml_stats M l = Some pre -> msuggestions cfg nt M l pre = Ok bs -> numeric_merits bs -> mdecide cfg nt M l = Ok d ->
  ((exists l2, d = SplitOn l2 te ds) <-> exists best others, best_is bs best others /\ sg_test best = Some te /\ sg_dists best = ds /\ ratio_wins (epsilon n1 (r_confidence cfg) (st_w pre)) (r_tie cfg) best others).
Proof.
  intros Hord Hdiv Es Eb Num H. unfold mdecide in H. cbv zeta in H. rewrite Es, Eb in H. cbn [bind] in H.
  change (fun a b : suggestion (option (htest T)) (list (option (stat T nat))) T => negb (mgt (sg_merit a) (sg_merit b))) with (@sle T N (option (htest T)) (list (option (stat T nat)))) in H.
  destruct (rev (sort_stable sle bs)) as [|best rest] eqn:Er.
  { injection H as <-. split; [intros [l2 C]; discriminate|]. intros (best & others & (q & post & E & _) & _).
    apply (f_equal (@rev _)) in Er. rewrite rev_involutive in Er. cbn in Er. assert (P := sort_stable_perm sle bs). rewrite Er in P. apply Permutation_sym, Permutation_nil in P. subst bs. now destruct q. }
  destruct (best_sorted _ _ _ Hord Er) as (others & B & P).
  assert (FL : forall X, (exists best0 others0, best_is bs best0 others0 /\ X best0 others0) <-> X best others).
  { intros X. split; [|intros HX; exists best, others; auto]. intros (b0 & o0 & B0 & HX). destruct (best_is_unique _ _ _ _ _ Hord B B0) as [-> ->]. exact HX. }
  rewrite (FL (fun best others => sg_test best = Some te /\ sg_dists best = ds /\ ratio_wins (epsilon n1 (r_confidence cfg) (st_w pre)) (r_tie cfg) best others)).
  destruct rest as [|second rest].
  - apply Permutation_nil in P. subst others. injection H as <-. destruct (sg_test best) as [te0|].
    + split; [intros [l2 [= <- <- <-]]; split; [reflexivity|split; [reflexivity|now left]]|]. intros ([= ->] & <- & _). eauto.
    + split; [intros [l2 C]; discriminate|]. intros (C & _). discriminate.
  - apply bind_Ok in H as (bound & Ebd & H).
    assert (EB : bound = epsilon n1 (r_confidence cfg) (st_w pre)). { unfold hoeffding_bound in Ebd. apply bind_Ok in Ebd as (i & Ei & Ebd). injection Ebd as <-. unfold pydiv in Ei. destruct (_ =? _)%num; [discriminate|]. injection Ei as <-. reflexivity. }
    subst bound. set (eps := epsilon n1 (r_confidence cfg) (st_w pre)) in *. assert (Q2 : forall o, In o others -> sle o second = true).
    { intros o Ho. apply (Permutation_in _ (Permutation_sym P)) in Ho as [<-|Ho].
      + destruct (sle second second) eqn:Q; auto. apply (sle_tot Hord) in Q as Q'. congruence.
      + exact (sort_second _ (sle_tot Hord) (sle_trans Hord) _ _ _ _ Er _ Ho). }
    assert (InB : forall o, In o others -> In o bs). { intros o Ho. destruct B as (u & v & -> & -> & _). apply in_app_iff in Ho as [Ho|Ho]; apply in_app_iff; auto. right. now right. }
    assert (Hs : In second others) by (eapply Permutation_in; [exact P|now left]).
    unfold numeric_merits in Num. rewrite Forall_forall in Num.
    assert (W : ratio_wins eps (r_tie cfg) best others <-> (n0 <? mmerit_of best)%num && ((mmerit_of second / mmerit_of best <? n1 - eps)%num || (eps <? r_tie cfg)%num) = true).
    { rewrite andb_true_iff, orb_true_iff. unfold ratio_wins. assert (Nb : sg_merit best <> None) by (apply Num; destruct B as (u & v & -> & _); apply in_app_iff; right; now left).
      unfold mmerit_of. destruct (sg_merit best) as [mb|]; [|contradiction]. split.
      - intros [->|(m & [= <-] & Hp & [H1|H1])]; [destruct Hs| |auto]. split; auto. left. specialize (Num _ (InB _ Hs)). destruct (sg_merit second) as [ms|] eqn:Em; [|contradiction]. exact (H1 _ _ Hs Em).
      - intros [Hp H1]. right. exists mb. split; auto. split; auto. destruct H1 as [H1|H1]; [left|auto]. intros o m' Ho Em. specialize (Q2 o Ho). unfold sle in Q2. rewrite Em in Q2.
        pose proof (Num _ (InB _ Hs)) as Ns. destruct (sg_merit second) as [ms|]; [|contradiction]. cbn in Q2. apply negb_true_iff in Q2. exact (Hdiv _ _ _ _ Q2 Hp H1). }
    rewrite W. destruct ((n0 <? mmerit_of best)%num && _).
    + injection H as <-. destruct (sg_test best) as [te0|].
      * split; [intros [l2 [= <- <- <-]]; auto|]. intros ([= ->] & <- & _). eauto.
      * split; [intros [l2 C]; discriminate|]. intros (C & _). discriminate.
    + split; [|intros (_ & _ & C); discriminate]. intros [l2 ->]. exfalso. apply bind_Ok in H as (poor & _ & H). destruct (_ && _); [apply bind_Ok in H as (l3 & _ & H)|]; discriminate.
Qed.
Lemma mlearn_facts l i y w l' : mleaf_learn key cfg M l i y w = Ok l' -> ml_last M l' = ml_last M l /\ exists pre, ml_stats M l' = Some pre.
Proof. unfold mleaf_learn. cbv zeta. intros H. apply bind_Ok in H as (p & _ & H). injection H as <-. cbn. eauto. Qed.
Lemma fit_decided s a w s' p l l' : fit s [a] (Some [w]) = Ok s' -> (w =? n0)%num = false -> t_growth (mt_tree M s) = true ->
  route O (mmet M s) (mseen M s a w) = Ok (p, Some (Active l)) -> mleaf_learn key cfg M l (mseen M s a w) (ms_y a) w = Ok l' -> o_due O l' = true ->
  exists d, mdecide cfg nt M l' = Ok d.
Proof.
  intros H Hw Hg R1 EL Hd. apply fit_cases in H as [[C _]|(_ & g & -> & _ & F)]; [congruence|]. unfold fit_one in F.
  destruct (match t_root (madd M (mt_tree M s) w) with Some r => _ | None => _ end) as [s0 r] eqn:E0.
  assert (r = mmet M s /\ t_growth s0 = true) as [-> G0] by (unfold mmet, madd in *; cbn [t_root] in E0; destruct (t_root (mt_tree M s)); injection E0 as <- <-; auto).
  rewrite R1 in F. cbn [bind] in F. apply bind_Ok in F as (s1 & F & _). cbn [learn_found] in F. change (o_learn O l) with (mleaf_learn key cfg M l) in F. rewrite EL in F. cbn [bind] in F.
  apply bind_Ok in F as (r0 & _ & F). apply bind_Ok in F as (r1 & _ & F). cbv zeta in F. rewrite G0, Hd in F. cbn [andb] in F. apply bind_Ok in F as (d & Ed & _). eauto.
Qed.
Lemma multi_conditions_iff s a w s' p l' te ds : ordered T -> divisive T -> fit s [a] (Some [w]) = Ok s' -> (w =? n0)%num = false -> merits_ok s a w ->
  let i := mseen M s a w in
  multi_split_conditions s a w p l' te ds <->
  exists l l2, route O (mmet M s) i = Ok (p, Some (Active l)) /\ o_learn O l i (ms_y a) w = Ok l' /\ t_growth (mt_tree M s) = true /\ o_due O l' = true /\ o_decide O l' = Ok (SplitOn l2 te ds).
Proof.
  intros Hord Hdiv H Hw MO i. split.
  - intros (l & pre & bs & best & others & R1 & EL & Es & Hg & Hd & Eb & B & Et & Ed & Wn).
    assert (Num : numeric_merits bs) by exact (MO p l l' pre bs R1 EL Es Eb). apply (feat_reaches (mmet M s) i) in R1.
    assert (DU : o_due O l' = true) by (cbn; rewrite Es, (proj1 (mlearn_facts _ _ _ _ _ EL)); exact Hd). destruct (fit_decided _ _ _ _ _ _ _ H Hw Hg R1 EL DU) as (d & Edd).
    destruct (proj2 (mdecide_iff l' pre bs d te ds Hord Hdiv Es Eb Num Edd)) as (l2 & ->); [exists best, others; auto|]. exists l, l2. auto.
  - intros (l & l2 & R1 & EL & Hg & Hd & Edd). pose proof (mdecide_cases _ _ _ _ _ Edd) as (pre & bs & Es & Eb & _).
    apply (feat_reaches (mmet M s) i) in R1. assert (Num : numeric_merits bs) by exact (MO p l l' pre bs R1 EL Es Eb).
    destruct (proj1 (mdecide_iff l' pre bs _ te ds Hord Hdiv Es Eb Num Edd)) as (best & others & B & Et & Ed & Wn); [eauto|].
    exists l, pre, bs, best, others. split; [exact R1|]. split; [exact EL|]. split; [exact Es|]. split; [exact Hg|]. split; [cbn in Hd; rewrite Es, (proj1 (mlearn_facts _ _ _ _ _ EL)) in Hd; exact Hd|]. auto.
Qed.
Theorem mt_split_iff : forall s a w s', ordered T -> divisive T -> reached s -> fit s [a] (Some [w]) = Ok s' -> (w =? n0)%num = false -> merits_ok s a w ->
  (t_decision (mt_tree M s') = t_decision (mt_tree M s) + 1 <-> exists p l' te ds, multi_split_conditions s a w p l' te ds).
Proof.
  intros s a w s' Hord Hdiv R H Hw MO. pose proof (reached_mgood _ R) as G. pose proof H as H1. apply fit_cases in H1 as [[C _]|(_ & g & -> & _ & F)]; [congruence|].
  destruct (msplit_cause key cfg nt M _ _ _ K sz _ _ (ms_y a) w _ Logic.I (mgood_add _ _ _ _ w G) F) as [Q _]. change (t_decision (madd M (mt_tree M s) w)) with (t_decision (mt_tree M s)) in Q. rewrite Q. clear Q.
  change (root_or_new O (madd M (mt_tree M s) w)) with (mmet M s). change (t_growth (madd M (mt_tree M s) w)) with (t_growth (mt_tree M s)). split.
  - intros (p & l & l' & l2 & te & ds & A). exists p, l', te, ds. apply (multi_conditions_iff s a w s'); auto. exists l, l2. exact A.
  - intros (p & l' & te & ds & SC). apply (multi_conditions_iff s a w s') in SC as (l & l2 & A); auto. exists p, l, l', l2, te, ds. exact A.
Qed.
(** C323: the split puts that test where the leaf was, with the leaf's statistics, and one leaf per branch that starts from the
    statistics the suggestion gives to the branch. *)
Theorem mt_split_result : forall s a w s' p l' te ds, ordered T -> divisive T -> reached s -> fit s [a] (Some [w]) = Ok s' -> (w =? n0)%num = false -> merits_ok s a w ->
  multi_split_conditions s a w p l' te ds ->
  exists r' ch, t_root (mt_tree M s') = Some r' /\ node_at r' p = Some (Split te (ml_stats M l') ch) /\ dkeys ch = map Z.of_nat (seq 0 (length ds)) /\
    map (fun c => stats_of O (snd c)) ch = ds /\ Forall (fun c => is_split (snd c) = false) ch.
Proof.
  intros s a w s' p l' te ds Hord Hdiv R H Hw MO SC. pose proof (reached_mgood _ R) as G. pose proof H as H1. apply fit_cases in H1 as [[C _]|(_ & g & -> & _ & F)]; [congruence|].
  destruct (msplit_cause key cfg nt M _ _ _ K sz _ _ (ms_y a) w _ Logic.I (mgood_add _ _ _ _ w G) F) as [_ Q].
  apply (multi_conditions_iff s a w s') in SC as (l & l2 & A1 & A2 & A3 & A4 & A5); auto. destruct (Q p l l' l2 te ds A1 A2 A3 A4 A5) as (r' & ch & B1 & B2 & B3 & B4 & B5). exists r', ch. repeat split; auto.
  rewrite B4. cbn. apply map_id.
Qed.

(** C324: a trained tree answers every row, with one value per target, row by row. *)
Lemma value_len s x v : mt_value key cfg nt M s x = Ok v -> length v = nt.
Proof.
  unfold mt_value. destruct (t_root _) as [r|]; [|discriminate]. intros H. apply bind_Ok in H as ([p u] & _ & H). apply bind_Ok in H as (f & _ & H). injection H as <-. now rewrite map_length, seq_length.
Qed.
Theorem mt_predict_rows : forall s xs out, mt_set M s = true -> mt_predict key cfg nt M s xs = Ok out ->
  length out = length xs /\ forall i x, nth_error xs i = Some x -> exists v, nth_error out i = Some v /\ length v = nt /\ mt_predict key cfg nt M s [x] = Ok [v].
Proof.
  intros s xs out Hs H. unfold mt_predict in *. rewrite Hs in *. revert out H. induction xs as [|a xs IH]; intros out H; cbn [mapM] in H; [injection H as <-; split; auto; intros [|i] x; discriminate|].
  apply bind_Ok in H as (v & Ev & H). apply bind_Ok in H as (o & Eo & H). injection H as <-. destruct (IH _ Eo) as [A B]. split; [cbn; congruence|]. intros [|i] x Hi.
  - injection Hi as <-. exists v. split; auto. split; [eapply value_len; eauto|]. cbn [mapM]. now rewrite Ev.
  - destruct (B i x Hi) as (u & C). exists u. exact C.
Qed.
(** C324, refuted: before the first call of partial_fit a row has a single zero, whatever the number of targets. *)
Theorem mt_untrained_predict_refuted : forall xs, mt_predict key cfg nt M (mt_new M) xs = Ok (map (fun _ => [Some n0]) xs).
Proof. reflexivity. Qed.
(** C329, refuted: reset() forgets the tree but not that it was trained, so that predict raises until the next partial_fit; the sums behind
    the standardisation stay. *)
Theorem mt_reset_refuted : forall es rows ws es' s, run (mt_new M) (es ++ MFit rows ws :: es' ++ [MReset]) = Ok s ->
  (forall x xs, mt_predict key cfg nt M s (x :: xs) = Raise AttributeError) /\ exists s0, run (mt_new M) (es ++ MFit rows ws :: es') = Ok s0 /\ mt_sums M s = mt_sums M s0.
Proof.
  intros es rows ws es' s H. change (es ++ MFit rows ws :: es' ++ [MReset]) with (es ++ (MFit rows ws :: es') ++ [MReset]) in H. rewrite app_assoc, mrun_app in H. apply bind_Ok in H as (s0 & E & H). cbn in H. injection H as <-.
  split; [|exists s0; split; auto]. rewrite mrun_app in E. apply bind_Ok in E as (s1 & _ & E). cbn [mt_run mt_step] in E. apply bind_Ok in E as (s2 & E2 & E).
  assert (F : forall rows ws a b, mt_set M a = true -> mt_rows key cfg nt M sz a rows ws = Ok b -> mt_set M b = true).
  { intros rows0. induction rows0 as [|r rows0 IH]; intros ws0 a b Ha H; cbn [mt_rows] in H; [destruct ws0; now injection H as <-|]. destruct ws0 as [|w ws0]; [now injection H as <-|]. apply bind_Ok in H as (c & Ec & H). eapply IH; [|exact H].
    unfold mt_one in Ec. destruct (_ =? _)%num; [now injection Ec as <-|]. cbv zeta in Ec. apply bind_Ok in Ec as (t & _ & Ec). injection Ec as <-. exact Ha. }
  assert (F2 : forall a rows ws b, fit a rows ws = Ok b -> mt_set M b = true).
  { intros a rows0 ws0 b H. unfold mt_fit in H. cbv zeta in H. destruct (Nat.eqb _ _); [|discriminate]. eapply F; [|exact H]. reflexivity. }
  assert (S : mt_set M s0 = true).
  { apply F2 in E2. clear - F2 E E2. revert s2 E2 E. induction es' as [|e es' IH]; intros s2 E2 E; cbn [mt_run] in E; [now injection E as <-|]. apply bind_Ok in E as (s3 & E3 & E). apply (IH s3); auto.
    destruct e as [r w|]; cbn [mt_step] in E3; [eapply F2; eauto|injection E3 as <-; exact E2]. }
  intros x xs. unfold mt_predict, mt_reset. cbn [mt_set]. rewrite S. reflexivity.
Qed.
End Props.

(** C325: which tree grows does not depend on leaf_prediction, nor on whether it is an iSOUP tree or a stacked single-target tree. *)
Section Twins.
Context {T : Type} {N : Num T} (key int_of : T -> Z) (cfg : htr_config T) (n : nat).
Hypothesis Quiet : forall w, c_period_due (r_memory cfg) w = false.
Theorem mt_same_tree : forall M M' sz sz' es s s', mt_run key cfg n M sz (mt_new M) es = Ok s -> mt_run key cfg n M' sz' (mt_new M') es = Ok s' -> same_mtree s s'.
Proof.
  intros M M' sz sz' es s s' H H'. pose proof (same_run key cfg n M M' false (fun _ _ => True) I (fun _ _ _ => I)) as R.
  assert (P : forall p p' (st : stat T nat) i y w, True -> rrel false (fun _ _ => True) (M_learn M p st i y w) (M_learn M' p' st i y w)) by (intros p p' st i y w _; destruct (M_learn M p st i y w), (M_learn M' p' st i y w); cbn; auto; discriminate).
  specialize (R P sz sz' Quiet es). rewrite H, H' in R. exact (srel_same _ _ _ _ _ R).
Qed.
Local Notation MA := (adaptive_model int_of cfg n). Local Notation MP := (perceptron_model int_of cfg n). Local Notation MM := (@mean_model T N).
Local Notation MS := (stacked_model int_of cfg n). Local Notation MSA := (stacked_adaptive_model int_of cfg n).
(** Both succeed, or both raise the same error *)
Definition alike_runs {A B} (a : res A) (b : res B) : Prop := match a, b with Ok _, Ok _ => True | Raise e, Raise e' => e = e' | _, _ => False end.
(** C326: an 'adaptive' tree answers each target with the value of the 'mean' tree or with that of the 'perceptron' tree that learnt the
    same samples, and it raises exactly when the latter does. *)
Lemma true_learn M : forall p p' (st : stat T nat) i y w, True -> rrel false (fun _ _ => True) (M_learn M p st i y w) (M_learn MM p' st i y w).
Proof. intros p p' st i y w _. destruct (M_learn M p st i y w); cbn; auto; discriminate. Qed.
Lemma predict_one (M : model T) s x v : mt_predict key cfg n M s [x] = Ok [v] -> mt_set M s = true /\ mt_value key cfg n M s x = Ok v \/ mt_set M s = false /\ v = [Some n0].
Proof.
  unfold mt_predict. destruct (mt_set M s); cbn [mapM map]; intros H; [left|right; split; auto; congruence]. split; auto. apply bind_Ok in H as (u & E & H). cbn in H. congruence.
Qed.
Lemma nth_map (f : nat -> option T) i : (i < n)%nat -> nth i (map f (seq 0 n)) None = f i.
Proof. intros H. rewrite (nth_indep _ None (f 0%nat)) by now rewrite map_length, seq_length. rewrite map_nth, seq_nth by auto. reflexivity. Qed.
Theorem isoup_adaptive_between : forall sza szp szm es,
  alike_runs (mt_run key cfg n MA sza (mt_new MA) es) (mt_run key cfg n MP szp (mt_new MP) es) /\
  forall sa sp sm x va vp vm, mt_run key cfg n MA sza (mt_new MA) es = Ok sa -> mt_run key cfg n MP szp (mt_new MP) es = Ok sp -> mt_run key cfg n MM szm (mt_new MM) es = Ok sm ->
    mt_predict key cfg n MA sa [x] = Ok [va] -> mt_predict key cfg n MP sp [x] = Ok [vp] -> mt_predict key cfg n MM sm [x] = Ok [vm] ->
    forall i, (i < n)%nat -> nth i va None = nth i vm None \/ nth i va None = nth i vp None.
Proof.
  intros sza szp szm es. set (RP := fun (a : M_T MA) (p : M_T MP) => ad_w a = p).
  assert (Lp : forall p p' (st : stat T nat) i y w, RP p p' -> rrel true RP (M_learn MA p st i y w) (M_learn MP p' st i y w)) by (intros p p' st i y w H; now apply adaptive_perceptron).
  pose proof (same_run key cfg n MA MP true RP eq_refl (fun p p' H => H) Lp sza szp Quiet es) as R1. pose proof (same_run key cfg n MA MM false (fun _ _ => True) I (fun _ _ _ => I) (true_learn MA) sza szm Quiet es) as R2.
  split; [destruct (mt_run _ _ _ MA _ _ _), (mt_run _ _ _ MP _ _ _); cbn in *; auto; discriminate|].
  intros sa sp sm x va vp vm Ea Ep Em Va Vp Vm i Hi. rewrite Ea in R1, R2. rewrite Ep in R1. rewrite Em in R2. cbn in R1, R2.
  apply predict_one in Va as [[Sa Va]|[Sa ->]]; apply predict_one in Vm as [[Sm Vm]|[Sm ->]]; try (destruct R2 as (_ & _ & C); congruence); auto.
  apply predict_one in Vp as [[Sp Vp]|[Sp ->]]; [|destruct R1 as (_ & _ & C); congruence].
  destruct (same_found key cfg n MA MP true RP eq_refl (fun p p' H => H) Lp sza szp Quiet _ _ _ _ _ R1 Va Vp) as (f & f' & -> & -> & r & r' & p & u & u' & Er & _ & Ro & C).
  destruct (same_found key cfg n MA MM false (fun _ _ => True) I (fun _ _ _ => I) (true_learn MA) sza szm Quiet _ _ _ _ _ R2 Va Vm) as (f2 & f2' & E2 & -> & r2 & r2' & p2 & u2 & u2' & Er2 & _ & Ro2 & C2).
  assert (r2 = r) by congruence. subst r2. rewrite Ro in Ro2. injection Ro2 as <- <-. rewrite !nth_map by auto.
  destruct u as [l|l|te d ch], u' as [l'|l'|te' d' ch']; try contradiction; destruct u2' as [l2|l2|te2 d2 ch2]; try contradiction.
  - destruct C as (_ & C1 & C3 & C4), C2 as (_ & _ & _ & C5). cbn [M_value mean_model] in C5. injection C5 as <-. unfold RP in C1. cbn [M_value adaptive_model perceptron_model] in C3, C4. rewrite <- C1 in C4. exact (value_adaptive _ _ _ _ _ _ C3 C4 i).
  - destruct C as (_ & C1 & C3 & C4), C2 as (_ & _ & _ & C5). cbn [M_value mean_model] in C5. injection C5 as <-. unfold RP in C1. cbn [M_value adaptive_model perceptron_model] in C3, C4. rewrite <- C1 in C4. exact (value_adaptive _ _ _ _ _ _ C3 C4 i).
  - destruct C as (_ & -> & ->). auto.
Qed.
(** C326: the stacked single-target tree with 'adaptive' leaves answers each target with the value of the 'mean' tree, of the 'perceptron' iSOUP
    tree or of the 'perceptron' stacked tree, once the total weight exceeds one; and it raises exactly when they do. *)
Theorem sst_adaptive_between : forall sza szp szs szm es,
  alike_runs (mt_run key cfg n MSA sza (mt_new MSA) es) (mt_run key cfg n MP szp (mt_new MP) es) /\ alike_runs (mt_run key cfg n MSA sza (mt_new MSA) es) (mt_run key cfg n MS szs (mt_new MS) es) /\
  forall sa sp ss sm x va vp vs vm, mt_run key cfg n MSA sza (mt_new MSA) es = Ok sa -> mt_run key cfg n MP szp (mt_new MP) es = Ok sp -> mt_run key cfg n MS szs (mt_new MS) es = Ok ss -> mt_run key cfg n MM szm (mt_new MM) es = Ok sm ->
    (g_seen (mt_sums MSA sa) <=? n1)%num = false ->
    mt_predict key cfg n MSA sa [x] = Ok [va] -> mt_predict key cfg n MP sp [x] = Ok [vp] -> mt_predict key cfg n MS ss [x] = Ok [vs] -> mt_predict key cfg n MM sm [x] = Ok [vm] ->
    forall i, (i < n)%nat -> nth i va None = nth i vm None \/ nth i va None = nth i vp None \/ nth i va None = nth i vs None.
Proof.
  intros sza szp szs szm es. set (RP := fun (a : M_T MSA) (p : M_T MP) => option_map fst (sa_w a) = p). set (RQ := fun (a : M_T MSA) (p : M_T MS) => sa_w a = p).
  assert (Lp : forall p p' (st : stat T nat) i y w, RP p p' -> rrel true RP (M_learn MSA p st i y w) (M_learn MP p' st i y w)) by (intros p p' st i y w H; now apply stacked_perceptron).
  assert (Lq : forall p p' (st : stat T nat) i y w, RQ p p' -> rrel true RQ (M_learn MSA p st i y w) (M_learn MS p' st i y w)) by (intros p p' st i y w H; now apply stacked_stacked).
  pose proof (same_run key cfg n MSA MP true RP eq_refl (fun p p' H => H) Lp sza szp Quiet es) as R1. pose proof (same_run key cfg n MSA MS true RQ eq_refl (fun p p' H => H) Lq sza szs Quiet es) as R3.
  pose proof (same_run key cfg n MSA MM false (fun _ _ => True) I (fun _ _ _ => I) (true_learn MSA) sza szm Quiet es) as R2.
  split; [destruct (mt_run _ _ _ MSA _ _ _), (mt_run _ _ _ MP _ _ _); cbn in *; auto; discriminate|]. split; [destruct (mt_run _ _ _ MSA _ _ _), (mt_run _ _ _ MS _ _ _); cbn in *; auto; discriminate|].
  intros sa sp ss sm x va vp vs vm Ea Ep Es Em Hg Va Vp Vs Vm i Hi. rewrite Ea in R1, R2, R3. rewrite Ep in R1. rewrite Em in R2. rewrite Es in R3. cbn in R1, R2, R3.
  apply predict_one in Va as [[Sa Va]|[Sa ->]]; apply predict_one in Vm as [[Sm Vm]|[Sm ->]]; try (destruct R2 as (_ & _ & C); congruence); auto.
  apply predict_one in Vp as [[Sp Vp]|[Sp ->]]; [|destruct R1 as (_ & _ & C); congruence]. apply predict_one in Vs as [[Ss Vs]|[Ss ->]]; [|destruct R3 as (_ & _ & C); congruence].
  destruct (same_found key cfg n MSA MP true RP eq_refl (fun p p' H => H) Lp sza szp Quiet _ _ _ _ _ R1 Va Vp) as (f & f' & -> & -> & r & r' & p & u & u' & Er & _ & Ro & C).
  destruct (same_found key cfg n MSA MM false (fun _ _ => True) I (fun _ _ _ => I) (true_learn MSA) sza szm Quiet _ _ _ _ _ R2 Va Vm) as (f2 & f2' & E2 & -> & r2 & r2' & p2 & u2 & u2' & Er2 & _ & Ro2 & C2).
  destruct (same_found key cfg n MSA MS true RQ eq_refl (fun p p' H => H) Lq sza szs Quiet _ _ _ _ _ R3 Va Vs) as (f3 & f3' & E3 & -> & r3 & r3' & p3 & u3 & u3' & Er3 & _ & Ro3 & C3).
  assert (r2 = r) by congruence. subst r2. assert (r3 = r) by congruence. subst r3. rewrite Ro in Ro2, Ro3. injection Ro2 as <- <-. injection Ro3 as <- <-.
  assert (FE : f3 i = f i) by (rewrite <- (nth_map f3 i Hi), <- E3; now apply nth_map). rewrite !nth_map by auto.
  destruct u as [l|l|te d ch], u' as [l'|l'|te' d' ch']; try contradiction; destruct u2' as [l2|l2|te2 d2 ch2]; try contradiction; destruct u3' as [l3|l3|te3 d3 ch3]; try contradiction.
  - destruct C as (_ & C1 & C4 & C5), C2 as (_ & _ & _ & C6), C3 as (_ & C7 & _ & C8). cbn [M_value mean_model] in C6. injection C6 as <-. unfold RP in C1. unfold RQ in C7. cbn [M_value stacked_adaptive_model stacked_model perceptron_model] in C4, C5, C8. rewrite <- C1 in C5. rewrite <- C7 in C8. exact (value_stacked n _ _ _ _ _ _ _ Hg C4 C5 C8 i).
  - destruct C as (_ & C1 & C4 & C5), C2 as (_ & _ & _ & C6), C3 as (_ & C7 & _ & C8). cbn [M_value mean_model] in C6. injection C6 as <-. unfold RP in C1. unfold RQ in C7. cbn [M_value stacked_adaptive_model stacked_model perceptron_model] in C4, C5, C8. rewrite <- C1 in C5. rewrite <- C7 in C8. exact (value_stacked n _ _ _ _ _ _ _ Hg C4 C5 C8 i).
  - destruct C as (_ & -> & ->). auto.
Qed.
(** C329: with leaf_prediction='mean', a tree that is trained again after reset() answers like a new one. *)
Theorem mt_mean_reset : forall sz sz' before rows ws after s, mt_run key cfg n MM sz (mt_new MM) (before ++ MReset :: MFit rows ws :: after) = Ok s ->
  exists s', mt_run key cfg n MM sz' (mt_new MM) (MFit rows ws :: after) = Ok s' /\ trel same_mleaf same_minactive eq eq (mt_tree MM s) (mt_tree MM s') /\ forall xs, mt_predict key cfg n MM s xs = mt_predict key cfg n MM s' xs.
Proof.
  intros sz sz' before rows ws after s H. rewrite mrun_app in H. apply bind_Ok in H as (s0 & _ & H). cbn [mt_run] in H. apply bind_Ok in H as (s1 & E1 & H). cbn in E1. injection E1 as <-.
  set (RX := fun i i' : minst T => mi_x i = mi_x i').
  assert (Lp : forall p p' (st st' : stat T nat) i i' (y y' : nat -> T) (w : T), True -> st = st' -> RX i i' -> y = y' -> rrel true (fun _ _ => True) (M_learn MM p st i y w) (M_learn MM p' st' i' y' w)) by (intros; exact I).
  assert (Hm : forall (pre pre' : stat T nat) post post', pre = pre' -> Forall2 eq post post' -> mmerit n pre post = mmerit n pre' post') by (intros pre pre' post post' <- F; apply F2_eq_inv in F; congruence).
  assert (F : Forall2 (evrel eq) after after) by (clear; induction after as [|[rr w|] es IH]; constructor; cbn; auto; split; auto; apply F2_eq).
  pose proof (run_rel key cfg n MM MM true eq eq RX (fun _ _ => True)) as R.
  assert (G : exists s2, mt_step key cfg n MM sz (mt_reset MM s0) (MFit rows ws) = Ok s2 /\ mt_run key cfg n MM sz s2 after = Ok s) by (apply bind_Ok in H as (s2 & A & B); eauto). clear H. destruct G as (s2 & A & B).
  set (ms := mrel MM MM eq (fun _ _ => True) (fun _ _ => True)).
  assert (Q : exists s', mt_run key cfg n MM sz' (mt_new MM) (MFit rows ws :: after) = Ok s' /\ ms s s').
  { assert (ER : rrel true ms (mt_run key cfg n MM sz (mk_mt MM (tree_new) (mt_sums MM s0) true) (MFit rows ws :: after)) (mt_run key cfg n MM sz' (mk_mt MM tree_new msums_new true) (MFit rows ws :: after))).
    { apply (R ltac:(intros; subst; auto) ltac:(intros; subst; auto) ltac:(intros; subst; auto) ltac:(auto) ltac:(intros; subst; auto) ltac:(intros; subst; auto) Hm ltac:(intros; subst; auto) I (fun _ _ _ => I) Lp sz sz' Quiet (fun _ _ => True) eq ltac:(intros; subst; auto) (fun _ _ _ _ _ _ _ => I) ltac:(intros; subst; reflexivity)); [constructor; auto; cbn; split; auto; apply F2_eq|split; [apply rel_new|split; auto]]. }
    cbn [mt_run mt_step] in ER |- *. unfold mt_fit in ER |- *. cbn [mt_tree mt_sums mt_new] in ER |- *. cbn [mt_step] in A. unfold mt_fit in A. cbn [mt_tree mt_sums mt_reset] in A. rewrite A in ER. cbn [bind] in ER. rewrite B in ER.
    destruct (bind _ _) as [s'|e]; [|discriminate]. eauto. }
  destruct Q as (s' & E & Q). exists s'. split; auto. split.
  - destruct Q as ([Q1 Q2 Q3 Q4 Q5 Q6 Q7 Q8 Q9] & _). constructor; auto. destruct (t_root (mt_tree MM s)) as [r|], (t_root (mt_tree MM s')) as [r'|]; auto. clear - Q1. revert r r' Q1. apply nrel_ind'.
    + intros l l' (C1 & C2 & C3 & _). constructor. split; [now apply orel_eq|]. split; [now apply osrel_eq|exact C3].
    + intros i i' (C1 & _). constructor. now apply orel_eq.
    + intros te te' d d' ch ch' He Hd _ IH. constructor; auto. now apply orel_eq.
  - intros xs. unfold mt_predict. pose proof Q as (_ & _ & ->). destruct (mt_set MM s'); auto. induction xs as [|x xs IH]; cbn [mapM]; auto.
    assert (V : rrel true (fun a b => exists f f', (forall i : nat, f i = f' i) /\ a = map f (seq 0 n) /\ b = map f' (seq 0 n)) (mt_value key cfg n MM s x) (mt_value key cfg n MM s' x)).
    { eapply (value_rel key cfg n MM MM true eq eq RX (fun _ _ => True)); try exact Q; try (intros; subst; auto; fail); try exact Lp; try exact Hm.
      - intros g g' _. reflexivity.
      - intros p p' st st' g g' _ Ho _. cbn. intros i. now apply orel_eq in Ho as <-.
      - intros d d' Ho i. now apply orel_eq in Ho as <-. }
    assert (VE : mt_value key cfg n MM s x = mt_value key cfg n MM s' x).
    { destruct (mt_value key cfg n MM s x), (mt_value key cfg n MM s' x); cbn in V; try discriminate; [|now rewrite (V eq_refl)]. destruct V as (f & f' & Ef & -> & ->). f_equal. now apply map_ext. }
    now rewrite VE, IH.
Qed.
End Twins.

(** C327: the order of the targets does not matter: with the targets of every sample in another order (and the draws of the weights with
    them) training raises alike, the tree has the same tests at the same places, and predicts the same values in the other order. *)
Section Real.
Local Open Scope R_scope.
Variables (key int_of : R -> Z) (cfg : htr_config R) (n : nat).
Local Notation MA := (adaptive_model int_of cfg n). Local Notation MP := (perceptron_model int_of cfg n). Local Notation MM := (@mean_model R NumR).
Definition order_free (M : model R) (p : nat -> nat) : Prop :=
  forall sz sz' es, match mt_run key cfg n M sz (mt_new M) es, mt_run key cfg n M sz' (mt_new M) (map (reorder_event p) es) with
  | Ok s, Ok s' =>
      match t_root (mt_tree M s), t_root (mt_tree M s') with Some r, Some r' => same_shape r r' | None, None => True | _, _ => False end /\
      (mt_set M s = true -> forall xs, match mt_predict key cfg n M s xs, mt_predict key cfg n M s' xs with
         | Ok out, Ok out' => Forall2 (reordered n p) out out' | Raise e, Raise e' => e = e' | _, _ => False end)
  | Raise e, Raise e' => e = e'
  | _, _ => False
  end.
Lemma order_free_by M p (RP : M_T M -> M_T M -> Prop) : reorders n p -> (forall w, c_period_due (r_memory cfg) w = false) -> RP (M_new M) (M_new M) -> (forall a a', RP a a' -> RP (M_child M a) (M_child M a')) ->
  (forall a a' s s' i i' y y' w, RP a a' -> stp p s s' -> xp p i i' -> yp p y y' -> rrel true RP (M_learn M a s i y w) (M_learn M a' s' i' y' w)) ->
  (forall a a' s s' g g' x, RP a a' -> orel (stp p) s s' -> gp p g g' -> rrel true (vp p n) (M_value M a s g x) (M_value M a' s' g' x)) -> order_free M p.
Proof.
  intros Hp Quiet Pn Pc Pl Pv sz sz' es. pose proof (perm_run p n Hp cfg key M RP Pn Pc Pl sz sz' Quiet es) as R.
  destruct (mt_run key cfg n M sz (mt_new M) es) as [s|e], (mt_run key cfg n M sz' (mt_new M) (map (reorder_event p) es)) as [s'|e']; cbn in R; try discriminate; auto.
  split; [exact (perm_shape p M RP s s' R)|]. intros Hs xs. pose proof (perm_predict p n Hp cfg key M RP Pn Pc Pl Pv sz sz' Quiet s s' xs R Hs) as Q.
  destruct (mt_predict key cfg n M s xs), (mt_predict key cfg n M s' xs); cbn in Q; try discriminate; auto.
Qed.
Theorem isoup_target_order : forall p, reorders n p -> (forall w, c_period_due (r_memory cfg) w = false) -> order_free MM p /\ order_free MP p /\ order_free MA p.
Proof.
  intros p Hp Quiet. split; [|split].
  - apply (order_free_by MM p (fun _ _ => True)); auto; try (intros; exact I). intros a a' s s' g g' x _ Ho _. cbn. intros i Hi. now apply mean_perm.
  - apply (order_free_by MP p (omp p n)); auto; try exact I; intros; [now apply p_learn_perm|now apply p_value_perm].
  - apply (order_free_by MA p (ap p n)); auto.
    + repeat split; auto; cbn; auto; intros i Hi; reflexivity.
    + intros a a' (A & _ & _). split; [exact A|]. split; intros i Hi; reflexivity.
    + intros; now apply a_learn_perm.
    + intros; now apply a_value_perm.
Qed.
End Real.

(** C328: with leaf_prediction='mean' and non-negative weights every answer for a target is within the range of the values of that target
    since the last reset. *)
Section RealAnswers.
Local Open Scope R_scope.
Variables (key int_of : R -> Z) (cfg : htr_config R) (n : nat).
Local Notation MP := (perceptron_model int_of cfg n). Local Notation MM := (@mean_model R NumR).
Lemma node_in_range M sz i lo hi es s r p u v : mt_run key cfg n M sz (mt_new M) es = Ok s -> (forall x y w, In (x, y, w) (mlive es) -> lo <= y i <= hi /\ 0 <= w) -> t_root (mt_tree M s) = Some r ->
  node_at r p = Some u -> m_mean (stats_of (mt_ops key cfg n M) u) i = Some v -> lo <= v <= hi.
Proof.
  intros H S Er Hn E. destruct (range_run i lo hi key cfg n M sz es s H S) as [_ Ev]. rewrite Er in Ev. specialize (Ev _ _ Hn). unfold present in Ev. destruct (stats_of _ u) as [st|]; [|contradiction]. exact (cone_mean i lo hi st v Ev E).
Qed.
Lemma trained_value M (s : mt M) xs out row : mt_set M s = true -> mt_predict key cfg n M s xs = Ok out -> In row out -> exists x, In x xs /\ mt_value key cfg n M s x = Ok row.
Proof. intros Hs H Hr. unfold mt_predict in H. rewrite Hs in H. destruct (mapM_in _ _ _ H _ Hr) as (x & A & B). eauto. Qed.
Theorem isoup_mean_in_range : forall sz es s xs out i lo hi, mt_run key cfg n MM sz (mt_new MM) es = Ok s -> mt_set MM s = true -> (i < n)%nat ->
  (forall x y w, In (x, y, w) (mlive es) -> lo <= y i <= hi /\ 0 <= w) -> mt_predict key cfg n MM s xs = Ok out ->
  forall row v, In row out -> nth i row None = Some v -> lo <= v <= hi.
Proof.
  intros sz es s xs out i lo hi H Hs Hi S HO row v Hr Ev. destruct (trained_value MM s xs out row Hs HO Hr) as (x & _ & E). unfold mt_value in E. destruct (t_root (mt_tree MM s)) as [r|] eqn:Er; [|discriminate].
  apply bind_Ok in E as ([p u] & Rm & E). apply bind_Ok in E as (f & Ef & E). injection E as <-. rewrite nth_map in Ev by auto. destruct u as [u|]; [|discriminate]. destruct (route_found _ _ _ _ _ Rm) as [Hn _].
  refine (node_in_range MM sz i lo hi es s r p u v H S Er Hn _). rewrite <- Ev. destruct u as [l|l|te d ch]; cbn in Ef; injection Ef as <-; reflexivity.
Qed.
(** C328: the sums of the tree are those of all samples, those before a reset included, whatever the number of attributes. *)
Theorem mt_sums_right : forall M sz es s d, mt_run key cfg n M sz (mt_new M) es = Ok s -> (forall o, In o (mall es) -> length (fst (fst o)) = d) ->
  let g := mt_sums M s in let l := mall es in
  g_seen g = weights_sum mow l /\ (forall i, g_sum g i = wsum (moy i) mow l /\ g_sq g i = wsum (fun o => moy i o * moy i o) mow l) /\
  (l <> [] -> g_att g = Some (map (fun j => wsum (moatt j) mow l) (seq 0 d)) /\ g_attsq g = Some (map (fun j => wsum (fun o => moatt j o * moatt j o) mow l) (seq 0 d))).
Proof. intros M sz es s d H L g l. unfold g, l. rewrite (mrun_sums _ _ _ _ _ _ _ _ H). exact (msums_right d (mall es) L). Qed.
(** C328: every row of the weights of a leaf has norm one, or is nan. *)
Definition leaf_weights (u : node (mleaf MP) (minactive MP) (option (stat R nat)) (htest R)) : option (matrix R) :=
  match u with Active l => ml_model MP l | Inactive l => mn_model MP l | Split _ _ _ => None end.
Theorem isoup_weights_norm : forall sz es s r p u m ws, mt_run key cfg n MP sz (mt_new MP) es = Ok s -> t_root (mt_tree MP s) = Some r -> node_at r p = Some u -> leaf_weights u = Some m ->
  In (Some ws) (mx_rows m) -> Rsum (map Rabs ws) = 1.
Proof.
  intros sz es s r p u m ws H Er Hn Hm Hw.
  assert (K : keeps key cfg n MP (fun l => punit (ml_model MP l)) (fun l => punit (mn_model MP l)) (fun _ _ _ => True)).
  { apply (unit_keeps key cfg n MP punit); [exact I|auto|]. intros a st i y w a' Ha E. exact (p_unit int_of cfg n _ _ _ _ _ _ Ha E). }
  destruct (hinv_run key cfg n MP _ _ _ K sz (fun _ => True) ltac:(intros; exact I) ltac:(intros; exact I) ltac:(intros; exact I) es s H (fun _ _ _ _ => I)) as [[_ W] _]. rewrite Er in W.
  assert (P : punit (Some m)).
  { rewrite <- Hm. pose proof (wf_node_at _ _ _ p r u W Hn) as Wu. destruct Wu as [l Hl|l Hl|te d ch]; cbn; [apply Hl|exact Hl|exact I]. }
  cbn in P. unfold unit_rows in P. rewrite Forall_forall in P. exact (P _ Hw).
Qed.
(** C328: an instance within k standard deviations of the mean in every attribute (k >= 1) is answered, for each target, within k standard
    deviations of the mean of that target, or within the range of its values since the last reset. *)
Theorem isoup_perceptron_in_range : forall sz es s x row d k i lo hi v, mt_run key cfg n MP sz (mt_new MP) es = Ok s -> mt_set MP s = true -> (i < n)%nat ->
  (forall o, In o (mall es) -> length (fst (fst o)) = d /\ 0 <= mow o) -> 1 < weights_sum mow (mall es) -> length x = d -> 1 <= k ->
  (forall j, (j < d)%nat -> Rabs (nth j x 0 - wmean (moatt j) mow (mall es)) <= k * ssd (moatt j) mow (mall es)) ->
  (forall x y w, In (x, y, w) (mlive es) -> lo <= y i <= hi /\ 0 <= w) ->
  mt_predict key cfg n MP s [x] = Ok [row] -> nth i row None = Some v ->
  Rabs (v - wmean (moy i) mow (mall es)) <= k * ssd (moy i) mow (mall es) \/ lo <= v <= hi.
Proof.
  intros sz es s x row d k i lo hi v H Hs Hi L Hn Lx Hk Hx S HO Ev. set (all := mall es) in *.
  destruct (mt_sums_right MP sz es s d H (fun o Ho => proj1 (L o Ho))) as (A & B & D). fold all in A, B, D. set (g := mt_sums MP s) in *.
  assert (Wp : forall o, In o all -> 0 <= mow o) by (intros o Ho; now apply L).
  assert (SDy : m_sd (g_sq g i) (g_sum g i) (g_seen g) = Some (ssd (moy i) mow all)) by (rewrite A; destruct (B i) as [-> ->]; now apply msd_right).
  apply predict_one in HO as [[_ E]|[C _]]; [|congruence]. unfold mt_value in E. fold g in E. destruct (t_root (mt_tree MP s)) as [r|] eqn:Er; [|discriminate].
  apply bind_Ok in E as ([p u] & Rm & E). apply bind_Ok in E as (f & Ef & E). injection E as <-. rewrite nth_map in Ev by auto. destruct u as [u|]; [|discriminate]. destruct (route_found _ _ _ _ _ Rm) as [Hat _].
  assert (Q : forall m st, leaf_weights u = m -> stats_of (mt_ops key cfg n MP) u = st -> p_value m st g x = Ok f -> Rabs (v - wmean (moy i) mow all) <= k * ssd (moy i) mow all \/ lo <= v <= hi).
  { intros m st Em Est Q. unfold p_value in Q. destruct m as [m|].
    2:{ right. injection Q as <-. rewrite <- Est in Ev. exact (node_in_range MP sz i lo hi es s r p u v H S Er Hat Ev). }
    destruct (g_seen g <=? n1)%num; [right; injection Q as <-; rewrite <- Est in Ev; exact (node_in_range MP sz i lo hi es s r p u v H S Er Hat Ev)|].
    left. apply bind_Ok in Q as (xn & En & Q). apply bind_Ok in Q as (c & _ & Q). injection Q as <-. unfold m_scale in Ev. rewrite SDy in Ev. unfold m_dot in Ev. destruct (m_row m i) as [ws|] eqn:Erow; [|discriminate].
    assert (Un : Rsum (map Rabs ws) = 1).
    { apply (isoup_weights_norm sz es s r p u m ws H Er Hat Em). rewrite <- Erow. unfold m_row in *. destruct (Nat.lt_ge_cases i (length (mx_rows m))) as [Hl|Hl]; [now apply nth_In|]. rewrite nth_overflow in Erow by auto. discriminate. }
    unfold quot in Ev. change (@neqb R NumR) with Reqb in Ev. change (@n0 R NumR) with 0 in Ev. destruct (Reqb (g_seen g) 0); [discriminate|]. injection Ev as <-.
    replace (g_sum g i / g_seen g) with (wmean (moy i) mow all) by (rewrite A; destruct (B i) as [-> _]; reflexivity).
    replace (dot ws xn * ssd (moy i) mow all + wmean (moy i) mow all - wmean (moy i) mow all) with (dot ws xn * ssd (moy i) mow all) by ring.
    assert (P : 0 <= ssd (moy i) mow all) by apply sqrt_pos. rewrite Rabs_mult, (Rabs_right (ssd _ _ _)) by lra. apply Rmult_le_compat_r; auto. rewrite <- (Rmult_1_r k). rewrite <- Un. apply dot_le; [|lra].
    intros z Hz. unfold m_normalize in En. change (@nleb R NumR) with Rleb in En. change (@n1 R NumR) with 1 in En. assert (G1 : Rleb (g_seen g) 1 = false) by (apply Rleb_false; rewrite A; lra). rewrite G1 in En.
    assert (Ne : all <> []) by (intros C; rewrite C in Hn; cbn in Hn; lra). destruct (D Ne) as [D1 D2]. rewrite D1, D2 in En. rewrite map_length, seq_length, Lx, Nat.eqb_refl in En. injection En as <-.
    apply in_app_iff in Hz as [Hz|[<-|[]]]; [|change (Rabs 1 <= k); rewrite Rabs_R1; lra].
    apply in_map_iff in Hz as ([xj [aj qj]] & <- & Hin). rewrite combine_map_seq in Hin. rewrite (list_as_seq x), Lx, combine_map_seq in Hin. apply in_map_iff in Hin as (j & Ej & Hj). apply in_seq in Hj. injection Ej as <- <- <-.
    unfold m_entry. rewrite A. rewrite msd_right by auto. change (@neqb R NumR) with Reqb. change (@n0 R NumR) with 0.
    destruct (Reqb (ssd (moatt j) mow all) 0) eqn:Esd; [rewrite Rabs_R0; lra|]. apply Reqb_false in Esd. assert (Pj : 0 < ssd (moatt j) mow all) by (assert (0 <= ssd (moatt j) mow all) by apply sqrt_pos; lra).
    change (Rabs ((nth j x 0 - wmean (moatt j) mow all) / ssd (moatt j) mow all) <= k). unfold Rdiv. rewrite Rabs_mult, (Rabs_right (/ _)) by (left; now apply Rinv_0_lt_compat).
    apply Rmult_le_reg_r with (ssd (moatt j) mow all); auto. rewrite Rmult_assoc, Rinv_l, Rmult_1_r by lra. apply Hx. lia. }
  destruct u as [l|l|te dd ch]; cbn in Ef.
  - exact (Q _ _ eq_refl eq_refl Ef).
  - exact (Q _ _ eq_refl eq_refl Ef).
  - right. injection Ef as <-. exact (node_in_range MP sz i lo hi es s r p _ v H S Er Hat Ev).
Qed.
End RealAnswers.

(** Two numeric targets, one numeric attribute, ten samples; the tenth splits the root at 4. *)
Definition mq_cfg : htr_config Q := mk_htr 10%Q (1#10)%Q 100%Q false false false Mean (fun _ => false) (1#50)%Q (1#1000)%Q true true (mk_cfg 1000%Q false (fun _ => false)).
Definition mq_key (q : Q) : Z := Qnum q.
Definition mq_int (q : Q) : Z := Z.quot (Qnum q) (Zpos (Qden q)).
Definition mq_sizes (M : model Q) : sizes Q (mleaf M) (minactive M) (option (stat Q nat)) (htest Q) := mk_sizes (fun _ => 1%Q) (fun _ => 1%Q) (fun _ => 1%Q).
Definition mq_row (i : nat) : msample Q := mk_ms [inject_Z (Z.of_nat i)] (fun t => if Nat.ltb i 5 then inject_Z (Z.of_nat t) else inject_Z (Z.of_nat (3 + t))) (fun _ _ => 1%Q) (fun _ _ => 1%Q).
Local Notation qM := (@mean_model Q NumQ). Local Notation qP := (perceptron_model mq_int mq_cfg 2). Local Notation qA := (adaptive_model mq_int mq_cfg 2).
Local Notation qS := (stacked_model mq_int mq_cfg 2). Local Notation qSA := (stacked_adaptive_model mq_int mq_cfg 2).
Definition mq_nine : list (mt_event Q) := [MFit (map mq_row (seq 0 9)) None].
Definition mq_ten : list (mt_event Q) := [MFit (map mq_row (seq 0 10)) None].
Local Notation qO := (mt_ops mq_key mq_cfg 2 qM).
Definition root_test (s : mt qM) : option (htest Q) := match t_root (mt_tree qM s) with Some (Split te _ _) => Some te | _ => None end.
Definition mq_merits (s : mt qM) (a : msample Q) (w : Q) : bool :=
  match route qO (mmet qM s) (mfeat (ms_x a)) with
  | Ok (_, Some (Active l)) =>
      match mleaf_learn mq_key mq_cfg qM l (mseen qM s a w) (ms_y a) w with
      | Ok l' => match ml_stats qM l' with
                 | Some pre => match msuggestions mq_cfg 2 qM l' pre with Ok bs => forallb (fun b => match sg_merit b with Some _ => true | None => false end) bs | Raise _ => true end
                 | None => true end
      | Raise _ => true end
  | _ => true end.
Lemma mq_merits_ok s a w : mq_merits s a w = true -> merits_ok mq_key mq_cfg 2 qM s a w.
Proof.
  intros H p l l' pre bs R EL Es Eb. apply route_reaches in R. unfold mq_merits in H. rewrite R, EL, Es, Eb in H. apply Forall_forall. intros b Hb C. rewrite forallb_forall in H. specialize (H b Hb). now rewrite C in H.
Qed.
Example mt_example : exists s s', mt_reached mq_key mq_cfg 2 qM (mq_sizes qM) s /\ mt_fit mq_key mq_cfg 2 qM (mq_sizes qM) s [mq_row 9] (Some [1%Q]) = Ok s'
  /\ t_decision (mt_tree qM s) = 0 /\ t_decision (mt_tree qM s') = 1 /\ mt_depth qM s' = 1%nat /\ root_test s' = Some (TNum (mkNum 0 4%Q true))
  /\ mt_predict mq_key mq_cfg 2 qM s' [[2%Q]; [7%Q]] = Ok [[Some 0%Q; Some 1%Q]; [Some 3%Q; Some 4%Q]]
  /\ merits_ok mq_key mq_cfg 2 qM s (mq_row 9) 1%Q.
Proof.
  assert (F : (s <- mt_run mq_key mq_cfg 2 qM (mq_sizes qM) (mt_new qM) mq_nine ;; s' <- mt_fit mq_key mq_cfg 2 qM (mq_sizes qM) s [mq_row 9] (Some [1%Q]) ;; o <- mt_predict mq_key mq_cfg 2 qM s' [[2%Q]; [7%Q]] ;;
     Ok (t_decision (mt_tree qM s), t_decision (mt_tree qM s'), mt_depth qM s', root_test s', o, mq_merits s (mq_row 9) 1%Q)) =
     Ok (0, 1, 1%nat, Some (TNum (mkNum 0 4%Q true)), [[Some 0%Q; Some 1%Q]; [Some 3%Q; Some 4%Q]], true)) by (vm_compute; reflexivity).
  apply bind_Ok in F as (s & E & F). apply bind_Ok in F as (s' & E' & F). apply bind_Ok in F as (o & Eo & F).
  assert (G : (t_decision (mt_tree qM s), t_decision (mt_tree qM s'), mt_depth qM s', root_test s', o, mq_merits s (mq_row 9) 1%Q) = (0, 1, 1%nat, Some (TNum (mkNum 0 4%Q true)), [[Some 0%Q; Some 1%Q]; [Some 3%Q; Some 4%Q]], true)) by congruence. clear F.
  exists s, s'. split; [exists mq_nine; exact E|]. split; [exact E'|]. split; [congruence|]. split; [congruence|]. split; [congruence|]. split; [congruence|]. split; [rewrite Eo; congruence|]. apply mq_merits_ok. congruence.
Qed.
(** The five kinds of leaves in floating point, taught the same ten samples: what a tree answers at 2 *)
Section Floats.
Local Existing Instance NumF.
Definition mf_cfg : htr_config float := mk_htr 10%float 0.1%float 100%float false false false Mean (fun _ => false) 0.02%float 0.001%float true true (mk_cfg 1000%float false (fun _ => false)).
Definition mf_sizes (M : model float) : sizes float (mleaf M) (minactive M) (option (stat float nat)) (htest float) := mk_sizes (fun _ => 1%float) (fun _ => 1%float) (fun _ => 1%float).
Definition mf_row (i : nat) : msample float :=
  mk_ms [nofZ (Z.of_nat i)] (fun t => if Nat.ltb i 5 then nofZ (Z.of_nat t) else nofZ (Z.of_nat (3 + t))) (fun i j => nofZ (Z.of_nat (i + j))) (fun i j => nofZ (Z.of_nat (i + 2 * j))).
Definition mf_ten : list (mt_event float) := [MFit (map mf_row (seq 0 10)) None].
Definition mf_answers (M : model float) : res (Z * list (list (option float))) :=
  s <- mt_run (fun _ => 0) mf_cfg 2 M (mf_sizes M) (mt_new M) mf_ten ;; o <- mt_predict (fun _ => 0) mf_cfg 2 M s [[2%float]] ;; Ok (t_decision (mt_tree M s), o).
Local Notation mf M := (M (fun _ => 1) mf_cfg 2%nat).
Local Notation gap u v := (match u, v with Some a :: _, Some b :: _ => negb (a =? b)%num | _, _ => false end).
Example mt_floats : exists m p a st sa, mf_answers mean_model = Ok (1, [m]) /\ mf_answers (mf perceptron_model) = Ok (1, [p]) /\ mf_answers (mf adaptive_model) = Ok (1, [a])
  /\ mf_answers (mf stacked_model) = Ok (1, [st]) /\ mf_answers (mf stacked_adaptive_model) = Ok (1, [sa]) /\ a = p /\ sa = p /\ gap m p = true /\ gap st p = true /\ gap m st = true.
Proof. do 5 eexists. do 5 (split; [vm_compute; reflexivity|]). do 4 (split; [vm_compute; reflexivity|]). vm_compute; reflexivity. Qed.
End Floats.
(** Histories over the reals that meet the hypotheses above *)
Section RealExamples.
Local Open Scope R_scope.
Definition mr_cfg : htr_config R := mk_htr 100 (1/10) 100 false false false Mean (fun _ => false) (1/50) (1/1000) true true (mk_cfg 1000 false (fun _ => false)).
Definition mr_sizes (M : model R) : sizes R (mleaf M) (minactive M) (option (stat R nat)) (htest R) := mk_sizes (fun _ => 1) (fun _ => 1) (fun _ => 1).
Definition mr_row (v : R) : msample R := mk_ms [v] (fun t => v + INR t) (fun _ _ => 1) (fun _ _ => 1).
Definition mr_two : list (mt_event R) := [MFit [mr_row 1; mr_row 3] None].
Local Notation rM := (@mean_model R NumR). Local Notation rP := (perceptron_model (fun _ => 1%Z) mr_cfg 2).
Lemma mr_live : mlive mr_two = [([1], ms_y (mr_row 1), 1); ([3], ms_y (mr_row 3), 1)] /\ mall mr_two = mlive mr_two.
Proof.
  assert (E1 : @neqb R NumR 1 n0 = false) by (apply Reqb_false; cbn; lra). unfold mlive, mall, mr_two. cbn [fold_left flat_map]. rewrite app_nil_r. cbn [app]. split; auto. unfold mcall_samples. cbn [length repeat combine map fst snd filter ms_x].
  change (@n1 R NumR) with 1. rewrite E1. reflexivity.
Qed.
(** Before the grace period a tree is a single leaf *)
Lemma mr_one M sz (s : mt M) a (w : R) l l' : w <> 0 -> t_growth (mt_tree M s) = true -> mmet M s = Active l ->
  mleaf_learn (fun _ => 0%Z) mr_cfg M l (mseen M s a w) (ms_y a) w = Ok l' -> m_weight (ml_stats M l') - ml_last M l' < 100 ->
  exists s', mt_one (fun _ => 0%Z) mr_cfg 2 M sz s a w = Ok s' /\ t_growth (mt_tree M s') = true /\ t_root (mt_tree M s') = Some (Active l') /\ mt_sums M s' = msums_add (mt_sums M s) (ms_x a) (ms_y a) w /\ mt_set M s' = mt_set M s.
Proof.
  intros Hw Hg Hm El Hl. assert (Ew : @neqb R NumR w n0 = false) by (apply Reqb_false; exact Hw). assert (Ed : @nleb R NumR 100 (m_weight (ml_stats M l') - ml_last M l') = false) by (apply Rleb_false; lra).
  unfold mt_one. rewrite Ew. cbv zeta. unfold fit_weighted. rewrite Ew. fold (mseen M s a w). unfold mmet in Hm. unfold fit_one. cbn [t_root].
  destruct (t_root (mt_tree M s)) as [r|]; [subst r|injection Hm as <-]; cbn [route bind learn_found o_learn mt_ops o_new]; rewrite El; cbn [bind root_of t_root update_at with_root t_growth]; rewrite Hg; cbn [o_due mt_ops r_grace mr_cfg andb];
    change (@nsub R NumR) with Rminus; rewrite Ed; cbn; eexists; (split; [reflexivity|]); cbn; repeat split; auto.
Qed.
Lemma mr_run M sz l1 l2 :
  mleaf_learn (fun _ => 0%Z) mr_cfg M (mleaf_new M None (M_new M)) (mk_minst [1] (msums_add msums_new [1] (ms_y (mr_row 1)) 1) (fun _ _ => 1) (fun _ _ => 1)) (ms_y (mr_row 1)) 1 = Ok l1 ->
  m_weight (ml_stats M l1) - ml_last M l1 < 100 ->
  mleaf_learn (fun _ => 0%Z) mr_cfg M l1 (mk_minst [3] (msums_add (msums_add msums_new [1] (ms_y (mr_row 1)) 1) [3] (ms_y (mr_row 3)) 1) (fun _ _ => 1) (fun _ _ => 1)) (ms_y (mr_row 3)) 1 = Ok l2 ->
  m_weight (ml_stats M l2) - ml_last M l2 < 100 ->
  exists s, mt_run (fun _ => 0%Z) mr_cfg 2 M sz (mt_new M) mr_two = Ok s /\ mt_set M s = true /\ t_root (mt_tree M s) = Some (Active l2) /\ mt_sums M s = msums_add (msums_add msums_new [1] (ms_y (mr_row 1)) 1) [3] (ms_y (mr_row 3)) 1.
Proof.
  intros E1 W1 E2 W2. destruct (mr_one M sz (mk_mt M tree_new msums_new true) (mr_row 1) 1 _ l1 ltac:(lra) eq_refl eq_refl E1 W1) as (s1 & F1 & G1 & R1 & Z1 & S1).
  assert (E2' : mleaf_learn (fun _ => 0%Z) mr_cfg M l1 (mseen M s1 (mr_row 3) 1) (ms_y (mr_row 3)) 1 = Ok l2) by (unfold mseen; rewrite Z1; exact E2).
  destruct (mr_one M sz s1 (mr_row 3) 1 l1 l2 ltac:(lra) G1 ltac:(unfold mmet; now rewrite R1) E2' W2) as (s2 & F2 & G2 & R2 & Z2 & S2).
  exists s2. split; [|split; [now rewrite S2, S1|split; [exact R2|now rewrite Z2, Z1]]].
  unfold mr_two. cbn [mt_run mt_step]. unfold mt_fit. cbn [length repeat Nat.eqb mt_rows mt_tree mt_sums mt_new]. change (@n1 R NumR) with 1. rewrite F1. cbn [bind]. rewrite F2. reflexivity.
Qed.
Example isoup_mean_example : exists s out, mt_run (fun _ => 0%Z) mr_cfg 2 rM (mr_sizes rM) (mt_new rM) mr_two = Ok s /\ mt_set rM s = true /\ mt_predict (fun _ => 0%Z) mr_cfg 2 rM s [[2]] = Ok [out]
  /\ forall x y w, In (x, y, w) (mlive mr_two) -> 1 <= y 0%nat <= 3 /\ 0 <= w.
Proof.
  destruct (mr_run rM (mr_sizes rM) _ _ eq_refl ltac:(cbn; lra) eq_refl ltac:(cbn; lra)) as (s & E & S & R & Z). exists s. eexists. split; [exact E|]. split; [exact S|]. split; [unfold mt_predict; rewrite S; cbn [mapM]; unfold mt_value; rewrite R; cbn; reflexivity|].
  intros x y w H. rewrite (proj1 mr_live) in H. destruct H as [H|[H|[]]]; injection H as <- <- <-; cbn; lra.
Qed.
Lemma mr_norm (g : msums R) (v : R) : (exists a b, g_att g = Some [a] /\ g_attsq g = Some [b]) -> exists u z, m_normalize g [v] = Ok [u; z].
Proof. intros (a & b & A & B). unfold m_normalize. destruct (_ <=? _)%num; [now do 2 eexists|]. rewrite A, B. cbn. now do 2 eexists. Qed.
Lemma mr_learn g v d y w p st : (exists a b, g_att g = Some [a] /\ g_attsq g = Some [b]) -> match p with Some m => mx_cols m = 2%nat | None => True end ->
  exists m, M_learn rP p st (mk_minst [v] g d d) y w = Ok (Some m) /\ mx_cols m = 2%nat.
Proof.
  intros Hg Hp. cbn [M_learn perceptron_model]. unfold p_learn, m_ratio. cbn [r_const mr_cfg bind times Z.to_nat Pos.to_nat Pos.iter_op Nat.add mi_sums mi_x]. unfold p_update. destruct (mr_norm g v Hg) as (u & z & ->). cbn [bind]. unfold fits.
  assert (E : mx_cols (@p_start R NumR 2 p (mk_minst [v] g d d)) = 2%nat) by (destruct p; cbn; auto). change (Pos.to_nat 1) with 1%nat. cbn [times bind]. rewrite E. cbn. eexists. split; [reflexivity|exact E].
Qed.
Example isoup_perceptron_example : exists s row, mt_run (fun _ => 0%Z) mr_cfg 2 rP (mr_sizes rP) (mt_new rP) mr_two = Ok s /\ mt_set rP s = true /\ mt_predict (fun _ => 0%Z) mr_cfg 2 rP s [[2]] = Ok [row]
  /\ (forall o, In o (mall mr_two) -> length (fst (fst o)) = 1%nat /\ 0 <= mow o) /\ 1 < weights_sum mow (mall mr_two)
  /\ (forall j, (j < 1)%nat -> Rabs (nth j [2] 0 - wmean (moatt j) mow (mall mr_two)) <= 1 * ssd (moatt j) mow (mall mr_two))
  /\ forall x y w, In (x, y, w) (mlive mr_two) -> 1 <= y 0%nat <= 3 /\ 0 <= w.
Proof.
  set (g1 := msums_add msums_new [1] (ms_y (mr_row 1)) 1). set (g2 := msums_add g1 [3] (ms_y (mr_row 3)) 1).
  destruct (mr_learn g1 1 (fun _ _ => 1) (ms_y (mr_row 1)) 1 None (mstats_add None (ms_y (mr_row 1)) 1) ltac:(cbn; eauto) I) as (m1 & L1 & C1).
  destruct (mr_learn g2 3 (fun _ _ => 1) (ms_y (mr_row 3)) 1 (Some m1) (mstats_add (Some (mstats_add None (ms_y (mr_row 1)) 1)) (ms_y (mr_row 3)) 1) ltac:(cbn; eauto) C1) as (m2 & L2 & C2).
  destruct (mr_run rP (mr_sizes rP) (mk_mleaf rP (Some (mstats_add None (ms_y (mr_row 1)) 1)) (update_mobs (fun _ => 0%Z) mr_cfg [] 0 [1] (ms_y (mr_row 1)) 1) 0 (Some m1))
    (mk_mleaf rP (Some (mstats_add (Some (mstats_add None (ms_y (mr_row 1)) 1)) (ms_y (mr_row 3)) 1)) (update_mobs (fun _ => 0%Z) mr_cfg (update_mobs (fun _ => 0%Z) mr_cfg [] 0 [1] (ms_y (mr_row 1)) 1) 0 [3] (ms_y (mr_row 3)) 1) 0 (Some m2))) as (s & E & S & R & Z).
  - unfold mleaf_learn. cbn [ml_stats ml_model mleaf_new]. change (M_new rP) with (@None (matrix R)). fold g1. rewrite L1. reflexivity.
  - cbn. lra.
  - unfold mleaf_learn. cbn [ml_stats ml_model]. fold g1. fold g2. rewrite L2. reflexivity.
  - cbn. lra.
  - fold g1 in Z. fold g2 in Z. exists s.
    assert (V : exists row, mt_predict (fun _ => 0%Z) mr_cfg 2 rP s [[2]] = Ok [row]).
    { unfold mt_predict. rewrite S. cbn [mapM]. unfold mt_value. rewrite R. cbn [route bind M_value perceptron_model ml_model ml_stats]. unfold p_value. rewrite Z. destruct (_ <=? _)%num; [cbn; eauto|].
      destruct (mr_norm g2 2 ltac:(cbn; eauto)) as (u & z & ->). cbn [bind]. unfold fits. rewrite C2. cbn. eauto. }
    destruct V as (row & V). exists row. split; [exact E|]. split; [exact S|]. split; [exact V|]. destruct mr_live as [ML MA]. rewrite MA, ML.
    split; [intros o [<-|[<-|[]]]; cbn; split; auto; lra|]. split; [cbn; lra|]. split.
    + intros j Hj. assert (j = 0%nat) by lia. subst j. assert (EM : wmean (moatt 0) mow [([1], ms_y (mr_row 1), 1); ([3], ms_y (mr_row 3), 1)] = 2) by (unfold wmean; cbn; lra).
      rewrite EM. cbn [nth]. replace (2 - 2) with 0 by lra. rewrite Rabs_R0, Rmult_1_l. unfold ssd. apply sqrt_pos.
    + intros x y w [H|[H|[]]]; injection H as <- <- <-; cbn; lra.
Qed.
(** Two targets in the other order *)
Example isoup_order_example : reorders 2 (fun i => 1 - i)%nat /\ (forall w, c_period_due (r_memory mr_cfg) w = false) /\ map (ms_y (reorder_sample (fun i => 1 - i)%nat (mr_row 1))) [0%nat; 1%nat] = [ms_y (mr_row 1) 1%nat; ms_y (mr_row 1) 0%nat].
Proof. split; [apply perm_swap|split; reflexivity]. Qed.
End RealExamples.
Print Assumptions mt_measurements.
Print Assumptions mt_sample_is_local.
Print Assumptions mt_sample_is_counted.
Print Assumptions mt_only_grows.
Print Assumptions mt_paths_extend.
Print Assumptions mt_split_iff.
Print Assumptions mt_split_result.
Print Assumptions mt_predict_rows.
Print Assumptions mt_untrained_predict_refuted.
Print Assumptions mt_reset_refuted.
Print Assumptions mt_same_tree.
Print Assumptions isoup_adaptive_between.
Print Assumptions sst_adaptive_between.
Print Assumptions mt_mean_reset.
Print Assumptions isoup_target_order.
Print Assumptions isoup_mean_in_range.
Print Assumptions mt_sums_right.
Print Assumptions isoup_weights_norm.
Print Assumptions isoup_perceptron_in_range.
