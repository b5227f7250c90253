(** Hoeffding tree regressor: counters, where samples go, predictions within the range of the targets, the split rule, reset. *)
From Coq Require Import List ZArith QArith Reals Bool Lia Lra Permutation Qabs.
From Verif Require Import Base.Py Base.Num Base.Dict Model.Suggestion Model.TargetStats Model.Ebst Model.NominalObs Model.SplitTests Model.SplitCriteria
  Model.Knn Model.TreeSkeleton Model.HoeffdingTree Model.HoeffdingRegressor Spec.TreeSpec Spec.SplitRuleSpec Spec.HoeffdingRegressorSpec
  Proofs.SplitTestProofs Proofs.TreeProofs Proofs.HoeffdingProofs Proofs.SplitRuleProofs Proofs.HoeffdingRegressorProofs Proofs.RegressorRangeProofs.
Import ListNotations.
Local Open Scope Z_scope.

Section Props.
Context {T : Type} {N : Num T} (key : T -> Z) (int_of : T -> Z) (cfg : htr_config T).
Variable sz : sizes T (rleaf T) (rinactive T) (option (stat T unit)) (htest T).
Local Notation O := (htr_ops key int_of cfg).
Local Notation reached := (htr_reached key int_of cfg sz).
Local Notation fit := (htr_fit key int_of cfg sz).
Local Notation run := (htr_run key int_of cfg sz).
Local Notation rgood := (rgood (fun _ => True) (fun _ => True)).
Local Notation K := (keeps_true key int_of cfg).

(** Sorting uses the features only *)
Lemma route_feat (t : node (rleaf T) (rinactive T) (option (stat T unit)) (htest T)) i i' : i_x i = i_x i' -> route O t i = route O t i'.
Proof.
  intros E. induction t as [l|l|te st ch IH] using node_rect'; auto. rewrite !route_split. cbn [o_branch htr_ops]. rewrite E. destruct (ht_branch key te (i_x i')) as [b|e]; cbn [bind]; auto.
  destruct (0 <=? b)%Z; auto. destruct (dget ch b) as [c|] eqn:Ec; auto. rewrite Forall_forall in IH. apply dget_In in Ec. specialize (IH _ Ec). cbn [snd] in IH. now rewrite IH.
Qed.
Lemma reached_rgood s : reached s -> rgood (hr_tree s).
Proof. intros (es & H). refine (proj1 (hinv_run key int_of cfg _ _ _ K sz (fun _ => True) _ _ _ es s H _)); auto. Qed.

(** C238: the counters of get_model_measurements are the numbers of nodes of each kind, tree_size is the number of nodes and
    tree_depth the length of the longest chain of split nodes, in every history of partial_fit and reset. *)
Theorem htr_measurements : forall s, reached s -> counters_right (hr_tree s)
  /\ match t_root (hr_tree s) with
     | None => htr_depth s = 0%nat
     | Some r => t_decision (hr_tree s) + t_active (hr_tree s) + t_inactive (hr_tree s) = Z.of_nat (length (nodes r)) /\ has_depth r (htr_depth s)
     end.
Proof.
  intros s H. destruct (reached_rgood _ H) as [C _]. split; auto. unfold counters_right, htr_depth in *. destruct (t_root (hr_tree s)) as [r|]; auto.
  destruct C as (-> & -> & ->). split; [apply count_sum|apply depth_ok].
Qed.

Lemma fit_single s x y dr w s' : fit s [(x, y, dr)] (Some [w]) = Ok s' -> htr_one key int_of cfg sz s (x, y, dr) w = Ok s'.
Proof. unfold htr_fit. cbn [length Nat.eqb htr_rows]. intros H. apply bind_Ok in H as (s1 & E & H). now injection H as <-. Qed.
Lemma feat_reaches r i p n : route O r i = Ok (p, Some n) <-> reaches O r (feat (i_x i)) p n.
Proof. rewrite <- route_reaches. rewrite (route_feat r i (feat (i_x i)) eq_refl). tauto. Qed.

(** C239: a sample changes the tree only where it arrives.  Every instance that reaches another node keeps its path, and the
    node there keeps its statistics; an active leaf stays the same, object for object, when the memory limit does not bind
    and no size estimate is due. *)
Theorem htr_sample_is_local : forall s x y dr w s' r p n x2 q m, reached s -> fit s [(x, y, dr)] (Some [w]) = Ok s' -> t_root (hr_tree s) = Some r ->
  reaches O r (feat x) p n -> reaches O r (feat x2) q m -> q <> p ->
  exists r' m', t_root (hr_tree s') = Some r' /\ reaches O r' (feat x2) q m' /\ stats_of O m' = stats_of O m
    /\ (enough_memory (r_memory cfg) (hr_tree s) -> c_period_due (r_memory cfg) (t_weight (hr_tree s) + w)%num = false -> is_active m = true -> m' = m).
Proof.
  intros s x y dr w s' r p n x2 q m R H Er R1 R2 Ne. apply fit_single in H. pose proof (reached_rgood _ R) as G. apply htr_one_cases in H as [[_ ->]|(_ & g & -> & _ & F)]; [exists r, m; repeat split; auto|].
  pose proof (rgood_add _ _ _ w G) as G'.
  assert (E : root_or_new O (radd (hr_tree s) w) = r) by (unfold root_or_new, radd; cbn [t_root]; now rewrite Er).
  set (i := mk_inst x (sums_add (hr_sums s) x y w) dr) in *. apply (feat_reaches r i) in R1. apply (feat_reaches r (feat x2)) in R2. rewrite <- E in R1, R2.
  destruct (rframe key int_of cfg _ _ _ K sz _ i y w _ _ _ (feat x2) _ _ Logic.I G' F R1 R2 Ne) as (m' & r' & A & B & C & D).
  exists r', m'. split; auto. split; [now apply (feat_reaches r' (feat x2))|]. split; auto.
Qed.
(** Every node of a trained tree has statistics. *)
Definition seen_stats (s : option (stat T unit)) : Prop := s <> None.
Lemma reached_seen s : reached s -> match t_root (hr_tree s) with None => True | Some r => every O seen_stats r end.
Proof.
  intros (es & H). refine (proj2 (hinv_run key int_of cfg _ _ _ K sz seen_stats _ _ _ es s H _)); auto.
  - intros l i y w l' _ _ E. unfold rleaf_learn in E. cbv zeta in E. apply bind_Ok in E as (p & _ & E). injection E as <-. discriminate.
  - intros l i y w l' _ _ E. unfold rinactive_learn in E. cbv zeta in E. apply bind_Ok in E as (p & _ & E). injection E as <-. discriminate.
  - intros l l' te ds _ _ E d Hd. apply rdecide_cases in E as (pre & bs & _ & Eb & _ & best & Hin & Et & <-).
    destruct (rsuggestions_in _ _ _ _ _ _ Eb Hin) as [->|(i & o & Hio & E)]; [discriminate Et|]. destruct o as [t|dd|]; cbn [rbest_of] in E; [| |discriminate].
    + apply bind_Ok in E as (b & Ee & E). injection E as <-. destruct (sg_test b); [|discriminate Et]. destruct (sg_dists b) as [[u v]|]; [|discriminate Et]. destruct Hd as [<-|[<-|[]]]; discriminate.
    + destruct (nr_best _ _ _ _) as [b|]; [|discriminate]. injection E as <-. cbn [sg_dists] in Hd. apply in_map_iff in Hd as (u & <- & _). discriminate.
Qed.
Lemma value_mean s r x p m : r_kind cfg = Mean -> reached s -> t_root (hr_tree s) = Some r -> reaches O r (feat x) p m -> htr_value key int_of cfg s r x = Ok (mean_of (stats_of O m)).
Proof.
  intros HK R Er Rm. pose proof (reached_seen s R) as Ev. rewrite Er in Ev. unfold htr_value. apply (feat_reaches r (mk_inst x (hr_sums s) (fun _ => n0))) in Rm. rewrite Rm. cbn [bind].
  destruct (route_found _ _ _ _ _ Rm) as [Hn _]. specialize (Ev _ _ Hn). unfold leaf_value. rewrite HK. destruct m as [l|i|te st ch]; auto. cbn [stats_of] in *. destruct st as [st|]; [reflexivity|]. now contradiction Ev.
Qed.
(** With leaf_prediction='mean', nothing an instance elsewhere is answered changes, memory management included. *)
Lemma reached_fit s rows ws s' : reached s -> fit s rows ws = Ok s' -> reached s'.
Proof. intros (es & H) F. exists (es ++ [RFit rows ws]). rewrite run_app, H. cbn [bind htr_run htr_step]. now rewrite F. Qed.
Theorem htr_mean_elsewhere : forall s x y dr w s' r p n x2 q m, r_kind cfg = Mean -> reached s -> fit s [(x, y, dr)] (Some [w]) = Ok s' -> t_root (hr_tree s) = Some r ->
  reaches O r (feat x) p n -> reaches O r (feat x2) q m -> q <> p ->
  exists r', t_root (hr_tree s') = Some r' /\ htr_value key int_of cfg s' r' x2 = htr_value key int_of cfg s r x2.
Proof.
  intros s x y dr w s' r p n x2 q m HK R H Er R1 R2 Ne. destruct (htr_sample_is_local _ _ _ _ _ _ _ _ _ _ _ _ R H Er R1 R2 Ne) as (r' & m' & Er' & R' & Es & _).
  exists r'. split; auto. rewrite (value_mean s r x2 q m HK R Er R2), (value_mean s' r' x2 q m' HK (reached_fit _ _ _ _ R H) Er' R'). now rewrite Es.
Qed.

(** C240: the leaf that a sample reaches gains its weight w, w * y and w * y * y, whether it splits or not; and nothing else. *)
Definition gains (s s' : option (stat T unit)) (y w : T) : Prop :=
  exists d, s' = Some d /\ st_w d = match s with Some a => st_w a + w | None => w end%num
    /\ st_s d tt = match s with Some a => st_s a tt + y * w | None => y * w end%num /\ st_q d tt = match s with Some a => st_q a tt + y * y * w | None => y * y * w end%num.
Theorem htr_sample_is_counted : forall s x y dr w s' p n, reached s -> fit s [(x, y, dr)] (Some [w]) = Ok s' -> (w =? n0)%num = false ->
  reaches O (rmet s) (feat x) p n -> is_split n = false ->
  exists r' n', t_root (hr_tree s') = Some r' /\ node_at r' p = Some n' /\ gains (stats_of O n) (stats_of O n') y w.
Proof.
  intros s x y dr w s' p n R H Hw R1 Hn. apply fit_single in H. pose proof (reached_rgood _ R) as G. apply htr_one_cases in H as [[C _]|(_ & g & -> & _ & F)]; [congruence|].
  set (i := mk_inst x (sums_add (hr_sums s) x y w) dr) in *. apply (feat_reaches (rmet s) i) in R1.
  destruct (rfit_one key int_of cfg _ _ _ K sz _ i y w _ Logic.I (rgood_add _ _ _ w G) F) as (_ & _ & _ & _ & p0 & n0' & n' & r1 & r' & R0 & U & Er' & SS & _ & Le).
  change (root_or_new O (radd (hr_tree s) w)) with (rmet s) in R0, U. rewrite R1 in R0. injection R0 as <- <-.
  assert (Q : gains (stats_of O n) (stats_of O n') y w).
  { assert (QQ : forall a, gains a (Some (rstats_add a y w)) y w) by (intros a; exists (rstats_add a y w); destruct a; repeat split).
    destruct n as [l|l|te st ch]; [| |discriminate]; cbn [learned] in Le.
    - destruct Le as (l' & EL & ->). cbn [o_learn htr_ops stats_of o_stats] in EL |- *. unfold rleaf_learn in EL. cbv zeta in EL. apply bind_Ok in EL as (q & _ & EL). injection EL as <-. cbn [rl_stats]. apply QQ.
    - destruct Le as (i' & EL & ->). cbn [o_learn_inactive htr_ops stats_of o_stats_inactive] in EL |- *. unfold rinactive_learn in EL. cbv zeta in EL. apply bind_Ok in EL as (q & _ & EL). injection EL as <-. cbn [ri_stats]. apply QQ. }
  destruct (update_at_inv _ _ _ _ U) as (n1 & n2 & _ & E2 & N2 & _). injection E2 as <-.
  destruct (same_stats_at _ _ _ _ _ SS N2) as (m' & A & B). exists r', m'. split; auto. split; auto. now rewrite <- (same_stats_eq _ _ _ B).
Qed.

(** C241: between resets the tree only grows: a call never removes a split node; one sample makes at most one split; once growth
    has stopped there are no further splits; and a path can only become longer. *)
Theorem htr_only_grows : forall s rows ws s', reached s -> fit s rows ws = Ok s' ->
  t_decision (hr_tree s) <= t_decision (hr_tree s') <= t_decision (hr_tree s) + Z.of_nat (length rows)
  /\ (t_growth (hr_tree s) = false -> t_decision (hr_tree s') = t_decision (hr_tree s) /\ t_growth (hr_tree s') = false).
Proof.
  intros s rows ws s' R H. pose proof (reached_rgood _ R) as G. clear R. unfold htr_fit in H. cbv zeta in H. destruct (Nat.eqb _ _); [|discriminate].
  revert H. generalize (match ws with Some ws => ws | None => repeat n1 (length rows) end) as ws'. clear ws. revert s G.
  induction rows as [|[[x y] dr] rows IH]; intros s G ws' E; cbn [htr_rows] in E; [destruct ws'; injection E as <-; cbn; split; auto; lia|].
  destruct ws' as [|w ws']; [injection E as <-; cbn [length]; split; auto; lia|]. apply bind_Ok in E as (s1 & E1 & E). cbn [length].
  apply htr_one_cases in E1 as [[_ ->]|(_ & g & -> & _ & F)]; [destruct (IH _ G _ E) as [A B]; split; auto; lia|].
  destruct (rfit_one key int_of cfg _ _ _ K sz _ _ y w _ Logic.I (rgood_add _ _ _ w G) F) as (G1 & D1 & Gr & _). cbn [radd t_decision t_growth] in D1, Gr.
  destruct (IH _ G1 _ E) as [A B]. split; [destruct D1 as [D1|[D1 _]]; lia|]. intros Hf. destruct D1 as [D1|[D1 D2]]; [|congruence].
  destruct B as [B1 B2]; [destruct Gr; congruence|]. split; auto. lia.
Qed.
Theorem htr_paths_extend : forall s x y dr w s' r r' x2 q m q' m', reached s -> fit s [(x, y, dr)] (Some [w]) = Ok s' -> t_root (hr_tree s) = Some r ->
  t_root (hr_tree s') = Some r' -> reaches O r (feat x2) q m -> reaches O r' (feat x2) q' m' -> exists e, q' = q ++ e.
Proof.
  intros s x y dr w s' r r' x2 q m q' m' R H Er Er' R2 R2'. apply route_reaches in R2, R2'. apply fit_single in H. pose proof (reached_rgood _ R) as G.
  apply htr_one_cases in H as [[_ ->]|(_ & g & -> & _ & F)]; [rewrite Er in Er'; injection Er' as <-; rewrite R2 in R2'; injection R2' as <- <-; exists []; now rewrite app_nil_r|].
  pose proof (rgood_add _ _ _ w G) as G'.
  assert (E : root_or_new O (radd (hr_tree s) w) = r) by (unfold root_or_new, radd; cbn [t_root]; now rewrite Er).
  destruct (rfit_one key int_of cfg _ _ _ K sz _ _ y w _ Logic.I G' F) as (_ & _ & _ & _ & p & n & n' & r1 & r2 & R0 & U & Er2 & SS & _ & _).
  rewrite Er' in Er2. injection Er2 as <-. rewrite E in R0, U. destruct (list_eq_dec Z.eq_dec q p) as [->|Ne].
  - apply same_stats_sym in SS. destruct (same_stats_route _ _ _ _ _ _ SS R2') as (m1 & R1 & _). exact (route_prefix _ _ p _ _ _ _ _ _ U R2 R1).
  - rewrite <- E in R0, R2. destruct (rframe key int_of cfg _ _ _ K sz _ _ y w _ _ _ _ _ _ Logic.I G' F R0 R2 Ne) as (m1 & r3 & A & B & _). rewrite A in Er'. injection Er' as ->.
    rewrite B in R2'. injection R2' as <- <-. exists []. now rewrite app_nil_r.
Qed.

(** C243: a sample splits the leaf it reaches exactly when growth is allowed, grace_period of weight has come since the last
    attempt, and the best suggestion is a test whose merit is positive and whose merit times (1 - bound) exceeds every other
    merit, or the bound is below tie_threshold; a single suggestion is taken as it is. *)
Definition reg_split_conditions (s : htr T) (x : list T) (y : T) (dr : nat -> T) (w : T) (p : list Z) (l' : rleaf T) (te : htest T) (ds : list (option (stat T unit))) : Prop :=
  exists l pre bs best others, reaches O (rmet s) (feat x) p (Active l)
    /\ rleaf_learn key int_of cfg l (mk_inst x (sums_add (hr_sums s) x y w) dr) y w = Ok l' /\ rl_stats l' = Some pre /\ t_growth (hr_tree s) = true
    /\ (r_grace cfg <=? st_w pre - rl_last l)%num = true
    /\ rsuggestions int_of cfg l' pre = Ok bs /\ best_is bs best others /\ sg_test best = Some te /\ sg_dists best = ds
    /\ ratio_wins (epsilon n1 (r_confidence cfg) (st_w pre)) (r_tie cfg) best others.
(** Merits are numbers (see the criterion's properties): the leaf's suggestions have no -inf. *)
Definition merits_ok (s : htr T) (x : list T) (y : T) (dr : nat -> T) (w : T) : Prop :=
  forall p l l' pre bs, reaches O (rmet s) (feat x) p (Active l) -> rleaf_learn key int_of cfg l (mk_inst x (sums_add (hr_sums s) x y w) dr) y w = Ok l' ->
    rl_stats l' = Some pre -> rsuggestions int_of cfg l' pre = Ok bs -> numeric_merits bs.
Lemma rdecide_iff l pre bs d te ds : ordered T -> divisive T -> rl_stats l = Some pre -> rsuggestions int_of cfg l pre = Ok bs -> numeric_merits bs -> rdecide int_of cfg l = Ok d ->
  ((exists l2, d = SplitOn l2 te ds) <-> exists best others, best_is bs best others /\ sg_test best = Some te /\ sg_dists best = ds /\ ratio_wins (epsilon n1 (r_confidence cfg) (st_w pre)) (r_tie cfg) best others).
Proof.
  intros Hord Hdiv Es Eb Num H. unfold rdecide in H. cbv zeta in H. rewrite Es, Eb in H. cbn [bind] in H.
  change (fun a b : suggestion (option (htest T)) (list (option (stat T unit))) T => negb (mgt (sg_merit a) (sg_merit b))) with (@sle T N (option (htest T)) (list (option (stat T unit)))) in H.
  destruct (rev (sort_stable sle bs)) as [|best rest] eqn:Er.
  { injection H as <-. split; [intros [l2 C]; discriminate|]. intros (best & others & (q & post & E & _) & _).
    apply (f_equal (@rev _)) in Er. rewrite rev_involutive in Er. cbn in Er. assert (P := sort_stable_perm sle bs). rewrite Er in P. apply Permutation_sym, Permutation_nil in P. subst bs. now destruct q. }
  destruct (best_sorted _ _ _ Hord Er) as (others & B & P).
  assert (FL : forall X, (exists best0 others0, best_is bs best0 others0 /\ X best0 others0) <-> X best others).
  { intros X. split; [|intros HX; exists best, others; auto]. intros (b0 & o0 & B0 & HX). destruct (best_is_unique _ _ _ _ _ Hord B B0) as [-> ->]. exact HX. }
  rewrite (FL (fun best others => sg_test best = Some te /\ sg_dists best = ds /\ ratio_wins (epsilon n1 (r_confidence cfg) (st_w pre)) (r_tie cfg) best others)).
  destruct rest as [|second rest].
  - apply Permutation_nil in P. subst others. injection H as <-. destruct (sg_test best) as [te0|].
    + split; [intros [l2 [= <- <- <-]]; split; [reflexivity|split; [reflexivity|now left]]|]. intros ([= ->] & <- & _). eauto.
    + split; [intros [l2 C]; discriminate|]. intros (C & _). discriminate.
  - apply bind_Ok in H as (bound & Ebd & H). apply bind_Ok in H as (poor & _ & H).
    assert (EB : bound = epsilon n1 (r_confidence cfg) (st_w pre)). { unfold hoeffding_bound in Ebd. apply bind_Ok in Ebd as (i & Ei & Ebd). injection Ebd as <-. unfold pydiv in Ei. destruct (_ =? _)%num; [discriminate|]. injection Ei as <-. reflexivity. }
    subst bound. set (eps := epsilon n1 (r_confidence cfg) (st_w pre)) in *. assert (Q2 : forall o, In o others -> sle o second = true).
    { intros o Ho. apply (Permutation_in _ (Permutation_sym P)) in Ho as [<-|Ho].
      + destruct (sle second second) eqn:Q; auto. apply (sle_tot Hord) in Q as Q'. congruence.
      + exact (sort_second _ (sle_tot Hord) (sle_trans Hord) _ _ _ _ Er _ Ho). }
    assert (InB : forall o, In o others -> In o bs). { intros o Ho. destruct B as (u & v & -> & -> & _). apply in_app_iff in Ho as [Ho|Ho]; apply in_app_iff; auto. right. now right. }
    assert (Hs : In second others) by (eapply Permutation_in; [exact P|now left]).
    unfold numeric_merits in Num. rewrite Forall_forall in Num.
    assert (W : ratio_wins eps (r_tie cfg) best others <-> (n0 <? merit_of best)%num && ((merit_of second / merit_of best <? n1 - eps)%num || (eps <? r_tie cfg)%num) = true).
    { rewrite andb_true_iff, orb_true_iff. unfold ratio_wins. assert (Nb : sg_merit best <> None) by (apply Num; destruct B as (u & v & -> & _); apply in_app_iff; right; now left).
      unfold merit_of. destruct (sg_merit best) as [mb|]; [|contradiction]. split.
      - intros [->|(m & [= <-] & Hp & [H1|H1])]; [destruct Hs| |auto]. split; auto. left. specialize (Num _ (InB _ Hs)). destruct (sg_merit second) as [ms|] eqn:Em; [|contradiction]. exact (H1 _ _ Hs Em).
      - intros [Hp H1]. right. exists mb. split; auto. split; auto. destruct H1 as [H1|H1]; [left|auto]. intros o m' Ho Em. specialize (Q2 o Ho). unfold sle in Q2. rewrite Em in Q2.
        pose proof (Num _ (InB _ Hs)) as Ns. destruct (sg_merit second) as [ms|]; [|contradiction]. cbn in Q2. apply negb_true_iff in Q2. exact (Hdiv _ _ _ _ Q2 Hp H1). }
    rewrite W. destruct ((n0 <? merit_of best)%num && _).
    + injection H as <-. destruct (sg_test best) as [te0|].
      * split; [intros [l2 [= <- <- <-]]; auto|]. intros ([= ->] & <- & _). eauto.
      * split; [intros [l2 C]; discriminate|]. intros (C & _). discriminate.
    + split; [|intros (_ & _ & C); discriminate]. intros [l2 ->]. exfalso. destruct (_ && _); [apply bind_Ok in H as (l3 & _ & H)|]; discriminate.
Qed.
Lemma rlearn_facts l i y w l' : rleaf_learn key int_of cfg l i y w = Ok l' -> rl_last l' = rl_last l /\ exists pre, rl_stats l' = Some pre.
Proof. unfold rleaf_learn. cbv zeta. intros H. apply bind_Ok in H as (p & _ & H). injection H as <-. cbn. eauto. Qed.
Lemma fit_decided s x y dr w s' p l l' : htr_one key int_of cfg sz s (x, y, dr) w = Ok s' -> (w =? n0)%num = false -> t_growth (hr_tree s) = true ->
  route O (rmet s) (mk_inst x (sums_add (hr_sums s) x y w) dr) = Ok (p, Some (Active l)) -> rleaf_learn key int_of cfg l (mk_inst x (sums_add (hr_sums s) x y w) dr) y w = Ok l' -> o_due O l' = true ->
  exists d, rdecide int_of cfg l' = Ok d.
Proof.
  intros H Hw Hg R1 EL Hd. apply htr_one_cases in H as [[C _]|(_ & g & -> & _ & F)]; [congruence|]. unfold fit_one in F.
  destruct (match t_root (radd (hr_tree s) w) with Some r => _ | None => _ end) as [s0 r] eqn:E0.
  assert (r = rmet s /\ t_growth s0 = true) as [-> G0] by (unfold rmet, radd in *; cbn [t_root] in E0; destruct (t_root (hr_tree s)); injection E0 as <- <-; auto).
  rewrite R1 in F. cbn [bind] in F. apply bind_Ok in F as (s1 & F & _). cbn [learn_found] in F. change (o_learn O l) with (rleaf_learn key int_of cfg l) in F. rewrite EL in F. cbn [bind] in F.
  apply bind_Ok in F as (r0 & _ & F). apply bind_Ok in F as (r1 & _ & F). cbv zeta in F. rewrite G0, Hd in F. cbn [andb] in F. apply bind_Ok in F as (d & Ed & _). eauto.
Qed.
Lemma reg_conditions_iff s x y dr w s' p l' te ds : ordered T -> divisive T -> htr_one key int_of cfg sz s (x, y, dr) w = Ok s' -> (w =? n0)%num = false -> merits_ok s x y dr w ->
  let i := mk_inst x (sums_add (hr_sums s) x y w) dr in
  reg_split_conditions s x y dr w p l' te ds <->
  exists l l2, route O (rmet s) i = Ok (p, Some (Active l)) /\ o_learn O l i y w = Ok l' /\ t_growth (hr_tree s) = true /\ o_due O l' = true /\ o_decide O l' = Ok (SplitOn l2 te ds).
Proof.
  intros Hord Hdiv H Hw M i. split.
  - intros (l & pre & bs & best & others & R1 & EL & Es & Hg & Hd & Eb & B & Et & Ed & Wn).
    assert (Num : numeric_merits bs) by exact (M p l l' pre bs R1 EL Es Eb). apply (feat_reaches (rmet s) i) in R1.
    assert (DU : o_due O l' = true) by (cbn; rewrite Es, (proj1 (rlearn_facts _ _ _ _ _ EL)); exact Hd). destruct (fit_decided _ _ _ _ _ _ _ _ _ H Hw Hg R1 EL DU) as (d & Edd).
    destruct (proj2 (rdecide_iff l' pre bs d te ds Hord Hdiv Es Eb Num Edd)) as (l2 & ->); [exists best, others; auto|]. exists l, l2. auto.
  - intros (l & l2 & R1 & EL & Hg & Hd & Edd). pose proof (rdecide_cases _ _ _ _ Edd) as (pre & bs & Es & Eb & _).
    apply (feat_reaches (rmet s) i) in R1. assert (Num : numeric_merits bs) by exact (M p l l' pre bs R1 EL Es Eb).
    destruct (proj1 (rdecide_iff l' pre bs _ te ds Hord Hdiv Es Eb Num Edd)) as (best & others & B & Et & Ed & Wn); [eauto|].
    exists l, pre, bs, best, others. split; [exact R1|]. split; [exact EL|]. split; [exact Es|]. split; [exact Hg|]. split; [cbn in Hd; rewrite Es, (proj1 (rlearn_facts _ _ _ _ _ EL)) in Hd; exact Hd|]. auto.
Qed.
Theorem htr_split_iff : forall s x y dr w s', ordered T -> divisive T -> reached s -> fit s [(x, y, dr)] (Some [w]) = Ok s' -> (w =? n0)%num = false -> merits_ok s x y dr w ->
  (t_decision (hr_tree s') = t_decision (hr_tree s) + 1 <-> exists p l' te ds, reg_split_conditions s x y dr w p l' te ds).
Proof.
  intros s x y dr w s' Hord Hdiv R H Hw M. apply fit_single in H. pose proof (reached_rgood _ R) as G. pose proof H as H1. apply htr_one_cases in H1 as [[C _]|(_ & g & -> & _ & F)]; [congruence|].
  destruct (rsplit_cause key int_of cfg _ _ _ K sz _ _ y w _ Logic.I (rgood_add _ _ _ w G) F) as [Q _]. change (t_decision (radd (hr_tree s) w)) with (t_decision (hr_tree s)) in Q. rewrite Q. clear Q.
  change (root_or_new O (radd (hr_tree s) w)) with (rmet s). change (t_growth (radd (hr_tree s) w)) with (t_growth (hr_tree s)). split.
  - intros (p & l & l' & l2 & te & ds & A). exists p, l', te, ds. apply (reg_conditions_iff s x y dr w s'); auto. exists l, l2. exact A.
  - intros (p & l' & te & ds & SC). apply (reg_conditions_iff s x y dr w s') in SC as (l & l2 & A); auto. exists p, l, l', l2, te, ds. exact A.
Qed.
(** The split puts that test where the leaf was, with the leaf's statistics, and one leaf per branch that starts from the
    statistics the suggestion gives to the branch. *)
Theorem htr_split_result : forall s x y dr w s' p l' te ds, ordered T -> divisive T -> reached s -> fit s [(x, y, dr)] (Some [w]) = Ok s' -> (w =? n0)%num = false -> merits_ok s x y dr w ->
  reg_split_conditions s x y dr w p l' te ds ->
  exists r' ch, t_root (hr_tree s') = Some r' /\ node_at r' p = Some (Split te (rl_stats l') ch) /\ dkeys ch = map Z.of_nat (seq 0 (length ds)) /\
    map (fun c => stats_of O (snd c)) ch = ds /\ Forall (fun c => is_split (snd c) = false) ch.
Proof.
  intros s x y dr w s' p l' te ds Hord Hdiv R H Hw M SC. apply fit_single in H. pose proof (reached_rgood _ R) as G. pose proof H as H1. apply htr_one_cases in H1 as [[C _]|(_ & g & -> & _ & F)]; [congruence|].
  destruct (rsplit_cause key int_of cfg _ _ _ K sz _ _ y w _ Logic.I (rgood_add _ _ _ w G) F) as [_ Q].
  apply (reg_conditions_iff s x y dr w s') in SC as (l & l2 & A1 & A2 & A3 & A4 & A5); auto. destruct (Q p l l' l2 te ds A1 A2 A3 A4 A5) as (r' & ch & B1 & B2 & B3 & B4 & B5). exists r', ch. repeat split; auto.
  rewrite B4. cbn. apply map_id.
Qed.

(** C246: with leaf_prediction='mean' reset() gives back an empty tree: whatever came before, the tree grown afterwards is the
    tree a new regressor grows from the same calls, and it answers the same. *)
Lemma mean_one s s2 x y dr w s' : r_kind cfg = Mean -> hr_tree s2 = hr_tree s -> htr_one key int_of cfg sz s (x, y, dr) w = Ok s' ->
  exists s2', htr_one key int_of cfg sz s2 (x, y, dr) w = Ok s2' /\ hr_tree s2' = hr_tree s'.
Proof.
  intros HK E H. unfold htr_one in *. destruct (w =? n0)%num eqn:Ew; [injection H as <-; eauto|]. cbv zeta in *. apply bind_Ok in H as (t & F & H). injection H as <-. cbn [hr_tree]. rewrite E.
  assert (L : forall g g', fit_weighted O (r_memory cfg) sz (hr_tree s) (mk_inst x g dr) y w = fit_weighted O (r_memory cfg) sz (hr_tree s) (mk_inst x g' dr) y w).
  { intros g g'. unfold fit_weighted. rewrite Ew. unfold fit_one.
    assert (LF : forall t p n, learn_found O (r_memory cfg) t p n (mk_inst x g dr) y w = learn_found O (r_memory cfg) t p n (mk_inst x g' dr) y w).
    { intros t0 p n. unfold learn_found. cbn [o_learn o_learn_inactive o_add htr_ops]. unfold rleaf_learn, rinactive_learn, pw_learn. rewrite HK. reflexivity. }
    destruct (match t_root _ with Some r => _ | None => _ end) as [t0 r]. rewrite (route_feat r (mk_inst x g dr) (mk_inst x g' dr) eq_refl). destruct (route O r (mk_inst x g' dr)) as [[p [n|]]|e]; cbn [bind]; auto.
    - now rewrite LF.
    - destruct (replace_at O r p (Active (o_new O))) as [r'|e]; cbn [bind]; auto. now rewrite LF. }
  rewrite (L (sums_add (hr_sums s2) x y w) (sums_add (hr_sums s) x y w)), F. cbn [bind]. eauto.
Qed.
Lemma mean_rows rows : forall ws s s2 s', r_kind cfg = Mean -> hr_tree s2 = hr_tree s -> htr_rows key int_of cfg sz s rows ws = Ok s' ->
  exists s2', htr_rows key int_of cfg sz s2 rows ws = Ok s2' /\ hr_tree s2' = hr_tree s'.
Proof.
  induction rows as [|[[x y] dr] rows IH]; intros ws s s2 s' HK E H; cbn [htr_rows] in *; [destruct ws; injection H as <-; eauto|]. destruct ws as [|w ws]; [injection H as <-; eauto|].
  apply bind_Ok in H as (s1 & E1 & H). destruct (mean_one _ s2 _ _ _ _ _ HK E E1) as (s3 & -> & E3). cbn [bind]. eapply IH; eauto.
Qed.
Theorem htr_mean_reset : forall before after s, r_kind cfg = Mean -> run htr_new (before ++ RReset :: after) = Ok s ->
  exists s', run htr_new after = Ok s' /\ hr_tree s = hr_tree s' /\
    ((n0 <? n_seen (hr_sums s))%num = true -> (n0 <? n_seen (hr_sums s'))%num = true -> forall xs, htr_predict key int_of cfg s xs = htr_predict key int_of cfg s' xs).
Proof.
  intros before after s HK H. rewrite run_app in H. apply bind_Ok in H as (s0 & _ & H). cbn [htr_run htr_step bind] in H.
  assert (Q : exists s', run htr_new after = Ok s' /\ hr_tree s' = hr_tree s).
  { revert H. assert (E : hr_tree (@htr_new T N) = hr_tree (htr_reset s0)) by reflexivity. revert E. generalize (@htr_new T N) as a, (htr_reset s0) as b. clear s0.
    induction after as [|e after IH]; intros a b E H; cbn [htr_run] in *; [injection H as <-; eauto|]. apply bind_Ok in H as (b1 & Eb & H). destruct e as [rows ws|]; cbn [htr_step] in *.
    - unfold htr_fit in *. cbv zeta in *. destruct (Nat.eqb _ _); [|discriminate]. destruct (mean_rows _ _ _ a _ HK E Eb) as (a1 & -> & E1). cbn [bind]. eapply IH; eauto.
    - injection Eb as <-. cbn [bind]. apply (IH _ (htr_reset b)); auto. }
  destruct Q as (s' & A & B). exists s'. split; auto. split; auto. intros P1 P2 xs. unfold htr_predict. rewrite B, P1, P2. destruct (t_root (hr_tree s)) as [r|]; auto.
  induction xs as [|x xs IH]; cbn [mapM]; auto. assert (V : htr_value key int_of cfg s r x = htr_value key int_of cfg s' r x).
  { unfold htr_value, leaf_value. rewrite HK, (route_feat r (mk_inst x (hr_sums s) (fun _ => n0)) (mk_inst x (hr_sums s') (fun _ => n0)) eq_refl). reflexivity. }
  now rewrite V, IH.
Qed.
(** Refuted: "Resets the Hoeffding Tree to default values": samples_seen and the sums of targets and attributes stay. *)
Theorem htr_reset_keeps_sums_refuted : forall es s, run htr_new (es ++ [RReset]) = Ok s -> exists s0, run htr_new es = Ok s0 /\ hr_sums s = hr_sums s0 /\ hr_tree s = hr_tree htr_new.
Proof. intros es s H. rewrite run_app in H. apply bind_Ok in H as (s0 & -> & H). cbn in H. injection H as <-. eauto. Qed.

(** C247: a trained tree gives one answer per row.  Refuted for an untrained one: a single 0.0, whatever the number of rows. *)
Lemma mapM_len {A B} (f : A -> res B) l : forall r, mapM f l = Ok r -> length r = length l.
Proof. induction l as [|a l IH]; intros r H; cbn [mapM] in H; [injection H as <-; auto|]. apply bind_Ok in H as (b & _ & H). apply bind_Ok in H as (r' & E & H). injection H as <-. cbn. f_equal. auto. Qed.
Theorem htr_predict_rows : forall s r xs out, t_root (hr_tree s) = Some r -> (n0 <? n_seen (hr_sums s))%num = true -> htr_predict key int_of cfg s xs = Ok out ->
  length out = length xs /\ forall i x, nth_error xs i = Some x -> exists v, nth_error out i = Some v /\ htr_predict key int_of cfg s [x] = Ok [v].
Proof.
  intros s r xs out Er Hp H. unfold htr_predict in *. rewrite Er, Hp in *. split; [eapply mapM_len; eauto|]. revert out H. induction xs as [|a xs IH]; intros out H i x Hi; [destruct i; discriminate|].
  cbn [mapM] in H. apply bind_Ok in H as (v & Ev & H). apply bind_Ok in H as (o & Eo & H). injection H as <-. destruct i as [|i].
  - injection Hi as <-. exists v. split; auto. cbn [mapM]. now rewrite Ev.
  - destruct (IH _ Eo i x Hi) as (u & A & B). exists u. auto.
Qed.
Theorem htr_untrained_predict_refuted : forall xs, htr_predict key int_of cfg htr_new xs = Ok [Some n0].
Proof. reflexivity. Qed.
End Props.

(** C242: with leaf_prediction='mean' and non-negative weights every answer is within the range of the targets seen since the last
    reset, whatever the splits, the pruning and the memory limit did. *)
Section Mean.
Local Open Scope R_scope.
Variables (key : R -> Z) (int_of : R -> Z) (cfg : htr_config R) (sz : sizes R (rleaf R) (rinactive R) (option (stat R unit)) (htest R)).
Theorem htr_mean_in_range : forall lo hi es s r xs out, r_kind cfg = Mean -> htr_run key int_of cfg sz htr_new es = Ok s ->
  (forall x y w, In (x, y, w) (live_samples es) -> lo <= y <= hi /\ 0 <= w) -> t_root (hr_tree s) = Some r -> 0 < n_seen (hr_sums s) ->
  htr_predict key int_of cfg s xs = Ok out -> forall v, In (Some v) out -> lo <= v <= hi.
Proof.
  intros lo hi es s r xs out HK H S Er Hp HO v Hv. destruct (range_run lo hi key int_of cfg sz es s H S) as [[_ W] Ev]. rewrite Er in Ev.
  unfold htr_predict in HO. rewrite Er in HO. change (@nltb R NumR) with Rltb in HO. change (@n0 R NumR) with 0 in HO; rewrite (proj2 (Rltb_true _ _) Hp) in HO.
  destruct (mapM_in _ _ _ HO _ Hv) as (x & _ & E). clear HO. unfold htr_value in E. apply bind_Ok in E as ([p n] & Rm & E). destruct n as [n|]; [|discriminate].
  destruct (route_found _ _ _ _ _ Rm) as [Hn _]. specialize (Ev _ _ Hn). unfold leaf_value in E. rewrite HK in E.
  assert (Q : mean_of (stats_of (htr_ops key int_of cfg) n) = Some v).
  { destruct n as [l|i|te st ch]; [injection E as E; exact E|injection E as E; exact E|]. cbn [stats_of]. destruct st as [st|]; [injection E as E; exact E|discriminate]. }
  unfold present in Ev. destruct (stats_of _ n) as [st|]; [|contradiction]. exact (cone_mean lo hi st v Ev Q).
Qed.
End Mean.

Lemma divisive_R : @divisive R NumR.
Proof.
  intros a b c e H1 H2 H3. cbn in *. apply Rltb_false in H1. apply Rltb_true in H2. apply Rltb_true in H3. apply Rltb_true. eapply Rle_lt_trans; [|exact H3].
  unfold Rdiv. apply Rmult_le_compat_r; [left; now apply Rinv_0_lt_compat|lra].
Qed.
Lemma divisive_Q : @divisive Q NumQ.
Proof.
  intros a b c e H1 H2 H3. change (negb (Qle_bool a b) = false) in H1. change (negb (Qle_bool c 0) = true) in H2. change (negb (Qle_bool e (Qred (b / c))) = true) in H3. change (negb (Qle_bool e (Qred (a / c))) = true). apply negb_false_iff, Qle_bool_iff in H1. apply negb_true_iff in H2, H3. apply negb_true_iff.
  assert (C : (0 < c)%Q) by (apply Qnot_le_lt; intros C; apply Qle_bool_iff in C; congruence).
  destruct (Qle_bool e (Qred (a / c))) eqn:E; auto. apply Qle_bool_iff in E. rewrite <- H3. symmetry. apply Qle_bool_iff. rewrite Qred_correct in *. eapply Qle_trans; [exact E|].
  unfold Qdiv. apply Qmult_le_compat_r; [exact H1|]. apply Qlt_le_weak, Qinv_lt_0_compat, C.
Qed.

(** A concrete tree: one numeric attribute, ten samples; the tenth splits the root at 4. *)
Definition rq_cfg : htr_config Q := mk_htr 10%Q (1#10)%Q 100%Q false false false Mean (fun _ => false) (1#50)%Q (1#1000)%Q false true (mk_cfg 1000%Q false (fun _ => false)).
Definition rq_sizes : sizes Q (rleaf Q) (rinactive Q) (option (stat Q unit)) (htest Q) := mk_sizes (fun _ => 1%Q) (fun _ => 1%Q) (fun _ => 1%Q).
Definition rq_key (q : Q) : Z := Qnum q.
Definition rq_int (q : Q) : Z := Z.quot (Qnum q) (Zpos (Qden q)).
Definition rq_row (i : nat) : sample Q := ([inject_Z (Z.of_nat i)], if Nat.ltb i 5 then 1%Q else 3%Q, fun _ => 0%Q).
Local Notation rq_run := (htr_run rq_key rq_int rq_cfg rq_sizes htr_new).
Local Notation rq_ops := (htr_ops rq_key rq_int rq_cfg).
Definition rq_nine : list (htr_event Q) := [RFit (map rq_row (seq 0 9)) None].
Example htr_example : exists s s' r ch, htr_reached rq_key rq_int rq_cfg rq_sizes s /\ htr_fit rq_key rq_int rq_cfg rq_sizes s [rq_row 9] (Some [1%Q]) = Ok s'
  /\ t_decision (hr_tree s) = 0 /\ t_decision (hr_tree s') = 1 /\ htr_depth s' = 1%nat /\ t_root (hr_tree s') = Some r /\ r = Split (TNum (mkNum 0 4%Q true)) (stats_of rq_ops r) ch
  /\ htr_predict rq_key rq_int rq_cfg s' [[2%Q]; [7%Q]] = Ok [Some 1%Q; Some 3%Q]
  /\ merits_ok rq_key rq_int rq_cfg s [9%Q] 3%Q (fun _ => 0%Q) 1%Q.
Proof.
  destruct (rq_run rq_nine) as [s|e] eqn:E; [|vm_compute in E; discriminate]. exists s. assert (R : htr_reached rq_key rq_int rq_cfg rq_sizes s) by (eexists; exact E).
  vm_compute in E. injection E as <-. do 3 eexists. split; [exact R|]. clear R. split; [vm_compute; reflexivity|]. repeat (split; [vm_compute; reflexivity|]). intros p l l' pre bs R EL Es Eb. apply route_reaches in R. vm_compute in R. injection R as <- <-.
  vm_compute in EL. injection EL as <-. vm_compute in Es. injection Es as <-. vm_compute in Eb. injection Eb as <-. repeat constructor; discriminate.
Qed.

(** A history with real numbers *)
Definition rr_cfg : htr_config R := mk_htr 100%R 1%R 0%R false false false Mean (fun _ => false) 0%R 0%R false true (mk_cfg 1000%R false (fun _ => false)).
Definition rr_sizes : sizes R (rleaf R) (rinactive R) (option (stat R unit)) (htest R) := mk_sizes (fun _ => 0%R) (fun _ => 0%R) (fun _ => 0%R).
Example htr_range_example : exists s r, htr_run (fun _ => 0) (fun _ => 1) rr_cfg rr_sizes htr_new [RFit [([1%R], 2%R, fun _ => 0%R)] (Some [3%R])] = Ok s
  /\ live_samples [RFit [([1%R], 2%R, fun _ => 0%R)] (Some [3%R])] = [([1%R], 2%R, 3%R)] /\ t_root (hr_tree s) = Some r /\ (0 < n_seen (hr_sums s))%R.
Proof.
  assert (E3 : @neqb R NumR 3%R n0 = false) by (apply Reqb_false; cbn; lra).
  assert (EL : forall v, (v < 100)%R -> @nleb R NumR 100%R v = false) by (intros v Hv; apply Rleb_false; lra).
  cbn [htr_run htr_step htr_fit length Nat.eqb htr_rows htr_one]. unfold htr_fit. cbn [length Nat.eqb htr_rows]. unfold htr_one. rewrite E3. cbv zeta. unfold fit_weighted. rewrite E3.
  unfold fit_one. cbn [hr_tree htr_new tree_new t_root route bind learn_found o_learn htr_ops]. unfold rleaf_learn. cbn [pw_learn r_kind rr_cfg bind root_of t_root update_at with_root].
  cbv zeta. cbn [t_growth o_due htr_ops r_grace rr_cfg rl_stats rl_last weight_of rstats_add st_w]. rewrite EL by (cbn; lra). cbn. rewrite ?andb_false_r. do 2 eexists. split; [reflexivity|].
  split; [unfold live_samples, call_samples; unfold fold_left, map, combine, filter, app; cbn [snd]; cbn in E3; rewrite E3; reflexivity|]. split; [reflexivity|]. cbn. lra.
Qed.
Print Assumptions htr_measurements.
Print Assumptions htr_sample_is_local.
Print Assumptions htr_mean_elsewhere.
Print Assumptions htr_sample_is_counted.
Print Assumptions htr_only_grows.
Print Assumptions htr_paths_extend.
Print Assumptions htr_split_iff.
Print Assumptions htr_split_result.
Print Assumptions htr_mean_reset.
Print Assumptions htr_reset_keeps_sums_refuted.
Print Assumptions htr_predict_rows.
Print Assumptions htr_untrained_predict_refuted.
Print Assumptions htr_mean_in_range.
