(** Hoeffding adaptive tree regressor: alternate trees, answers, monitored errors, the tree without drift, reset. *)
From Coq Require Import List ZArith Bool Reals Lra Lia Floats QArith.
From Verif Require Import Base.Py Base.Num Base.NumFloat Base.Dict Model.Suggestion Model.Adwin Model.TargetStats Model.SplitTests Model.Knn Model.TreeSkeleton Model.HoeffdingTree Model.HoeffdingRegressor
  Model.AdaTree Model.HoeffdingAdaptive Model.HoeffdingAdaptiveRegressor Spec.AdaSpec Spec.TreeSpec Spec.Lists Spec.ForestRegressorSpec Spec.HatrSpec
  Proofs.TreeProofs Proofs.HoeffdingProofs Proofs.ForestRegressorProofs Proofs.AdaProofs Proofs.HatrProofs Proofs.HatrErrorProofs Proofs.HatrSimProofs Proofs.RegressorRangeProofs Proofs.HatrRangeProofs Proofs.StatFacts.
Import ListNotations.
Local Open Scope Z_scope.

Section General.
Context {T A G : Type} {N : Num T}.
(** External functions, constructor arguments, the detector, the generator: all arbitrary *)
Variables (key : T -> Z) (int_of : T -> Z) (cfg : htr_config T) (bootstrap : bool) (D : det T A) (g_new : G) (poisson : G -> Z * G) (uniform : G -> nat -> list T * G).
Local Notation O := (hatr_ops key int_of cfg bootstrap D g_new poisson uniform).
Local Notation run := (hatr_run key int_of cfg bootstrap D g_new poisson uniform hatr_init).
Local Notation predict := (hatr_predict key int_of cfg bootstrap D g_new poisson uniform).

(** C330: an alternate tree never grows: whatever was trained, each is a single leaf. *)
Theorem hatr_alternates_are_leaves : forall os s t, run os = Ok s -> hatr_root s = Some t -> Forall (fun a => is_aleaf a = true) (alternates t).
Proof. exact (hatr_run_alternates key int_of cfg bootstrap D g_new poisson uniform). Qed.

(** C331: an instance is answered by the one leaf of the main tree it is sorted to -- the mean of its targets, or its perceptron -- and
    alternate trees have no say; a test without a branch for it answers with the mean of its node. *)
Theorem hatr_answers : forall os s t x p, run os = Ok s -> hatr_root s = Some t -> (n0 <? n_seen (hatr_sums s))%num = true -> sorted O t (x, hatr_sums s) p ->
  (exists l, p = At (ALeaf l) /\ predict s [x] = (v <- ar_value cfg l (x, hatr_sums s) ;; Ok [v])) \/
  (p = At (ADead tt) /\ predict s [x] = Raise TypeError) \/
  (exists te d wt alt ch, p = Branchless (ASplit te (Some d) wt alt ch) /\ predict s [x] = Ok [quot (st_s d tt) (st_w d)]) \/
  (exists te wt alt ch, p = Branchless (ASplit te None wt alt ch) /\ predict s [x] = Raise KeyError).
Proof.
  intros os s t x p H Et Hn Hp. pose proof (hatr_run_ok key int_of cfg bootstrap D g_new poisson uniform os s H t Et) as Wt. unfold hatr_predict. rewrite Et, Hn. cbn [mapM]. unfold hatr_value.
  rewrite (aroute_sorted key int_of cfg bootstrap D g_new poisson uniform t _ p Hp). cbn [bind]. destruct p as [n|n|n].
  - assert (Hl : is_asplit n = false) by (clear - Hp; remember (At n) as q eqn:Eq; induction Hp; try discriminate; try (injection Eq as <-; reflexivity); auto). destruct n as [l|[]|te d wt alt ch]; [|right; left; split; reflexivity|discriminate].
    left. exists l. split; [reflexivity|]. destruct (ar_value cfg l _); reflexivity.
  - destruct (childless_never key int_of cfg bootstrap D g_new poisson uniform t _ n Wt Hp).
  - assert (Hl : is_asplit n = true) by (clear - Hp; remember (Branchless n) as q eqn:Eq; induction Hp; try discriminate; try (injection Eq as <-; reflexivity); auto). destruct n as [l|[]|te [d|] wt alt ch]; try discriminate; right; right; [left|right]; repeat eexists.
Qed.

(** C331: with leaf_prediction='mean' a leaf that has seen weight answers the weighted mean of its targets, and 0 before. *)
Theorem hatr_mean_answer : forall os s t x l, run os = Ok s -> hatr_root s = Some t -> (n0 <? n_seen (hatr_sums s))%num = true -> sorted O t (x, hatr_sums s) (At (ALeaf l)) -> r_kind cfg = Mean ->
  (forall d, rl_stats (ar_leaf l) = Some d -> (n0 <? st_w d)%num = true -> predict s [x] = Ok [Some (st_s d tt / st_w d)%num]) /\
  (forall d, rl_stats (ar_leaf l) = Some d -> (n0 <? st_w d)%num = false -> predict s [x] = Ok [Some n0]).
Proof.
  intros os s t x l H Et Hn Hp HK. destruct (hatr_answers os s t x _ H Et Hn Hp) as [(l' & Q & E)|[(Q & _)|[(te & d & wt & alt & ch & Q & _)|(te & wt & alt & ch & Q & _)]]]; try discriminate.
  injection Q as <-. rewrite E. unfold ar_value. rewrite HK. split; intros d -> ->; reflexivity.
Qed.

(** C332: what becomes of the alternate tree [a] of a split node when a sample comes that has a branch.  [e]: the score of the main tree's
    error, which the node's detector is told; [signal]: what it says; [changed]: it says so and its estimate has not become smaller.  The alternate tree replaces the node exactly if no change is signalled, both error
    windows hold more than 300 values and its error is smaller by more than the bound -- as long as teaching it the sample does not end in a
    split --; it is dropped exactly if its error is larger by more than the bound; a signalled change replaces it by a new one. *)
Definition rmature (wt' : welford T * A) (a : arleaf T A G) : Prop := nltb (nofZ 300) (d_width D (snd wt')) = true /\ nltb (nofZ 300) (d_width D (ar_det a)) = true.
Definition rbound (wt' : welford T * A) (a : arleaf T A G) : T := hatr_bound (d_est D (snd wt')) (d_width D (ar_det a)) (d_width D (snd wt')).
Local Notation fresh := (ar_new D g_new None PNone).
Theorem hatr_alternate_fate : forall os s t linked te st wt a ch x y w c t' over c' n v wf' e ad signal wt' changed b,
  run os = Ok s -> hatr_root s = Some t -> In (ASplit te st wt (Some (ALeaf a)) ch) (main_nodes t) ->
  alearn O linked (ASplit te st wt (Some (ALeaf a)) ch) x y w c = Ok (t', over, c') ->
  aroute O (ASplit te st wt (Some (ALeaf a)) ch) x = Ok (Some n) -> avote O n x = Ok v ->
  norm_error (fst wt) y v = (wf', e) -> d_see D (snd wt) e = Ok (ad, signal) -> wt' = (wf', ad) -> changed = (signal && negb (d_est D ad <? d_est D (snd wt))%num)%bool ->
  ht_branch key te (fst x) = Ok b -> 0 <= b ->
  (forall c0, exists a', aleaf_learn O linked a x y w c0 = Ok (ALeaf a', None, c0)) ->
  (forall c0, exists a', aleaf_learn O linked fresh x y w c0 = Ok (ALeaf a', None, c0)) ->
  (over <> None <-> changed = false /\ rmature wt' a /\ nltb (rbound wt' a) (d_est D (snd wt') - d_est D (ar_det a))%num = true) /\
  (forall n, over = Some n -> forall c0, aleaf_learn O linked a x y w c0 = Ok (n, None, c0)) /\
  exists te' ch' alt', t' = ASplit te' st wt' alt' ch' /\
    (alt' = None <-> changed = false /\ rmature wt' a /\ nltb (rbound wt' a) (d_est D (snd wt') - d_est D (ar_det a))%num = false
                     /\ nltb (rbound wt' a) (d_est D (ar_det a) - d_est D (snd wt'))%num = true) /\
    (forall n c0, alt' = Some n -> aleaf_learn O linked (if changed then fresh else a) x y w c0 = Ok (n, None, c0)).
Proof.
  intros os s t linked te st wt a ch x y w c t' over c' n v wf' e ad signal wt' changed b Hrun Et Hin H Ef Ev Ee Ed Ewt Ech Eb Hb Ha Hn.
  assert (Ew : rsee D wt (Some v) y = Ok (wt', changed)) by (unfold rsee, rwatch; rewrite Ee, Ed, Ewt, Ech; reflexivity). clear Ee Ed Ewt Ech.
  pose proof (hatr_main_wf _ _ (hatr_run_ok key int_of cfg bootstrap D g_new poisson uniform os s Hrun t Et) Hin) as Wt.
  apply (alearn_split_inv O test_ok ar_ok dead_ok (hatr_branch key int_of cfg bootstrap D g_new poisson uniform)) in H; [|exact Wt].
  destruct H as (found & p & wt2 & changed2 & vd & c1 & alt' & over1 & c2 & te' & ch' & E1 & E2 & E3 & E4 & E5 & E6 & ->).
  rewrite Ef in E1. injection E1 as <-. destruct E2 as (v2 & E2 & ->). rewrite Ev in E2. injection E2 as <-.
  cbn [hatr_ops a_see] in E3. rewrite Ew in E3. injection E3 as <- <-.
  destruct (hatr_judge_rule key int_of cfg bootstrap D g_new poisson uniform _ _ _ _ _ _ _ E4) as (J1 & J2 & J3).
  assert (over = over1) as ->.
  { inversion E6 as [b0 n0 n' s0 c0 F1 F2 F3|b0 ? ? ? ? ? F1 F2|b0 F1 F2 F3 F4]; subst; try reflexivity; change (ht_branch key te (fst x) = Ok b0) in F1; rewrite Eb in F1; injection F1 as <-; lia. }
  assert (SD : forall (l : arleaf T A G) l' r c0 c3, (forall c0, exists a', aleaf_learn O linked l x y w c0 = Ok (ALeaf a', None, c0)) -> leaf_step O linked l x y w c0 l' r c3 ->
     r = None /\ forall c4, aleaf_learn O linked l x y w c4 = Ok (ALeaf l', None, c4)).
  { intros l l' r c0 c3 Hl Hs. destruct (Hl c0) as (a' & El). apply aleaf_learn_inv in El as (l'' & Q & Hs'). injection Q as <-.
    assert (Fu : forall l1 r1 c1' l2 r2 c2', leaf_step O linked l x y w c0 l1 r1 c1' -> leaf_step O linked l x y w c0 l2 r2 c2' -> l1 = l2 /\ r1 = r2).
    { intros l1 r1 c1' l2 r2 c2' G1 G2. inversion G1; inversion G2; subst; repeat match goal with
        | P : ?f = Ok ?u, Q : ?f = Ok ?v |- _ => rewrite P in Q; injection Q; clear Q; intros; subst
        | P : ?f = true, Q : ?f = false |- _ => rewrite P in Q; discriminate Q
        | P : true = true -> ?f = None, Q : ?f = Some _ |- _ => rewrite (P eq_refl) in Q; discriminate Q
        | P : ?f = Some _, Q : ?f = Some _ |- _ => rewrite P in Q; injection Q; clear Q; intros; subst
        end; try (split; reflexivity); try congruence. }
    destruct (Fu _ _ _ _ _ _ Hs Hs') as [-> ->]. split; [reflexivity|]. intros c4. destruct (Hl c4) as (a2 & El). rewrite El. apply aleaf_learn_inv in El as (l3 & Q & Hs3). injection Q as <-. f_equal. f_equal. f_equal. f_equal.
    inversion Hs3; inversion Hs'; subst; congruence. }
  assert (Q : (over1 <> None <-> vd = Switch) /\ (forall n1, over1 = Some n1 -> forall c0, aleaf_learn O linked a x y w c0 = Ok (n1, None, c0)) /\ (alt' = None <-> vd = Prune) /\
     (forall n1 c0, alt' = Some n1 -> aleaf_learn O linked (if changed then fresh else a) x y w c0 = Ok (n1, None, c0))).
  { inversion E5 as [l' r c3 S1|Z1|v1 Z1|l l' r c3 Z1 S1|l l' r c3 Z1 S1]; subst.
    - destruct (SD _ _ _ _ _ Hn S1) as [-> B]. assert (changed = true) as -> by (apply J1; reflexivity). repeat split; intros; try discriminate; try congruence; match goal with E : Some _ = Some ?n |- _ => injection E as <-; apply B end.
    - repeat split; intros; try discriminate; congruence.
    - discriminate.
    - injection Z1 as <-. destruct (SD _ _ _ _ _ Ha S1) as [-> B]. assert (changed = false) as -> by (destruct changed; [destruct J1 as [_ J1]; discriminate (J1 eq_refl)|reflexivity]).
      repeat split; intros; try discriminate; try congruence; match goal with E : Some _ = Some ?n |- _ => injection E as <-; apply B end.
    - injection Z1 as <-. destruct (SD _ _ _ _ _ Ha S1) as [-> B]. assert (changed = false) as -> by (destruct changed; [destruct J1 as [_ J1]; discriminate (J1 eq_refl)|reflexivity]).
      repeat split; intros; try discriminate; try congruence; match goal with E : Some _ = Some ?n |- _ => injection E as <-; apply B end. }
  destruct Q as (Q1 & Q2 & Q3 & Q4). unfold rmature, rbound. split; [rewrite Q1, J2; tauto|]. split; [exact Q2|]. exists te', ch', alt'. split; [reflexivity|]. split; [rewrite Q3, J3; tauto|exact Q4].
Qed.

(** C333: learning a sample leaves the children of the other branches alone. *)
Theorem hatr_other_branches : forall os s t linked te st wt alt ch x y w c t' over c' b, run os = Ok s -> hatr_root s = Some t -> In (ASplit te st wt alt ch) (main_nodes t) ->
  alearn O linked (ASplit te st wt alt ch) x y w c = Ok (t', over, c') -> ht_branch key te (fst x) = Ok b ->
  exists te' wt' alt' ch', t' = ASplit te' st wt' alt' ch' /\ forall b' n, b' <> b -> dget ch b' = Some n -> dget ch' b' = Some n.
Proof.
  intros os s t linked te st wt alt ch x y w c t' over c' b Hrun Et Hin H Eb.
  pose proof (hatr_main_wf _ _ (hatr_run_ok key int_of cfg bootstrap D g_new poisson uniform os s Hrun t Et) Hin) as Wt.
  apply (alearn_split_inv O test_ok ar_ok dead_ok (hatr_branch key int_of cfg bootstrap D g_new poisson uniform)) in H; [|exact Wt].
  destruct H as (found & p & wt2 & changed2 & vd & c1 & alt' & over1 & c2 & te' & ch' & E1 & E2 & E3 & E4 & E5 & E6 & ->). exists te', wt2, alt', ch'. split; [reflexivity|].
  intros b' n Hb Hn. inversion E6 as [b0 n0 n' s0 c0 F1 F2 F3|b0 te2 b2 l' r c0 F1 F2 F3 F4 F5 F6|b0 F1 F2 F3 F4]; subst; [| |exact Hn]; cbn [hatr_ops a_branch] in F1; rewrite Eb in F1; injection F1 as <-.
  - rewrite dget_dset. destruct (Z.eqb_spec b b'); [congruence|exact Hn].
  - inversion Wt as [| |? ? ? ? ? K TI F A1]; subst. destruct (hatr_add key int_of cfg bootstrap D g_new poisson uniform _ _ _ _ _ _ TI Eb F2 F4 F5) as [-> _]. rewrite dget_dset.
    destruct (Z.eqb_spec (Z.of_nat (length ch)) b') as [<-|Hl]; [|exact Hn]. exfalso. apply dget_In in Hn. assert (Hi : In (Z.of_nat (length ch)) (dkeys ch)) by (unfold dkeys; apply in_map_iff; exists (Z.of_nat (length ch), n); auto).
    rewrite K in Hi. apply in_map_iff in Hi as (i & E0 & Hi). apply in_seq in Hi. lia.
Qed.

(** C334: a leaf learns a sample of weight w with the weight w * max(draw, 1) when bootstrap sampling is on -- never with less -- and w when
    it is off. *)
Theorem hatr_bootstrap_weight : forall (l l' : arleaf T A G) x y w, ar_learn key int_of cfg bootstrap D poisson uniform l x y w = Ok l' ->
  rl_stats (ar_leaf l') = Some (rstats_add (rl_stats (ar_leaf l)) y
    (if bootstrap then (if (0 <? fst (poisson (ar_rng l)))%Z then (w * nofZ (fst (poisson (ar_rng l))))%num else w) else w)).
Proof.
  intros l l' x y w H. apply ar_learn_inv in H as (p & v & ch & ws & _ & _ & _ & _ & El). unfold rleaf_learn in El. apply bind_Ok in El as (q & _ & El). injection El as E. rewrite <- E. cbn [rl_stats]. f_equal. f_equal.
  unfold boot. destruct bootstrap; [|reflexivity]. destruct (poisson (ar_rng l)) as [n g]. cbn [fst]. destruct (0 <? n); reflexivity.
Qed.
End General.

(** C339: with leaf_prediction='mean' and non-negative weights every answer is within the range of the targets taught since the last reset --
    whatever splits, drifts, alternate trees and bootstrap weights there were -- or it is 0, the answer of a leaf without weight. *)
Theorem hatr_mean_in_range : forall {A G} key int_of cfg bootstrap (D : det R A) (g_new : G) poisson uniform lo hi os s xs out, r_kind cfg = Mean ->
  hatr_run key int_of cfg bootstrap D g_new poisson uniform hatr_init os = Ok s ->
  (forall x y w, In ((x, y), w) (since_reset os []) -> (lo <= y <= hi)%R /\ (0 <= w)%R) ->
  hatr_predict key int_of cfg bootstrap D g_new poisson uniform s xs = Ok out -> forall v, In (Some v) out -> (lo <= v <= hi)%R \/ v = 0%R.
Proof.
  intros A G key int_of cfg bootstrap D g_new poisson uniform lo hi os s xs out HK H Hg HO v Hv.
  assert (HI : forall lo hi, (forall (x : list R) (y w : R), In ((x, y), w) [] -> (lo <= y <= hi)%R /\ (0 <= w)%R) -> state_in lo hi (@hatr_init R A G NumR)) by (intros lo0 hi0 _; split; intros t; discriminate).
  destruct (in_run key int_of cfg bootstrap D g_new poisson uniform os _ _ [] HI H lo hi Hg) as [_ W]. unfold hatr_predict in HO. destruct (hatr_root s) as [r|]; [|injection HO as <-; destruct Hv as [Q|[]]; injection Q as <-; right; reflexivity].
  destruct (n0 <? _)%num; [|injection HO as <-; destruct Hv as [Q|[]]; injection Q as <-; right; reflexivity].
  destruct (mapM_in _ _ _ HO _ Hv) as (x & _ & E). unfold hatr_value in E. apply bind_Ok in E as (n & Er & E). destruct n as [n|]; [|discriminate].
  pose proof (aroute_all _ _ _ _ _ _ (W r eq_refl) Er) as Wn. destruct n as [l|i|te d wt alt ch]; [|discriminate|].
  - inversion Wn as [l0 [_ [C _]]| |]; subst. unfold ar_value in E. rewrite HK in E. injection E as <-. destruct (rl_stats (ar_leaf l)) as [d|]; [|right; reflexivity].
    change (@nltb R NumR) with Rltb. change (@n0 R NumR) with 0%R. destruct (Rltb 0 (st_w d)) eqn:Ep; [|right; reflexivity]. left. apply Rltb_true in Ep.
    apply (cone_mean lo hi d _ C). unfold mean_of, quot. change (@neqb R NumR) with Reqb. change (@n0 R NumR) with 0%R. rewrite (proj2 (Reqb_false _ _)) by lra. reflexivity.
  - inversion Wn as [| |? ? ? ? ? C _ _]; subst. destruct d as [d|]; [|discriminate]. injection E as E. left. exact (cone_mean lo hi d v C E).
Qed.

(** C338: as long as there was no alternate tree and no leaf was lost, the adaptive tree is the regression tree: without bootstrap sampling, with
    perceptron leaves, memory that suffices and samples lighter than the grace period, the HoeffdingTreeRegressor learns the same calls,
    reports the same numbers of nodes and predicts the same.  (The regression tree draws the first weights of each perceptron from a
    generator of its own, so the two must draw the same.) *)
Section Same.
Context {T A G : Type} {N : Num T}.
Variables (key : T -> Z) (int_of : T -> Z) (cfg : htr_config T) (D : det T A) (g_new : G) (poisson : G -> Z * G) (uniform : G -> nat -> list T * G).
Variable sz : sizes T (rleaf T) (rinactive T) (option (stat T unit)) (htest T).
Theorem hatr_is_htr : forall calls s, r_kind cfg = Perceptron -> (forall v, c_period_due (r_memory cfg) v = false) ->
  enough_memory (r_memory cfg) (@tree_new T (rleaf T) (rinactive T) (option (stat T unit)) (htest T) N) -> calls_small cfg calls ->
  hatr_run key int_of cfg false D g_new poisson uniform hatr_init (map (fun c => TFit (fst c) (snd c)) calls) = Ok s ->
  k_alternate (hatr_counts s) = 0 -> k_inactive (hatr_counts s) = 0 ->
  exists h, htr_calls key int_of cfg g_new uniform sz htr_new calls = Ok h /\
    t_decision (hr_tree h) = k_decision (hatr_counts s) /\ t_active (hr_tree h) = k_active (hatr_counts s) /\ t_inactive (hr_tree h) = 0 /\
    forall xs, htr_predict key int_of cfg h xs = hatr_predict key int_of cfg false D g_new poisson uniform s xs.
Proof.
  intros calls s Hk Hp Hr Hc H K0 K1. pose proof (J_calls key int_of cfg D g_new poisson uniform sz Hk Hp Hr calls hatr_init (Ok htr_new) s Hc (J_init g_new) H) as (_ & _ & Q).
  destruct (Q K0) as (_ & _ & Q'). destruct (Q' K1) as (h & E & R). exists h. split; [exact E|]. pose proof R as (_ & _ & _ & _ & _ & R6 & R7 & R8 & _). split; [exact R6|]. split; [exact R7|]. split; [congruence|].
  intros xs. eapply rel_predict; eauto.
Qed.
End Same.

(** ** Real numbers *)
Section Real.
Context {A G : Type}.
Variables (key : R -> Z) (int_of : R -> Z) (cfg : htr_config R) (bootstrap : bool) (D : det R A) (g_new : G) (poisson : G -> Z * G) (uniform : G -> nat -> list R * G).
Local Open Scope R_scope.
(** C332: the bound that the difference of the errors has to exceed; it is 0 where the error is above 1 *)
Theorem hatr_bound_value : forall old wa ws : R, 0 <= old <= 1 -> 0 < wa -> 0 < ws -> hatr_bound old wa ws = R_sqrt.sqrt (2 * old * (1 - old) * ln 40 * (1 / wa + 1 / ws)).
Proof.
  intros old wa ws Ho Ha Hs. unfold hatr_bound, n1, n0. cbn [nsqrt nmul nsub nln ndiv nadd nofZ NumR nltb]. replace (2 / (1 / 20)) with 40 by lra. cbv zeta. destruct (Rltb 0 _) eqn:E; [reflexivity|]. apply Rltb_false in E.
  assert (L : 0 < ln 40) by (rewrite <- ln_1; apply ln_increasing; lra). assert (P : 0 <= 2 * old * (1 - old) * ln 40 * (1 / wa + 1 / ws)).
  { assert (0 < 1 / wa) by (apply Rdiv_lt_0_compat; lra). assert (0 < 1 / ws) by (apply Rdiv_lt_0_compat; lra). repeat apply Rmult_le_pos; lra. }
  replace (2 * old * (1 - old) * ln 40 * (1 / wa + 1 / ws)) with 0 by lra. symmetry. apply R_sqrt.sqrt_0.
Qed.
Theorem hatr_bound_beyond : forall old wa ws : R, 1 < old -> 0 < wa -> 0 < ws -> hatr_bound old wa ws = 0.
Proof.
  intros old wa ws Ho Ha Hs. unfold hatr_bound, n1, n0. cbn [nsqrt nmul nsub nln ndiv nadd nofZ NumR nltb]. replace (2 / (1 / 20)) with 40 by lra. cbv zeta. destruct (Rltb 0 _) eqn:E; [|reflexivity]. apply Rltb_true in E.
  assert (L : 0 < ln 40) by (rewrite <- ln_1; apply ln_increasing; lra). exfalso.
  assert (0 < 1 / wa) by (apply Rdiv_lt_0_compat; lra). assert (0 < 1 / ws) by (apply Rdiv_lt_0_compat; lra).
  assert (0 < 2 * old * (old - 1) * ln 40 * (1 / wa + 1 / ws)) by (repeat apply Rmult_lt_0_compat; lra). lra.
Qed.
(** C335: the detector of every leaf, also of alternate trees, was told exactly the scores of the errors the leaf made, one per sample: 0
    for the first error, then each error's standard score among the errors so far, scaled from [-3, 3] to [0, 1].  With mean leaves the errors
    are always numbers. *)
Theorem hatr_detector_told : forall os s t l, hatr_run key int_of cfg bootstrap D g_new poisson uniform hatr_init os = Ok s -> hatr_root s = Some t -> In l (all_leaves t) ->
  exists es, erred key int_of cfg bootstrap D g_new poisson uniform l es /\ (forall ds, es = map Some ds -> told D (scores ds) (ar_det l)) /\ (r_kind cfg = Mean -> exists ds, es = map Some ds).
Proof.
  intros os s t l H Et Hl. destruct (er_leaves key int_of cfg bootstrap D g_new poisson uniform t l (er_run key int_of cfg bootstrap D g_new poisson uniform os s t H Et) Hl) as [_ (es & He)]. exists es. split; [exact He|]. split.
  - intros ds Hd. rewrite <- nscores_right. exact (proj2 (erred_told key int_of cfg bootstrap D g_new poisson uniform l es He ds Hd)).
  - intros Hk. exact (erred_mean key int_of cfg bootstrap D g_new poisson uniform l es Hk He).
Qed.
(** ... a leaf keeps the number, the mean and the sum of squared deviations of these errors, which is not negative, *)
Theorem hatr_spread : forall os s t l, hatr_run key int_of cfg bootstrap D g_new poisson uniform hatr_init os = Ok s -> hatr_root s = Some t -> In l (all_leaves t) ->
  exists es, erred key int_of cfg bootstrap D g_new poisson uniform l es /\
    forall ds, ds <> [] -> es = map Some ds -> ar_wf l = mk_wf (Z.of_nat (length ds)) (Some (Rmean ds)) (Some (Rsqdev ds)) /\ 0 <= Rsqdev ds.
Proof.
  intros os s t l H Et Hl. destruct (er_leaves key int_of cfg bootstrap D g_new poisson uniform t l (er_run key int_of cfg bootstrap D g_new poisson uniform os s t H Et) Hl) as [_ (es & He)]. exists es. split; [exact He|].
  intros ds Hd E. destruct (erred_told key int_of cfg bootstrap D g_new poisson uniform l es He ds E) as [-> _]. rewrite norm_state by exact Hd. split; [reflexivity|apply Rsqdev_nonneg].
Qed.
(** ... the first ten scores of a leaf lie between 0 and 1, *)
Theorem hatr_score_range_partial : forall (ds : list R) n v, (n < 10)%nat -> nth_error (scores ds) n = Some v -> 0 <= v <= 1.
Proof.
  intros ds n v Hn H. apply scores_nth in H as (e & _ & ->). apply scored_range. cbn [app]. rewrite firstn_length. lia.
Qed.
(** refuted for the later ones: ten equal errors and a larger one *)
Theorem hatr_score_range_refuted : forall c x : R, c < x -> exists v, nth_error (scores (repeat c 10 ++ [x])) 10 = Some v /\ 1 < v.
Proof.
  intros c x H. exists (scored (repeat c 10) x). split; [reflexivity|]. exact (scored_over c x H).
Qed.
End Real.

(** ** Runs *)
Lemma got {S V} (m : res S) (f : S -> V) v : (s <- m ;; Ok (f s)) = Ok v -> exists s, m = Ok s /\ f s = v.
Proof. intros H. apply bind_Ok in H as (s & E & H). injection H as <-. eauto. Qed.
Definition rkinds {T A G : Type} (s : hatr T A G) : option (Z * Z * Z) := option_map (fun t => (number is_aleaf t, number is_adead t, number is_asplit t)) (hatr_root s).

(** A case of C338 with rational numbers: two attribute values, a split, no alternate tree *)
Definition q_trunc (v : Q) : Z := Z.div (Qnum v) (Zpos (Qden v)).
Definition q_reg : htr_config Q := mk_htr 10%Q 1%Q 1000%Q false false false Perceptron (fun _ => false) (1 # 50)%Q (1 # 1000)%Q true false (mk_cfg 33554432%Q false (fun _ => false)).
Definition still {T} {N : Num T} : det T unit := mk_det T unit tt (fun a _ => Ok (a, false)) (fun _ => n0) (fun _ => n0).
Definition q_uniform (g : unit) (n : nat) : list Q * unit := (repeat (1 # 2)%Q n, g).
Definition q_calls : list (list (list Q * Q) * option (list Q)) := [([([1%Q; 1%Q], 1%Q); ([3%Q; 1%Q], 5%Q)], Some [6%Q; 6%Q]); ([([1%Q; 1%Q], 2%Q)], None)].
Definition q_trained := hatr_run q_trunc q_trunc q_reg false still tt (fun g => (1%Z, g)) q_uniform hatr_init (map (fun c => TFit (fst c) (snd c)) q_calls).
Example hatr_is_htr_example : r_kind q_reg = Perceptron /\ (forall v, c_period_due (r_memory q_reg) v = false) /\
  enough_memory (r_memory q_reg) (@tree_new Q (rleaf Q) (rinactive Q) (option (stat Q unit)) (htest Q) NumQ) /\ calls_small q_reg q_calls /\
  exists s, q_trained = Ok s /\ (rkinds s, k_alternate (hatr_counts s), k_inactive (hatr_counts s)) = (Some (2, 0, 1), 0, 0).
Proof.
  split; [reflexivity|]. split; [reflexivity|]. split.
  { split; [reflexivity|]. intros m n. cbn [c_max_bytes r_memory q_reg t_active_size t_inactive_size t_overhead tree_new]. change (@nltb Q NumQ) with (fun a b => negb (Qle_bool b a)). cbv beta. apply negb_false_iff. apply Qle_bool_iff.
    unfold n0, n1. cbn [nadd nmul nofZ NumQ]. rewrite !Qred_correct. unfold Qle, Qmult, Qplus, inject_Z; cbn; lia. }
  split.
  { intros rows ws [E|[E|[]]]; injection E as <- <-; [intros w [<-|[<-|[]]]|]; vm_compute; reflexivity. }
  apply got. vm_compute. reflexivity.
Qed.

(** Runs with 64-bit floats *)
Definition f_key (v : float) : Z := if PrimFloat.eqb v 1 then 1 else if PrimFloat.eqb v 3 then 3 else 5.
Definition f_int (v : float) : Z := if PrimFloat.ltb v 1 then 0 else if PrimFloat.ltb v 2 then 1 else 200.
(** grace_period (200 by default), split_confidence 1e-7, tie_threshold 0.05, learning_ratio 0.02, decay 0.001 (as the nearest floats) *)
Definition f_reg (grace : float) (no_preprune : bool) (kind : reg_kind) : htr_config float :=
  @mk_htr float grace 0x1.ad7f29abcaf48p-24%float 0x1.999999999999ap-5%float false false no_preprune kind (fun _ => false) 0x1.47ae147ae147bp-6%float 0x1.0624dd2f1a9fcp-10%float true false
    (@mk_cfg float 33554432%float false (fun _ => false)).
Definition f_uniform (g : unit) (n : nat) : list float * unit := (repeat 0.5%float n, g).
(** A detector that remembers what it is told *)
Definition recorder : det float (list float) := mk_det float (list float) [] (fun a v => Ok (a ++ [v], false)) (fun _ => 0%float) (fun _ => 0%float).
Definition f_run (grace : float) (no_preprune : bool) (kind : reg_kind) (os : list (hatr_op float)) : res (hatr float (list float) unit) :=
  @hatr_run float (list float) unit NumF f_key f_int (f_reg grace no_preprune kind) false recorder tt (fun g => (1%Z, g)) f_uniform (@hatr_init float (list float) unit NumF) os.
Definition f_predict (grace : float) (no_preprune : bool) (kind : reg_kind) (s : hatr float (list float) unit) (x : list float) : res (list (option float)) :=
  @hatr_predict float (list float) unit NumF f_key f_int (f_reg grace no_preprune kind) false recorder tt (fun g => (1%Z, g)) f_uniform s [x].
Local Open Scope float_scope.
(** C335: the eleventh value a leaf's detector is told is above 1. *)
Theorem hatr_told_refuted : exists s, f_run 200 false Mean [TFit (repeat ([1; 1], 0) 10 ++ [([1; 1], 1)]) None] = Ok s /\
  option_map (fun t => map (fun l => map (fun v => PrimFloat.ltb 1 v) (ar_det l)) (all_leaves t)) (hatr_root s) = Some [repeat false 10 ++ [true]].
Proof. apply got. vm_compute. reflexivity. Qed.

(** C336, refuted: leaf_prediction='mean' should do without perceptrons, and HoeffdingTreeRegressor does.  The adaptive tree trains
    perceptrons whatever leaf_prediction says, so it fails at the second sample if there is one numeric attribute. *)
Definition one_attribute : list (list float * float) := [([1], 0); ([3], 1); ([1], 2)].
Theorem hatr_one_attribute_refuted : f_run 200 false Mean [TFit (firstn 2 one_attribute) None] = Raise IndexError.
Proof. vm_compute. reflexivity. Qed.
Theorem htr_one_attribute : exists h, @htr_fit float NumF f_key f_int (f_reg 200 false Mean) (mk_sizes (fun _ => 1000) (fun _ => 100) (fun _ => 1000)) (@htr_new float NumF)
    (map (fun r => (fst r, snd r, fun _ => 0.5)) one_attribute) None = Ok h
  /\ match @htr_predict float NumF f_key f_int (f_reg 200 false Mean) h [[1]] with Ok [Some v] => PrimFloat.eqb v 1 | _ => false end = true.
Proof. apply got. vm_compute. reflexivity. Qed.

(** C337, refuted: after reset the tree should be as new.  It keeps the sums it standardises with: taught the same samples, it predicts something else than a new tree. *)
Definition again_taught : hatr_op float := TFit [([1; 1], 1); ([3; 5], 2)] None.
Theorem hatr_reset_refuted : exists s s', f_run 200 false Perceptron [again_taught] = Ok s /\ f_run 200 false Perceptron [TFit [([3; 1], 50); ([5; 3], 70)] None; TReset; again_taught] = Ok s' /\
  match f_predict 200 false Perceptron s [3; 5], f_predict 200 false Perceptron s' [3; 5] with Ok [Some a], Ok [Some b] => PrimFloat.ltb (a + 10) b | _, _ => false end = true.
Proof.
  destruct (got (s <- f_run 200 false Perceptron [again_taught] ;; s' <- f_run 200 false Perceptron [TFit [([3; 1], 50); ([5; 3], 70)] None; TReset; again_taught] ;; Ok (s, s'))
    (fun p => match f_predict 200 false Perceptron (fst p) [3; 5], f_predict 200 false Perceptron (snd p) [3; 5] with Ok [Some a], Ok [Some b] => PrimFloat.ltb (a + 10) b | _, _ => false end) true ltac:(vm_compute; reflexivity)) as ([s s'] & E & Q).
  apply bind_Ok in E as (s1 & E1 & E). apply bind_Ok in E as (s2 & E2 & E). injection E as -> ->. exists s, s'. auto.
Qed.

(** The hypotheses of C330-C333: a tree with a split node and an alternate tree, whose detectors signal a change at once *)
Definition nervous : det float Z := mk_det float Z 0%Z (fun a _ => Ok ((a + 1)%Z, (a =? 3)%Z)) (fun a => if (a <? 3)%Z then 0 else 1) (fun _ => 0).
Definition n_run (os : list (hatr_op float)) : res (hatr float Z unit) :=
  @hatr_run float Z unit NumF f_key f_int (f_reg 200 false Mean) false nervous tt (fun g => (1%Z, g)) f_uniform (@hatr_init float Z unit NumF) os.
Example hatr_alternate_example : exists s, n_run [TFit ([([1; 1], 0); ([3; 1], 9)] ++ concat (repeat [([1; 1], 0); ([3; 1], 9)] 3)) (Some ([150; 150] ++ repeat 1 6))] = Ok s /\
  (rkinds s, option_map (fun t => length (alternates t)) (hatr_root s), k_alternate (hatr_counts s), PrimFloat.ltb 0 (n_seen (hatr_sums s))) = (Some (2, 0, 1)%Z, Some 1%nat, 1%Z, true).
Proof. apply got. vm_compute. reflexivity. Qed.

(** The hypotheses of C339, with real numbers: one sample of weight 1/2, so that int(weight) is 0 *)
Definition rr_reg : htr_config R := mk_htr 100%R 1%R 0%R false false false Mean (fun _ => false) 0%R 0%R true true (mk_cfg 1000%R false (fun _ => false)).
Definition rr_det : det R unit := mk_det R unit tt (fun a _ => Ok (a, false)) (fun _ => 0%R) (fun _ => 0%R).
Definition rr_calls : list (hatr_op R) := [TFit [([9%R], 9%R)] (Some [0%R]); TReset; TFit [([1%R; 4%R], 2%R)] (Some [(1/2)%R])].
Example hatr_range_example : exists s, hatr_run (fun _ => 0%Z) (fun _ => 0%Z) rr_reg true rr_det tt (fun g => (3%Z, g)) (fun g n => (repeat 0%R n, g)) hatr_init rr_calls = Ok s
  /\ since_reset rr_calls [] = [([1%R; 4%R], 2%R, (1/2)%R)] /\ hatr_predict (fun _ => 0%Z) (fun _ => 0%Z) rr_reg true rr_det tt (fun g => (3%Z, g)) (fun g n => (repeat 0%R n, g)) s [[1%R; 4%R]] = Ok [Some 2%R].
Proof.
  assert (E0 : @neqb R NumR 0%R n0 = true) by (apply Reqb_true; reflexivity). assert (E1 : @neqb R NumR (1/2)%R n0 = false) by (apply Reqb_false; cbn; lra).
  assert (EL : forall v, (v < 100)%R -> @nleb R NumR 100%R v = false) by (intros v Hv; apply Rleb_false; lra).
  unfold hatr_run, rr_calls. cbn [foldM hatr_step]. unfold hatr_fit, hatr_reset, hatr_init. cbn [length Nat.eqb hatr_rows bind]. unfold hatr_one at 1. rewrite E0. cbn [bind foldM hatr_reset hatr_init].
  cbn [hatr_counts k_alternate k_pruned k_switched hatr_sums]. unfold hatr_one. rewrite E1. cbn [hatr_root hatr_counts hatr_sums k_inactive k_decision k_alternate k_pruned k_switched].
  cbn [alearn]. unfold aleaf_learn. cbn [hatr_ops a_learn]. unfold ar_learn, ar_value. cbn [r_kind rr_reg bind ar_new rleaf_new ar_leaf ar_wf rl_stats ar_rng]. unfold norm_error. cbn [wf_n wf_new Z.add Z.eqb Pos.eqb].
  unfold boot. cbn [Z.ltb Z.compare]. unfold rwatch. cbn [ar_det rr_det d_see bind rl_pw]. unfold rleaf_learn. cbv zeta. unfold pw_learn, perceptron_learn. cbn [perceptron_config r_kind r_const rr_reg bind Z.to_nat repeat_update].
  unfold rleaf_new. cbn [rl_pw bind hatr_ops a_due rl_stats rl_last]. unfold ar_due. cbn [ar_leaf rl_stats rl_last weight_of rstats_add st_w r_grace rr_reg]. rewrite EL by (cbn; lra). eexists. split; [reflexivity|]. split; [reflexivity|].
  unfold hatr_predict. cbn [hatr_root hatr_sums]. rewrite (proj2 (Rltb_true _ _)) by (cbn; lra).
  cbn [mapM hatr_value aroute bind]. unfold hatr_value. cbn [aroute bind hatr_root hatr_sums]. unfold ar_value. cbn [r_kind rr_reg ar_leaf rl_stats rstats_add st_w st_s].
  rewrite (proj2 (Rltb_true _ _)) by (cbn; lra). cbn. repeat f_equal. field.
Qed.

Print Assumptions hatr_alternates_are_leaves.
Print Assumptions hatr_answers.
Print Assumptions hatr_mean_answer.
Print Assumptions hatr_mean_in_range.
Print Assumptions hatr_alternate_fate.
Print Assumptions hatr_other_branches.
Print Assumptions hatr_bootstrap_weight.
Print Assumptions hatr_is_htr.
Print Assumptions hatr_bound_value.
Print Assumptions hatr_bound_beyond.
Print Assumptions hatr_detector_told.
Print Assumptions hatr_spread.
Print Assumptions hatr_score_range_partial.
Print Assumptions hatr_score_range_refuted.
Print Assumptions hatr_told_refuted.
Print Assumptions hatr_one_attribute_refuted.
Print Assumptions htr_one_attribute.
Print Assumptions hatr_reset_refuted.
