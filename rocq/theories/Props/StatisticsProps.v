(** The normal distribution function of the library, and what it means for the trees that use it. *)
From Coq Require Import List ZArith Reals Bool Lia Lra.
From Verif Require Import Base.Py Base.Num Base.Dict Model.Suggestion Model.GaussianObs Model.TreeSkeleton Model.HoeffdingTree Model.LabelCombination Model.Statistics
  Spec.Lists Spec.ObserverSpec Spec.TreeSpec Spec.HoeffdingSpec Spec.LabelSpec Proofs.GaussianProofs Proofs.LabelCombinationProofs Proofs.StatisticsProofs Props.GaussianProps Props.LabelCombinationProps.
Import ListNotations.
Local Open Scope R_scope.

(** C354: in real arithmetic the area under the normal curve that the library computes is between 0 and 1 for every argument; not above one half on
    the left of 0, not below it on the right; exactly one half at 0; and the areas left of a and left of -a add up to 1.  From 38 standard deviations on
    it is exactly 0 or 1. *)
Theorem normal_probability_symmetric : forall a : R, normal_probability (- a) + normal_probability a = 1.
Proof.
  intros a. pose proof SQRTH_range as S. unfold normal_probability. cbv zeta. rewrite !stat_abs_R. unfold n0, n1. cbn [nltb nofZ nadd nsub nmul ndiv NumR].
  replace (- a * SQRTH) with (- (a * SQRTH)) by ring. rewrite Rabs_Ropp. set (x := a * SQRTH). destruct (Rltb (Rabs x) SQRTH) eqn:E.
  - apply Rltb_true in E. unfold erf. rewrite !stat_abs_R, Rabs_Ropp. unfold n1. cbn [nltb nofZ NumR]. rewrite (proj2 (Rltb_false 1 (Rabs x))) by lra. rewrite erf_small_odd. lra.
  - apply Rltb_false in E. destruct (Rltb 0 x) eqn:E1; destruct (Rltb 0 (- x)) eqn:E2; try (apply Rltb_true in E1); try (apply Rltb_true in E2); try (apply Rltb_false in E1); try (apply Rltb_false in E2); try lra.
    exfalso. assert (x = 0) by lra. rewrite H, Rabs_R0 in E. lra.
Qed.
Print Assumptions normal_probability_symmetric.
Theorem normal_probability_sides : forall a : R, 0 <= normal_probability a <= 1 /\ (a <= 0 -> normal_probability a <= 1 / 2) /\ (0 <= a -> 1 / 2 <= normal_probability a).
Proof.
  assert (Pos : forall a : R, 0 <= a -> 1 / 2 <= normal_probability a <= 1).
  { intros a Ha. pose proof SQRTH_range as S. unfold normal_probability. cbv zeta. rewrite !stat_abs_R. unfold n0, n1. cbn [nltb nofZ nadd nsub nmul ndiv NumR].
    assert (Hx : 0 <= a * SQRTH) by (apply Rmult_le_pos; lra). set (x := a * SQRTH) in *. rewrite (Rabs_right x) by lra. destruct (Rltb x SQRTH) eqn:E.
    - apply Rltb_true in E. unfold erf. rewrite stat_abs_R, (Rabs_right x) by lra. unfold n1. cbn [nltb nofZ NumR]. rewrite (proj2 (Rltb_false 1 x)) by lra. pose proof (erf_small_range x ltac:(lra)). lra.
    - apply Rltb_false in E. rewrite (proj2 (Rltb_true 0 x)) by lra. pose proof (erfc_range x Hx). lra. }
  intros a. destruct (Rle_dec 0 a) as [H|H].
  - pose proof (Pos a H) as P. pose proof (normal_probability_symmetric a) as Q. split; [lra|split; [|lra]]. intros H'. assert (a = 0) by lra. subst a. rewrite Ropp_0 in Q. lra.
  - pose proof (Pos (- a) ltac:(lra)) as P. pose proof (normal_probability_symmetric a) as Q. split; [lra|split; lra].
Qed.
Print Assumptions normal_probability_sides.
Theorem normal_probability_tails : normal_probability (0 : R) = 1 / 2 /\ forall a : R, (a <= -38 -> normal_probability a = 0) /\ (38 <= a -> normal_probability a = 1).
Proof.
  split; [pose proof (normal_probability_symmetric 0) as Q; rewrite Ropp_0 in Q; lra|].
  assert (Far : forall a : R, 38 <= a -> normal_probability a = 1).
  { intros a Ha. pose proof SQRTH_range as S. unfold normal_probability. cbv zeta. rewrite !stat_abs_R. unfold n0, n1. cbn [nltb nofZ nadd nsub nmul ndiv NumR].
    assert (Sq : 2687 / 100 <= 38 * SQRTH) by (coefs; lra). assert (Hx : 2687 / 100 <= a * SQRTH) by (apply Rle_trans with (1 := Sq); apply Rmult_le_compat_r; lra). set (x := a * SQRTH) in *. clearbody x.
    rewrite (Rabs_right x) by lra. rewrite (proj2 (Rltb_false x SQRTH)), (proj2 (Rltb_true 0 x)) by lra. assert (Z : erfc x = 0); [|rewrite Z; lra].
    unfold erfc. rewrite stat_abs_R, Rabs_right by lra. unfold n1. cbn [nltb nofZ NumR]. rewrite (proj2 (Rltb_false x 1)) by lra. unfold erfc_large. cbv zeta. unfold n0. cbn [nltb nofZ nsub nmul NumR].
    assert (M : MAXLOG < 710) by (coefs; lra). assert (2687 / 100 * (2687 / 100) <= x * x) by (apply Rmult_le_compat; lra). rewrite (proj2 (Rltb_true ((0 - x) * x) (0 - MAXLOG))) by lra. now rewrite (proj2 (Rltb_false x 0)) by lra. }
  intros a. split; intros H; [|now apply Far]. pose proof (normal_probability_symmetric a) as Q. rewrite (Far (- a)) in Q by lra. lra.
Qed.
Print Assumptions normal_probability_tails.

(** C355: with the library's own normal distribution the theorems about Gaussian observers (C86), about the votes and predictions of Hoeffding trees and
    label combination trees (C306) hold without a condition on the distribution. *)
Theorem gaussian_observer_best_split_normal : forall (k : R) nb merit h, k > 0 -> (1 <= nb)%nat ->
  (forall p, In p h -> 0 < snd p) ->
  exists o best, go_run go_new h = Ok o /\ go_best k normal_probability nb merit o = Ok best
    /\ ((forall lo hi, is_min (values h) lo -> is_max (values h) hi -> lo = hi) <-> best = None)
    /\ forall lo hi, is_min (values h) lo -> is_max (values h) hi -> lo < hi ->
       let point i := lo + (hi - lo) / (INR nb + 1) * INR i in
       let candidate i l r := go_split k normal_probability o (point i) = Ok (l, r) in
       (forall i, (1 <= i <= nb)%nat -> lo < point i < hi
          /\ exists l r, candidate i l r
             /\ forall c, side l c + side r c = wtotal (of_class c h) /\ 0 <= side l c /\ 0 <= side r c
                /\ ((forall x, In x (map fst (of_class c h)) -> point i < x) -> side l c = 0)
                /\ ((forall x, In x (map fst (of_class c h)) -> x <= point i) -> side r c = 0)
                /\ ((exists x y, In x (map fst (of_class c h)) /\ In y (map fst (of_class c h)) /\ x <= point i < y) ->
                    0 < wvariance (of_class c h) ->
                    side l c = normal_probability ((point i - wmean (of_class c h)) / sqrt (wvariance (of_class c h))) * wtotal (of_class c h)))
       /\ exists i l r, (1 <= i <= nb)%nat /\ candidate i l r /\ best = Some (mkSug (point i) (l, r) (merit l r))
          /\ (forall j l' r', (1 <= j <= nb)%nat -> candidate j l' r' -> merit_le (merit l' r') (merit l r))
          /\ (forall j l' r', (1 <= j < i)%nat -> candidate j l' r' -> ~ merit_le (merit l r) (merit l' r')).
Proof. intros k nb merit h Hk Hn Hh. exact (gaussian_observer_best_split k normal_probability nb merit h Hk (fun z => proj1 (normal_probability_sides z)) Hn Hh). Qed.
Print Assumptions gaussian_observer_best_split_normal.
Theorem ht_votes_not_negative_normal : forall k key (cfg : ht_config R) sz es s x v, (0 < k)%R -> Forall (fun e => match e with HFit _ _ ws => weights_ok ws | HReset => True end) es ->
  ht_run k normal_probability key cfg sz ht_new es = Ok s -> ht_votes k normal_probability key cfg s x = Ok v -> forall c u, In (c, u) v -> (0 <= u)%R.
Proof. intros k key cfg sz es s x v Hk. exact (ht_votes_not_negative k normal_probability key cfg sz es s x v Hk (fun z => proj1 (proj1 (normal_probability_sides z)))). Qed.
Print Assumptions ht_votes_not_negative_normal.
Theorem ht_predicts_taught_normal : forall k key (cfg : ht_config R) sz es s xs is, (0 < k)%R -> Forall (fun e => match e with HFit _ _ ws => weights_ok ws | HReset => True end) es ->
  ht_run k normal_probability key cfg sz ht_new es = Ok s -> (forall c, In c (taught es) -> (0 <= c)%Z) -> ht_predict k normal_probability key cfg s xs = Ok is ->
  forall i, In i is -> In (Z.of_nat i) (taught es) \/ i = 0%nat.
Proof. intros k key cfg sz es s xs is Hk. exact (ht_predicts_taught k normal_probability key cfg sz es s xs is Hk (fun z => proj1 (proj1 (normal_probability_sides z)))). Qed.
Print Assumptions ht_predicts_taught_normal.
Theorem lc_predicts_taught_normal : forall k key (cfg : ht_config R) sz n es s xs ys, (0 < k)%R -> Forall (fun e => match e with LFit _ _ ws => weights_ok ws | LReset => True end) es ->
  (1 <= n)%nat -> combinations n es -> lc_run k normal_probability key cfg sz (mk_lc tree_new (Z.of_nat n)) es = Ok s -> lc_predict k normal_probability key cfg s xs = Ok ys ->
  forall y, In y ys -> combination n y /\ (In y (lc_taught es) \/ y = repeat 0%Z n).
Proof. intros k key cfg sz n es s xs ys Hk. exact (lc_predicts_taught k normal_probability key cfg sz n es s xs ys Hk (fun z => proj1 (proj1 (normal_probability_sides z)))). Qed.
Print Assumptions lc_predicts_taught_normal.
(** Two values of one class and a third of another: the cut point exists, and the hypotheses of C355 hold. *)
Example normal_example : (forall p, In p [((Some 1, 0%Z), 1); ((Some 3, 0%Z), 2); ((Some 2, 1%Z), 1)] -> 0 < snd p) /\ is_min (values [((Some 1, 0%Z), 1); ((Some 3, 0%Z), 2); ((Some 2, 1%Z), 1)]) 1.
Proof.
  split; [intros p H; cbn in H; decompose [or] H; try contradiction; subst p; cbn; lra|]. unfold is_min. cbn. split; [auto|]. intros x H. decompose [or] H; try contradiction; subst x; lra.
Qed.
