(** C27-C33, C64-C66: metrics/_confusion_matrix.pyx and the classification evaluators of
    metrics/_classification_performance_evaluator.pyx (exact arithmetic). *)
From Coq Require Import List ZArith QArith Bool Reals Lia Lra Permutation.
From Verif Require Import Base.Py Base.Num Model.ClassMetrics Spec.Lists Spec.MetricsSpec Proofs.ListFacts Proofs.MetricsProofs
  Proofs.MetricsScores Proofs.MetricsWindow.
Import ListNotations.
Local Open Scope Z_scope.

(** C27.  After any sequence of results (any weights; results with weight <= 0 only count as samples): cells, row sums,
    column sums and the diagonal are the recorded weights, the marginals are the sums of the cells, n_samples is the number
    of results, total_weight_observed the recorded weight, and the classes are the initial ones and the observed ones. *)
Theorem evaluator_counts :
  forall n l, exists s, cpe_run (cpe_new n) l = Ok s
    /\ (forall i j, f_cell (e_cm s) i j = cell_weight (positive l) i j)
    /\ (forall i, f_row (e_cm s) i = row_weight (positive l) i
                  /\ f_row (e_cm s) i = Rsum (map (fun j => f_cell (e_cm s) i j) (f_classes (e_cm s))))
    /\ (forall j, f_col (e_cm s) j = col_weight (positive l) j
                  /\ f_col (e_cm s) j = Rsum (map (fun i => f_cell (e_cm s) i j) (f_classes (e_cm s))))
    /\ f_diag (e_cm s) = correct_weight (positive l)
    /\ f_diag (e_cm s) = Rsum (map (fun i => f_cell (e_cm s) i i) (f_classes (e_cm s)))
    /\ e_n s = Z.of_nat (length l)
    /\ e_tw s = total_weight (positive l)
    /\ NoDup (f_classes (e_cm s))
    /\ forall c, In c (f_classes (e_cm s))
                 <-> 0 <= c < Z.max 2 n \/ In c (map r_true (positive l)) \/ In c (map r_pred (positive l)).
Proof.
  intros n l. destruct (cpe_run_new n l) as (s & E & [H0 H1 H2 H3 H4 H5 H6 H7]). exists s. split; [exact E|].
  pose proof (CmOk_covers _ _ H1) as [Hnd Hcov]. pose proof H1 as [C1 C2 C3 C4 _ _ _].
  split; [exact C1|]. split; [|split; [|split; [exact C4|split; [|split; [exact H2|split; [exact H3|split; [exact Hnd|]]]]]]].
  - intros i. split; [apply C2|]. rewrite C2. rewrite (Rsum_map_ext_in _ (cell_weight (positive l) i)) by auto.
    symmetry. apply Rsum_cells_row; auto. eapply Forall_impl; [|exact Hcov]; simpl; tauto.
  - intros j. split; [apply C3|]. rewrite C3. rewrite (Rsum_map_ext_in _ (fun i => cell_weight (positive l) i j)) by auto.
    symmetry. apply Rsum_cells_col; auto. eapply Forall_impl; [|exact Hcov]; simpl; tauto.
  - rewrite C4. rewrite (Rsum_map_ext_in _ (fun i => cell_weight (positive l) i i)) by auto.
    symmetry. apply Rsum_cells_diag; auto. eapply Forall_impl; [|exact Hcov]; simpl; tauto.
  - intros c. rewrite H7, H0. replace (if n <? 2 then 2 else n) with (Z.max 2 n); [tauto|].
    destruct (n <? 2) eqn:E2; [apply Z.ltb_lt in E2|apply Z.ltb_ge in E2]; lia.
Qed.

(** C28 (partial): for unit weights accuracy_score() is the fraction of correct results, in [0,1], whatever the order; 0
    before any result.  Missing: other weights (false, next theorem). *)
Theorem accuracy_fraction_partial :
  forall n l, unit_weights l -> exists s a, cpe_run (cpe_new n) l = Ok s /\ cpe_accuracy s = Ok a
    /\ (l = [] -> a = 0%R)
    /\ (l <> [] -> a = (INR (length (filter (fun r => r_true r =? r_pred r) l)) / INR (length l))%R)
    /\ (0 <= a <= 1)%R.
Proof.
  intros n l Hu. destruct (cpe_run_new n l) as (s & E & HI). pose proof (EvInv_EvOk n s l HI Hu) as HO.
  exists s. eexists. split; [exact E|]. split; [apply (accuracy_unit s l HO)|].
  assert (Hf : correct_weight l = INR (length (filter (fun r => r_true r =? r_pred r) l))).
  { clear - Hu. induction Hu as [|r l H _ IH]; [reflexivity|]. unfold correct_weight in *. rewrite weight_where_cons, IH. simpl.
    destruct (r_true r =? r_pred r); rewrite ?H; [|lra]. simpl length. rewrite S_INR. lra. }
  split; [|split].
  - intros ->. rewrite (eo_n _ _ HO). reflexivity.
  - intros Hne. apply (eo_n_pos s l HO) in Hne. rewrite Hne. unfold observed. rewrite Hf. reflexivity.
  - destruct (0 <? e_n s) eqn:Ez; [|lra]. apply observed_01; auto. apply (eo_n_pos s l HO); auto.
Qed.

(** C28: accuracy does not depend on the order of the results (any weights). *)
Theorem accuracy_order_independent :
  forall n (l l' : list (Z * Z * R)) s s', Permutation l l' -> cpe_run (cpe_new n) l = Ok s -> cpe_run (cpe_new n) l' = Ok s' ->
    cpe_accuracy s = cpe_accuracy s'.
Proof.
  intros n l l' s s' HP E E'. destruct (cpe_run_new n l) as (s1 & E1 & HI). destruct (cpe_run_new n l') as (s2 & E2 & HI').
  rewrite E in E1; inversion E1; subst s1. rewrite E' in E2; inversion E2; subst s2.
  rewrite (accuracy_ok s (positive l) l (ev_cm _ _ _ HI) (ev_n _ _ _ HI)).
  rewrite (accuracy_ok s' (positive l') l' (ev_cm _ _ _ HI') (ev_n _ _ _ HI')).
  rewrite (ev_n _ _ _ HI), (ev_n _ _ _ HI'). unfold count. rewrite (Permutation_length HP).
  replace (correct_weight (positive l)) with (correct_weight (positive l')); [reflexivity|].
  apply weight_where_perm. symmetry. clear - HP. induction HP; simpl; auto.
  - destruct (Rltb 0 (r_weight x)); auto.
  - destruct (Rltb 0 (r_weight x)), (Rltb 0 (r_weight y)); auto. apply perm_swap.
  - etransitivity; eauto.
Qed.

(** C28 is false with weights: two correct results of weight 3 give accuracy 3, and a correct result of weight 1 with a wrong
    one of weight 3 give 1/2 instead of 1/4. *)
Theorem accuracy_weighted_refuted :
  (exists s, cpe_run (cpe_new 2) [(1, 1, 3%Q); (0, 0, 3%Q)] = Ok s /\ cpe_accuracy s = Ok 3%Q)
  /\ (exists s, cpe_run (cpe_new 2) [(1, 1, 1%Q); (0, 1, 3%Q)] = Ok s /\ cpe_accuracy s = Ok (1 # 2)%Q).
Proof. split; apply ok_ex; vm_compute; reflexivity. Qed.

(** C29.  Unit weights, any history (including the empty one) and any class argument: no score raises, all are in range.
    The geometric mean is stated for non-negative labels (a negative label does not fit its [unsigned int]). *)
Theorem evaluator_scores_in_range :
  forall n l c, unit_weights l -> exists s, cpe_run (cpe_new n) l = Ok s
    /\ (exists x, cpe_accuracy s = Ok x /\ 0 <= x <= 1)%R
    /\ (exists x, cpe_precision s c = Ok x /\ 0 <= x <= 1)%R
    /\ (exists x, cpe_recall s c = Ok x /\ 0 <= x <= 1)%R
    /\ (exists x, cpe_f1 s c = Ok x /\ 0 <= x <= 1)%R
    /\ (exists x, cpe_kappa s = Ok x /\ x <= 1)%R
    /\ (exists x, cpe_kappa_t s = Ok x /\ x <= 1)%R
    /\ (exists x, cpe_kappa_m s = Ok x /\ x <= 1)%R
    /\ (Forall (fun r => 0 <= r_true r /\ 0 <= r_pred r) l -> exists x, cpe_gmean s = Ok x /\ (0 <= x <= 1)%R).
Proof.
  intros n l c Hu. destruct (cpe_run_new n l) as (s & E & HI). pose proof (EvInv_EvOk n s l HI Hu) as HO.
  pose proof HO as [O1 O2 O3 O4 O5 O6]. pose proof (unit_nonneg l Hu) as Hn.
  exists s. split; [exact E|]. split; [|split; [|split; [|split; [|split; [|split; [|split]]]]]].
  - eexists. split; [apply (accuracy_unit s l HO)|]. destruct (0 <? e_n s) eqn:Ez; [|lra].
    apply observed_01; auto. apply (eo_n_pos s l HO); auto.
  - apply (precision_01 s l); auto.
  - apply (recall_01 s l); auto.
  - apply (f1_01 s l); auto.
  - destruct (kappa_ok s l HO) as (k & Ek & Hk & _). eauto.
  - destruct (kappa_other s l _ HO O6) as (k & Ek & Hk & _). eauto.
  - destruct (kappa_other s l _ HO O5) as (k & Ek & Hk & _). eauto.
  - intros Hl. destruct (gmean_score_ok s l O1 Hn) as [Eg Hg]; [|eauto].
    intros d Hd. apply (ev_range _ _ _ HI) in Hd. rewrite unit_positive in Hd by auto. rewrite Forall_forall in Hl.
    destruct Hd as [Hd|[Hd|Hd]]; [lia| |]; apply in_map_iff in Hd; destruct Hd as (r & <- & Hr); apply (Hl r Hr).
Qed.

Example evaluator_run :
  let l := [(0, 0, 1%Q); (1, 0, 1%Q); (2, 2, 1%Q); (2, 1, 1%Q); (1, 1, 1%Q)] in
  exists s, cpe_run (cpe_new 2) l = Ok s
    /\ f_classes (e_cm s) = [0; 1; 2] /\ cpe_accuracy s = Ok (3 # 5)%Q /\ cpe_kappa s = Ok (7 # 17)%Q
    /\ cpe_kappa_t s = Ok (1 # 3)%Q /\ cpe_kappa_m s = Ok 0%Q /\ cpe_majority s = Ok 1
    /\ cpe_precision s 1 = Ok (1 # 2)%Q /\ cpe_recall s (-1) = Ok (2 # 3)%Q /\ cpe_f1 s 2 = Ok (2 # 3)%Q.
Proof. apply ok_ex. vm_compute. repeat split; reflexivity. Qed.

(** C31.  Unit weights: kappa_score() is Cohen's kappa, with the observed agreement and the agreement expected from the
    marginals recomputed from the results over any duplicate-free list of labels that covers them; 0 when the expected
    agreement is 1 or there are no results. *)
Theorem kappa_is_cohens :
  forall n l cs, unit_weights l -> covers cs l -> exists s k, cpe_run (cpe_new n) l = Ok s /\ cpe_kappa s = Ok k
    /\ (l = [] \/ expected l cs = 1%R -> k = 0%R)
    /\ (l <> [] -> expected l cs <> 1%R -> k = ((observed l - expected l cs) / (1 - expected l cs))%R).
Proof.
  intros n l cs Hu Hc. destruct (cpe_run_new n l) as (s & E & HI). pose proof (EvInv_EvOk n s l HI Hu) as HO.
  destruct (kappa_ok s l HO) as (k & Ek & _ & K1 & K2). exists s, k. split; [exact E|]. split; [exact Ek|].
  rewrite (expected_independent l _ cs (CmOk_covers _ _ (eo_cm _ _ HO)) Hc) in K2.
  split.
  - intros [->|H1]; auto. destruct l as [|r l]; [auto|]. rewrite K2 by discriminate.
    destruct (Reqb _ _) eqn:Eq; [reflexivity|]. apply Reqb_false in Eq. congruence.
  - intros Hne H1. rewrite K2 by auto. destruct (Reqb _ _) eqn:Eq; [|reflexivity]. apply Reqb_true in Eq. congruence.
Qed.

(** C64.  Unit weights: kappa_t_score() and kappa_m_score() are the agreement corrected by the accuracy of the classifier
    that repeats the previous true label (initially 0), resp. by the weight of the results that agree with the majority label
    at their time; majority_class() answers the smallest label with the largest recorded weight, for any weights. *)
Theorem kappa_t_m_baselines :
  forall n l, unit_weights l -> l <> [] -> exists s kt km mw, cpe_run (cpe_new n) l = Ok s
    /\ cpe_kappa_t s = Ok kt /\ cpe_kappa_m s = Ok km /\ majority_weight l mw
    /\ let pt := (repeat_weight 0 l / count l)%R in
       let pm := (mw / count l)%R in
       (0 <= pt <= 1)%R /\ (0 <= pm <= 1)%R
       /\ (pt = 1%R -> kt = 0%R) /\ (pt <> 1%R -> kt = ((observed l - pt) / (1 - pt))%R)
       /\ (pm = 1%R -> km = 0%R) /\ (pm <> 1%R -> km = ((observed l - pm) / (1 - pm))%R).
Proof.
  intros n l Hu Hne. destruct (cpe_run_new n l) as (s & E & HI). pose proof (EvInv_EvOk n s l HI Hu) as HO.
  pose proof HO as [O1 O2 O3 O4 O5 O6].
  destruct (kappa_other s l _ HO O6) as (kt & Et & _ & _ & K1). destruct (kappa_other s l _ HO O5) as (km & Em & _ & _ & K2).
  exists s, kt, km, (e_maj s). split; [exact E|]. split; [exact Et|]. split; [exact Em|]. split; [apply (ev_maj _ _ _ HI)|].
  cbv zeta. rewrite <- (ev_nc _ _ _ HI). specialize (K1 Hne). specialize (K2 Hne).
  split; [apply div_01; auto using count_pos|]. split; [apply div_01; auto using count_pos|].
  rewrite K1, K2. clear K1 K2. split; [|split; [|split]]; intros Hx; destruct (Reqb _ _) eqn:Eq; try reflexivity;
    exfalso; first [apply Reqb_false in Eq | apply Reqb_true in Eq]; congruence.
Qed.
Theorem majority_class_correct :
  forall n l, exists s m, cpe_run (cpe_new n) l = Ok s /\ cpe_majority s = Ok m /\ majority_answer l m.
Proof.
  intros n l. destruct (cpe_run_new n l) as (s & E & HI). exists s.
  destruct l as [|r l].
  - exists 0. simpl in E. inversion E; subst s. split; [reflexivity|]. split.
    + unfold cpe_majority. simpl. unfold n0; simpl. unfold Reqb. destruct (Req_EM_T 0 0); [reflexivity|congruence].
    + left. split; reflexivity.
  - destruct (majority_ok s (r :: l) (ev_cm _ _ _ HI)) as (m & Em & Ha); [|eauto|].
    + rewrite (ev_n _ _ _ HI). simpl length. lia.
    + rewrite (ev_tw _ _ _ HI). apply total_zero_iff.
    + exists m. auto.
Qed.

(** C65.  precision_score(c), recall_score(c) for a class c >= 0 are the class's precision and recall recomputed from the
    results (any weights); with the default argument they are those of class 1 when two classes are known and the unweighted
    mean over the known classes otherwise; geometric_mean_score() is the geometric mean of the recalls. *)
Theorem precision_recall_textbook :
  forall n l, exists s, cpe_run (cpe_new n) l = Ok s
    /\ (forall c, 0 <= c -> cpe_precision s c = Ok (class_precision (positive l) c)
                            /\ cpe_recall s c = Ok (class_recall (positive l) c))
    /\ (length (f_classes (e_cm s)) = 2%nat ->
          cpe_precision s (-1) = Ok (class_precision (positive l) 1) /\ cpe_recall s (-1) = Ok (class_recall (positive l) 1))
    /\ (length (f_classes (e_cm s)) <> 2%nat -> Forall (fun r => 0 <= r_true r /\ 0 <= r_pred r) l ->
          cpe_precision s (-1) = Ok (Rmean (map (class_precision (positive l)) (f_classes (e_cm s))))
          /\ cpe_recall s (-1) = Ok (Rmean (map (class_recall (positive l)) (f_classes (e_cm s)))))
    /\ (Forall (fun r => 0 <= r_true r /\ 0 <= r_pred r) l ->
          let rs := map (class_recall (positive l)) (f_classes (e_cm s)) in
          cpe_gmean s = Ok (if existsb (fun x => Reqb x 0) rs then 0%R else exp (Rmean (map ln rs)))).
Proof.
  intros n l. destruct (cpe_run_new n l) as (s & E & HI). exists s. split; [exact E|].
  pose proof (ev_cm _ _ _ HI) as H1.
  assert (Hcl : Forall (fun r => 0 <= r_true r /\ 0 <= r_pred r) l -> forall d, In d (f_classes (e_cm s)) -> 0 <= d).
  { intros Hl d Hd. apply (ev_range _ _ _ HI) in Hd. rewrite Forall_forall in Hl.
    assert (Hin : forall r, In r (positive l) -> In r l) by (intros r Hr; apply filter_In in Hr; tauto).
    destruct Hd as [Hd|[Hd|Hd]]; [lia| |]; apply in_map_iff in Hd; destruct Hd as (r & <- & Hr); apply (Hl r (Hin r Hr)). }
  assert (Hmean : forall g, (forall d, In d (f_classes (e_cm s)) -> 0 <= d) ->
            macro_mean (at_class g) (f_classes (e_cm s)) = Rmean (map g (f_classes (e_cm s)))).
  { intros g Hd. unfold macro_mean, Rmean. rewrite map_length. f_equal. apply Rsum_map_ext_in. intros d Hi. unfold at_class.
    specialize (Hd d Hi). apply Z.leb_le in Hd. rewrite Hd. reflexivity. }
  split; [|split; [|split]].
  - intros c Hc. rewrite (precision_ok s _ c H1), (recall_ok s _ c H1). unfold at_class.
    replace (c =? -1) with false by (symmetry; apply Z.eqb_neq; lia). apply Z.leb_le in Hc. rewrite Hc. auto.
  - intros Hlen. rewrite (precision_ok s _ _ H1), (recall_ok s _ _ H1). unfold f_n. rewrite Hlen. simpl. auto.
  - intros Hlen Hl. rewrite (precision_ok s _ _ H1), (recall_ok s _ _ H1). unfold f_n.
    replace (Z.of_nat (length (f_classes (e_cm s))) =? 2) with false by (symmetry; apply Z.eqb_neq; lia).
    simpl. rewrite !Hmean by auto. auto.
  - intros Hl. cbv zeta. destruct (gmean_score_ok s _ H1 (positive_nonneg l) (Hcl Hl)) as [Eg _]. rewrite Eg. f_equal.
    unfold gmean, n0. cbn [neqb nofZ nexp nln ndiv NumR]. rewrite fold_nadd_R, IZR_len, Rplus_0_l. unfold Rmean.
    rewrite !map_length. reflexivity.
Qed.

(** C32 (partial): when more than two classes are known, f1_score(c) is the harmonic mean of precision_score(c) and
    recall_score(c) for every class c >= 0; with exactly two known classes it is, for every argument, that of class 1.
    Missing: class 0 of a two-class history (false, next theorem). *)
Theorem f1_of_class_partial :
  forall n l c, exists s p r, cpe_run (cpe_new n) l = Ok s
    /\ (length (f_classes (e_cm s)) <> 2%nat -> 0 <= c ->
          cpe_precision s c = Ok p /\ cpe_recall s c = Ok r /\ cpe_f1 s c = Ok (harmonic p r))
    /\ (length (f_classes (e_cm s)) = 2%nat ->
          cpe_precision s 1 = Ok p /\ cpe_recall s 1 = Ok r /\ cpe_f1 s c = Ok (harmonic p r)).
Proof.
  intros n l c. destruct (cpe_run_new n l) as (s & E & HI). pose proof (ev_cm _ _ _ HI) as H1.
  destruct (Nat.eq_dec (length (f_classes (e_cm s))) 2) as [H2|H2].
  - destruct (precision_01 s _ 1 H1 (positive_nonneg l)) as (p & Ep & _).
    destruct (recall_01 s _ 1 H1 (positive_nonneg l)) as (r & Er & _).
    exists s, p, r. split; [exact E|]. split; [tauto|]. intros _. split; auto. split; auto.
    unfold cpe_f1, f_n. rewrite H2. simpl. eapply f1_per_class_ok; eauto.
  - destruct (precision_01 s _ c H1 (positive_nonneg l)) as (p & Ep & _).
    destruct (recall_01 s _ c H1 (positive_nonneg l)) as (r & Er & _).
    exists s, p, r. split; [exact E|]. split; [|tauto]. intros _ Hc. split; auto. split; auto.
    unfold cpe_f1, f_n. replace (Z.of_nat (length (f_classes (e_cm s))) =? 2) with false by (symmetry; apply Z.eqb_neq; lia).
    replace (c =? -1) with false by (symmetry; apply Z.eqb_neq; lia). eapply f1_per_class_ok; eauto.
Qed.

(** C32 is false: on a binary history class 0 has precision and recall 1/2, but f1_score(0) answers 4/5, the F1 of class 1. *)
Theorem f1_binary_class0_refuted :
  exists s, cpe_run (cpe_new 2) [(0, 0, 1%Q); (1, 1, 1%Q); (1, 1, 1%Q); (1, 1, 1%Q); (1, 1, 1%Q); (0, 1, 1%Q); (1, 0, 1%Q)] = Ok s
    /\ cpe_precision s 0 = Ok (1 # 2)%Q /\ cpe_recall s 0 = Ok (1 # 2)%Q /\ cpe_f1 s 0 = Ok (4 # 5)%Q
    /\ cpe_f1 s 1 = Ok (4 # 5)%Q.
Proof. apply ok_ex. vm_compute. repeat split; reflexivity. Qed.

(** C30.  Windowed evaluator, any positive weights, any window_size >= 1: every result is accepted, and the cells, marginals,
    diagonal, n_samples and accuracy are those of a fresh evaluator that received only the last window_size results; for unit
    weights kappa is also the same. *)
Theorem windowed_evaluator_equals_fresh :
  forall k n W h, 1 <= W -> Forall (fun r => 0 < r_weight r)%R h ->
    exists s f, wcpe_run (wcpe_new k W) h = Ok s /\ cpe_run (cpe_new n) (lastn (Z.to_nat W) h) = Ok f
      /\ (forall i j, f_cell (e_cm (w_ev s)) i j = f_cell (e_cm f) i j)
      /\ (forall i, f_row (e_cm (w_ev s)) i = f_row (e_cm f) i)
      /\ (forall j, f_col (e_cm (w_ev s)) j = f_col (e_cm f) j)
      /\ f_diag (e_cm (w_ev s)) = f_diag (e_cm f)
      /\ e_n (w_ev s) = e_n f
      /\ cpe_accuracy (w_ev s) = cpe_accuracy f
      /\ (unit_weights h -> cpe_kappa (w_ev s) = cpe_kappa f).
Proof.
  intros k n W h HW Hp. destruct (wcpe_run_new k W h HW Hp) as (s & E & HI).
  destruct (cpe_run_new n (lastn (Z.to_nat W) h)) as (f & Ef & HF). exists s, f. split; [exact E|]. split; [exact Ef|].
  pose proof HI as (pre & l & Hh & Hl & HO & _). rewrite <- Hl in *.
  pose proof (ev_cm _ _ _ HF) as [F1 F2 F3 F4 F5 F6 F7]. pose proof (wo_cm _ _ _ _ HO) as [W1 W2 W3 W4 W5 W6 W7].
  assert (Hpl : positive l = l) by (apply all_positive_positive; apply (wo_pos _ _ _ _ HO)).
  rewrite Hpl in *.
  split; [intros; rewrite W1, F1; auto|]. split; [intros; rewrite W2, F2; auto|]. split; [intros; rewrite W3, F3; auto|].
  split; [rewrite W4, F4; auto|]. split; [rewrite (wo_n _ _ _ _ HO), (ev_n _ _ _ HF); auto|]. split.
  - rewrite (accuracy_ok _ l l (wo_cm _ _ _ _ HO) (wo_n _ _ _ _ HO)).
    pose proof (ev_cm _ _ _ HF) as HC. rewrite Hpl in HC. rewrite (accuracy_ok _ l l HC (ev_n _ _ _ HF)).
    rewrite (wo_n _ _ _ _ HO), (ev_n _ _ _ HF). reflexivity.
  - intros Hu. pose proof (WInv_EvOk W s h HW HI Hu) as HA. rewrite <- Hl in HA.
    assert (Hul : unit_weights l) by (rewrite Hl; apply suffix_Forall; auto).
    pose proof (EvInv_EvOk n f l HF Hul) as HB.
    destruct (kappa_ok _ _ HA) as (ka & Eka & _ & A0 & A1). destruct (kappa_ok _ _ HB) as (kb & Ekb & _ & B0 & B1).
    rewrite Eka, Ekb. f_equal. destruct l as [|r l']; [rewrite A0, B0; auto|].
    rewrite A1, B1 by discriminate.
    rewrite (expected_independent (r :: l') _ (f_classes (e_cm f)) (CmOk_covers _ _ (eo_cm _ _ HA)) (CmOk_covers _ _ (eo_cm _ _ HB))).
    reflexivity.
Qed.

(** C30.  In the window, the no-change baseline of kappa_t counts the results equal to their predecessor in the stream, the
    predecessor of the oldest one having left the window; all scores of the windowed evaluator are in range. *)
Theorem windowed_evaluator_scores :
  forall k W h c, 1 <= W -> unit_weights h ->
    exists s, wcpe_run (wcpe_new k W) h = Ok s
      /\ (exists pre, h = pre ++ lastn (Z.to_nat W) h
            /\ e_nc (w_ev s) = repeat_weight (last (map r_true pre) 0) (lastn (Z.to_nat W) h))
      /\ (exists x, cpe_accuracy (w_ev s) = Ok x /\ 0 <= x <= 1)%R
      /\ (exists x, cpe_precision (w_ev s) c = Ok x /\ 0 <= x <= 1)%R
      /\ (exists x, cpe_recall (w_ev s) c = Ok x /\ 0 <= x <= 1)%R
      /\ (exists x, cpe_f1 (w_ev s) c = Ok x /\ 0 <= x <= 1)%R
      /\ (exists x, cpe_kappa (w_ev s) = Ok x /\ x <= 1)%R
      /\ (exists x, cpe_kappa_t (w_ev s) = Ok x /\ x <= 1)%R
      /\ (exists x, cpe_kappa_m (w_ev s) = Ok x /\ x <= 1)%R.
Proof.
  intros k W h c HW Hu. destruct (wcpe_run_new k W h HW (unit_all_positive _ Hu)) as (s & E & HI).
  exists s. split; [exact E|]. pose proof (WInv_EvOk W s h HW HI Hu) as HO. pose proof HO as [O1 O2 O3 O4 O5 O6].
  split.
  { destruct HI as (pre & l & Hh & Hl & HO' & _). exists pre. rewrite <- Hl. split; auto. apply (wo_nc _ _ _ _ HO'). }
  pose proof (unit_nonneg _ O2) as Hn. split; [|split; [|split; [|split; [|split; [|split]]]]].
  - eexists. split; [apply (accuracy_unit _ _ HO)|]. destruct (0 <? e_n (w_ev s)) eqn:Ez; [|lra].
    apply observed_01; auto. apply (eo_n_pos _ _ HO); auto.
  - eapply precision_01; eauto.
  - eapply recall_01; eauto.
  - eapply f1_01; eauto.
  - destruct (kappa_ok _ _ HO) as (x & Ek & Hk & _). eauto.
  - destruct (kappa_other _ _ _ HO O6) as (x & Ek & Hk & _). eauto.
  - destruct (kappa_other _ _ _ HO O5) as (x & Ek & Hk & _). eauto.
Qed.

(** C66 is false: classes that left the window still count in the macro averages.  Window of 2 over results of classes
    2, 0, 1: the recall of the two results in the window is 1, the windowed evaluator answers 2/3. *)
Theorem windowed_macro_scores_refuted :
  exists s, wcpe_run (wcpe_new 2 2) [(2, 2, 1%Q); (0, 0, 1%Q); (1, 1, 1%Q)] = Ok s
    /\ exists f, cpe_run (cpe_new 2) [(0, 0, 1%Q); (1, 1, 1%Q)] = Ok f
    /\ cpe_recall f (-1) = Ok 1%Q /\ cpe_recall (w_ev s) (-1) = Ok (2 # 3)%Q
    /\ cpe_precision f (-1) = Ok 1%Q /\ cpe_precision (w_ev s) (-1) = Ok (2 # 3)%Q.
Proof. apply ok_ex2. vm_compute. repeat split; reflexivity. Qed.

(** The positive-weight hypothesis of C30 is needed: a result with weight -1 is not recorded, but leaving the window it is
    subtracted, i.e. adds a phantom correct result. *)
Theorem windowed_negative_weight_refuted :
  exists s, wcpe_run (wcpe_new 2 1) [(1, 1, (-1)%Q); (0, 1, 1%Q)] = Ok s
    /\ cpe_accuracy (w_ev s) = Ok 1%Q.
Proof. apply ok_ex. vm_compute. reflexivity. Qed.

(** C33 for ClassificationPerformanceEvaluator and ConfusionMatrix: reset() is the constructed object, in every state reached
    from the constructor (any number type). *)
Theorem evaluator_reset_fresh :
  forall {T} `{Num T} n l s, cpe_run (cpe_new n) l = Ok s ->
    cpe_reset s = cpe_new n /\ cfm_reset (e_cm s) = cfm_new n.
Proof.
  intros T N n l s. 
  assert (G : forall l s s', cpe_run s l = Ok s' -> e_init s' = e_init s /\ f_init (e_cm s') = f_init (e_cm s)).
  { clear. induction l as [|[[t p] w] l IH]; intros s s' E; simpl in E; [inversion E; auto|].
    apply bind_Ok in E. destruct E as (s1 & E1 & E). apply IH in E. destruct E as [-> ->].
    unfold cpe_add in E1. apply bind_Ok in E1. destruct E1 as ([[s2 fm] fn] & E1 & E2). inversion E2; subst s2.
    unfold cpe_record in E1. cbv zeta in E1. apply bind_Ok in E1. destruct E1 as (m & _ & E1). inversion E1. simpl.
    split; auto. destruct (n0 <? w)%num; auto. }
  intros E. apply G in E. destruct E as [E1 E2]. unfold cpe_reset, cfm_reset. rewrite E1, E2. unfold cpe_new, cfm_new. simpl.
  destruct (n <? 2) eqn:En; simpl; rewrite ?En; auto.
Qed.

(** C33 is false for the windowed evaluator: reset() forgets n_classes. *)
Theorem windowed_reset_refuted :
  exists s, wcpe_run (wcpe_new 5 10) [(0, 0, 1%Q)] = Ok s
    /\ f_classes (e_cm (w_ev (wcpe_reset s))) = [0; 1] /\ f_classes (e_cm (w_ev (wcpe_new (T:=Q) 5 10))) = [0; 1; 2; 3; 4].
Proof. apply ok_ex. vm_compute. split; reflexivity. Qed.

Print Assumptions evaluator_counts.
Print Assumptions accuracy_fraction_partial.
Print Assumptions evaluator_scores_in_range.
Print Assumptions kappa_is_cohens.
Print Assumptions kappa_t_m_baselines.
Print Assumptions precision_recall_textbook.
Print Assumptions f1_of_class_partial.
Print Assumptions windowed_evaluator_equals_fresh.
Print Assumptions evaluator_reset_fresh.
