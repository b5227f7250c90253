From Coq Require Import List ZArith Bool Reals Lia Lra Sorted Permutation.
From Verif Require Import Base.Py Base.Num Model.ClassMetrics Spec.Lists Spec.MetricsSpec Proofs.ListFacts Proofs.ConfMatProofs
  Proofs.DdmProofs Proofs.MetricsProofs.
Import ListNotations.
Local Open Scope Z_scope.

Lemma IZR_len {A} (l : list A) : IZR (Z.of_nat (length l)) = INR (length l).
Proof. symmetry. apply INR_IZR_INZ. Qed.

Lemma count_pos l : l <> [] -> (0 < count l)%R.
Proof. destruct l; [congruence|]. intros _. unfold count. simpl length. apply lt_0_INR. lia. Qed.

Lemma div_01 a b : (0 <= a <= b -> 0 < b -> 0 <= a / b <= 1)%R.
Proof.
  intros H Hb. split.
  - apply Rmult_le_pos; [lra|]. left. apply Rinv_0_lt_compat; auto.
  - apply (Rmult_le_reg_r b); auto. unfold Rdiv. rewrite Rmult_assoc, Rinv_l; lra.
Qed.

Lemma accuracy_ok (s : cpe R) pl l : CmOk (e_cm s) pl -> e_n s = Z.of_nat (length l) ->
  cpe_accuracy s = Ok (if 0 <? e_n s then (correct_weight pl / count l)%R else 0%R).
Proof.
  intros H Hn. unfold cpe_accuracy, n0. cbn [nofZ NumR]. destruct (0 <? e_n s) eqn:E; [|reflexivity]. zb.
  rewrite (cm_diags _ _ H), Hn, IZR_len. rewrite pydiv_R; [reflexivity|].
  apply not_0_INR. lia.
Qed.

(** *** unit weights: both evaluators *)
Record EvOk (s : cpe R) (l : list (Z * Z * R)) : Prop := {
  eo_cm : CmOk (e_cm s) l;
  eo_unit : unit_weights l;
  eo_n : e_n s = Z.of_nat (length l);
  eo_tw : (0 < e_tw s)%R <-> l <> [];
  eo_maj : (0 <= e_maj s <= count l)%R;
  eo_nc : (0 <= e_nc s <= count l)%R
}.

Lemma cond_01 b x : (0 <= x <= 1 -> 0 <= (if b : bool then x else 0) <= 1)%R.
Proof. destruct b; lra. Qed.

Lemma observed_01 l : unit_weights l -> l <> [] -> (0 <= observed l <= 1)%R.
Proof.
  intros Hu Hne. apply div_01; [|apply count_pos; auto]. rewrite <- unit_total by auto. unfold correct_weight, total_weight.
  split; [apply weight_where_nonneg, unit_nonneg; auto|apply weight_where_le; [apply unit_nonneg; auto|auto]].
Qed.

Lemma accuracy_unit s l : EvOk s l -> cpe_accuracy s = Ok (if 0 <? e_n s then observed l else 0%R).
Proof. intros [H1 H2 H3 H4 H5 H6]. rewrite (accuracy_ok s l l H1 H3). reflexivity. Qed.

Lemma eo_n_pos s l : EvOk s l -> (0 <? e_n s) = true <-> l <> [].
Proof. intros [H1 H2 H3 H4 H5 H6]. rewrite H3, Z.ltb_lt. destruct l; simpl; split; intros; try lia; congruence. Qed.

Lemma corrected_le1 p0 pe : (0 <= p0 <= 1)%R -> (pe <= 1)%R ->
  exists k, chance_corrected p0 pe = Ok k /\ (k <= 1)%R /\ k = (if Reqb pe 1 then 0 else (p0 - pe) / (1 - pe))%R.
Proof.
  intros Hp Hpe. unfold chance_corrected, n0, n1. cbn [neqb nofZ nsub NumR]. destruct (Reqb pe 1) eqn:E; rcase.
  - exists 0%R. repeat split; lra.
  - rewrite pydiv_R by lra. eexists; repeat split; auto.
    apply (Rmult_le_reg_r (1 - pe)); [lra|]. unfold Rdiv. rewrite Rmult_assoc, Rinv_l; lra.
Qed.

Lemma kappa_fold (r c : Z -> R) n cs : (n <> 0)%R -> forall a,
  fold_left (fun acc i => pe <- acc ;; x <- pydiv (r i) n ;; y <- pydiv (c i) n ;; Ok (pe + x * y)%num) cs (Ok a)
  = Ok (a + Rsum (map (fun i => (r i / n) * (c i / n)) cs))%R.
Proof.
  intros Hn. induction cs as [|i cs IH]; intros a; simpl.
  - f_equal. lra.
  - rewrite !pydiv_R by auto. cbn [bind]. rewrite IH. f_equal. cbn. lra.
Qed.

Lemma Rsum_map_scal {A} (f : A -> R) k l : Rsum (map (fun x => f x * k)%R l) = (Rsum (map f l) * k)%R.
Proof. induction l; simpl; [lra|rewrite IHl; lra]. Qed.

Lemma weight_where_le_all c l : unit_weights l -> (weight_where c l <= count l)%R.
Proof. intros H. rewrite <- unit_total by auto. apply weight_where_le; auto using unit_nonneg. Qed.

Lemma expected_le1 l cs : unit_weights l -> l <> [] -> covers cs l -> (0 <= expected l cs <= 1)%R.
Proof.
  intros Hu Hne [Hnd Hcov]. pose proof (count_pos l Hne) as Hc. unfold expected. split.
  - apply Rsum_nonneg. intros x Hx. apply in_map_iff in Hx. destruct Hx as (i & <- & _).
    apply Rmult_le_pos; apply Rmult_le_pos; try (left; apply Rinv_0_lt_compat; auto);
      apply weight_where_nonneg, unit_nonneg; auto.
  - assert (Hs : Rsum (map (fun c => (col_weight l c / count l)%R) cs) = 1%R).
    { unfold Rdiv. rewrite Rsum_map_scal. unfold col_weight.
      rewrite (Rsum_rows r_pred cs l Hnd) by (eapply Forall_impl; [|exact Hcov]; simpl; tauto).
      rewrite unit_total by auto. apply Rinv_r. lra. }
    rewrite <- Hs. clear Hnd Hcov Hs. induction cs as [|c cs IH]; simpl; [lra|].
    assert (0 <= row_weight l c / count l <= 1)%R.
    { apply div_01; auto. split; [apply weight_where_nonneg, unit_nonneg; auto|apply weight_where_le_all; auto]. }
    assert (0 <= col_weight l c / count l)%R.
    { apply Rmult_le_pos; [apply weight_where_nonneg, unit_nonneg; auto|left; apply Rinv_0_lt_compat; auto]. }
    apply Rplus_le_compat; auto. rewrite <- (Rmult_1_l (col_weight l c / count l)) at 2.
    apply Rmult_le_compat_r; lra.
Qed.

Lemma CmOk_covers m l : CmOk m l -> covers (f_classes m) l.
Proof. intros H. split; [apply sorted_NoDup; apply (cm_sorted _ _ H)|apply (cm_labels _ _ H)]. Qed.

Lemma kappa_ok s l : EvOk s l ->
  exists k, cpe_kappa s = Ok k /\ (k <= 1)%R
    /\ (l = [] -> k = 0%R)
    /\ (l <> [] -> k = if Reqb (expected l (f_classes (e_cm s))) 1 then 0%R
                       else ((observed l - expected l (f_classes (e_cm s))) / (1 - expected l (f_classes (e_cm s))))%R).
Proof.
  intros H. pose proof H as [H1 H2 H3 H4 H5 H6]. unfold cpe_kappa. rewrite (accuracy_unit s l H). cbn [bind].
  unfold n0. cbn [nltb nofZ NumR]. destruct (Rltb 0 (e_tw s)) eqn:E; rcase.
  - assert (Hne : l <> []) by (apply H4; auto). pose proof (count_pos l Hne) as Hc.
    replace (0 <? e_n s) with true by (symmetry; apply (eo_n_pos s l H); auto).
    rewrite (kappa_fold (f_row (e_cm s)) (f_col (e_cm s))).
    2:{ rewrite H3, IZR_len. unfold count in Hc. lra. }
    cbn [bind].
    replace (0 + Rsum _)%R with (expected l (f_classes (e_cm s))).
    2:{ rewrite Rplus_0_l. unfold expected. f_equal. apply map_ext. intros i. rewrite (cm_rows _ _ H1), (cm_cols _ _ H1).
        rewrite H3, IZR_len. reflexivity. }
    destruct (corrected_le1 (observed l) (expected l (f_classes (e_cm s)))) as (k & Hk & Hk1 & Hk2).
    { apply observed_01; auto. }
    { apply expected_le1; auto. apply CmOk_covers; auto. }
    exists k. repeat split; auto. congruence.
  - exists 0%R. repeat split; auto; try lra. intros Hne. exfalso. apply H4 in Hne. lra.
Qed.

(** kappa_t / kappa_m *)
Lemma kappa_other s l (x : R) : EvOk s l -> (0 <= x <= count l)%R ->
  exists k, (p0 <- cpe_accuracy s ;;
    if (n0 <? e_tw s)%num then
      pe <- (if 0 <? e_n s then pydiv x (nofZ (e_n s)) else Ok n0) ;; chance_corrected p0 pe
    else Ok n0) = Ok k /\ (k <= 1)%R
    /\ (l = [] -> k = 0%R)
    /\ (l <> [] -> k = if Reqb (x / count l) 1 then 0%R else ((observed l - x / count l) / (1 - x / count l))%R).
Proof.
  intros H Hx. pose proof H as [H1 H2 H3 H4 H5 H6]. rewrite (accuracy_unit s l H). cbn [bind].
  unfold n0. cbn [nltb nofZ NumR]. destruct (Rltb 0 (e_tw s)) eqn:E; rcase.
  - assert (Hne : l <> []) by (apply H4; auto). pose proof (count_pos l Hne) as Hc.
    replace (0 <? e_n s) with true by (symmetry; apply (eo_n_pos s l H); auto).
    rewrite H3, IZR_len. fold (count l). rewrite pydiv_R by lra. cbn [bind].
    destruct (corrected_le1 (observed l) (x / count l)) as (k & Hk & Hk1 & Hk2).
    { apply observed_01; auto. }
    { apply div_01; auto. }
    exists k. repeat split; auto. congruence.
  - exists 0%R. repeat split; auto; try lra. intros Hne. exfalso. apply H4 in Hne. lra.
Qed.

(** *** precision, recall, F1 (any non-negative weights) *)
Lemma per_class_ok s l marg (mw : Z -> R) c : CmOk (e_cm s) l -> (forall i, marg i = mw i) ->
  per_class s marg c = Ok (if 0 <=? c then ratio_or_0 (cell_weight l c c) (mw c) else 0%R).
Proof.
  intros H Hm. unfold per_class. pose proof (cm_two _ _ H). replace (0 <? f_n (e_cm s)) with true by (symmetry; apply Z.ltb_lt; lia).
  simpl. destruct (0 <=? c); [|reflexivity]. rewrite Hm, (cm_cells _ _ H). unfold ratio_or_0, n0. cbn [nltb nofZ NumR].
  destruct (Rltb 0 (mw c)) eqn:E; [|reflexivity]. rcase. apply pydiv_R. lra.
Qed.

Lemma macro_ok (s : cpe R) l f g : CmOk (e_cm s) l -> (forall i, f i = Ok (g i)) ->
  macro s f = Ok (Rsum (map g (f_classes (e_cm s))) / INR (length (f_classes (e_cm s))))%R.
Proof.
  intros H Hf. unfold macro.
  assert (E : forall cs a, fold_left (fun acc i => a <- acc ;; x <- f i ;; Ok (a + x)%num) cs (Ok a) = Ok (a + Rsum (map g cs))%R).
  { induction cs as [|c cs IH]; intros a; simpl; [f_equal; lra|]. rewrite Hf. cbn [bind]. rewrite IH. f_equal. cbn. lra. }
  rewrite E. cbn [bind]. rewrite pydiv_R.
  - f_equal. cbn. unfold f_n. rewrite IZR_len. f_equal. lra.
  - cbn. pose proof (cm_two _ _ H). apply not_0_IZR. lia.
Qed.

Definition macro_mean (g : Z -> R) (cs : list Z) : R := (Rsum (map g cs) / INR (length cs))%R.

Definition at_class (g : Z -> R) (c : Z) : R := if 0 <=? c then g c else 0%R.

Lemma precision_ok s l c : CmOk (e_cm s) l ->
  cpe_precision s c = Ok (if c =? -1 then (if f_n (e_cm s) =? 2 then class_precision l 1
                                          else macro_mean (at_class (class_precision l)) (f_classes (e_cm s)))
                          else at_class (class_precision l) c).
Proof.
  intros H. assert (E : forall c, per_class s (f_col (e_cm s)) c = Ok (at_class (class_precision l) c)).
  { intros d. apply (per_class_ok s l (f_col (e_cm s)) (col_weight l)); auto. apply (cm_cols _ _ H). }
  unfold cpe_precision. destruct (c =? -1) eqn:Ec.
  - destruct (f_n (e_cm s) =? 2); simpl; [rewrite E; reflexivity|]. apply (macro_ok s l); auto.
  - rewrite andb_false_r. apply E.
Qed.
Lemma recall_ok s l c : CmOk (e_cm s) l ->
  cpe_recall s c = Ok (if c =? -1 then (if f_n (e_cm s) =? 2 then class_recall l 1
                                       else macro_mean (at_class (class_recall l)) (f_classes (e_cm s)))
                       else at_class (class_recall l) c).
Proof.
  intros H. assert (E : forall c, per_class s (f_row (e_cm s)) c = Ok (at_class (class_recall l) c)).
  { intros d. apply (per_class_ok s l (f_row (e_cm s)) (row_weight l)); auto. apply (cm_rows _ _ H). }
  unfold cpe_recall. destruct (c =? -1) eqn:Ec.
  - destruct (f_n (e_cm s) =? 2); simpl; [rewrite E; reflexivity|]. apply (macro_ok s l); auto.
  - rewrite andb_false_r. apply E.
Qed.

Lemma f1_per_class_ok s l c p r : CmOk (e_cm s) l -> cpe_precision s c = Ok p -> cpe_recall s c = Ok r ->
  f1_per_class s c = Ok (harmonic p r).
Proof.
  intros H Hp Hr. unfold f1_per_class. pose proof (cm_two _ _ H).
  replace (0 <? f_n (e_cm s)) with true by (symmetry; apply Z.ltb_lt; lia). rewrite Hp, Hr. cbn [bind].
  unfold harmonic, ratio_or_0, n0. cbn [nltb nofZ nadd nmul NumR]. destruct (Rltb 0 (p + r)) eqn:E; [|reflexivity].
  rcase. apply pydiv_R. lra.
Qed.

Lemma ratio_01 a b : (0 <= a <= b)%R -> (0 <= ratio_or_0 a b <= 1)%R.
Proof. intros H. unfold ratio_or_0. destruct (Rltb 0 b) eqn:E; rcase; [apply div_01; auto|lra]. Qed.
Lemma harmonic_01 p r : (0 <= p <= 1 -> 0 <= r <= 1 -> 0 <= harmonic p r <= 1)%R.
Proof. intros Hp Hr. apply ratio_01. split; [|]; nra. Qed.
Lemma class_precision_01 l c : nonneg l -> (0 <= class_precision l c <= 1)%R.
Proof.
  intros H. apply ratio_01. split; [apply weight_where_nonneg; auto|]. apply weight_where_le; auto.
  intros r Hr. apply andb_prop in Hr. tauto.
Qed.
Lemma class_recall_01 l c : nonneg l -> (0 <= class_recall l c <= 1)%R.
Proof.
  intros H. apply ratio_01. split; [apply weight_where_nonneg; auto|]. apply weight_where_le; auto.
  intros r Hr. apply andb_prop in Hr. tauto.
Qed.
Lemma at_class_01 g c : (forall c, 0 <= g c <= 1)%R -> (0 <= at_class g c <= 1)%R.
Proof. intros H. unfold at_class. specialize (H c). destruct (0 <=? c); lra. Qed.
Lemma macro_01 g cs : (forall c, 0 <= g c <= 1)%R -> cs <> [] -> (0 <= macro_mean g cs <= 1)%R.
Proof.
  intros H Hne. unfold macro_mean. apply div_01.
  - clear Hne. induction cs as [|c cs IH]; [simpl; lra|]. specialize (H c). cbn [map Rsum length]. rewrite S_INR. lra.
  - destruct cs; [congruence|]. cbn [length]. apply lt_0_INR. lia.
Qed.
Lemma classes_ne m l : CmOk m l -> f_classes m <> [].
Proof. intros H E. pose proof (cm_two _ _ H). unfold f_n in *. rewrite E in *. simpl in *. lia. Qed.

Lemma precision_01 s l c : CmOk (e_cm s) l -> nonneg l -> exists x, cpe_precision s c = Ok x /\ (0 <= x <= 1)%R.
Proof.
  intros H Hn. eexists. split; [apply (precision_ok s l); auto|]. pose proof (class_precision_01 l) as Hp.
  destruct (c =? -1); [destruct (f_n (e_cm s) =? 2); auto; apply macro_01; eauto using classes_ne|].
  - intros d. apply at_class_01; auto.
  - apply at_class_01; auto.
Qed.
Lemma recall_01 s l c : CmOk (e_cm s) l -> nonneg l -> exists x, cpe_recall s c = Ok x /\ (0 <= x <= 1)%R.
Proof.
  intros H Hn. eexists. split; [apply (recall_ok s l); auto|]. pose proof (class_recall_01 l) as Hp.
  destruct (c =? -1); [destruct (f_n (e_cm s) =? 2); auto; apply macro_01; eauto using classes_ne|].
  - intros d. apply at_class_01; auto.
  - apply at_class_01; auto.
Qed.
Definition f1_of (s : cpe R) (c : Z) : R :=
  match cpe_precision s c, cpe_recall s c with Ok p, Ok r => harmonic p r | _, _ => 0%R end.
Lemma f1_of_ok s l c : CmOk (e_cm s) l -> nonneg l -> f1_per_class s c = Ok (f1_of s c) /\ (0 <= f1_of s c <= 1)%R.
Proof.
  intros H Hn. destruct (precision_01 s l c H Hn) as (p & Ep & Hp). destruct (recall_01 s l c H Hn) as (r & Er & Hr).
  rewrite (f1_per_class_ok s l c p r); auto. unfold f1_of. rewrite Ep, Er. split; [reflexivity|]. apply harmonic_01; auto.
Qed.
Lemma f1_01 s l c : CmOk (e_cm s) l -> nonneg l -> exists x, cpe_f1 s c = Ok x /\ (0 <= x <= 1)%R.
Proof.
  intros H Hn. unfold cpe_f1. destruct (f_n (e_cm s) =? 2).
  - destruct (f1_of_ok s l 1 H Hn). eauto.
  - destruct (c =? -1); [|destruct (f1_of_ok s l c H Hn); eauto].
    eexists. split; [apply (macro_ok s l) with (g := f1_of s); auto; intros; apply (f1_of_ok s l); auto|].
    apply (macro_01 (f1_of s)); [intros; apply (f1_of_ok s l); auto|]. eapply classes_ne; eauto.
Qed.

(** *** geometric mean *)
Lemma sensitivities_ok s l cs : CmOk (e_cm s) l -> (forall c, In c cs -> 0 <= c) ->
  sensitivities s cs = Ok (map (class_recall l) cs).
Proof.
  intros H. induction cs as [|c cs IH]; intros Hc; simpl; [reflexivity|].
  pose proof (Hc c (or_introl eq_refl)). replace (c <? 0) with false by (symmetry; apply Z.ltb_ge; auto).
  rewrite (per_class_ok s l _ (row_weight l)) by (auto; apply (cm_rows _ _ H)).
  replace (0 <=? c) with true by (symmetry; apply Z.leb_le; auto). cbn [bind]. rewrite IH by (intros; apply Hc; right; auto).
  reflexivity.
Qed.

Lemma fold_nadd_R l : forall a, fold_left nadd l a = (a + Rsum l)%R.
Proof. induction l as [|x l IH]; intros a; simpl; [lra|]. rewrite IH. cbn. lra. Qed.

Lemma ln_le0 x : (0 < x <= 1 -> ln x <= 0)%R.
Proof. intros [H1 [H2| ->]]; [|rewrite ln_1; lra]. left. rewrite <- ln_1. apply ln_increasing; auto. Qed.

Lemma gmean_01 l : l <> [] -> (forall x, In x l -> 0 <= x <= 1)%R -> (0 <= gmean l <= 1)%R.
Proof.
  intros Hne H. unfold gmean, n0. cbn [nofZ neqb nexp nln ndiv NumR]. destruct (existsb _ l) eqn:E; [lra|].
  split; [left; apply exp_pos|]. rewrite <- exp_0. 
  assert (Hs : (fold_left nadd (map ln l) 0 <= 0)%R).
  { rewrite fold_nadd_R, Rplus_0_l. clear Hne. revert H E. induction l as [|x l IH]; intros H E; simpl; [lra|].
    simpl in E. apply orb_false_elim in E. destruct E as [E1 E2]. rcase.
    assert (ln x <= 0)%R by (apply ln_le0; pose proof (H x (or_introl eq_refl)); lra).
    assert (Rsum (map ln l) <= 0)%R by (apply IH; auto; intros; apply H; right; auto). lra. }
  set (a := fold_left nadd (map ln l) 0%R) in *. clearbody a.
  rewrite IZR_len. assert (0 < INR (length l))%R by (destruct l; [congruence|]; cbn [length]; apply lt_0_INR; lia).
  assert (a / INR (length l) <= 0)%R.
  { unfold Rdiv. assert (0 < / INR (length l))%R by (apply Rinv_0_lt_compat; auto). nra. }
  destruct H1 as [H1|H1]; [left; apply exp_increasing; auto|rewrite H1; lra].
Qed.

Lemma gmean_score_ok s l : CmOk (e_cm s) l -> nonneg l -> (forall c, In c (f_classes (e_cm s)) -> 0 <= c) ->
  cpe_gmean s = Ok (gmean (map (class_recall l) (f_classes (e_cm s))))
  /\ (0 <= gmean (map (class_recall l) (f_classes (e_cm s))) <= 1)%R.
Proof.
  intros H Hn Hc. unfold cpe_gmean. pose proof (cm_two _ _ H).
  replace (0 <? f_n (e_cm s)) with true by (symmetry; apply Z.ltb_lt; lia). rewrite (sensitivities_ok s l) by auto. cbn [bind].
  split; auto. apply gmean_01.
  - intros E. apply map_eq_nil in E. eapply classes_ne; eauto.
  - intros x Hx. apply in_map_iff in Hx. destruct Hx as (c & <- & _). apply class_recall_01; auto.
Qed.
