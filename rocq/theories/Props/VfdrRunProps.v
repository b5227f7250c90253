(** VeryFastDecisionRulesClassifier: runs. *)
From Coq Require Import List ZArith Floats Bool Reals Lra Lia Permutation.
From Verif Require Import Base.Py Base.Num Base.NumFloat Base.Dict Model.NaiveBayes Model.SplitCriteria Model.Ddm Model.Vfdr Spec.CriteriaSpec Spec.VfdrSpec Spec.SplitRuleSpec Proofs.VfdrProofs Props.VfdrProps Props.VfdrCriteriaProps Props.VfdrPredictProps
  Props.HoeffdingMemoryProps Props.HoeffdingSplitProps.
Import ListNotations.
(** Nominal values are integers. *)
Definition f_key (v : float) : Z :=
  match Prim2SF v with S754_finite s m e => (if s then -1 else 1) * Zpos m * (match e with Zpos _ | Z0 => 2 ^ e | Zneg _ => 1 end) / (match e with Zneg p => 2 ^ Zpos p | _ => 1 end) | _ => 0 end.
(** The defaults, with all attributes nominal or all numeric *)
Definition f_cfg (ordered : bool) (pr : rprediction) (nominal : bool) (max : Z) (nb : bool) (det : option (ddm float)) (cr : ecriterion) (poor : bool) : vfdr_config float (ddm float) :=
  vfdr_config_of 0x1.ad7f29abcaf48p-24%float ordered 200%float 0x1.999999999999ap-5%float pr (fun _ => nominal) max 0%float nb det cr poor 100%float.
Definition f_ddm : ddm_par float := @mkDdmPar float 30 2%float 3%float.
Definition f_run cfg (rows : list (list float * Z * float)) :=
  @vfdr_run float (ddm float) NumF f_key 1%float (fun x => x) (fun l => l) (@ddm_add float NumF f_ddm) (@dd_change float) cfg (@vfdr_new float (ddm float) NumF) (map (fun r => VFit [fst r] None (Some [snd r])) rows).
Definition f_votes cfg s x := @vfdr_votes float (ddm float) NumF 1%float f_key (fun l => l) cfg s x.
Definition rules (s : vfdr float (ddm float)) : list (list (pred float) * list (Z * float)) := map (fun r => (r_preds r, r_dist r)) (v_rules s).
Definition plain := f_cfg true FirstHit true 1000 true None InfoGain false.
Definition foil := f_cfg true FirstHit true 1000 true None FoilGain false.
Local Open Scope float_scope.
Ltac run := eexists; repeat (split; [vm_compute; reflexivity|]); vm_compute; reflexivity.

(** A rule is made of the best condition (C284), and the classifier predicts with it. *)
Example vfdr_learns : exists s, f_run plain [([1], 0%Z, 150); ([2], 1%Z, 150)] = Ok s /\ rules s = [([PEq 0 1], [(0%Z, 150)])] /\ r_dist (v_default s) = [(1%Z, 150)]
  /\ f_votes plain s [1] = Ok [(0%Z, 1)] /\ f_votes plain s [7] = Ok [(1%Z, 1)].
Proof. run. Qed.
(** C278: with FOIL gain there can be more rules than max_rules. *)
Theorem vfdr_max_rules_refuted : exists s, f_run (f_cfg true FirstHit true 1 true None FoilGain false) [([1], 0%Z, 100); ([2], 1%Z, 100)] = Ok s
  /\ rules s = [([PEq 0 1], [(0%Z, 100)]); ([PNe 0 1], [(1%Z, 100)])].
Proof. run. Qed.
(** C280: a second "!=" on the same attribute is dropped, after it has won; what the rule had counted is thrown away. *)
Definition repeated := [([1], 0%Z, 60); ([1], 1%Z, 50); ([2], 1%Z, 50); ([3], 1%Z, 50); ([3], 1%Z, 50); ([2], 0%Z, 49); ([2], 1%Z, 50)].
Theorem vfdr_repeated_condition_refuted : exists s, f_run plain repeated = Ok s
  /\ map (fun r => (r_preds r, r_obs r, r_last r)) (v_rules s) = [([PNe 0 1], [], 249)].
Proof. run. Qed.
(** C281: the half of greater entropy is kept, as a candidate looked at before had its purest half on that side. *)
Theorem vfdr_kept_side_refuted : exists s, f_run plain [([1], 1%Z, 40); ([2], 0%Z, 50); ([3], 0%Z, 5); ([3], 1%Z, 90); ([2], 1%Z, 10); ([3], 1%Z, 1); ([3], 1%Z, 200)] = Ok s
  /\ rules s = [([PEq 0 2], [(0%Z, 50); (1%Z, 10)])] /\ r_dist (v_default s) = [(0%Z, 5); (1%Z, 331)].
Proof. run. Qed.
(** C282: the rule made for label 1 covers samples of label 2 only. *)
Theorem vfdr_foil_rule_refuted : exists s, f_run foil [([1; 1], 0%Z, 100); ([2; 1], 1%Z, 60); ([2; 2], 2%Z, 2000)] = Ok s
  /\ In (Some 1%Z, [PNe 1 1], [(2%Z, 2000)]) (map (fun r => (r_class r, r_preds r, r_dist r)) (v_rules s)).
Proof. eexists. split; [vm_compute; reflexivity|]. vm_compute. auto 6. Qed.
(** C283: 35 wrong predictions leave the rule in place, one right prediction then removes it; its sample is lost. *)
Definition drifting := f_cfg true FirstHit true 1000 false (Some (@ddm_init float NumF)) InfoGain false.
Definition wrong35 := [([1], 0%Z, 150); ([2], 1%Z, 150)] ++ repeat ([1], 1%Z, 1) 35.
Theorem vfdr_drift_run_refuted : (exists s, f_run drifting wrong35 = Ok s /\ rules s = [([PEq 0 1], [(0%Z, 150); (1%Z, 35)])])
  /\ exists s, f_run drifting (wrong35 ++ [([1], 0%Z, 1)]) = Ok s /\ rules s = [] /\ r_dist (v_default s) = [(1%Z, 150)].
Proof. split; run. Qed.
(** Unordered rules: the second rule fires too, but is passed over when the first one is removed. *)
Definition both35 := [([1; 0], 0%Z, 150); ([2; 0], 1%Z, 150); ([2; 0], 1%Z, 100); ([2; 3], 0%Z, 300)] ++ repeat ([1; 0], 1%Z, 1) 35.
Theorem vfdr_skipped_run_refuted : (exists s, f_run (f_cfg false FirstHit true 1000 false (Some (@ddm_init float NumF)) InfoGain false) both35 = Ok s
     /\ rules s = [([PEq 0 1], [(0%Z, 150); (1%Z, 35)]); ([PEq 1 0], [(1%Z, 135)])])
  /\ exists s, f_run (f_cfg false FirstHit true 1000 false (Some (@ddm_init float NumF)) InfoGain false) (both35 ++ [([1; 0], 0%Z, 1)]) = Ok s /\ rules s = [([PEq 1 0], [(1%Z, 135)])].
Proof. split; run. Qed.
(** C284: a single suggestion is taken whatever its merit: the merit here is -inf, the rule covers everything and the default rule is empty. *)
Theorem vfdr_lone_suggestion_refuted : exists s, f_run plain [([1], 0%Z, 2000); ([1], 1%Z, 2000)] = Ok s /\ rules s = [([PEq 0 1], [(0%Z, 2000); (1%Z, 2000)])] /\ r_dist (v_default s) = [].
Proof. run. Qed.
(** FOIL gain: after one label has met the bound, rules are made for the labels behind it without it. *)
Theorem vfdr_foil_stale_refuted : exists s, f_run foil [([1; 5], 0%Z, 50); ([1; 6], 0%Z, 50); ([2; 5], 1%Z, 25); ([2; 6], 1%Z, 25); ([2; 5], 2%Z, 25); ([2; 6], 2%Z, 25)] = Ok s
  /\ In (Some 1%Z, [PEq 1 5], [(0%Z, 50); (1%Z, 25); (2%Z, 25)]) (map (fun r => (r_class r, r_preds r, r_dist r)) (v_rules s))
  /\ In (Some 2%Z, [PEq 1 5], [(0%Z, 50); (1%Z, 25); (2%Z, 25)]) (map (fun r => (r_class r, r_preds r, r_dist r)) (v_rules s)).
Proof. eexists. split; [vm_compute; reflexivity|]. split; vm_compute; auto 6. Qed.
(** C289: attributes judged poor are disabled, and all Naive Bayes votes of the rule are zero; and, before that, the labels a new rule inherits
    have vote zero as soon as it has seen a sample. *)
Definition poorly := f_cfg true FirstHit true 1000 true None InfoGain true.
Definition poor_rows := [([0; 0; 1], 0%Z, 50); ([0; 0; 1], 1%Z, 50); ([0; 0; 2], 0%Z, 100); ([1; 1; 2], 1%Z, 50); ([0; 0; 2], 0%Z, 50)].
Theorem vfdr_poor_attributes_refuted : exists s, f_run poorly poor_rows = Ok s /\ map fst (rules s) = [[PNe 2 1]] /\ f_votes poorly s [0; 0; 2] = Ok [(0%Z, 0); (1%Z, 0)] /\ f_votes poorly s [1; 1; 2] = Ok [(0%Z, 0); (1%Z, 0)].
Proof. run. Qed.
Theorem vfdr_inherited_labels_refuted : exists s, f_run poorly (firstn 4 poor_rows) = Ok s /\ rules s = [([PNe 2 1], [(0%Z, 100); (1%Z, 50)])] /\
  match f_votes poorly s [0; 0; 2] with Ok v => dget v 0 = Some 0 | _ => False end.
Proof. run. Qed.
(** C287: three rules fire, two of them for label 0: its vote is 3/4, not 2/3. *)
Definition summing := f_cfg false WeightedSum true 1000 false None InfoGain false.
Definition three := [([1; 0; 0], 0%Z, 150); ([2; 0; 0], 1%Z, 150); ([2; 0; 0], 1%Z, 100); ([2; 3; 0], 0%Z, 300); ([2; 3; 0], 0%Z, 100); ([2; 3; 1], 1%Z, 300)].
Theorem vfdr_weighted_sum_run_refuted : exists s, f_run summing three = Ok s /\ rules s = [([PEq 0 1], [(0%Z, 150)]); ([PEq 1 0], [(1%Z, 100)]); ([PEq 2 0], [(0%Z, 100)])]
  /\ f_votes summing s [1; 0; 0] = Ok [(0%Z, 0.75); (1%Z, 0.25)].
Proof. run. Qed.
(** C288: the rows of predict_proba differ in length. *)
Theorem vfdr_ragged_rows_refuted : exists s, f_run summing three = Ok s /\ @vfdr_proba float (ddm float) NumF 1 f_key (fun l => l) summing s [[1; 3; 4]; [2; 0; 4]] = Ok [[1]; [0; 1]].
Proof. run. Qed.
(** C292: a model that has seen nothing cannot be described. *)
Theorem vfdr_describe_new_refuted : @vfdr_describe float (ddm float) NumF (@vfdr_new float (ddm float) NumF) = Raise ValueError.
Proof. reflexivity. Qed.
(** Asking for the rules changes them: the label of the rules made by information gain is set from none to the majority label. *)
Theorem vfdr_get_rules_refuted : exists s s', f_run plain [([1], 0%Z, 150); ([2], 1%Z, 150)] = Ok s /\ @vfdr_get_rules float (ddm float) NumF s = Ok s' /\ map r_class (v_rules s) = [None] /\ map r_class (v_rules s') = [Some 0%Z].
Proof. eexists. eexists. repeat (split; [vm_compute; reflexivity|]). vm_compute. reflexivity. Qed.
Local Close Scope float_scope.

(** *** The hypotheses of the theorems about real numbers can be met. *)
Local Open Scope R_scope.
Definition r_cfg (ordered : bool) (pr : rprediction) (cr : ecriterion) : vfdr_config R unit := vfdr_config_of (1 / 2) ordered 200 (1 / 20) pr (fun _ => true) 5 0 false None cr false 100.
Definition rkey (v : R) : Z := if Req_EM_T v 1 then 1%Z else 2%Z.
Definition r_state : vfdr R unit := mk_v [mk_rule [(0%Z, 3); (1%Z, 1)] [] 0 [PEq 0 1] None None; mk_rule [(1%Z, 2)] [] 0 [] None None] (mk_rule [(1%Z, 5)] [] 0 [] None None) None.
Lemma rkey1 : rkey 1 = 1%Z. Proof. unfold rkey. destruct (Req_EM_T 1 1); [reflexivity|congruence]. Qed.
Example ordered_learning_met : exists s', vfdr_one 1 (fun x => x) rkey (fun l => l) (fun d _ => Ok d) (fun _ => false) (r_cfg true FirstHit InfoGain) r_state [1] 0 2 = Ok s'
  /\ map r_dist (v_rules s') = [[(0%Z, 5); (1%Z, 1)]; [(1%Z, 2)]] /\ v_default s' = v_default r_state.
Proof.
  unfold vfdr_one, r_state. cbn [v_rules fit_rules r_covers r_preds covers_all p_covers]. unfold SplitTests.at_index. cbn. rewrite rkey1. cbn. unfold fit_rule. cbn.
  assert (E : (@nleb R NumR 200 (0 + (3 + 2) + 1 - 0)) = false) by (apply Rleb_false; cbn; lra). unfold r_weight, vsum. cbn. cbn in E. rewrite E. cbn. eexists. split; [reflexivity|]. cbn. split; [|reflexivity]. repeat f_equal. lra.
Qed.
Example ordered_met : @ordered R NumR /\ @subtractive R NumR. Proof. split; [apply ordered_R|apply subtractive_R]. Qed.
Example weighted_sum_met : exists v, vfdr_votes 1 rkey (fun l => l) (r_cfg false WeightedSum InfoGain) r_state [1] = Ok v /\ fired_votes 1 rkey (r_cfg false WeightedSum InfoGain) [1] (v_rules r_state) [[(0%Z, 3); (1%Z, 1)]; [(1%Z, 2)]].
Proof.
  eexists. split.
  - unfold vfdr_votes, r_state. cbn [v_prediction r_cfg vfdr_config_of v_rules weighted_sum r_covers r_preds covers_all p_covers]. unfold SplitTests.at_index. cbn [length Z.of_nat Z.ltb Z.compare Z.to_nat nth_error bind Pos.of_succ_nat]. rewrite rkey1. cbn [Z.eqb Pos.eqb bind]. unfold r_votes at 1. cbn [v_nb r_cfg vfdr_config_of andb]. rewrite andb_false_r. cbn [bind].
    rewrite !normalized_R. cbn [bind]. unfold r_votes. cbn [v_nb r_cfg vfdr_config_of]. rewrite andb_false_r. cbn [bind]. rewrite !normalized_R. cbn [bind]. repeat (rewrite normalized_R; cbn [bind]). reflexivity.
  - apply FVfire; [intros p [<-|[]]; exists 1; split; [reflexivity|apply rkey1]|split; [intros _; reflexivity|discriminate]|].
    apply FVfire; [intros p []|split; [intros _; reflexivity|discriminate]|constructor].
Qed.
Example narrows_met : let r := mk_rule (D := unit) [(0%Z, 3)] [] 0 [PLe 0 5] None None in tightened (r_preds r) (PLe 0 3) = [PLe 0 3] /\ effective (r_preds r) (PLe 0 3) /\ fires rkey r [4] /\ ~ meets rkey [4] (PLe 0 3).
Proof.
  cbn. change (@nltb R NumR) with Rltb. change (@nleb R NumR) with Rleb. assert (E : Rltb 3 5 = true) by (apply Rltb_true; lra). rewrite E. split; auto. split; auto. split.
  - intros p [<-|[]]. exists 4. split; auto. apply Rleb_true. lra.
  - intros (u & Eu & H). injection Eu as <-. apply Rleb_true in H. lra.
Qed.
Example foil_gain_met : let m := mk_cm (T := R) None true 1%Z in exists g m', foil_merit m [(0%Z, 3); (1%Z, 4)] [(0%Z, 1); (1%Z, 3)] [(0%Z, 2); (1%Z, 1)] = Ok (Some g, m') /\ g < 0.
Proof.
  cbn zeta. assert (Da : distribution [(0%Z, 1); (1%Z, 3)]) by (split; [repeat constructor; cbn; intuition lia|intros c w [[= _ <-]|[[= _ <-]|[]]]; lra]).
  assert (Db : distribution [(0%Z, 2); (1%Z, 1)]) by (split; [repeat constructor; cbn; intuition lia|intros c w [[= _ <-]|[[= _ <-]|[]]]; lra]).
  assert (Dp : distribution [(0%Z, 3); (1%Z, 4)]) by (split; [repeat constructor; cbn; intuition lia|intros c w [[= _ <-]|[[= _ <-]|[]]]; lra]).
  assert (S : split_of [(0%Z, 3); (1%Z, 4)] [[(0%Z, 1); (1%Z, 3)]; [(0%Z, 2); (1%Z, 1)]]).
  { intros c. unfold class_weight. cbn [map dget]. destruct (0 =? c)%Z, (1 =? c)%Z; unfold Lists.Rsum; cbn; lra. }
  assert (H : exists g m', foil_merit (mk_cm (T := R) None true 1%Z) [(0%Z, 3); (1%Z, 4)] [(0%Z, 1); (1%Z, 3)] [(0%Z, 2); (1%Z, 1)] = Ok (Some g, m')).
  { unfold foil_merit. assert (N : he_num_loop (T := R) (vtotal [[(0%Z, 1); (1%Z, 3)]; [(0%Z, 2); (1%Z, 1)]]) (1 / 100) [[(0%Z, 1); (1%Z, 3)]; [(0%Z, 2); (1%Z, 1)]] 0 = Ok 2%nat).
    { unfold vtotal, vsum. cbn [he_num_loop map dvals snd fold_left]. unfold pydiv, vsum. cbn [map dvals snd fold_left nadd NumR neqb ndiv nltb]. unfold n0. cbn [nofZ NumR].
      unfold Reqb. destruct (Req_EM_T _ _); [lra|]. cbn [bind].
      assert (L1 : forall A (u v : A), (if Rltb (1 / 100) ((0 + 1 + 3) / (0 + (0 + 1 + 3) + (0 + 2 + 1))) then u else v) = u) by (intros; rewrite (proj2 (Rltb_true _ _)); [reflexivity|lra]).
      assert (L2 : forall A (u v : A), (if Rltb (1 / 100) ((0 + 2 + 1) / (0 + (0 + 1 + 3) + (0 + 2 + 1))) then u else v) = u) by (intros; rewrite (proj2 (Rltb_true _ _)); [reflexivity|lra]).
      rewrite L1. rewrite L2. reflexivity. }
    change (@n1 R NumR / nofZ 100)%num with (1 / 100). rewrite N. cbn [bind Nat.ltb Nat.leb cm_class].
    rewrite (foil_log_R [(0%Z, 1); (1%Z, 3)] 1 3); [|reflexivity|lra|unfold weight, Lists.Rsum; cbn; lra]. rewrite (foil_log_R [(0%Z, 2); (1%Z, 1)] 1 1); [|reflexivity|lra|unfold weight, Lists.Rsum; cbn; lra].
    rewrite (foil_log_R [(0%Z, 3); (1%Z, 4)] 1 4); [|reflexivity|lra|unfold weight, Lists.Rsum; cbn; lra]. cbn [bind]. destruct (oge _ _); cbn; eauto. }
  destruct H as (g & m' & H). exists g, m'. split; auto. eapply vfdr_foil_gain_refuted in H; [|exact Da|exact Db|exact Dp|exact S|reflexivity|reflexivity|lra|lra]. apply H. unfold weight. cbn. unfold Lists.Rsum. cbn. lra.
Qed.

Print Assumptions vfdr_max_rules_refuted.
Print Assumptions vfdr_repeated_condition_refuted.
Print Assumptions vfdr_kept_side_refuted.
Print Assumptions vfdr_foil_rule_refuted.
Print Assumptions vfdr_drift_run_refuted.
Print Assumptions vfdr_skipped_run_refuted.
Print Assumptions vfdr_lone_suggestion_refuted.
Print Assumptions vfdr_foil_stale_refuted.
Print Assumptions vfdr_poor_attributes_refuted.
Print Assumptions vfdr_inherited_labels_refuted.
Print Assumptions vfdr_weighted_sum_run_refuted.
Print Assumptions vfdr_ragged_rows_refuted.
Print Assumptions vfdr_describe_new_refuted.
Print Assumptions vfdr_get_rules_refuted.
