(** Hoeffding tree classifier: when a leaf is split, and what pre-pruning and remove_poor_atts do. *)
From Coq Require Import List ZArith QArith Reals Bool Lia Lra Floats Permutation.
From Verif Require Import Base.Py Base.Num Base.NumFloat Base.Dict Model.Suggestion Model.SplitCriteria Model.TreeSkeleton Model.HoeffdingTree
  Spec.TreeSpec Spec.HoeffdingSpec Spec.SplitRuleSpec Proofs.TreeProofs Proofs.HoeffdingProofs Proofs.SplitRuleProofs Props.HoeffdingProps Props.HoeffdingMemoryProps.
Import ListNotations.
Local Open Scope Z_scope.

Lemma subtractive_R : @subtractive R NumR.
Proof. intros a b c e; cbn; unfold Rltb; repeat match goal with |- context [Rlt_dec ?a ?b] => destruct (Rlt_dec a b) end; auto; try discriminate; lra. Qed.
Lemma subtractive_Q : @subtractive Q NumQ.
Proof.
  intros a b c e H1 H2. cbn [nltb nsub NumQ] in *. apply negb_false_iff, Qle_bool_iff in H1. apply negb_true_iff in H2. apply negb_true_iff.
  destruct (Qle_bool (Qred (c - a)) e) eqn:E; auto. apply Qle_bool_iff in E. rewrite <- H2. symmetry. apply Qle_bool_iff. rewrite Qred_correct in *. eapply Qle_trans; [|exact E].
  unfold Qminus. apply Qplus_le_r. now apply Qopp_le_compat.
Qed.

Section Props.
Context {T : Type} {N : Num T}.
Variables (k : T) (phi : T -> T) (key : T -> Z) (cfg : ht_config T) (sz : sizes T (leaf T) (list (Z * T)) (list (Z * T)) (htest T)).
Local Notation O := (ht_ops k phi key cfg).
Local Notation reached := (ht_reached k phi key cfg sz).
Local Notation fit := (ht_fit k phi key cfg sz).
(** The tree a sample meets: an empty tree gets a leaf without statistics. *)
Definition met (s : ht T) : node (leaf T) (list (Z * T)) (list (Z * T)) (htest T) := match t_root (ht_tree s) with Some r => r | None => Active (leaf_new []) end.

(** C127: a sample splits the leaf it reaches exactly when growth is allowed, grace_period of weight has come since the last
    attempt (or since the leaf was made), the leaf has seen two labels, and the best suggestion is a test whose merit exceeds
    every other one by more than the Hoeffding bound, or the bound is below tie_threshold. *)
Definition split_conditions (s : ht T) (x : list T) (y : Z) (w : T) (p : list Z) (l' : leaf T) (te : htest T) (ds : list (list (Z * T))) : Prop :=
  exists l bs best others, reaches O (met s) x p (Active l) /\ leaf_learn k key cfg l x y w = Ok l' /\ t_growth (ht_tree s) = true
    /\ (h_grace cfg <=? vsum (lf_stats l') - lf_last l)%num = true /\ mixed (lf_stats l')
    /\ suggestions k phi cfg l' = Ok bs /\ best_is bs best others /\ sg_test best = Some te /\ sg_dists best = ds
    /\ wins (epsilon (cr_range (h_crit cfg) (lf_stats l')) (h_confidence cfg) (vsum (lf_stats l'))) (h_tie cfg) best others.
Lemma learn_last l x y w l' : leaf_learn k key cfg l x y w = Ok l' -> lf_last l' = lf_last l.
Proof. unfold leaf_learn. intros H. apply bind_Ok in H as ([mc nb] & _ & H). apply bind_Ok in H as (obs & _ & H). injection H as <-. reflexivity. Qed.
Lemma split_conditions_iff s x y w p l' te ds : ordered T -> subtractive T -> reached s -> (forall l, route O (met s) x = Ok (p, Some (Active l)) -> leaf_learn k key cfg l x y w = Ok l' -> o_due O l' = true -> exists d, decide k phi cfg l' = Ok d) ->
  split_conditions s x y w p l' te ds <->
  exists l l2, route O (met s) x = Ok (p, Some (Active l)) /\ o_learn O l x y w = Ok l' /\ t_growth (ht_tree s) = true /\ o_due O l' = true /\ o_decide O l' = Ok (SplitOn l2 te ds).
Proof.
  intros Hord Hsub R HD. assert (NDl : forall l, route O (met s) x = Ok (p, Some (Active l)) -> leaf_learn k key cfg l x y w = Ok l' -> NoDup (dkeys (lf_stats l'))).
  { intros l R1 EL. destruct (reached_good _ _ _ _ _ _ R) as [_ W]. assert (K : keys_ok l).
    { destruct (route_found _ _ _ _ _ R1) as [Hn _]. unfold met in Hn. destruct (t_root (ht_tree s)) as [r|] eqn:Er; [pose proof (wf_node_at _ _ _ _ _ _ W Hn) as Wn; now inversion Wn|].
      destruct p; [|discriminate]. injection Hn as <-. apply keys_new. constructor. }
    exact (proj2 (keys_learn k phi key cfg l x y w l' K EL)). }
  split.
  - intros (l & bs & best & others & R1 & EL & Hg & Hd & Hm & Eb & B & Et & Ed & Wn). apply route_reaches in R1. pose proof (NDl _ R1 EL) as ND.
    assert (DU : o_due O l' = true) by (cbn; rewrite (learn_last _ _ _ _ _ EL); exact Hd). destruct (HD _ R1 EL DU) as (d & Edd).
    destruct (proj2 (decide_iff k phi cfg l' d te ds Hord Hsub ND Edd)) as (l2 & ->); [split; auto; exists bs, best, others; repeat split; auto|]. exists l, l2. auto.
  - intros (l & l2 & R1 & EL & Hg & Hd & Edd). pose proof (NDl _ R1 EL) as ND.
    destruct (proj1 (decide_iff k phi cfg l' _ te ds Hord Hsub ND Edd)) as (Hm & bs & best & others & Eb & B & Et & Ed & Wn); [eauto|]. exists l, bs, best, others.
    split; [now apply route_reaches|]. split; [exact EL|]. split; [exact Hg|]. split; [cbn in Hd; rewrite (learn_last _ _ _ _ _ EL) in Hd; exact Hd|]. split; [exact Hm|]. split; [exact Eb|]. split; [exact B|]. auto.
Qed.
Lemma fit_decided s x y w c s' p l l' : reached s -> fit s [(x, y)] c (Some [w]) = Ok s' -> (w =? n0)%num = false -> t_growth (ht_tree s) = true ->
  route O (met s) x = Ok (p, Some (Active l)) -> leaf_learn k key cfg l x y w = Ok l' -> o_due O l' = true -> exists d, decide k phi cfg l' = Ok d.
Proof.
  intros R H Hw Hg R1 EL Hd. destruct (fit_single _ _ _ _ _ _ _ _ _ _ _ R H) as [G [[_ C]|[_ F]]]; [congruence|]. unfold fit_one in F.
  destruct (match t_root (add_weight (ht_tree s) w) with Some r => _ | None => _ end) as [s0 r] eqn:E0.
  assert (r = met s /\ t_growth s0 = true) as [-> G0] by (unfold met, add_weight in *; cbn [t_root] in E0; destruct (t_root (ht_tree s)); injection E0 as <- <-; auto).
  rewrite R1 in F. cbn [bind] in F. apply bind_Ok in F as (s1 & F & _). cbn [learn_found] in F. change (o_learn O l x y w) with (leaf_learn k key cfg l x y w) in F. rewrite EL in F. cbn [bind] in F.
  apply bind_Ok in F as (r0 & _ & F). apply bind_Ok in F as (r1 & _ & F). cbv zeta in F. rewrite G0, Hd in F. cbn [andb] in F. apply bind_Ok in F as (d & Ed & _). eauto.
Qed.
Theorem ht_split_iff : forall s x y w c s', ordered T -> subtractive T -> reached s -> fit s [(x, y)] c (Some [w]) = Ok s' -> (w =? n0)%num = false ->
  (t_decision (ht_tree s') = t_decision (ht_tree s) + 1 <-> exists p l' te ds, split_conditions s x y w p l' te ds).
Proof.
  intros s x y w c s' Hord Hsub R H Hw. destruct (fit_single _ _ _ _ _ _ _ _ _ _ _ R H) as [G [[_ C]|[_ F]]]; [congruence|].
  destruct (ht_split_cause _ _ _ _ _ _ _ _ _ _ (good_add _ w G) F) as [Q _]. change (t_decision (add_weight (ht_tree s) w)) with (t_decision (ht_tree s)) in Q. rewrite Q. clear Q.
  change (root_or_new O (add_weight (ht_tree s) w)) with (met s). change (t_growth (add_weight (ht_tree s) w)) with (t_growth (ht_tree s)). split.
  - intros (p & l & l' & l2 & te & ds & A1 & A2 & A3 & A4 & A5). exists p, l', te, ds. apply split_conditions_iff; auto; [intros l0 R1 EL Hd; exact (fit_decided s x y w c s' p l0 l' R H Hw A3 R1 EL Hd)|]. exists l, l2. auto.
  - intros (p & l' & te & ds & SC). assert (Hg : t_growth (ht_tree s) = true) by (destruct SC as (l0 & bs & best & others & _ & _ & Hg & _); exact Hg). apply split_conditions_iff in SC; auto; [|intros l0 R1 EL Hd; exact (fit_decided s x y w c s' p l0 l' R H Hw Hg R1 EL Hd)].
    destruct SC as (l & l2 & A). exists p, l, l', l2, te, ds. auto.
Qed.
(** The split puts that test where the leaf was, with the leaf's statistics, and one leaf per branch that starts from the
    distribution the suggestion gives to the branch. *)
Theorem ht_split_result : forall s x y w c s' p l' te ds, ordered T -> subtractive T -> reached s -> fit s [(x, y)] c (Some [w]) = Ok s' -> (w =? n0)%num = false ->
  split_conditions s x y w p l' te ds ->
  exists r' ch, t_root (ht_tree s') = Some r' /\ node_at r' p = Some (Split te (lf_stats l') ch) /\ dkeys ch = map Z.of_nat (seq 0 (length ds)) /\
    map (fun c => stats_of O (snd c)) ch = ds /\ Forall (fun c => is_split (snd c) = false) ch.
Proof.
  intros s x y w c s' p l' te ds Hord Hsub R H Hw SC. destruct (fit_single _ _ _ _ _ _ _ _ _ _ _ R H) as [G [[_ C]|[_ F]]]; [congruence|].
  destruct (ht_split_cause _ _ _ _ _ _ _ _ _ _ (good_add _ w G) F) as [_ Q].
  assert (Hg : t_growth (ht_tree s) = true) by (destruct SC as (l0 & bs & best & others & _ & _ & Hg & _); exact Hg). apply split_conditions_iff in SC; auto; [|intros l0 R1 EL Hd; exact (fit_decided s x y w c s' p l0 l' R H Hw Hg R1 EL Hd)].
  destruct SC as (l & l2 & A1 & A2 & A3 & A4 & A5). destruct (Q p l l' l2 te ds A1 A2 A3 A4 A5) as (r' & ch & B1 & B2 & B3 & B4 & B5). exists r', ch. repeat split; auto.
  rewrite B4. cbn. apply map_id.
Qed.

(** C128, refuted: "remove_poor_atts: disable poor attributes" -- with the default no_preprune=False it prevents every split,
    whatever the stream: as soon as an attribute has a candidate, the attempt raises an AttributeError, because the null
    split is a suggestion without a test. *)
Lemma poor_raises best bound (l : list (suggestion (option (htest T)) (list (list (Z * T))) T)) s : In s l -> sg_test s = None -> poor_atts best bound l = Raise AttributeError.
Proof. induction l as [|a l IH]; intros Hi Hs; [contradiction|]. cbn [poor_atts]. destruct Hi as [->|Hi]; [now rewrite Hs|]. destruct (sg_test a); auto. rewrite IH by auto. reflexivity. Qed.
Lemma poor_no_split l l' te ds : h_poor cfg = true -> h_no_preprune cfg = false -> decide k phi cfg l = Ok (SplitOn l' te ds) -> False.
Proof.
  intros Hp Hn. unfold decide. cbv zeta. destruct (leaf_pure l); [discriminate|]. intros H. apply bind_Ok in H as (bs & Eb & H).
  unfold suggestions in Eb. apply bind_Ok in Eb as (rs & _ & Eb). rewrite Hn in Eb. injection Eb as <-. set (le := fun a b => _) in H. set (all := null_split cfg (lf_stats l) :: _) in *.
  assert (Hin : In (null_split cfg (lf_stats l)) (sort_stable le all)) by (eapply Permutation_in; [apply sort_stable_perm|now left]).
  destruct (rev (sort_stable le all)) as [|best [|second rest]] eqn:Er; [discriminate| |].
  - apply in_rev in Hin. rewrite Er in Hin. destruct Hin as [->|[]]. cbn in H. discriminate.
  - apply bind_Ok in H as (bound & _ & H). rewrite Hp, (poor_raises _ _ _ _ Hin) in H by reflexivity. cbn [bind] in H. discriminate.
Qed.
Theorem ht_remove_poor_atts_refuted : forall s, h_poor cfg = true -> h_no_preprune cfg = false -> reached s -> t_decision (ht_tree s) = 0.
Proof.
  intros s Hp Hn [es H].
  assert (Q : forall t x y w t', ht_good t -> t_decision t = 0 -> fit_weighted O (h_memory cfg) sz t x y w = Ok t' -> t_decision t' = 0).
  { intros t x y w t' G D F. destruct (fit_weighted_cases _ _ _ _ _ _ _ _ _ _ F) as [->|[_ F1]]; auto. destruct (ht_fit_one _ _ _ _ _ _ _ _ _ _ (good_add _ w G) F1) as (_ & [D1|[D1 _]] & _); [cbn in D1; lia|].
    apply (proj1 (ht_split_cause _ _ _ _ _ _ _ _ _ _ (good_add _ w G) F1)) in D1 as (p & l & l' & l2 & te & ds & _ & _ & _ & _ & C). exfalso. exact (poor_no_split _ _ _ _ Hp Hn C). }
  assert (Q2 : forall rows ws t t', ht_good t -> t_decision t = 0 -> ht_rows k phi key cfg sz t rows ws = Ok t' -> t_decision t' = 0).
  { induction rows as [|[x y] rows IH]; intros ws t t' G D E; cbn [ht_rows] in E; [destruct ws; injection E as <-; auto|]. destruct ws as [|w ws]; [injection E as <-; auto|].
    apply bind_Ok in E as (t1 & E1 & E). destruct (fit_weighted_good _ _ _ _ _ _ _ _ _ _ G E1) as (G1 & _). eauto. }
  assert (Q3 : forall es s0 s1, ht_good (ht_tree s0) -> t_decision (ht_tree s0) = 0 -> ht_run k phi key cfg sz s0 es = Ok s1 -> t_decision (ht_tree s1) = 0).
  { induction es0 as [|e es0 IH]; intros s0 s1 G D E; cbn [ht_run] in E; [injection E as <-; auto|]. apply bind_Ok in E as (s2 & E1 & E). destruct e as [rows c ws|].
    - cbn [ht_step] in E1. destruct (fit_good _ _ _ _ _ _ _ _ _ _ G E1) as (G1 & _). apply (IH s2); auto. unfold ht_fit in E1. cbv zeta in E1. destruct (Nat.eqb _ _); [|discriminate]. apply bind_Ok in E1 as (t & E1 & E2). injection E2 as <-. eauto.
    - injection E1 as <-. apply (IH _ _) in E; auto. apply good_new. }
  apply (Q3 es ht_new s); auto. apply good_new.
Qed.

(** C129, refuted: "no_preprune=False: a leaf for which not splitting is best is deactivated".  The leaf is activated again in
    the same call whenever the memory limit leaves room, so with a limit that never binds no leaf is ever inactive. *)
Theorem ht_preprune_refuted : forall s, c_stop (h_memory cfg) = false -> (forall w, c_period_due (h_memory cfg) w = false) ->
  (forall leaves active : nat, (c_max_bytes (h_memory cfg) <? (nofZ (Z.of_nat active) * n0 + nofZ (Z.of_nat (leaves - active)) * n0) * n1)%num = false) ->
  reached s -> t_inactive (ht_tree s) = 0.
Proof.
  intros s Hs Hd Hr [es H].
  set (P := fun t : tree T (leaf T) (list (Z * T)) (list (Z * T)) (htest T) => ht_good t /\ t_inactive t = 0 /\ same_sizes tree_new t).
  assert (PR : forall t, P t -> room (h_memory cfg) t). { intros t (_ & _ & S). apply (same_sizes_room (h_memory cfg) _ _ S). split; auto. }
  assert (Q : forall t x y w t', P t -> fit_weighted O (h_memory cfg) sz t x y w = Ok t' -> P t').
  { intros t x y w t' Pt F. destruct (fit_weighted_cases _ _ _ _ _ _ _ _ _ _ F) as [->|[_ F1]]; auto. pose proof (PR t Pt) as RM. destruct Pt as (G & I0 & S).
    destruct (ht_never_inactive _ _ _ _ _ _ _ _ _ _ (good_add _ w G) F1 (Hd _) RM I0) as [I1 S1]. destruct (fit_weighted_good _ _ _ _ _ _ _ _ _ _ G F) as (G1 & _).
    split; auto. split; auto. destruct S as (A & B & C), S1 as (A1 & B1 & C1). cbn in A1, B1, C1. repeat split; congruence. }
  assert (Q2 : forall rows ws t t', P t -> ht_rows k phi key cfg sz t rows ws = Ok t' -> P t').
  { induction rows as [|[x y] rows IH]; intros ws t t' G E; cbn [ht_rows] in E; [destruct ws; injection E as <-; auto|]. destruct ws as [|w ws]; [injection E as <-; auto|].
    apply bind_Ok in E as (t1 & E1 & E). eauto. }
  assert (P0 : P tree_new) by (split; [apply good_new|repeat split]).
  assert (Q3 : forall es s0 s1, P (ht_tree s0) -> ht_run k phi key cfg sz s0 es = Ok s1 -> P (ht_tree s1)).
  { induction es0 as [|e es0 IH]; intros s0 s1 G E; cbn [ht_run] in E; [injection E as <-; auto|]. apply bind_Ok in E as (s2 & E1 & E). apply (IH s2); auto. destruct e as [rows c ws|].
    - cbn [ht_step] in E1. unfold ht_fit in E1. cbv zeta in E1. destruct (Nat.eqb _ _); [|discriminate]. apply bind_Ok in E1 as (t & E1 & E2). injection E2 as <-. eauto.
    - injection E1 as <-. exact P0. }
  destruct (Q3 es ht_new s P0 H) as (_ & A & _). exact A.
Qed.
End Props.

(** The example of the memory limit splits at its sixth sample: both sides of C127 hold. *)
Example ht_split_example : exists s s' r' te ch, ht_reached 1%Q (fun x => x) q_key q_cfg q_sizes s /\ ht_fit 1%Q (fun x => x) q_key q_cfg q_sizes s [([2%Q], 1)] None (Some [1%Q]) = Ok s'
  /\ t_decision (ht_tree s') = t_decision (ht_tree s) + 1 /\ t_root (ht_tree s') = Some r' /\ node_at r' [] = Some (Split (TMulti te) [(0, 2%Q); (1, 4%Q)] ch).
Proof.
  destruct (ht_run 1%Q (fun x => x) q_key q_cfg q_sizes ht_new [HFit q_rows None None]) as [s|e] eqn:E; [|vm_compute in E; discriminate].
  exists s. assert (R : ht_reached 1%Q (fun x => x) q_key q_cfg q_sizes s) by (eexists; exact E). vm_compute in E. injection E as <-. do 4 eexists. split; [exact R|]. clear R.
  split; [vm_compute; reflexivity|]. repeat split; reflexivity.
Qed.

(** C130, refuted: "a split is made on an attribute that separates the samples".  With the default settings a constant nominal
    attribute is split into a single branch once the bound is below tie_threshold (here: samples of weight 2000), and the
    only leaf is split again and again. *)
Definition one_cfg : ht_config float :=
  @mk_ht float 200%float (@info_gain float NumF) 1e-7%float 0.05%float false false false MC 0%float (fun _ => true) (@mk_cfg float 33554432%float false (fun _ => false)).
Definition one_row (y : Z) : list (list float * Z) := [([0%float], y)].
Local Notation one_fit y := (HFit (one_row y) None (Some [2000%float])).
Definition depths (n : nat) : option (list nat) :=
  match @ht_run float NumF 1%float (fun x => x) ex_key one_cfg ex_sizes (@ht_new float NumF) [one_fit 0; one_fit 1] with
  | Raise _ => None
  | Ok s => (fix go n s := match n with
             | 0%nat => Some [ht_depth s]
             | S n => match @ht_run float NumF 1%float (fun x => x) ex_key one_cfg ex_sizes s [one_fit (Z.of_nat n mod 2)] with
                      | Ok s' => match go n s' with Some l => Some (ht_depth s :: l) | None => None end
                      | Raise _ => None end
             end) n s
  end.
Theorem ht_one_branch_split_refuted : exists s te ch,
  @ht_run float NumF 1%float (fun x => x) ex_key one_cfg ex_sizes (@ht_new float NumF) [one_fit 0; one_fit 1] = Ok s
  /\ t_root (ht_tree s) = Some (Split te [(0, 2000%float); (1, 2000%float)] [ch]) /\ depths 5 = Some [1; 2; 3; 4; 5; 6]%nat.
Proof.
  destruct (@ht_run float NumF 1%float (fun x => x) ex_key one_cfg ex_sizes (@ht_new float NumF) [one_fit 0; one_fit 1]) as [s|e] eqn:E; [|vm_compute in E; discriminate].
  exists s. vm_compute in E. injection E as <-. do 2 eexists. split; [reflexivity|]. split; [reflexivity|]. vm_compute. reflexivity.
Qed.

(** C131, refuted: "reset() resets the tree to its initial state".  The classes of the first call stay: labels that the second
    stream declares are not known, and predict_proba of their samples fails, while a new tree answers. *)
Definition reset_cfg : ht_config Q := mk_ht 100%Q q_crit 1%Q 1%Q false false false MC 0%Q (fun _ => true) (mk_cfg 100%Q false (fun _ => false)).
Local Notation reset_run := (ht_run 1%Q (fun x => x) q_key reset_cfg q_sizes ht_new).
Definition reset_rows : list (list Q * Z) := [([0%Q], 2); ([0%Q], 0)].
Theorem ht_reset_keeps_classes_refuted : exists s0 s s',
  reset_run [HFit [([0%Q], 0)] (Some [0; 1]) None] = Ok s0 /\
  reset_run [HFit [([0%Q], 0)] (Some [0; 1]) None; HReset; HFit reset_rows (Some [0; 1; 2]) None] = Ok s /\
  ht_proba 1%Q (fun x => x) q_key reset_cfg s [[0%Q]] = Raise IndexError /\
  reset_run [HFit reset_rows (Some [0; 1; 2]) None] = Ok s' /\ ht_proba 1%Q (fun x => x) q_key reset_cfg s' [[0%Q]] = Ok [[1 # 2; 0; 1 # 2]]%Q.
Proof. do 3 eexists. split; [vm_compute; reflexivity|]. split; [vm_compute; reflexivity|]. split; [vm_compute; reflexivity|]. split; vm_compute; reflexivity. Qed.
(** In general: whatever comes after the first call that names classes, resets included, [classes] never changes. *)
Theorem ht_classes_fixed : forall {T} {N : Num T} k phi key (cfg : ht_config T) sz es s s' c, ht_classes s = Some c -> ht_run k phi key cfg sz s es = Ok s' -> ht_classes s' = Some c.
Proof.
  intros T N k phi key cfg sz. induction es as [|e es IH]; intros s s' c Hc H; cbn [ht_run] in H; [injection H as <-; auto|]. apply bind_Ok in H as (s1 & H1 & H). apply (IH s1 s' c); auto. destruct e as [rows c1 ws|].
  - cbn [ht_step] in H1. unfold ht_fit in H1. cbv zeta in H1. destruct (Nat.eqb _ _); [|discriminate]. apply bind_Ok in H1 as (t & _ & H1). injection H1 as <-. cbn. now rewrite Hc.
  - injection H1 as <-. exact Hc.
Qed.

Print Assumptions ht_split_iff.
Print Assumptions ht_split_result.
Print Assumptions ht_remove_poor_atts_refuted.
Print Assumptions ht_preprune_refuted.
Print Assumptions ht_one_branch_split_refuted.
Print Assumptions ht_reset_keeps_classes_refuted.
Print Assumptions ht_classes_fixed.
