(** Hoeffding adaptive tree classifier: alternate trees, counters, answers, bootstrap weights. *)
From Coq Require Import List ZArith Bool Reals Lra Lia Floats QArith.
From Verif Require Import Base.Py Base.Num Base.NumFloat Base.Dict Model.Suggestion Model.Adwin Model.SplitTests Model.SplitCriteria Model.Knn Model.NaiveBayes Model.TreeSkeleton Model.HoeffdingTree
  Model.AdaTree Model.HoeffdingAdaptive Spec.AdaSpec Spec.Lists Spec.CriteriaSpec Proofs.TreeProofs Proofs.HoeffdingProofs Proofs.ExpertRunProofs Proofs.AdaProofs Proofs.HatProofs Proofs.HatVotesProofs Proofs.CriteriaProofs.
Import ListNotations.
Local Open Scope Z_scope.

Section General.
Context {T A G : Type} {N : Num T}.
(** External functions, constructor arguments, the detector, the generator: all arbitrary *)
Variables (k : T) (phi : T -> T) (key : T -> Z) (cfg : ht_config T) (bootstrap : bool) (D : det T A) (g_new : G) (poisson : G -> Z * G).
Local Notation dist := (list (Z * T)).
Local Notation O := (hat_ops k phi key cfg bootstrap D g_new poisson).
Local Notation run := (hat_run k phi key cfg bootstrap D g_new poisson hat_init).
Local Notation votes := (hat_votes k phi key cfg bootstrap D g_new poisson).
Local Notation hnode := (anode (aleaf T A G) dist dist (htest T) A).

(** C293: an alternate tree never grows: whatever was trained, each is a single leaf. *)
Theorem hat_alternates_are_leaves : forall os s t, run os = Ok s -> hat_root s = Some t -> Forall (fun a => is_aleaf a = true) (alternates t).
Proof. exact (run_alternates k phi key cfg bootstrap D g_new poisson). Qed.

(** C294: until the first alternate tree and without reset the numbers of active leaves, inactive leaves and decision nodes are right, and
    no tree was pruned or switched. *)
Theorem hat_counters_partial : forall os s t, ~ In HReset os -> run os = Ok s -> k_alternate (hat_counts s) = 0 -> hat_root s = Some t ->
  k_active (hat_counts s) = number is_aleaf t /\ k_inactive (hat_counts s) = number is_adead t /\ k_decision (hat_counts s) = number is_asplit t
  /\ k_pruned (hat_counts s) = 0 /\ k_switched (hat_counts s) = 0 /\ alternates t = [].
Proof.
  intros os s t Hr H Hk Et. destruct (run_counted k phi key cfg bootstrap D g_new poisson os s Hr H Hk) as (A1 & A2 & A3). rewrite Et in A3. destruct A3 as (A3 & A4 & A5 & A6). auto 10.
Qed.

(** C295: with stop_mem_management=False no leaf is ever inactive. *)
Theorem hat_never_inactive : forall os s t, c_stop (h_memory cfg) = false -> run os = Ok s -> hat_root s = Some t -> number is_adead t = 0.
Proof. exact (run_alive k phi key cfg bootstrap D g_new poisson). Qed.

(** C296: an instance is answered by the one leaf of the main tree it is sorted to, alternate trees have no say, and a test without a branch
    for it leaves no votes at all. *)
Theorem hat_answers : forall os s t x p, c_stop (h_memory cfg) = false -> run os = Ok s -> hat_root s = Some t -> sorted O t x p ->
  (exists l, p = At (ALeaf l) /\ votes s x = al_votes k key cfg D l x) \/ ((exists n, p = Branchless n) /\ votes s x = Ok []).
Proof.
  intros os s t x p Hc H Et Hp. pose proof (votes_at k phi key cfg bootstrap D g_new poisson s t x p Et (run_ok k phi key cfg bootstrap D g_new poisson os s H t Et) (hat_never_inactive os s t Hc H Et) Hp) as Q.
  destruct p as [n|n|n]; [destruct Q as (l & -> & Q); left; eauto|destruct Q|right; eauto].
Qed.
Theorem hat_answers_always : forall os s t x, c_stop (h_memory cfg) = false -> run os = Ok s -> hat_root s = Some t ->
  (forall te st wt alt ch, In (ASplit te st wt alt ch) (main_nodes t) -> exists b, ht_branch key te x = Ok b) -> exists p, sorted O t x p.
Proof. intros os s t x _ _ _ H. apply sorted_somewhere. exact H. Qed.

(** C298: what becomes of the alternate tree [a] of a split node when a sample comes that has a branch.  [wt'], [changed]: the detector after
    it has been told whether the main tree was right.  The alternate tree replaces the node exactly if no change is signalled, both error
    windows hold more than 300 values and its error is smaller by more than the bound -- as long as teaching it the sample does not end in a
    split --; it is dropped exactly if its error is larger by more than the bound; a signalled change replaces it by a new one. *)
Definition mature (wt' : A) (a : aleaf T A G) : Prop := nltb (nofZ 300) (d_width D wt') = true /\ nltb (nofZ 300) (d_width D (al_det a)) = true.
Definition bound (wt' : A) (a : aleaf T A G) : T := hat_bound (d_est D wt') (d_width D (al_det a)) (d_width D wt').
Definition guess (t : hnode) (x : list T) (m : Z) : Prop :=
  exists n v, aroute O t x = Ok (Some n) /\ avote O n x = Ok v /\ (match v with [] => Ok 0 | _ => max_key v end) = Ok m.
Lemma main_wf (t n : hnode) : hat_wf t -> In n (main_nodes t) -> hat_wf n.
Proof.
  induction t as [l|i|te st wt alt ch _ IHc] using anode_ind'; intros W [<-|Hn]; try exact W; try destruct Hn. inversion W as [| |? ? ? ? ? K TI F A1]; subst. clear W K TI A1.
  induction ch as [|[k0 c] ch IH]; [destruct Hn|]. inversion F; inversion IHc; subst. apply in_app_iff in Hn as [Hn|Hn]; auto.
Qed.
Theorem hat_alternate_fate : forall os s t linked te st wt a ch x y w c t' over c' m wt' changed b,
  run os = Ok s -> hat_root s = Some t -> In (ASplit te st wt (Some (ALeaf a)) ch) (main_nodes t) ->
  alearn O linked (ASplit te st wt (Some (ALeaf a)) ch) x y w c = Ok (t', over, c') ->
  guess (ASplit te st wt (Some (ALeaf a)) ch) x m ->
  watch D wt (y =? m) = Ok (wt', changed) ->
  ht_branch key te x = Ok b -> 0 <= b ->
  (forall c0, exists a', aleaf_learn O linked a x y w c0 = Ok (ALeaf a', None, c0)) ->
  (forall c0, exists a', aleaf_learn O linked (al_new D g_new []) x y w c0 = Ok (ALeaf a', None, c0)) ->
  (over <> None <-> changed = false /\ mature wt' a /\ nltb (bound wt' a) (d_est D wt' - d_est D (al_det a))%num = true) /\
  (forall n, over = Some n -> forall c0, aleaf_learn O linked a x y w c0 = Ok (n, None, c0)) /\
  exists te' ch' alt', t' = ASplit te' st wt' alt' ch' /\
    (alt' = None <-> changed = false /\ mature wt' a /\ nltb (bound wt' a) (d_est D wt' - d_est D (al_det a))%num = false
                     /\ nltb (bound wt' a) (d_est D (al_det a) - d_est D wt')%num = true) /\
    (forall n c0, alt' = Some n -> aleaf_learn O linked (if changed then al_new D g_new [] else a) x y w c0 = Ok (n, None, c0)).
Proof.
  intros os s t linked te st wt a ch x y w c t' over c' m wt' changed b Hrun Et Hin H (n & v & Ef & Ev & Em) Ew Eb Hb Ha Hn.
  pose proof (main_wf _ _ (run_ok k phi key cfg bootstrap D g_new poisson os s Hrun t Et) Hin) as Wt.
  apply (alearn_split_inv O test_ok al_ok ndk (hat_branch k phi key cfg bootstrap D g_new poisson)) in H; [|exact Wt].
  destruct H as (found & p & wt2 & changed2 & vd & c1 & alt' & over1 & c2 & te' & ch' & E1 & E2 & E3 & E4 & E5 & E6 & ->).
  rewrite Ef in E1. injection E1 as <-. destruct E2 as (v2 & E2 & ->). rewrite Ev in E2. injection E2 as <-.
  cbn [hat_ops a_see] in E3. unfold max_value_key in E3. rewrite Em in E3. cbn [bind] in E3. rewrite Ew in E3. injection E3 as <- <-.
  destruct (judge_rule k phi key cfg bootstrap D g_new poisson _ _ _ _ _ _ _ E4) as (J1 & J2 & J3).
  assert (over = over1) as ->.
  { inversion E6 as [b0 n0 n' s0 c0 F1 F2 F3|b0 ? ? ? ? ? F1 F2|b0 F1 F2 F3 F4]; subst; try reflexivity; change (ht_branch key te x = Ok b0) in F1; rewrite Eb in F1; injection F1 as <-; lia. }
  assert (SD : forall (l : aleaf T A G) l' r c0 c3, (forall c0, exists a', aleaf_learn O linked l x y w c0 = Ok (ALeaf a', None, c0)) -> leaf_step O linked l x y w c0 l' r c3 ->
     r = None /\ forall c4, aleaf_learn O linked l x y w c4 = Ok (ALeaf l', None, c4)).
  { intros l l' r c0 c3 Hl Hs. destruct (Hl c0) as (a' & El). apply aleaf_learn_inv in El as (l'' & Q & Hs'). injection Q as <-.
    assert (Fu : forall l1 r1 c1' l2 r2 c2', leaf_step O linked l x y w c0 l1 r1 c1' -> leaf_step O linked l x y w c0 l2 r2 c2' -> l1 = l2 /\ r1 = r2).
    { intros l1 r1 c1' l2 r2 c2' G1 G2. inversion G1; inversion G2; subst; repeat match goal with
        | P : ?f = Ok ?u, Q : ?f = Ok ?v |- _ => rewrite P in Q; injection Q; clear Q; intros; subst
        | P : ?f = true, Q : ?f = false |- _ => rewrite P in Q; discriminate Q
        | P : true = true -> ?f = None, Q : ?f = Some _ |- _ => rewrite (P eq_refl) in Q; discriminate Q
        | P : ?f = Some _, Q : ?f = Some _ |- _ => rewrite P in Q; injection Q; clear Q; intros; subst
        end; try (split; reflexivity); try congruence. }
    destruct (Fu _ _ _ _ _ _ Hs Hs') as [-> ->]. split; [reflexivity|]. intros c4. destruct (Hl c4) as (a2 & El). rewrite El. apply aleaf_learn_inv in El as (l3 & Q & Hs3). injection Q as <-. f_equal. f_equal. f_equal. f_equal.
    inversion Hs3; inversion Hs'; subst; congruence. }
  assert (Q : (over1 <> None <-> vd = Switch) /\ (forall n1, over1 = Some n1 -> forall c0, aleaf_learn O linked a x y w c0 = Ok (n1, None, c0)) /\ (alt' = None <-> vd = Prune) /\
     (forall n1 c0, alt' = Some n1 -> aleaf_learn O linked (if changed then al_new D g_new [] else a) x y w c0 = Ok (n1, None, c0))).
  { inversion E5 as [l' r c3 S1|Z1|v1 Z1|l l' r c3 Z1 S1|l l' r c3 Z1 S1]; subst.
    - destruct (SD _ _ _ _ _ Hn S1) as [-> B]. assert (changed = true) as -> by (apply J1; reflexivity). repeat split; intros; try discriminate; try congruence; match goal with E : Some _ = Some ?n |- _ => injection E as <-; apply B end.
    - repeat split; intros; try discriminate; congruence.
    - discriminate.
    - injection Z1 as <-. destruct (SD _ _ _ _ _ Ha S1) as [-> B]. assert (changed = false) as -> by (destruct changed; [destruct J1 as [_ J1]; discriminate (J1 eq_refl)|reflexivity]).
      repeat split; intros; try discriminate; try congruence; match goal with E : Some _ = Some ?n |- _ => injection E as <-; apply B end.
    - injection Z1 as <-. destruct (SD _ _ _ _ _ Ha S1) as [-> B]. assert (changed = false) as -> by (destruct changed; [destruct J1 as [_ J1]; discriminate (J1 eq_refl)|reflexivity]).
      repeat split; intros; try discriminate; try congruence; match goal with E : Some _ = Some ?n |- _ => injection E as <-; apply B end. }
  destruct Q as (Q1 & Q2 & Q3 & Q4). unfold mature, bound. split; [rewrite Q1, J2; tauto|]. split; [exact Q2|]. exists te', ch', alt'. split; [reflexivity|]. split; [rewrite Q3, J3; tauto|exact Q4].
Qed.

(** C299, positive part: learning a sample leaves the children of the other branches alone. *)
Theorem hat_other_branches : forall os s t linked te st wt alt ch x y w c t' over c' b, run os = Ok s -> hat_root s = Some t -> In (ASplit te st wt alt ch) (main_nodes t) ->
  alearn O linked (ASplit te st wt alt ch) x y w c = Ok (t', over, c') -> ht_branch key te x = Ok b ->
  exists te' wt' alt' ch', t' = ASplit te' st wt' alt' ch' /\ forall b' n, b' <> b -> dget ch b' = Some n -> dget ch' b' = Some n.
Proof.
  intros os s t linked te st wt alt ch x y w c t' over c' b Hrun Et Hin H Eb.
  pose proof (main_wf _ _ (run_ok k phi key cfg bootstrap D g_new poisson os s Hrun t Et) Hin) as Wt.
  apply (alearn_split_inv O test_ok al_ok ndk (hat_branch k phi key cfg bootstrap D g_new poisson)) in H; [|exact Wt].
  destruct H as (found & p & wt2 & changed2 & vd & c1 & alt' & over1 & c2 & te' & ch' & E1 & E2 & E3 & E4 & E5 & E6 & ->). exists te', wt2, alt', ch'. split; [reflexivity|].
  intros b' n Hb Hn. inversion E6 as [b0 n0 n' s0 c0 F1 F2 F3|b0 te2 b2 l' r c0 F1 F2 F3 F4 F5 F6|b0 F1 F2 F3 F4]; subst; [| |exact Hn]; cbn [hat_ops a_branch] in F1; rewrite Eb in F1; injection F1 as <-.
  - rewrite dget_dset. destruct (Z.eqb_spec b b'); [congruence|exact Hn].
  - inversion Wt as [| |? ? ? ? ? K TI F A1]; subst. destruct (hat_add k phi key cfg bootstrap D g_new poisson _ _ _ _ _ _ TI Eb F2 F4 F5) as [-> _]. rewrite dget_dset.
    destruct (Z.eqb_spec (Z.of_nat (length ch)) b') as [<-|Hl]; [|exact Hn]. exfalso. apply dget_In in Hn. assert (Hi : In (Z.of_nat (length ch)) (dkeys ch)) by (unfold dkeys; apply in_map_iff; exists (Z.of_nat (length ch), n); auto).
    rewrite K in Hi. apply in_map_iff in Hi as (i & E0 & Hi). apply in_seq in Hi. lia.
Qed.

(** C300: a leaf learns a sample of weight w with the weight w * max(draw, 1) when bootstrap sampling is on -- never with less -- and w when
    it is off. *)
Theorem hat_bootstrap_weight : forall (l l' : aleaf T A G) x y w, al_learn k key cfg bootstrap D poisson l x y w = Ok l' ->
  lf_stats (al_leaf l') = update_stats (lf_stats (al_leaf l)) y
    (if bootstrap then (if (0 <? fst (poisson (al_rng l)))%Z then (w * nofZ (fst (poisson (al_rng l))))%num else w) else w).
Proof.
  intros l l' x y w H. unfold al_learn, boot in H.
  destruct bootstrap; [destruct (poisson (al_rng l)) as [n g]; cbn [fst]; destruct (0 <? n)|];
    (apply bind_Ok in H as (v & _ & H); apply bind_Ok in H as (m & _ & H); apply bind_Ok in H as ([a1 ch1] & _ & H); apply bind_Ok in H as (lf & El & H); injection H as <-; cbn [al_leaf];
     unfold leaf_learn in El; apply bind_Ok in El as ([mc nb] & _ & El); apply bind_Ok in El as (obs & _ & El); injection El as <-; reflexivity).
Qed.

(** C301, refuted: nb_threshold, the documented number of instances a leaf sees before naive Bayes is used, has no effect. *)
Definition with_threshold (th : T) : ht_config T :=
  mk_ht (h_grace cfg) (h_crit cfg) (h_confidence cfg) (h_tie cfg) (h_binary cfg) (h_poor cfg) (h_no_preprune cfg) (h_kind cfg) th (h_nominal cfg) (h_memory cfg).
Theorem hat_nb_threshold_refuted : forall th os, hat_run k phi key (with_threshold th) bootstrap D g_new poisson hat_init os = run os
  /\ forall s x, hat_votes k phi key (with_threshold th) bootstrap D g_new poisson s x = votes s x.
Proof. intros th os. split; reflexivity. Qed.
End General.

(** ** Real numbers *)
Section Real.
Context {A G : Type}.
Variables (k : R) (phi : R -> R) (key : R -> Z) (cfg : ht_config R) (bootstrap : bool) (D : det R A) (g_new : G) (poisson : G -> Z * G).
Local Open Scope R_scope.
(** C298: the bound that the difference of the error rates has to exceed *)
Theorem hat_bound_value : forall old wa ws : R, hat_bound old wa ws = R_sqrt.sqrt (2 * old * (1 - old) * ln 40 * (1 / wa + 1 / ws)).
Proof. intros old wa ws. unfold hat_bound, n1. cbn [nsqrt nmul nsub nln ndiv nadd nofZ NumR]. replace (2 / (1 / 20)) with 40 by lra. reflexivity. Qed.
(** C297: the votes of a leaf are divided by the square of its error rate, but a row of predict_proba is the same as without. *)
Definition plain_votes (l : aleaf R A G) (x : list R) : res (list (Z * R)) :=
  match h_kind cfg with
  | MC => Ok (lf_stats (al_leaf l))
  | NB => nb_votes k key x (lf_stats (al_leaf l)) (lf_obs (al_leaf l))
  | NBA => if (lf_nb (al_leaf l) <? lf_mc (al_leaf l))%num then Ok (lf_stats (al_leaf l)) else nb_votes k key x (lf_stats (al_leaf l)) (lf_obs (al_leaf l))
  end.
Theorem hat_error_weights_unseen : forall os s t x l, c_stop (h_memory cfg) = false -> hat_run k phi key cfg bootstrap D g_new poisson hat_init os = Ok s -> hat_root s = Some t ->
  sorted (hat_ops k phi key cfg bootstrap D g_new poisson) t x (At (ALeaf l)) ->
  hat_proba k phi key cfg bootstrap D g_new poisson s [x] = (v <- plain_votes l x ;; row <- ht_row (hat_classes s) v ;; Ok [row]).
Proof.
  intros os s t x l Hc H Et Hp. destruct (hat_answers k phi key cfg bootstrap D g_new poisson os s t x _ Hc H Et Hp) as [(l' & Q & Hv)|((n & Q) & _)]; [|discriminate]. injection Q as <-.
  unfold hat_proba. cbn [mapM]. rewrite Hv. unfold al_votes. change (match h_kind cfg with MC => Ok (lf_stats (al_leaf l)) | NB => nb_votes k key x (lf_stats (al_leaf l)) (lf_obs (al_leaf l)) | NBA => leaf_votes k key (nba_config cfg) (al_leaf l) x end) with (plain_votes l x).
  destruct (plain_votes l x) as [v|e]; [|reflexivity]. cbn [bind]. cbv zeta.
  assert (E : ht_row (hat_classes s) (if (n0 <? vsum v * d_est D (al_det l) * d_est D (al_det l))%num then map (fun kv => (fst kv, (snd kv / (vsum v * d_est D (al_det l) * d_est D (al_det l)))%num)) v else v) = ht_row (hat_classes s) v).
  { change (@nltb R NumR) with Rltb. destruct (Rltb n0 _) eqn:E; [|reflexivity]. apply Rltb_true in E. unfold n0 in E. cbn [nofZ NumR nmul] in E. apply row_scale; [exact E|]. intros Z0. rewrite vsum_weight, Z0 in E. lra. }
  rewrite E. destruct (ht_row (hat_classes s) v) as [row|e]; [|reflexivity]. cbn [bind]. destruct (hat_classes s); [reflexivity|]. unfold pad_rows. cbn. rewrite Nat.sub_diag. cbn. rewrite app_nil_r. reflexivity.
Qed.
End Real.

(** ** Runs with 64-bit floats and ADWIN *)
Definition a_key (v : float) : Z := if PrimFloat.eqb v 1 then 1 else if PrimFloat.eqb v 3 then 3 else 5.
(** grace_period 200, information gain, split_confidence 1e-7 and tie_threshold 0.05 (as the nearest floats), majority class leaves *)
Definition a_cfg (nominal binary stop : bool) : ht_config float :=
  @mk_ht float 200%float (@info_gain float NumF) 0x1.ad7f29abcaf48p-24%float 0x1.999999999999ap-5%float binary false false MC 0%float (fun _ => nominal) (@mk_cfg float 33554432%float stop (fun _ => false)).
Definition a_state := hat float (adwin float) unit.
Definition samples (rows : list (list float * Z * float)) : list (hat_op float) := map (fun r => HFit [fst r] None (Some [snd r])) rows.
Definition a_run (nominal binary stop : bool) (os : list (hat_op float)) : res a_state :=
  @hat_run float (adwin float) unit NumF 1%float (fun x => x) a_key (a_cfg nominal binary stop) false (@adwin_det float NumF) tt (fun g => (1, g)) (@hat_init float (adwin float) unit NumF) os.
Definition a_votes (nominal binary stop : bool) (s : a_state) (x : list float) : res (list (Z * float)) :=
  @hat_votes float (adwin float) unit NumF 1%float (fun x => x) a_key (a_cfg nominal binary stop) false (@adwin_det float NumF) tt (fun g => (1, g)) s x.
Definition a_predict (nominal binary stop : bool) (s : a_state) (x : list float) : res (list nat) :=
  @hat_predict float (adwin float) unit NumF 1%float (fun x => x) a_key (a_cfg nominal binary stop) false (@adwin_det float NumF) tt (fun g => (1, g)) s [x].
(** The tree as its kinds of nodes: leaves, inactive leaves, split nodes; and the sizes of the error windows of the alternate trees *)
Definition kinds (s : a_state) : option (Z * Z * Z) := option_map (fun t => (number is_aleaf t, number is_adead t, number is_asplit t)) (hat_root s).
Definition alt_windows (s : a_state) : option (list Z) :=
  option_map (fun t => map (fun a => match a with ALeaf l => ad_width (al_det l) | _ => -1 end) (alternates t)) (hat_root s).
Definition again {V : Type} (n : nat) (l : list V) : list V := concat (repeat l n).
Local Open Scope float_scope.
(** Two attributes; the first tells the class. *)
Definition learnt : list (list float * Z * float) := [([1; 1], 0%Z, 2000); ([3; 1], 1%Z, 2000)] ++ again 100 [([1; 1], 0%Z, 1); ([3; 1], 1%Z, 1)].
(** Then every sample is of class 2. *)
Definition drift (n : nat) : list (list float * Z * float) := learnt ++ again n [([1; 1], 2%Z, 1); ([3; 1], 2%Z, 1)].

(** C294, refuted in general: after a switch to the alternate tree the tree is a single leaf and reports -1 active leaves and a decision node. *)
Theorem hat_counters_switch_refuted : exists s, a_run true true false (samples (drift 220)) = Ok s /\ kinds s = Some (1, 0, 0)%Z
  /\ hat_counts s = mk_counts (-1) 0 1 3 0 1.
Proof. eexists. repeat (split; [vm_compute; reflexivity|]). vm_compute. reflexivity. Qed.
(** ... and after reset the decision nodes of the old tree are still counted. *)
Theorem hat_counters_reset_refuted : exists s, a_run true true false (samples learnt ++ HReset :: samples [([1; 1], 0%Z, 1)]) = Ok s /\ kinds s = Some (1, 0, 0)%Z
  /\ k_decision (hat_counts s) = 1%Z.
Proof. eexists. repeat (split; [vm_compute; reflexivity|]). vm_compute. reflexivity. Qed.
(** The hypotheses of the counters theorem are met by a tree that has split; those of the fate theorem by one with an alternate tree. *)
Example hat_counters_example : exists s, a_run true true false (samples learnt) = Ok s /\ kinds s = Some (2, 0, 1)%Z /\ k_alternate (hat_counts s) = 0%Z /\ alt_windows s = Some [].
Proof. eexists. repeat (split; [vm_compute; reflexivity|]). vm_compute. reflexivity. Qed.
Example hat_alternate_example : exists s, a_run true true false (samples (drift 50)) = Ok s /\ kinds s = Some (2, 0, 1)%Z /\ alt_windows s = Some [13]%Z /\ k_alternate (hat_counts s) = 3%Z.
Proof. eexists. repeat (split; [vm_compute; reflexivity|]). vm_compute. reflexivity. Qed.

(** C299, refuted: an alternate tree that splits takes the place of the main tree without any comparison of the errors: here its error
    window holds 13 values, and two samples later it is the tree.  (k_switched stays 0.) *)
Theorem hat_takeover_refuted : exists s s' te st wt ch,
  a_run true true false (samples (drift 50)) = Ok s /\ kinds s = Some (2, 0, 1)%Z /\ alt_windows s = Some [13]%Z /\
  a_run true true false (samples (drift 50 ++ [([1; 3], 1%Z, 300); ([3; 3], 1%Z, 300)])) = Ok s' /\
  hat_root s' = Some (ASplit te st wt None ch) /\ st = [(1%Z, 600); (2%Z, 13)] /\ k_switched (hat_counts s') = 0%Z /\ kinds s' = Some (2, 0, 1)%Z
  /\ k_active (hat_counts s') = 5%Z /\ k_decision (hat_counts s') = 4%Z.
Proof. do 6 eexists. repeat (split; [vm_compute; reflexivity|]). vm_compute. reflexivity. Qed.

(** C295, refuted with stop_mem_management=True: numeric attributes that are constant in a leaf make it inactive, and the next sample that is
    sorted to it cannot be trained or predicted any more. *)
Definition constant : list (list float * Z * float) := [([1; 1], 0%Z, 500); ([3; 1], 1%Z, 500); ([1; 1], 0%Z, 1); ([1; 1], 1%Z, 500)].
Theorem hat_inactive_refuted : exists s, a_run false true true (samples constant) = Ok s /\ kinds s = Some (1, 1, 1)%Z
  /\ a_votes false true true s [1; 1] = Raise AttributeError /\ a_run false true true (samples (constant ++ [([1; 1], 1%Z, 1)])) = Raise TypeError.
Proof. eexists. repeat (split; [vm_compute; reflexivity|]). vm_compute. reflexivity. Qed.

(** C296, refuted: most samples have class 1, but an attribute value that a multiway split has no branch for is answered with class 0,
    as there are no votes at all.  The Hoeffding tree answers with the classes of the split node: class 1. *)
Definition mostly_one : list (list float * Z * float) := [([1; 1], 0%Z, 300); ([3; 1], 1%Z, 500)].
Theorem hat_unseen_value_refuted : exists s s', a_run true false false (samples mostly_one) = Ok s /\ a_votes true false false s [5; 1] = Ok [] /\ a_predict true false false s [5; 1] = Ok [0%nat]
  /\ @ht_fit float NumF 1 (fun x => x) a_key (a_cfg true false false) (mk_sizes (fun _ => 1000) (fun _ => 100) (fun _ => 1000)) (@ht_new float NumF)
       (map fst mostly_one) None (Some (map snd mostly_one)) = Ok s'
  /\ @ht_votes float NumF 1 (fun x => x) a_key (a_cfg true false false) s' [5; 1] = Ok [(0%Z, 300); (1%Z, 500)].
Proof. do 2 eexists. repeat (split; [vm_compute; reflexivity|]). vm_compute. reflexivity. Qed.
Example hat_answers_example : exists s t l, a_run true false false (samples mostly_one) = Ok s /\ hat_root s = Some t
  /\ sorted (@hat_ops float (adwin float) unit NumF 1 (fun x => x) a_key (a_cfg true false false) false (@adwin_det float NumF) tt (fun g => (1%Z, g))) t [3; 1] (At (ALeaf l))
  /\ a_votes true false false s [3; 1] = Ok [(1%Z, 500)].
Proof. do 3 eexists. split; [vm_compute; reflexivity|]. split; [vm_compute; reflexivity|]. split; [econstructor 3; [vm_compute; reflexivity|lia|vm_compute; reflexivity|constructor]|vm_compute; reflexivity]. Qed.

(** C300, refuted: when the draw is 0 the sample should not be learned; it is learned with its full weight. *)
Theorem hat_bootstrap_refuted : exists s l, @hat_run float (adwin float) unit NumF 1 (fun x => x) a_key (a_cfg true false false) true (@adwin_det float NumF) tt (fun g => (0%Z, g)) (@hat_init float (adwin float) unit NumF)
    (samples [([1; 1], 1%Z, 1); ([1; 1], 1%Z, 1)]) = Ok s
  /\ hat_root s = Some (ALeaf l) /\ lf_stats (al_leaf l) = [(1%Z, 2)].
Proof. do 2 eexists. repeat (split; [vm_compute; reflexivity|]). vm_compute. reflexivity. Qed.

Print Assumptions hat_alternates_are_leaves.
Print Assumptions hat_counters_partial.
Print Assumptions hat_never_inactive.
Print Assumptions hat_answers.
Print Assumptions hat_answers_always.
Print Assumptions hat_alternate_fate.
Print Assumptions hat_other_branches.
Print Assumptions hat_bootstrap_weight.
Print Assumptions hat_nb_threshold_refuted.
Print Assumptions hat_bound_value.
Print Assumptions hat_error_weights_unseen.
Print Assumptions hat_counters_switch_refuted.
Print Assumptions hat_counters_reset_refuted.
Print Assumptions hat_takeover_refuted.
Print Assumptions hat_inactive_refuted.
Print Assumptions hat_unseen_value_refuted.
Print Assumptions hat_bootstrap_refuted.
