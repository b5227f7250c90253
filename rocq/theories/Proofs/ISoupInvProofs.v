(** The multi-target trees meet the requirements of the skeleton, for any numbers, models of the leaves and invariants of the leaves. *)
From Coq Require Import List ZArith Bool Lia Permutation.
From Verif Require Import Base.Py Base.Num Base.Dict Model.Suggestion Model.TargetStats Model.Ebst Model.NominalObs Model.SplitTests
  Model.SplitCriteria Model.Knn Model.TreeSkeleton Model.HoeffdingTree Model.HoeffdingRegressor Model.ISoup Spec.TreeSpec Spec.ISoupSpec
  Proofs.SplitTestProofs Proofs.TreeProofs Proofs.HoeffdingProofs Proofs.HoeffdingRegressorProofs.
Import ListNotations.
Local Open Scope Z_scope.

Section Generic.
Context {T : Type} {N : Num T} (key : T -> Z) (cfg : htr_config T) (nt : nat) (M : model T).
Local Notation st := (stat T nat).
Local Notation O := (mt_ops key cfg nt M).
Local Notation sug := (suggestion (option (htest T)) (list (option st)) T).

(** A configuration of the classifier, to reuse its lemmas about tests *)
Let hc : ht_config T := mk_ht n0 gini n0 n0 false false false MC n0 (fun _ => false) (mk_cfg n0 false (fun _ => false)).
Lemma mbranch_lt te n i b : test_ok te n -> o_branch O te i = Ok b -> b < Z.of_nat n.
Proof. intros H E. exact (branch_lt n0 (fun x => x) key hc te n (mi_x i) b H E). Qed.
Lemma madd_branch te n i b te' b' : test_ok te n -> o_multiway O te = true -> o_branch O te i = Ok b -> b < 0 -> o_add O te i = Ok (te', b') ->
  b' = Z.of_nat n /\ test_ok te' (n + 1) /\ forall i2 b2, o_branch O te i2 = Ok b2 -> 0 <= b2 -> o_branch O te' i2 = Ok b2.
Proof.
  intros H Mw E L A. destruct (add_branch n0 (fun x => x) key hc te n (mi_x i) b te' b' H Mw E L A) as (B & C & D). split; auto. split; auto.
  intros i2 b2 E2. exact (D (mi_x i2) b2 E2).
Qed.

(** ** Observers keep non-negative attribute indices *)
Definition mkeys (l : mleaf M) : Prop := NoDup (dkeys (ml_obs M l)) /\ forall i, In i (dkeys (ml_obs M l)) -> 0 <= i.
Lemma update_mobs_keys y w : forall x obs i, 0 <= i -> NoDup (dkeys obs) -> (forall j, In j (dkeys obs) -> 0 <= j) ->
  NoDup (dkeys (update_mobs key cfg obs i x y w)) /\ forall j, In j (dkeys (update_mobs key cfg obs i x y w)) -> 0 <= j.
Proof.
  induction x as [|v x IH]; intros obs i Li ND H; cbn [update_mobs]; auto. apply IH; [lia|now apply NoDup_dset|].
  intros j Hj. apply In_dkeys_dset in Hj as [->|Hj]; auto.
Qed.
Lemma mkeys_new s p : mkeys (mleaf_new M s p). Proof. split; [constructor|intros i []]. Qed.
Lemma mkeys_learn l i y w l' : mkeys l -> mleaf_learn key cfg M l i y w = Ok l' -> mkeys l'.
Proof.
  unfold mleaf_learn. intros [A B] H. apply bind_Ok in H as (p & _ & H). injection H as <-. unfold mkeys. cbn [ml_obs].
  exact (update_mobs_keys y w (mi_x i) (ml_obs M l) 0 (Z.le_refl 0) A B).
Qed.
Lemma mdisable_keys l a : mkeys l -> mkeys (mdisable M l a) /\ ml_stats M (mdisable M l a) = ml_stats M l /\ ml_model M (mdisable M l a) = ml_model M l.
Proof.
  intros [ND H]. unfold mdisable. destruct (dmem (ml_obs M l) a) eqn:E; [|repeat split; auto]. split; [|auto]. apply dmem_true in E. split; cbn [ml_obs]; [now apply NoDup_dset|].
  intros i Hi. rewrite dset_old in Hi by auto. auto.
Qed.
Lemma mdisable_all p : forall l, mkeys l -> mkeys (fold_left (mdisable M) p l) /\ ml_stats M (fold_left (mdisable M) p l) = ml_stats M l /\ ml_model M (fold_left (mdisable M) p l) = ml_model M l.
Proof.
  induction p as [|a p IH]; intros l H; cbn [fold_left]; auto. destruct (mdisable_keys l a H) as (A & B & C). destruct (IH _ A) as (D & E & F).
  split; auto. split; congruence.
Qed.
Lemma mdisable_all_stats p : forall l, ml_stats M (fold_left (mdisable M) p l) = ml_stats M l /\ ml_model M (fold_left (mdisable M) p l) = ml_model M l.
Proof.
  induction p as [|a p IH]; intros l; cbn [fold_left]; auto. destruct (IH (mdisable M l a)) as [A B]. rewrite A, B. unfold mdisable. destruct (dmem _ _); auto.
Qed.
Lemma mmanage_keys l pre r s e l' : mmanage nt M l pre r s e = Ok l' -> (mkeys l -> mkeys l') /\ ml_stats M l' = ml_stats M l /\ ml_model M l' = ml_model M l.
Proof.
  unfold mmanage. intros H. apply bind_Ok in H as (obs & E & H). injection H as <-. apply mapM_fst in E. cbn [ml_stats ml_model]. split; auto. unfold mkeys. cbn [ml_obs]. now rewrite E.
Qed.

(** ** Suggestions *)
Definition msug_ok (s : sug) : Prop := match sg_test s with Some t => test_ok t (length (sg_dists s)) | None => True end.
Lemma mbest_of_ok pre i o s : 0 <= i -> mbest_of cfg nt pre i o = Ok (Some s) -> msug_ok s.
Proof.
  intros Li. destruct o as [t|d|]; cbn [mbest_of]; [| |discriminate].
  - intros H. apply bind_Ok in H as (b & _ & H). injection H as <-. unfold msug_ok. destruct (sg_test b); [|exact Logic.I]. destruct (sg_dists b) as [[? ?]|]; cbn; auto.
  - unfold nr_best. cbv zeta. rewrite fold_keep. intros H. destruct (fold_left keep_best _ _) as [b|] eqn:E; [|discriminate]. injection H as <-. apply keep_best_in in E as [E|E].
    + apply in_map_iff in E as (a & <- & _). cbn. auto.
    + destruct (r_binary cfg); [discriminate|]. injection E as <-. unfold msug_ok. cbn [sg_test sg_dists test_ok multi_new mw_att mw_map]. split; auto.
      rewrite branch_mapping_vals, !map_length. reflexivity.
Qed.
Lemma msuggestions_in l pre bs s : msuggestions cfg nt M l pre = Ok bs -> In s bs -> s = mnull_split nt pre \/ exists i o, In (i, o) (ml_obs M l) /\ mbest_of cfg nt pre i o = Ok (Some s).
Proof.
  intros H Hs. unfold msuggestions in H. apply bind_Ok in H as (rs & E & H). injection H as <-. apply in_app_iff in Hs as [Hs|Hs].
  - destruct (r_no_preprune cfg); [destruct Hs|destruct Hs as [<-|[]]; auto].
  - right. apply in_flat_map in Hs as ([s'|] & Hin & Hs); [|contradiction]. destruct Hs as [->|[]]. destruct (mapM_in _ _ _ E _ Hin) as ([i o] & Hio & Eb). eauto.
Qed.
Lemma msuggestions_ok l pre bs : mkeys l -> msuggestions cfg nt M l pre = Ok bs -> Forall msug_ok bs.
Proof.
  intros [_ K] H. apply Forall_forall. intros s Hs. destruct (msuggestions_in _ _ _ _ H Hs) as [->|(i & o & Hio & Eb)]; [exact Logic.I|].
  eapply mbest_of_ok; [|exact Eb]. apply K. apply in_map_iff. exists (i, o). auto.
Qed.

(** The decision: how the leaf changes, and where the test comes from *)
Definition from (l l' : mleaf M) : Prop :=
  exists p, l' = fold_left (mdisable M) p l \/ exists pre r s e l1, ml_stats M l = Some pre /\ l1 = fold_left (mdisable M) p l /\ mmanage nt M l1 pre r s e = Ok l'.
Definition mtouched (l : mleaf M) : mleaf M := mk_mleaf M (ml_stats M l) (ml_obs M l) (m_weight (ml_stats M l)) (ml_model M l).
Lemma mdecide_cases l d : mdecide cfg nt M l = Ok d -> exists pre bs, ml_stats M l = Some pre /\ msuggestions cfg nt M l pre = Ok bs /\
  match d with
  | Keep l' => exists l1, from l l1 /\ l' = mtouched l1
  | NullWins l' => exists p, l' = fold_left (mdisable M) p l
  | SplitOn l' te ds => (exists p, l' = fold_left (mdisable M) p l) /\ exists best, In best bs /\ sg_test best = Some te /\ sg_dists best = ds
  end.
Proof.
  unfold mdecide. cbv zeta. destruct (ml_stats M l) as [pre|] eqn:Es; [|discriminate]. intros H. apply bind_Ok in H as (bs & Eb & H). exists pre, bs. split; auto. split; auto.
  set (sorted := sort_stable _ bs) in H. assert (PS : forall s, In s (rev sorted) -> In s bs).
  { intros s Hs. apply in_rev in Hs. eapply Permutation_in; [apply Permutation_sym, sort_stable_perm|exact Hs]. }
  destruct (rev sorted) as [|best [|second rest]] eqn:Er.
  - injection H as <-. exists l. split; [exists []; now left|]. unfold mtouched. now rewrite Es.
  - injection H as <-. destruct (sg_test best) as [te|] eqn:Et; [|exists []; reflexivity]. split; [exists []; reflexivity|]. exists best. repeat split; auto. apply PS. now left.
  - apply bind_Ok in H as (bound & _ & H). destruct (_ && (_ || _)).
    + injection H as <-. destruct (sg_test best) as [te|] eqn:Et; [|exists []; reflexivity]. split; [exists []; reflexivity|]. exists best. repeat split; auto. apply PS. now left.
    + apply bind_Ok in H as (poor & _ & H). destruct (_ && _).
      * apply bind_Ok in H as (l1 & E1 & H). injection H as <-. exists l1. split; [|reflexivity]. exists poor. right. do 5 eexists. split; eauto.
      * injection H as <-. exists (fold_left (mdisable M) poor l). split; [exists poor; now left|reflexivity].
Qed.
Lemma from_same l l' : from l l' -> (mkeys l -> mkeys l') /\ ml_stats M l' = ml_stats M l /\ ml_model M l' = ml_model M l.
Proof.
  intros [p [->|(pre & r & s & e & l1 & _ & -> & H)]].
  - destruct (mdisable_all_stats p l) as [A B]. split; auto. intros K. now apply mdisable_all.
  - apply mmanage_keys in H as (A & B & C). destruct (mdisable_all_stats p l) as [D E]. split; [intros K; now apply A, mdisable_all|]. split; congruence.
Qed.
Lemma mkeep l d : o_decide O l = Ok d -> match d with Keep l' | NullWins l' | SplitOn l' _ _ => o_stats O l' = o_stats O l end.
Proof.
  cbn [o_decide mt_ops o_stats]. intros H. apply mdecide_cases in H as (pre & bs & _ & _ & H). destruct d as [l'|l'|l' te ds].
  - destruct H as (l1 & F & ->). cbn. apply from_same in F. tauto.
  - destruct H as (p & ->). apply mdisable_all_stats.
  - destruct H as [(p & ->) _]. apply mdisable_all_stats.
Qed.

(** ** Invariants of the leaves, kept by everything the tree does *)
Record keeps (linv : mleaf M -> Prop) (iinv : minactive M -> Prop) (sok : list T -> (nat -> T) -> T -> Prop) : Prop := mk_keeps {
  k_new : linv (mleaf_new M None (M_new M));
  k_stop : forall l, linv l -> iinv (mk_minactive M (ml_stats M l) (ml_model M l));
  k_start : forall i, iinv i -> linv (mleaf_new M (mn_stats M i) (M_child M (mn_model M i)));
  k_learn : forall l i y w l', mkeys l -> linv l -> sok (mi_x i) y w -> mleaf_learn key cfg M l i y w = Ok l' -> linv l';
  k_learn_i : forall l i y w l', iinv l -> sok (mi_x i) y w -> minactive_learn M l i y w = Ok l' -> iinv l';
  k_decide : forall l d, mkeys l -> linv l -> mdecide cfg nt M l = Ok d ->
    match d with Keep l' | NullWins l' => linv l' | SplitOn l' te ds => forall x, In x ds -> linv (mleaf_new M x (M_child M (ml_model M l'))) end }.
Lemma keeps_true : keeps (fun _ => True) (fun _ => True) (fun _ _ _ => True).
Proof. constructor; auto. intros l [l'|l'|l' te ds]; auto. Qed.

Section Inv.
Variables (linv : mleaf M -> Prop) (iinv : minactive M -> Prop) (sok : list T -> (nat -> T) -> T -> Prop).
Hypothesis K : keeps linv iinv sok.
Variable sz : sizes T (mleaf M) (minactive M) (option st) (htest T).
Definition linv' (l : mleaf M) : Prop := mkeys l /\ linv l.
Definition sok' (i : minst T) (y : nat -> T) (w : T) : Prop := sok (mi_x i) y w.
Definition mgood (t : tree T (mleaf M) (minactive M) (option st) (htest T)) : Prop := good test_ok linv' iinv t.
Lemma q_stop l : linv' l -> iinv (o_stop O l). Proof. intros [_ H]. exact (k_stop _ _ _ K l H). Qed.
Lemma q_start i : iinv i -> linv' (o_start O i). Proof. intros H. split; [apply mkeys_new|exact (k_start _ _ _ K i H)]. Qed.
Lemma q_new : linv' (o_new O). Proof. split; [apply mkeys_new|exact (k_new _ _ _ K)]. Qed.
Lemma q_learn l i y w l' : linv' l -> sok' i y w -> o_learn O l i y w = Ok l' -> linv' l'.
Proof. intros [A B] S E. split; [exact (mkeys_learn _ _ _ _ _ A E)|exact (k_learn _ _ _ K _ _ _ _ _ A B S E)]. Qed.
Lemma q_learn_i l i y w l' : iinv l -> sok' i y w -> o_learn_inactive O l i y w = Ok l' -> iinv l'.
Proof. intros A S E. exact (k_learn_i _ _ _ K _ _ _ _ _ A S E). Qed.
Lemma q_split l l' te ds : linv' l -> o_decide O l = Ok (SplitOn l' te ds) -> test_ok te (length ds) /\ forall d, In d ds -> linv' (o_child O l' d).
Proof.
  intros [A B] H. cbn [o_decide mt_ops] in H. pose proof (k_decide _ _ _ K _ _ A B H) as D. apply mdecide_cases in H as (pre & bs & _ & Eb & _ & best & Hin & Et & <-).
  pose proof (msuggestions_ok l pre bs A Eb) as F. rewrite Forall_forall in F. specialize (F _ Hin). unfold msug_ok in F. rewrite Et in F. split; auto.
  intros d Hd. split; [apply mkeys_new|exact (D d Hd)].
Qed.
Lemma q_decide l d : linv' l -> o_decide O l = Ok d -> match d with Keep l' | NullWins l' => linv' l' | _ => True end.
Proof.
  intros [A B] H. pose proof (k_decide _ _ _ K _ _ A B H) as D. cbn [o_decide mt_ops] in H. apply mdecide_cases in H as (pre & bs & _ & _ & H). destruct d as [l'|l'|]; auto; split; auto.
  - destruct H as (l1 & F & ->). apply from_same in F as [F _]. exact (F A).
  - destruct H as (p & ->). now apply mdisable_all.
Qed.
Lemma mfit_one t x y w t' : sok' x y w -> mgood t -> fit_one O (r_memory cfg) sz t x y w = Ok t' ->
  mgood t' /\ (t_decision t' = t_decision t \/ t_decision t' = t_decision t + 1 /\ t_growth t = true)%Z /\ (t_growth t' = t_growth t \/ t_growth t' = false) /\ t_weight t' = t_weight t /\
  exists p n n' r1 r', route O (root_or_new O t) x = Ok (p, Some n) /\ update_at (root_or_new O t) p (fun _ => Ok n') = Ok r1 /\ t_root t' = Some r' /\ same_stats O r1 r'
    /\ (c_period_due (r_memory cfg) (t_weight t) = false -> settled O (r_memory cfg) t r1 r') /\ learned O n x y w n'.
Proof.
  exact (fit_one_ok O test_ok linv' iinv mbranch_lt q_stop q_start (fun _ => eq_refl) (fun _ => eq_refl) (r_memory cfg) sz q_split sok' q_new q_learn q_learn_i q_decide mkeep madd_branch t x y w t').
Qed.
Lemma mframe t x y w t' p n x2 q m : sok' x y w -> mgood t -> fit_one O (r_memory cfg) sz t x y w = Ok t' -> route O (root_or_new O t) x = Ok (p, n) ->
  route O (root_or_new O t) x2 = Ok (q, Some m) -> q <> p ->
  exists m' r', t_root t' = Some r' /\ route O r' x2 = Ok (q, Some m') /\ stats_of O m' = stats_of O m
    /\ (c_period_due (r_memory cfg) (t_weight t) = false -> room (r_memory cfg) t -> is_active m = true -> m' = m).
Proof.
  exact (fit_one_frame O test_ok linv' iinv mbranch_lt q_stop q_start (fun _ => eq_refl) (fun _ => eq_refl) (r_memory cfg) sz q_split sok' q_new q_learn q_learn_i q_decide mkeep madd_branch t x y w t' p n x2 q m).
Qed.
Lemma msplit_cause t x y w t' : sok' x y w -> mgood t -> fit_one O (r_memory cfg) sz t x y w = Ok t' ->
  (t_decision t' = t_decision t + 1 <-> exists p l l' l2 te ds, route O (root_or_new O t) x = Ok (p, Some (Active l)) /\ o_learn O l x y w = Ok l' /\
     t_growth t = true /\ o_due O l' = true /\ o_decide O l' = Ok (SplitOn l2 te ds)) /\
  (forall p l l' l2 te ds, route O (root_or_new O t) x = Ok (p, Some (Active l)) -> o_learn O l x y w = Ok l' -> t_growth t = true -> o_due O l' = true -> o_decide O l' = Ok (SplitOn l2 te ds) ->
     exists r' ch, t_root t' = Some r' /\ node_at r' p = Some (Split te (o_stats O l') ch) /\ dkeys ch = map Z.of_nat (seq 0 (length ds)) /\
       map (fun c => stats_of O (snd c)) ch = map (fun d => o_stats O (o_child O l2 d)) ds /\ Forall (fun c => is_split (snd c) = false) ch).
Proof.
  exact (split_cause O test_ok linv' iinv mbranch_lt q_stop q_start (fun _ => eq_refl) (fun _ => eq_refl) (r_memory cfg) sz q_split sok' q_new q_learn q_learn_i q_decide mkeep madd_branch t x y w t').
Qed.
Variable P : option st -> Prop.
Hypothesis Plearn : forall l i y w l', linv l -> sok (mi_x i) y w -> mleaf_learn key cfg M l i y w = Ok l' -> P (ml_stats M l').
Hypothesis Plearn_i : forall l i y w l', iinv l -> sok (mi_x i) y w -> minactive_learn M l i y w = Ok l' -> P (mn_stats M l').
Hypothesis Psplit : forall l l' te ds, mkeys l -> linv l -> mdecide cfg nt M l = Ok (SplitOn l' te ds) -> forall d, In d ds -> P d.
Lemma mevery t x y w t' : sok' x y w -> mgood t -> fit_one O (r_memory cfg) sz t x y w = Ok t' -> match t_root t with None => True | Some r => every O P r end ->
  exists r', t_root t' = Some r' /\ every O P r'.
Proof.
  refine (fit_one_every O test_ok linv' iinv mbranch_lt q_stop q_start (fun _ => eq_refl) (fun _ => eq_refl) (r_memory cfg) sz q_split sok' q_new q_learn q_learn_i q_decide mkeep madd_branch P _ _ _ t x y w t').
  - intros l i y0 w0 l' [_ A] S E. exact (Plearn l i y0 w0 l' A S E).
  - intros l i y0 w0 l' A S E. exact (Plearn_i l i y0 w0 l' A S E).
  - intros l l' te ds [A B] E d Hd. exact (Psplit l l' te ds A B E d Hd).
Qed.

(** ** Histories *)
Definition hinv (s : mt M) : Prop := mgood (mt_tree M s) /\ match t_root (mt_tree M s) with None => True | Some r => every O P r end.
Definition madd (t : tree T (mleaf M) (minactive M) (option st) (htest T)) (w : T) := mk_tree (t_root t) (t_decision t) (t_active t) (t_inactive t) (t_inactive_size t) (t_active_size t) (t_overhead t) (t_growth t) (t_weight t + w)%num.
Lemma mgood_add t w : mgood t -> mgood (madd t w). Proof. intros [C W]. split; auto. Qed.
Lemma mt_one_cases s r w s' : mt_one key cfg nt M sz s r w = Ok s' ->
  (w =? n0)%num = true /\ s' = s \/ (w =? n0)%num = false /\ exists g, g = msums_add (mt_sums M s) (ms_x r) (ms_y r) w /\ mt_sums M s' = g /\
    fit_one O (r_memory cfg) sz (madd (mt_tree M s) w) (mk_minst (ms_x r) g (ms_draw r) (ms_draw2 r)) (ms_y r) w = Ok (mt_tree M s').
Proof.
  unfold mt_one. destruct (w =? n0)%num eqn:Ew; [intros [= <-]; auto|]. cbv zeta. intros H. right. split; auto. apply bind_Ok in H as (t & E & H). injection H as <-. cbn [mt_sums mt_tree].
  eexists. split; [reflexivity|]. split; auto. unfold fit_weighted in E. rewrite Ew in E. exact E.
Qed.
Lemma hinv_one s r w s' : hinv s -> (w =? n0)%num = true \/ sok (ms_x r) (ms_y r) w -> mt_one key cfg nt M sz s r w = Ok s' -> hinv s'.
Proof.
  intros [G Ev] S H. apply mt_one_cases in H as [[_ ->]|(Ew & g & -> & _ & F)]; [split; auto|]. destruct S as [S|S]; [congruence|].
  change (sok' (mk_minst (ms_x r) (msums_add (mt_sums M s) (ms_x r) (ms_y r) w) (ms_draw r) (ms_draw2 r)) (ms_y r) w) in S. pose proof (mgood_add _ w G) as G1. destruct (mfit_one _ _ _ _ _ S G1 F) as (G2 & _). split; auto.
  destruct (mevery _ _ _ _ _ S G1 F Ev) as (r' & -> & E'). exact E'.
Qed.
Lemma hinv_rows rows : forall ws s s', hinv s -> (forall r w, In (r, w) (combine rows ws) -> (w =? n0)%num = true \/ sok (ms_x r) (ms_y r) w) ->
  mt_rows key cfg nt M sz s rows ws = Ok s' -> hinv s'.
Proof.
  induction rows as [|r rows IH]; intros ws s s' G S H; cbn [mt_rows] in H; [destruct ws; injection H as <-; auto|].
  destruct ws as [|w ws]; [injection H as <-; auto|]. apply bind_Ok in H as (s1 & E1 & H). eapply (IH ws s1); [|intros; apply S; now right|exact H].
  eapply hinv_one; [exact G| |exact E1]. apply S. now left.
Qed.
Lemma in_mcall_samples rows ws r w : In (r, w) (combine rows (match ws with Some ws => ws | None => repeat n1 (length rows) end)) -> (w =? n0)%num = true \/ In (ms_x r, ms_y r, w) (mcall_samples rows ws).
Proof.
  intros H. destruct (w =? n0)%num eqn:E; auto. right. unfold mcall_samples. apply filter_In. cbn [snd]. rewrite E. split; auto. apply in_map_iff. exists (r, w). auto.
Qed.
Lemma mrun_app es1 : forall es2 s, mt_run key cfg nt M sz s (es1 ++ es2) = (s1 <- mt_run key cfg nt M sz s es1 ;; mt_run key cfg nt M sz s1 es2).
Proof. induction es1 as [|e es1 IH]; intros es2 s; [reflexivity|]. cbn [app mt_run]. destruct (mt_step _ _ _ _ _ s e); cbn [bind]; auto. Qed.
Lemma hinv_run es : forall s, mt_run key cfg nt M sz (mt_new M) es = Ok s -> (forall x y w, In (x, y, w) (mlive es) -> sok x y w) -> hinv s.
Proof.
  induction es as [|e es IH] using rev_ind; intros s H S.
  - injection H as <-. split; [apply good_new|exact Logic.I].
  - rewrite mrun_app in H. apply bind_Ok in H as (s1 & E1 & H). cbn [mt_run] in H. apply bind_Ok in H as (s2 & E2 & H). injection H as <-. unfold mlive in S. rewrite fold_left_app in S. cbn [fold_left] in S. fold (mlive es) in S.
    destruct e as [rows ws|]; cbn [mt_step] in E2.
    + unfold mt_fit in E2. cbv zeta in E2. destruct (Nat.eqb _ _); [|discriminate]. eapply hinv_rows; [| |exact E2]; cycle 1.
      { intros r w Hin. apply in_mcall_samples in Hin as [Hin|Hin]; auto. right. apply S, in_app_iff. now right. }
      exact (IH s1 E1 (fun x y w Hin => S x y w (proj2 (in_app_iff _ _ _) (or_introl Hin)))).
    + injection E2 as <-. split; [apply good_new|exact Logic.I].
Qed.
End Inv.
End Generic.
