(** Lemmas: how the leaves answer does not matter for the growth of Hoeffding trees. *)
From Coq Require Import List ZArith Bool.
From Verif Require Import Base.Py Base.Num Base.Dict Model.Suggestion Model.Adwin Model.Knn Model.SplitCriteria Model.TargetStats Model.NaiveBayes Model.TreeSkeleton Model.HoeffdingTree Model.HoeffdingRegressor
  Spec.TreeSpec Spec.TreeRelSpec Spec.TreeTwinSpec Spec.HoeffdingSpec Spec.HoeffdingRegressorSpec Proofs.TreeProofs Proofs.TreeRelProofs Proofs.HoeffdingProofs.
Import ListNotations.

Section HT.
Context {T : Type} {N : Num T} (k : T) (phi : T -> T) (key : T -> Z) (cfg cfg' : ht_config T) (sz sz' : sizes T (leaf T) (list (Z * T)) (list (Z * T)) (htest T)) (strict : bool).
Hypothesis C : same_but_prediction cfg cfg'.
Hypothesis Poor : h_poor cfg = false \/ h_kind cfg <> MC /\ h_kind cfg' <> MC.
Hypothesis Str : strict = true -> h_kind cfg <> NBA /\ h_kind cfg' <> NBA.
Hypothesis Quiet : forall w, c_period_due (h_memory cfg) w = false.

Lemma twin_learn l l' x y w : same_leaf l l' -> rrel strict same_leaf (leaf_learn k key cfg l x y w) (leaf_learn k key cfg' l' x y w).
Proof.
  intros (A & B & D). unfold leaf_learn. eapply rrel_bind with (RA := fun _ _ => True).
  - destruct strict eqn:Es.
    + destruct (Str eq_refl) as [K1 K2]. destruct (h_kind cfg), (h_kind cfg'); try contradiction; exact I.
    + match goal with |- rrel _ _ ?m ?m' => destruct m, m'; cbn; auto; discriminate end.
  - intros [mc nb] [mc' nb'] _. rewrite B. destruct C as (_ & _ & _ & _ & _ & _ & _ & Nm & _).
    assert (E : forall o i, update_observers key (h_nominal cfg) o i x y w = update_observers key (h_nominal cfg') o i x y w).
    { induction x as [|v x IH]; intros o i; cbn [update_observers]; [reflexivity|]. rewrite Nm. destruct (co_update _ _ _ _ _); cbn [bind]; auto. }
    rewrite E. eapply rrel_bind; [apply rrel_eq|]. intros o ? <-. cbn. repeat split; cbn; auto. now rewrite A.
Qed.
Lemma disable_other (a : ht_config T) p l : h_kind a <> MC -> fold_left (disable a) p l = l.
Proof. intros H. induction p as [|i p IH]; cbn [fold_left]; [reflexivity|]. unfold disable at 2. destruct (h_kind a); [contradiction|exact IH..]. Qed.
Lemma twin_suggestions l l' : same_leaf l l' -> suggestions k phi cfg l = suggestions k phi cfg' l'.
Proof.
  intros (A & B & D). destruct C as (_ & Cr & _ & _ & Bi & _ & Np & _). unfold suggestions, null_split. rewrite A, B, Cr, Np.
  assert (E : forall i o, best_of k phi cfg (lf_stats l') i o = best_of k phi cfg' (lf_stats l') i o) by (intros i [g|m|]; unfold best_of; rewrite ?Cr, ?Bi; reflexivity).
  assert (M : forall os, mapM (fun io => best_of k phi cfg (lf_stats l') (fst io) (snd io)) os = mapM (fun io => best_of k phi cfg' (lf_stats l') (fst io) (snd io)) os) by (induction os as [|io os IH]; cbn [mapM]; [reflexivity|]; rewrite E, IH; reflexivity).
  rewrite M. reflexivity.
Qed.
Lemma twin_decide l l' : same_leaf l l' -> rrel strict (drel same_leaf eq eq) (decide k phi cfg l) (decide k phi cfg' l').
Proof.
  intros H. pose proof H as (A & B & D). unfold decide. cbv zeta. unfold leaf_pure, leaf_weight. rewrite A. destruct (Nat.ltb _ 2); [repeat split; cbn; congruence|].
  rewrite (twin_suggestions _ _ H). eapply rrel_bind; [apply rrel_eq|]. intros bs ? <-.
  assert (Tk : forall m m' (bst : list (suggestion (option (htest T)) (list (list (Z * T))) T)), same_leaf m m' -> drel same_leaf eq eq
      (match bst with best :: _ => match sg_test best with None => NullWins m | Some te => SplitOn m te (sg_dists best) end | [] => Keep (mk_leaf (lf_stats m) (lf_obs m) (lf_mc m) (lf_nb m) (vsum (lf_stats m))) end)
      (match bst with best :: _ => match sg_test best with None => NullWins m' | Some te => SplitOn m' te (sg_dists best) end | [] => Keep (mk_leaf (lf_stats m') (lf_obs m') (lf_mc m') (lf_nb m') (vsum (lf_stats m'))) end)).
  { intros m m' bst Hm. destruct bst as [|best bst]; [destruct Hm as (U & V & W); repeat split; cbn; congruence|]. destruct (sg_test best); cbn; auto. repeat split; try apply Hm. clear. induction (sg_dists best); constructor; auto. }
  destruct (rev _) as [|best [|second rest]] eqn:Er.
  - cbn. repeat split; auto.
  - cbn. now apply (Tk l l' [best]).
  - destruct C as (_ & Cr & Cf & Ti & _ & Po & _). rewrite Cr, Cf, Ti, <- Po. eapply rrel_bind; [apply rrel_eq|]. intros bound ? <-.
    eapply rrel_bind with (RA := fun p p' => p = p' /\ (h_poor cfg = false -> p = [])).
    { destruct (h_poor cfg); [|split; auto]. match goal with |- rrel _ _ ?m _ => destruct m; cbn; auto end. split; auto. discriminate. }
    intros poor ? [<- Pn]. assert (Hd : same_leaf (fold_left (disable cfg) poor l) (fold_left (disable cfg') poor l')).
    { destruct Poor as [P0|[P1 P2]]; [rewrite (Pn P0); exact H|now rewrite !disable_other]. }
    cbn. destruct (_ || _); [now apply (Tk _ _ (best :: second :: rest))|]. destruct Hd as (U & V & W). cbn. unfold same_leaf. cbn. rewrite U, V. auto.
Qed.
Lemma twin_alike : alike (ht_ops k phi key cfg) (ht_ops k phi key cfg') (h_memory cfg) sz sz' strict eq eq same_leaf eq eq eq.
Proof.
  constructor; cbn [o_new o_child o_stop o_start o_learn o_learn_inactive o_due o_decide o_stats o_branch o_multiway o_add o_max o_before ht_ops].
  - repeat split.
  - intros l l' d ? _ <-. repeat split.
  - intros l l' H. apply H.
  - intros i ? <-. repeat split.
  - intros l l' x ? y ? w H <- <-. now apply twin_learn.
  - intros i ? x ? y ? w <- <- <-. apply rrel_eq.
  - intros l l' (A & _ & D). unfold leaf_weight. destruct C as (G & _). now rewrite A, D, G.
  - apply twin_decide.
  - intros l l' H. apply H.
  - intros t ? x ? <- <-. apply rrel_eq.
  - intros t ? <-. reflexivity.
  - intros t ? x ? <- <-. destruct (ht_add key t x) as [[t' b]|]; cbn; auto.
  - intros t ? <-. reflexivity.
  - intros d e m m' n n' Hm Hn. cbn [snd].
    assert (E : forall a b : node (leaf T) (list (Z * T)) (list (Z * T)) (htest T), nrel same_leaf eq eq eq a b -> match a with Active l => lf_stats l | Inactive d => d | Split _ d _ => d end = match b with Active l => lf_stats l | Inactive d => d | Split _ d _ => d end) by (intros a b [l l' Hl|i i' Hi|]; auto; apply Hl).
    now rewrite (E _ _ Hm), (E _ _ Hn).
  - left. exact Quiet.
Qed.
Lemma twin_rows rows : forall ws t t', trel same_leaf eq eq eq t t' -> rrel strict (trel same_leaf eq eq eq) (ht_rows k phi key cfg sz t rows ws) (ht_rows k phi key cfg' sz' t' rows ws).
Proof.
  induction rows as [|[x y] rows IH]; intros ws t t' H; cbn [ht_rows]; [exact H|]. destruct ws as [|w ws]; [exact H|]. assert (Em : h_memory cfg' = h_memory cfg) by (symmetry; apply C). rewrite Em.
  eapply rrel_bind; [apply (rel_fit _ _ _ _ _ _ _ _ _ _ _ _ twin_alike); eauto|]. intros a b Hab. now apply IH.
Qed.
Lemma twin_run es : forall s s', same_tree s s' -> rrel strict same_tree (ht_run k phi key cfg sz s es) (ht_run k phi key cfg' sz' s' es).
Proof.
  induction es as [|e es IH]; intros s s' H; cbn [ht_run]; [exact H|]. eapply rrel_bind with (RA := same_tree); [|intros a b Hab; now apply IH]. destruct H as [H1 H2].
  destruct e as [rows c ws|]; cbn [ht_step]; [|split; [apply rel_new|exact H2]]. unfold ht_fit. cbv zeta. rewrite H2. destruct (Nat.eqb _ _); [|apply rrel_raise].
  eapply rrel_bind; [apply twin_rows; exact H1|]. intros a b Hab. split; auto.
Qed.
End HT.

Section HTR.
Context {T : Type} {N : Num T} (key : T -> Z) (int_of : T -> Z) (cfg cfg' : htr_config T) (sz sz' : sizes T (rleaf T) (rinactive T) (option (stat T unit)) (htest T)) (strict : bool).
Hypothesis C : same_but_model cfg cfg'.
Hypothesis Str : strict = true -> r_kind cfg = Mean /\ r_kind cfg' = Mean.
Hypothesis Quiet : forall w, c_period_due (r_memory cfg) w = false.
Lemma rtwin_pw p p' st i y w : rrel strict (fun _ _ => True) (pw_learn int_of cfg p st i y w) (pw_learn int_of cfg' p' st i y w).
Proof.
  destruct strict eqn:Es.
  - destruct (Str eq_refl) as [K1 K2]. unfold pw_learn. rewrite K1, K2. exact I.
  - match goal with |- rrel _ _ ?m ?m' => destruct m, m'; cbn; auto; discriminate end.
Qed.
Lemma rtwin_obs x y w : forall o i, update_robs key cfg o i x y w = update_robs key cfg' o i x y w.
Proof. destruct C as (_ & _ & _ & _ & _ & _ & Nm & _). induction x as [|v x IH]; intros o i; cbn [update_robs]; [reflexivity|]. now rewrite Nm, IH. Qed.
Lemma rtwin_learn l l' i y w : same_rleaf l l' -> rrel strict same_rleaf (rleaf_learn key int_of cfg l i y w) (rleaf_learn key int_of cfg' l' i y w).
Proof. intros (A & B & D). unfold rleaf_learn. cbv zeta. rewrite A. eapply rrel_bind; [apply rtwin_pw|]. intros p p' _. cbn. repeat split; cbn; auto. now rewrite B, rtwin_obs. Qed.
Lemma rtwin_suggestions l l' pre : same_rleaf l l' -> rsuggestions int_of cfg l pre = rsuggestions int_of cfg' l' pre.
Proof.
  intros (A & B & D). destruct C as (_ & _ & _ & Bi & _ & Np & _). unfold rsuggestions. rewrite B, Np.
  assert (E : forall i o, rbest_of int_of cfg pre i o = rbest_of int_of cfg' pre i o) by (intros i [g|m|]; unfold rbest_of; rewrite ?Bi; reflexivity).
  assert (M : forall os, mapM (fun io => rbest_of int_of cfg pre (fst io) (snd io)) os = mapM (fun io => rbest_of int_of cfg' pre (fst io) (snd io)) os) by (induction os as [|io os IH]; cbn [mapM]; [reflexivity|]; rewrite E, IH; reflexivity).
  rewrite M. reflexivity.
Qed.
Lemma rtwin_disable p : forall l l' : rleaf T, same_rleaf l l' -> same_rleaf (fold_left rdisable p l) (fold_left rdisable p l').
Proof. induction p as [|a p IH]; intros l l' H; cbn [fold_left]; auto. apply IH. destruct H as (A & B & D). unfold rdisable. rewrite B. destruct (dmem (rl_obs l') a); repeat split; cbn; congruence. Qed.
Lemma rtwin_manage (l l' : rleaf T) pre r s e : same_rleaf l l' -> rrel strict same_rleaf (rmanage int_of l pre r s e) (rmanage int_of l' pre r s e).
Proof. intros (A & B & D). unfold rmanage. rewrite B. eapply rrel_bind; [apply rrel_eq|]. intros o ? <-. cbn. repeat split; auto. Qed.
Lemma rtwin_poor pre best ratio bound : forall l, rpoor_atts cfg pre best ratio bound l = rpoor_atts cfg' pre best ratio bound l.
Proof.
  destruct C as (_ & _ & _ & _ & _ & _ & _ & Py & _). induction l as [|s l IH]; cbn [rpoor_atts]; [reflexivity|]. rewrite IH. destruct (sg_test s); [|reflexivity]. unfold merit_ratio, py_merit. rewrite Py. reflexivity.
Qed.
Lemma rtwin_decide l l' : same_rleaf l l' -> rrel strict (drel same_rleaf eq eq) (rdecide int_of cfg l) (rdecide int_of cfg' l').
Proof.
  intros H. pose proof H as (A & B & D). unfold rdecide. cbv zeta. rewrite A. destruct (rl_stats l') as [pre|] eqn:Es; [|apply rrel_raise].
  rewrite (rtwin_suggestions _ _ pre H). eapply rrel_bind; [apply rrel_eq|]. intros bs ? <-.
  assert (Tk : forall m m' (bst : list (suggestion (option (htest T)) (list (option (stat T unit))) T)), same_rleaf m m' -> drel same_rleaf eq eq
      (match bst with best :: _ => match sg_test best with None => NullWins m | Some te => SplitOn m te (sg_dists best) end | [] => Keep (mk_rleaf (rl_stats m) (rl_obs m) (weight_of (rl_stats m)) (rl_pw m)) end)
      (match bst with best :: _ => match sg_test best with None => NullWins m' | Some te => SplitOn m' te (sg_dists best) end | [] => Keep (mk_rleaf (rl_stats m') (rl_obs m') (weight_of (rl_stats m')) (rl_pw m')) end)).
  { intros m m' bst Hm. destruct bst as [|best bst]; [destruct Hm as (U & V & W); repeat split; cbn; congruence|]. destruct (sg_test best); cbn; auto. repeat split; try apply Hm. clear. induction (sg_dists best); constructor; auto. }
  destruct (rev _) as [|best [|second rest]] eqn:Er.
  - cbn. repeat split; cbn; congruence.
  - cbn. now apply (Tk l l' [best]).
  - destruct C as (_ & Cf & Ti & _ & Po & _ & _ & Py & _). rewrite Cf, Ti, <- Po. eapply rrel_bind; [apply rrel_eq|]. intros bound ? <-.
    eapply rrel_bind with (RA := eq).
    { destruct (r_poor cfg); [|reflexivity]. unfold merit_ratio at 1 2, py_merit. rewrite Py. eapply rrel_bind; [apply rrel_eq|]. intros q ? <-. rewrite rtwin_poor. apply rrel_eq. }
    intros poor ? <-. pose proof (rtwin_disable poor _ _ H) as Hd. destruct (_ && _); [cbn; now apply (Tk _ _ (best :: second :: rest))|]. destruct (_ && _).
    + eapply rrel_bind; [apply rtwin_manage; exact Hd|]. intros m m' (U & V & W). repeat split; cbn; congruence.
    + destruct Hd as (U & V & W). repeat split; cbn; congruence.
Qed.
Lemma rtwin_alike : alike (htr_ops key int_of cfg) (htr_ops key int_of cfg') (r_memory cfg) sz sz' strict eq eq same_rleaf same_rinactive eq eq.
Proof.
  constructor; cbn [o_new o_child o_stop o_start o_learn o_learn_inactive o_due o_decide o_stats o_branch o_multiway o_add o_max o_before htr_ops].
  - repeat split.
  - intros l l' d ? _ <-. repeat split.
  - intros l l' (A & _). exact A.
  - intros i i' A. unfold same_rinactive in A. repeat split; cbn; congruence.
  - intros l l' x ? y ? w H <- <-. now apply rtwin_learn.
  - intros i i' x ? y ? w A <- <-. unfold rinactive_learn. cbv zeta. rewrite A. eapply rrel_bind; [apply rtwin_pw|]. intros p p' _. reflexivity.
  - intros l l' (A & _ & D). destruct C as (G & _). now rewrite A, D, G.
  - apply rtwin_decide.
  - intros l l' H. apply H.
  - intros t ? x ? <- <-. apply rrel_eq.
  - intros t ? <-. reflexivity.
  - intros t ? x ? <- <-. destruct (ht_add key t (i_x x)) as [[t' b]|]; cbn; auto.
  - intros t ? <-. reflexivity.
  - reflexivity.
  - left. exact Quiet.
Qed.
Lemma rtwin_rows rows : forall ws s s', same_rtree s s' -> rrel strict same_rtree (htr_rows key int_of cfg sz s rows ws) (htr_rows key int_of cfg' sz' s' rows ws).
Proof.
  induction rows as [|[[x y] draw] rows IH]; intros ws s s' H; cbn [htr_rows]; [exact H|]. destruct ws as [|w ws]; [exact H|]. assert (Em : r_memory cfg' = r_memory cfg) by (symmetry; apply C).
  eapply rrel_bind with (RA := same_rtree); [|intros a b Hab; now apply IH]. unfold htr_one. destruct (w =? n0)%num; [exact H|]. cbv zeta. destruct H as [H1 H2]. rewrite Em, H2.
  eapply rrel_bind; [apply (rel_fit _ _ _ _ _ _ _ _ _ _ _ _ rtwin_alike); eauto|]. intros a b Hab. split; auto.
Qed.
Lemma rtwin_run es : forall s s', same_rtree s s' -> rrel strict same_rtree (htr_run key int_of cfg sz s es) (htr_run key int_of cfg' sz' s' es).
Proof.
  induction es as [|e es IH]; intros s s' H; cbn [htr_run]; [exact H|]. eapply rrel_bind with (RA := same_rtree); [|intros a b Hab; now apply IH].
  destruct e as [rows ws|]; cbn [htr_step]; [|split; [apply rel_new|apply H]]. unfold htr_fit. cbv zeta. destruct (Nat.eqb _ _); [|apply rrel_raise]. now apply rtwin_rows.
Qed.
End HTR.
