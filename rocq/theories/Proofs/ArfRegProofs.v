(** Lemmas: the regression trees of the adaptive random forests. *)
From Coq Require Import List ZArith Bool Lia.
From Verif Require Import Base.Py Base.Num Base.Dict Model.Suggestion Model.Adwin Model.SplitTests Model.NominalObs Model.Knn Model.SplitCriteria Model.TargetStats Model.NaiveBayes Model.TreeSkeleton Model.HoeffdingTree Model.HoeffdingRegressor Model.ArfTree
  Spec.TreeSpec Spec.TreeRelSpec Spec.ArfTreeSpec Spec.HoeffdingRegressorSpec Proofs.TreeProofs Proofs.TreeRelProofs Proofs.HoeffdingProofs Proofs.HoeffdingRegressorProofs Proofs.ArfTreeProofs.
Import ListNotations.
Local Open Scope Z_scope.

Section Reg.
Context {T : Type} {N : Num T} (key int_of : T -> Z) (cfg : htr_config T) (m : Z).
Local Notation st := (stat T unit).
Lemma rdisable_obs_keys p : forall l : rleaf T, dkeys (rl_obs (fold_left rdisable p l)) = dkeys (rl_obs l).
Proof.
  induction p as [|i p IH]; intros l; cbn [fold_left]; auto. rewrite IH. unfold rdisable. destruct (dmem (rl_obs l) i) eqn:E; auto. cbn [rl_obs]. apply dset_old. now apply dmem_true.
Qed.
Lemma rbest_of_att pre i o s : rbest_of int_of cfg pre i o = Ok (Some s) -> match sg_test s with Some te => ht_att te = i | None => True end.
Proof.
  destruct o as [g|nm|]; cbn [rbest_of]; [| |discriminate].
  - intros H. apply bind_Ok in H as (b & E & H). injection H as <-. destruct (sg_test b); [|exact I]. destruct (sg_dists b) as [[]|]; cbn; auto.
  - destruct (nr_best _ _ _ _) as [b|]; [|discriminate]. intros [= <-]. cbn [sg_test]. destruct (sg_test b); reflexivity.
Qed.
Lemma rdecide_watches l d : rdecide int_of cfg l = Ok d ->
  match d with Keep l' | NullWins l' | SplitOn l' _ _ => dkeys (rl_obs l') = dkeys (rl_obs l) end /\ match d with SplitOn _ te _ => In (ht_att te) (dkeys (rl_obs l)) | _ => True end.
Proof.
  intros H. apply rdecide_cases in H as (pre & bs & Es & Eb & H). destruct d as [l'|l'|l' te ds].
  - destruct H as (l1 & F & ->). split; auto. cbn [rtouched rl_obs]. destruct F as [p [->|(pre' & r & s & e & l2 & _ & -> & H)]]; [apply rdisable_obs_keys|].
    unfold rmanage in H. apply bind_Ok in H as (obs & E & H). injection H as <-. cbn [rl_obs]. apply mapM_fst in E. rewrite E. apply rdisable_obs_keys.
  - destruct H as (p & ->). split; auto. apply rdisable_obs_keys.
  - destruct H as [(p & ->) (best & Hin & Et & _)]. split; [apply rdisable_obs_keys|]. destruct (rsuggestions_in _ _ _ _ _ _ Eb Hin) as [->|(i & o & Hio & Eo)]; [discriminate|]. apply rbest_of_att in Eo. rewrite Et in Eo. rewrite Eo. apply in_map_iff. exists (i, o). auto.
Qed.

Variables (A : Z -> Prop) (n : nat).
Definition rwatches (l : arfr_leaf T) : Prop :=
  dkeys (rl_obs (arl_leaf l)) = arl_features l /\ (arl_features l = [] \/ right_pick m n (arl_features l)) /\ Forall A (arl_features l).
Definition rfitting (i i' : arfr_inst T) : Prop :=
  length (i_x (ari_inst i)) = n /\ agree A (i_x (ari_inst i)) (i_x (ari_inst i')) /\ ari_pick i = ari_pick i' /\ right_pick m n (ari_pick i) /\ Forall A (ari_pick i)
  /\ (r_kind cfg = Mean \/ ari_inst i = ari_inst i').
Lemma rwatches_new d p : rwatches (arl_new d p). Proof. repeat split; cbn; auto. Qed.
Lemma robserve_keys x y w obs i obs' : ar_observe key cfg x y w obs i = Ok obs' -> exists o, obs' = dset obs i o.
Proof. unfold ar_observe. cbv zeta. intros H. apply bind_Ok in H as (v & _ & H). injection H as <-. eauto. Qed.
Lemma arl_pw p s i i' y w : rfitting i i' -> pw_learn int_of cfg p s (ari_inst i) y w = pw_learn int_of cfg p s (ari_inst i') y w.
Proof. intros (_ & _ & _ & _ & _ & [K|K]); [unfold pw_learn; now rewrite K|now rewrite K]. Qed.
Lemma arl_learn_rel b l i i' y w : rwatches l -> rfitting i i' -> rrel b (fun a c => a = c /\ rwatches a) (arl_learn key int_of cfg m l i y w) (arl_learn key int_of cfg m l i' y w).
Proof.
  intros (Wk & Wp & Wa) Fi. pose proof Fi as (Ln & Ag & Ep & Rp & Pa & _).
  assert (E : arl_learn key int_of cfg m l i y w = arl_learn key int_of cfg m l i' y w).
  { unfold arl_learn. cbv zeta. rewrite <- Ep, (arl_pw _ _ _ _ _ _ Fi). pose proof Ag as [L _]. rewrite <- L.
    destruct (a_features m (arl_features l) (length (i_x (ari_inst i))) (ari_pick i)) as [fs|e] eqn:Ef; cbn [bind]; auto.
    assert (Hf : Forall A fs /\ Forall (fun a => 0 <= a < Z.of_nat n) fs).
    { unfold a_features in Ef. destruct (arl_features l) as [|f r] eqn:Efe.
      - unfold a_sample in Ef. destruct (_ || _); [discriminate|]. injection Ef as <-. split; auto. apply Rp.
      - injection Ef as <-. split; auto. destruct Wp as [Wp|Wp]; [discriminate|apply Wp]. }
    destruct Hf as [Hf1 Hf2]. rewrite Forall_forall in Hf1, Hf2.
    rewrite (foldM_ext (ar_observe key cfg (i_x (ari_inst i)) y w) (ar_observe key cfg (i_x (ari_inst i')) y w)); [reflexivity|]. intros s a Ha. unfold ar_observe. rewrite (at_index_agree A (i_x (ari_inst i)) (i_x (ari_inst i'))); auto. apply Hf2; auto. }
  rewrite <- E. apply rrel_diag. intros l' H. unfold arl_learn in H. cbv zeta in H. apply bind_Ok in H as (fs & Ef & H). apply bind_Ok in H as (obs & Eo & H). apply bind_Ok in H as (p & _ & H). injection H as <-.
  destruct (foldM_keys _ _ (robserve_keys (i_x (ari_inst i)) y w) _ _ Eo) as [K1 K2]. unfold rwatches. cbn [arl_leaf arl_features rl_obs].
  unfold a_features in Ef. destruct (arl_features l) as [|f r] eqn:Efe.
  - unfold a_sample in Ef. destruct (_ || _); [discriminate|]. injection Ef as <-. rewrite Wk in K2. split; [|split; auto]. apply K2. apply Rp.
  - injection Ef as <-. rewrite Wk in K1. split; [apply K1; auto|]. auto.
Qed.
Lemma arl_decide_rel b l : rwatches l -> rrel b (drel (fun a c => a = c /\ rwatches a) eq (fun a c => a = c /\ seen_test A n a)) (arl_decide int_of cfg l) (arl_decide int_of cfg l).
Proof.
  intros (Wk & Wp & Wa). unfold arl_decide. destruct (rdecide int_of cfg (arl_leaf l)) as [d|e] eqn:Ed; cbn; auto. apply rdecide_watches in Ed as [K S].
  assert (W : forall lf, dkeys (rl_obs lf) = dkeys (rl_obs (arl_leaf l)) -> rwatches (mk_arl lf (arl_features l))) by (intros lf Hl; split; [cbn; congruence|split; auto]).
  destruct d as [lf|lf|lf te ds]; cbn; auto. split; [auto|]. split; [|clear; induction ds; constructor; auto]. split; auto. rewrite Wk in S. split; [rewrite Forall_forall in Wa; auto|].
  destruct Wp as [Wp|(_ & _ & Wp)]; [rewrite Wp in S; contradiction|]. rewrite Forall_forall in Wp. auto.
Qed.
Local Notation RL := (fun a c : arfr_leaf T => a = c /\ rwatches a).
Local Notation RE := (fun a c : htest T => a = c /\ seen_test A n a).
Lemma rnrel_diag (t t' : node (arfr_leaf T) (rinactive T) (option st) (htest T)) : nrel RL eq eq RE t t' -> t = t'.
Proof.
  revert t t'. apply nrel_ind'; [intros l l' [-> _]|intros i i' ->|intros te te' s s' ch ch' [-> _] -> _ H]; auto. f_equal. induction H as [|[a c] [a' c'] ch ch' [E1 E2] _ IH]; auto. cbn in E1, E2. congruence.
Qed.
Variable sz : sizes T (arfr_leaf T) (rinactive T) (option st) (htest T).
Lemma rtrel_diag (t t' : tree T (arfr_leaf T) (rinactive T) (option st) (htest T)) : trel RL eq eq RE t t' -> t = t'.
Proof. intros [R]. destruct t, t'. cbn in *. subst. f_equal. destruct t_root as [r|], t_root0 as [r'|]; try contradiction; auto. f_equal. now apply rnrel_diag. Qed.
Lemma arfr_alike b : alike (arfr_ops key int_of cfg m) (arfr_ops key int_of cfg m) (r_memory cfg) sz sz b rfitting eq RL eq eq RE.
Proof.
  constructor; cbn [o_new o_child o_stop o_start o_learn o_learn_inactive o_due o_decide o_stats o_branch o_multiway o_add o_max o_before arfr_ops].
  - split; auto. apply rwatches_new.
  - intros l l' d ? [<- _] <-. split; auto. apply rwatches_new.
  - now intros l l' [-> _].
  - intros i ? <-. split; auto. apply rwatches_new.
  - intros l ? x x' y ? w [<- W] F <-. now apply arl_learn_rel.
  - intros i ? x x' y ? w <- F <-. unfold rinactive_learn. cbv zeta. rewrite (arl_pw _ _ _ _ _ _ F). apply rrel_eq.
  - now intros l l' [-> _].
  - intros l ? [<- W]. now apply arl_decide_rel.
  - now intros l l' [-> _].
  - intros t ? x x' [<- [S1 S2]] (_ & Ag & _). rewrite (branch_agree key A t _ _ Ag); [apply rrel_eq|lia|auto].
  - now intros t ? [<- _].
  - intros t ? x x' [<- [S1 S2]] (_ & Ag & _). rewrite (add_agree key A t _ _ Ag); [|lia|auto]. destruct (ht_add key t (i_x (ari_inst x'))) as [[t' c]|e] eqn:E; cbn; auto. apply add_att in E. unfold seen_test. rewrite E. repeat split; auto; lia.
  - now intros t ? [<- _].
  - reflexivity.
  - right. split; [now intros l l' [-> _]|]. split; [now intros i ? <-|]. intros s s' H. apply rtrel_diag in H. now subst.
Qed.
(** Sums of the two runs: equal, or of two trees with mean leaves over the same weights *)
Definition sums_rel (g g' : sums T) : Prop := n_seen g = n_seen g' /\ (r_kind cfg = Mean \/ g = g').
Definition rstate_rel (s s' : arfr T) : Prop := trel RL eq eq RE (arr_tree s) (arr_tree s') /\ sums_rel (arr_sums s) (arr_sums s').
Definition rrow_rel (r r' : sample T * list Z) : Prop :=
  let '((x, y, d), p) := r in let '((x', y', d'), p') := r' in
  length x = n /\ agree A x x' /\ y = y' /\ p = p' /\ right_pick m n p /\ Forall A p /\ (r_kind cfg = Mean \/ x = x' /\ d = d').
Definition revent_rel (e e' : arfr_event T) : Prop :=
  match e, e' with ARFit rows ws, ARFit rows' ws' => Forall2 rrow_rel rows rows' /\ ws = ws' | ARReset, ARReset => True | _, _ => False end.
Lemma arfr_rows_rel b rows rows' : Forall2 rrow_rel rows rows' -> forall ws s s', rstate_rel s s' -> rrel b rstate_rel (arfr_rows key int_of cfg m sz s rows ws) (arfr_rows key int_of cfg m sz s' rows' ws).
Proof.
  induction 1 as [|[[[x y] d] p] [[[x' y'] d'] p'] rows rows' Hr F IH]; intros ws s s' H; cbn [arfr_rows]; [exact H|]. destruct ws as [|w ws]; [exact H|]. destruct Hr as (Ln & Ag & <- & <- & Rp & Pa & K).
  eapply rrel_bind with (RA := rstate_rel); [|intros a c Hac; now apply IH]. unfold arfr_one. destruct (w =? n0)%num; [exact H|]. cbv zeta. destruct H as [H1 [H2 H3]].
  assert (S : sums_rel (sums_add (arr_sums s) x y w) (sums_add (arr_sums s') x' y w)).
  { split; [cbn; now rewrite H2|]. destruct K as [K|[-> _]]; auto. destruct H3 as [H3| ->]; auto. }
  eapply rrel_bind; [apply (rel_fit _ _ _ _ _ _ _ _ _ _ _ _ (arfr_alike b)); [exact H1| |reflexivity]|].
  - split; [exact Ln|]. split; [exact Ag|]. split; [auto|]. split; [exact Rp|]. split; [exact Pa|]. destruct K as [K|[-> ->]]; auto. destruct H3 as [H3| ->]; auto.
  - intros a c Hac. split; auto.
Qed.
Lemma arfr_run_rel b es es' : Forall2 revent_rel es es' -> forall s s', rstate_rel s s' -> rrel b rstate_rel (arfr_run key int_of cfg m sz s es) (arfr_run key int_of cfg m sz s' es').
Proof.
  induction 1 as [|e e' es es' He F IH]; intros s s' H; cbn [arfr_run]; [exact H|]. eapply rrel_bind with (RA := rstate_rel); [|intros a c Hac; now apply IH].
  destruct e as [rows ws|], e' as [rows' ws'|]; cbn in He; try contradiction; cbn [arfr_step]; [|split; [apply rel_new|apply H]]. destruct He as (He & <-).
  unfold arfr_fit. cbv zeta. rewrite <- (F2_length _ _ _ He). destruct (Nat.eqb _ _); [|apply rrel_raise]. now apply arfr_rows_rel.
Qed.
End Reg.

(** ** Watching everything *)
Section Full.
Context {T : Type} {N : Num T} (key int_of : T -> Z) (cfg : htr_config T) (n : nat).
Local Notation st := (stat T unit).
Variables (sz : sizes T (arfr_leaf T) (rinactive T) (option st) (htest T)) (sz' : sizes T (rleaf T) (rinactive T) (option st) (htest T)).
Hypothesis Quiet : forall w, c_period_due (r_memory cfg) w = false.
Lemma robserve_all y w x : forall pre obs, foldM (ar_observe key cfg (pre ++ x) y w) (map Z.of_nat (seq (length pre) (length x))) obs = Ok (update_robs key cfg obs (Z.of_nat (length pre)) x y w).
Proof.
  induction x as [|v x IH]; intros pre obs; cbn [seq map foldM update_robs length]; [reflexivity|]. unfold ar_observe at 1. cbv zeta. rewrite nth_at. cbn [bind].
  specialize (IH (pre ++ [v])). rewrite <- app_assoc, app_length in IH. cbn [app length] in IH. rewrite Nat.add_1_r in IH. rewrite IH. do 2 f_equal; lia.
Qed.
Definition rfull_leaf (a : arfr_leaf T) (l : rleaf T) : Prop := arl_leaf a = l /\ (arl_features a = [] \/ arl_features a = all_features n).
Definition rfull_inst (i : arfr_inst T) (x : inst T) : Prop := ari_inst i = x /\ length (i_x x) = n /\ ari_pick i = all_features n.
Lemma rfull_learn b a l i x y w : rfull_leaf a l -> rfull_inst i x -> rrel b rfull_leaf (arl_learn key int_of cfg (Z.of_nat n) a i y w) (rleaf_learn key int_of cfg l x y w).
Proof.
  intros [<- F] (<- & L & P). unfold arl_learn, rleaf_learn. cbv zeta.
  assert (E : a_features (Z.of_nat n) (arl_features a) (length (i_x (ari_inst i))) (ari_pick i) = Ok (all_features n)).
  { unfold a_features. destruct F as [->| ->].
    - unfold a_sample. rewrite L, P. destruct (Z.ltb_spec (Z.of_nat n) (Z.of_nat n)); [lia|]. destruct (Z.ltb_spec (Z.of_nat n) 0); [lia|]. reflexivity.
    - destruct n as [|n'] eqn:En; [unfold a_sample; rewrite L, P; reflexivity|reflexivity]. }
  rewrite E. cbn [bind]. pose proof (robserve_all y w (i_x (ari_inst i)) [] (rl_obs (arl_leaf a))) as O. cbn [app length] in O. unfold all_features. rewrite <- L, O. change (Z.of_nat 0) with 0. cbn [bind].
  eapply rrel_bind; [apply rrel_eq|]. intros o ? <-. cbn. split; auto. right. unfold all_features. now rewrite <- L.
Qed.
Lemma rfull_alike b : alike (arfr_ops key int_of cfg (Z.of_nat n)) (htr_ops key int_of cfg) (r_memory cfg) sz sz' b rfull_inst eq rfull_leaf eq eq eq.
Proof.
  constructor; cbn [o_new o_child o_stop o_start o_learn o_learn_inactive o_due o_decide o_stats o_branch o_multiway o_add o_max o_before arfr_ops htr_ops].
  - split; auto.
  - intros l l' d ? [<- _] <-. split; auto.
  - now intros l l' [<- _].
  - intros i ? <-. split; auto.
  - intros l l' x x' y ? w H F <-. now apply rfull_learn.
  - intros i ? x x' y ? w <- (<- & _) <-. apply rrel_eq.
  - now intros l l' [<- _].
  - intros a l [<- F]. unfold arl_decide. destruct (rdecide int_of cfg (arl_leaf a)) as [[d|d|d te ds]|e]; cbn; auto; [split; auto..|]. split; [split; auto|]. split; auto. clear. induction ds; constructor; auto.
  - now intros l l' [<- _].
  - intros t ? x x' <- (<- & _). apply rrel_eq.
  - now intros t ? <-.
  - intros t ? x x' <- (<- & _). destruct (ht_add key t (i_x (ari_inst x))) as [[t' c]|e]; cbn; auto.
  - now intros t ? <-.
  - reflexivity.
  - left. exact Quiet.
Qed.
Definition rfull_state (s : arfr T) (s' : htr T) : Prop := trel rfull_leaf eq eq eq (arr_tree s) (hr_tree s') /\ arr_sums s = hr_sums s'.
Definition rfull_event (e : arfr_event T) : htr_event T := match e with ARFit rows ws => RFit (map fst rows) ws | ARReset => RReset end.
Lemma rfull_rows b rows : Forall (fun r => length (fst (fst (fst r))) = n /\ snd r = all_features n) rows -> forall ws s s', rfull_state s s' ->
  rrel b rfull_state (arfr_rows key int_of cfg (Z.of_nat n) sz s rows ws) (htr_rows key int_of cfg sz' s' (map fst rows) ws).
Proof.
  induction 1 as [|[[[x y] d] p] rows [Ln Hp] F IH]; intros ws s s' H; cbn [arfr_rows htr_rows map fst snd]; [exact H|]. destruct ws as [|w ws]; [exact H|]. cbn [fst snd] in Ln, Hp.
  eapply rrel_bind with (RA := rfull_state); [|intros a c Hac; now apply IH]. unfold arfr_one, htr_one. destruct (w =? n0)%num; [exact H|]. cbv zeta. destruct H as [H1 H2]. rewrite H2.
  eapply rrel_bind; [apply (rel_fit _ _ _ _ _ _ _ _ _ _ _ _ (rfull_alike b)); eauto; repeat split; auto|]. intros a c Hac. split; auto.
Qed.
Lemma rfull_run b es : arfr_each (fun x p => length x = n /\ p = all_features n) es -> forall s s', rfull_state s s' -> rrel b rfull_state (arfr_run key int_of cfg (Z.of_nat n) sz s es) (htr_run key int_of cfg sz' s' (map rfull_event es)).
Proof.
  induction 1 as [|e es He F IH]; intros s s' H; cbn [arfr_run htr_run map]; [exact H|]. eapply rrel_bind with (RA := rfull_state); [|intros a c Hac; now apply IH].
  destruct e as [rows ws|]; cbn [arfr_step htr_step rfull_event]; [|split; [apply rel_new|apply H]]. unfold arfr_fit, htr_fit. cbv zeta. rewrite map_length. destruct (Nat.eqb _ _); [|apply rrel_raise]. now apply rfull_rows.
Qed.
Lemma rfull_route r r' x g p : nrel rfull_leaf eq eq eq r r' -> length x = n ->
  rrel true (fun a b => fst a = fst b /\ match snd a, snd b with Some u, Some u' => nrel rfull_leaf eq eq eq u u' | None, None => True | _, _ => False end)
    (route (arfr_ops key int_of cfg (Z.of_nat n)) r (mk_ari (mk_inst x g (fun _ => n0)) p)) (route (htr_ops key int_of cfg) r' (mk_inst x g (fun _ => n0))).
Proof.
  intros R L. pose proof (rel_route _ _ _ sz sz' true _ _ _ _ _ _ (rfull_alike true) _ _ (mk_ari (mk_inst x g (fun _ => n0)) (all_features n)) (mk_inst x g (fun _ => n0)) R ltac:(repeat split; auto)) as H.
  replace (route (arfr_ops key int_of cfg (Z.of_nat n)) r (mk_ari (mk_inst x g (fun _ => n0)) p)) with (route (arfr_ops key int_of cfg (Z.of_nat n)) r (mk_ari (mk_inst x g (fun _ => n0)) (all_features n))); [exact H|].
  clear. induction r as [l|i|te s ch IHr] using node_rect'; cbn [route]; auto. cbn [o_branch arfr_ops ari_inst]. destruct (ht_branch _ _ _) as [c|]; cbn [bind]; auto. destruct (0 <=? c)%Z; auto.
  induction IHr as [|[kk c0] ch Hc _ IHc]; auto. cbn in Hc. destruct (Z.eqb kk c); [now rewrite Hc|exact IHc].
Qed.
Lemma rfull_predict s s' xs : rfull_state s s' -> Forall (fun x => length x = n) xs -> arfr_predict key int_of cfg (Z.of_nat n) s xs = htr_predict key int_of cfg s' xs.
Proof.
  intros [[R] Hs] L. unfold arfr_predict, htr_predict. rewrite Hs. destruct (t_root (arr_tree s)) as [r|], (t_root (hr_tree s')) as [r'|]; try contradiction; auto. destruct (n0 <? _)%num; auto.
  induction L as [|x xs Lx L IH]; cbn [mapM]; [reflexivity|]. rewrite IH. f_equal. unfold arfr_value, htr_value. rewrite Hs.
  pose proof (rfull_route r r' x (hr_sums s') [] R Lx) as H. destruct (route (arfr_ops _ _ _ _) r _) as [[p u]|e], (route (htr_ops _ _ _) r' _) as [[p' u']|e']; cbn in H |- *; try discriminate; [|now rewrite H].
  destruct H as [_ H]. destruct u as [u|], u' as [u'|]; try contradiction; auto. destruct H as [l l' [<- _]|i i' <-|te te' q q' ch ch' _ <- _]; reflexivity.
Qed.
End Full.
