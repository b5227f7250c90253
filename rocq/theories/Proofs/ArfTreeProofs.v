(** Lemmas: the trees of the adaptive random forests. *)
From Coq Require Import List ZArith Bool Lia.
From Verif Require Import Base.Py Base.Num Base.Dict Model.Suggestion Model.Adwin Model.SplitTests Model.NominalObs Model.Knn Model.SplitCriteria Model.TargetStats Model.NaiveBayes Model.TreeSkeleton Model.HoeffdingTree Model.HoeffdingRegressor Model.ArfTree
  Spec.TreeSpec Spec.TreeRelSpec Spec.ArfTreeSpec Spec.HoeffdingSpec Spec.HoeffdingRegressorSpec Proofs.TreeProofs Proofs.TreeRelProofs Proofs.HoeffdingProofs.
Import ListNotations.
Local Open Scope Z_scope.

Lemma rrel_diag {A} b (P : A -> Prop) (m : res A) : (forall a, m = Ok a -> P a) -> rrel b (fun x y => x = y /\ P x) m m.
Proof. intros H. destruct m as [a|e]; cbn; auto. Qed.
Lemma F2_length {A B} (R : A -> B -> Prop) l l' : Forall2 R l l' -> length l = length l'.
Proof. induction 1; cbn; auto. Qed.
Lemma foldM_ext {A S} (f g : S -> A -> res S) l : (forall s a, In a l -> f s a = g s a) -> forall s, foldM f l s = foldM g l s.
Proof.
  induction l as [|a l IH]; intros H s; cbn [foldM]; [reflexivity|]. rewrite (H s a (or_introl eq_refl)). destruct (g s a); cbn [bind]; auto. apply IH. intros. apply H. now right.
Qed.
Lemma foldM_keys {V} (f : list (Z * V) -> Z -> res (list (Z * V))) l : (forall d i d', f d i = Ok d' -> exists v, d' = dset d i v) -> forall d d', foldM f l d = Ok d' ->
  ((forall i, In i l -> In i (dkeys d)) -> dkeys d' = dkeys d) /\ (NoDup (dkeys d ++ l) -> dkeys d' = dkeys d ++ l).
Proof.
  intros Hf. induction l as [|i l IH]; intros d d' H; cbn [foldM] in H; [injection H as <-; split; auto; intros; now rewrite app_nil_r|].
  apply bind_Ok in H as (d1 & E1 & H). apply Hf in E1 as (v & ->). apply IH in H as [H1 H2]. split.
  - intros Hin. assert (Hi : In i (dkeys d)) by (apply Hin; now left). rewrite (dset_old d i v Hi) in H1. apply H1. intros j Hj. apply Hin. now right.
  - intros Nd. assert (Hi : ~ In i (dkeys d)). { apply NoDup_remove_2 in Nd. intros C. apply Nd. apply in_or_app. auto. }
    assert (K : dkeys (dset d i v) = dkeys d ++ [i]) by (rewrite (dset_new d i v Hi); unfold dkeys; now rewrite map_app).
    rewrite K, <- app_assoc in H2. auto.
Qed.
Lemma at_index_agree {T} A (x x' : list T) a : agree A x x' -> 0 <= a -> A a -> at_index x a = at_index x' a.
Proof.
  intros [L H] La Ha. unfold at_index. rewrite L. destruct (Z.ltb_spec a 0); [lia|]. destruct (Z.ltb_spec a 0); [lia|]. rewrite (H (Z.to_nat a)); auto. now rewrite Z2Nat.id.
Qed.
Lemma agree_map {T U} (f : T -> U) A x x' : agree A x x' -> agree A (map f x) (map f x').
Proof. intros [L H]. split; [now rewrite !map_length|]. intros a Ha. rewrite !nth_error_map, H; auto. Qed.

Section Branch.
Context {T : Type} {N : Num T} (key : T -> Z).
Lemma branch_agree A (te : htest T) x x' : agree A x x' -> 0 <= ht_att te -> A (ht_att te) -> ht_branch key te x = ht_branch key te x'.
Proof.
  intros Ag La Ha. pose proof Ag as [L _]. destruct te as [t|a v|t]; cbn [ht_branch ht_att] in *.
  - unfold num_branch, no_attribute. rewrite L. now rewrite (at_index_agree A x x').
  - unfold no_attribute. rewrite L. now rewrite (at_index_agree A x x').
  - unfold multi_branch, no_attribute. rewrite !map_length, L. rewrite (at_index_agree A (map key x) (map key x')); auto. now apply agree_map.
Qed.
Lemma add_agree A (te : htest T) x x' : agree A x x' -> 0 <= ht_att te -> A (ht_att te) -> ht_add key te x = ht_add key te x'.
Proof.
  intros Ag La Ha. destruct te as [t|a v|t]; cbn [ht_add ht_att] in *; auto. rewrite (at_index_agree A (map key x) (map key x')); auto. now apply agree_map.
Qed.
Lemma add_att (te : htest T) x te' b : ht_add key te x = Ok (te', b) -> ht_att te' = ht_att te.
Proof.
  destruct te as [t|a v|t]; cbn [ht_add]; try discriminate. intros H. apply bind_Ok in H as (u & _ & H). apply bind_Ok in H as ([t' b'] & E & H). injection H as <- <-. cbn.
  unfold multi_add in E. destruct (dvals _); [discriminate|]. injection E as <- <-. reflexivity.
Qed.
Context (k : T).
Lemma nb_attributes_agree (A : Z -> Prop) (obs : list (Z * cobs T)) c : (forall i, In i (dkeys obs) -> A i) -> forall x x' i v, length x = length x' ->
  (forall j, A (i + Z.of_nat j) -> nth_error x j = nth_error x' j) -> nb_attributes k key obs i x c v = nb_attributes k key obs i x' c v.
Proof.
  intros K. induction x as [|a x IH]; intros [|a' x'] i v L H; try discriminate; [reflexivity|]. cbn [nb_attributes].
  assert (IH' : forall v, nb_attributes k key obs (i + 1) x c v = nb_attributes k key obs (i + 1) x' c v).
  { intros v0. apply IH; [now injection L|]. intros j Hj. apply (H (S j)). replace (i + Z.of_nat (S j)) with (i + 1 + Z.of_nat j) by lia. exact Hj. }
  destruct (dget obs i) as [o|] eqn:E; [|apply IH'].
  assert (a = a'). { specialize (H 0%nat). cbn in H. assert (Some a = Some a') by (apply H; rewrite Z.add_0_r; apply K; apply dget_Some; eauto). congruence. }
  subst a'. destruct (co_prob k key o a c); cbn [bind]; auto.
Qed.
Lemma nb_votes_agree A (obs : list (Z * cobs T)) d x x' : agree A x x' -> (forall i, In i (dkeys obs) -> A i) -> nb_votes k key x d obs = nb_votes k key x' d obs.
Proof.
  intros [L H] K. unfold nb_votes. cbv zeta. destruct (_ || _); [reflexivity|].
  assert (E : forall l, mapM (fun cw => v <- nb_attributes k key obs 0 x (fst cw) (snd cw / vsum d)%num ;; Ok (fst cw, v)) l = mapM (fun cw => v <- nb_attributes k key obs 0 x' (fst cw) (snd cw / vsum d)%num ;; Ok (fst cw, v)) l).
  { induction l as [|cw l IH]; cbn [mapM]; [reflexivity|]. rewrite IH, (nb_attributes_agree A obs (fst cw) K x x' 0); auto. }
  apply E.
Qed.
End Branch.

Section Class.
Context {T : Type} {N : Num T} (k : T) (phi : T -> T) (key : T -> Z) (cfg : ht_config T) (m : Z).
Local Notation dist := (list (Z * T)).
(** A decision keeps the observed attributes and splits on one of them. *)
Lemma disable_obs_keys (a : ht_config T) p : forall l : leaf T, dkeys (lf_obs (fold_left (disable a) p l)) = dkeys (lf_obs l).
Proof.
  induction p as [|i p IH]; intros l; cbn [fold_left]; auto. rewrite IH. unfold disable. destruct (h_kind a); auto. destruct (dmem (lf_obs l) i) eqn:E; auto. cbn [lf_obs]. apply dset_old. now apply dmem_true.
Qed.
Lemma best_of_att (a : ht_config T) pre i o s : best_of k phi a pre i o = Ok (Some s) -> match sg_test s with Some te => ht_att te = i | None => True end.
Proof.
  destruct o as [g|nm|]; cbn [best_of]; [| |discriminate].
  - intros H. apply bind_Ok in H as ([b|] & E & H); [|discriminate]. injection H as <-. reflexivity.
  - destruct (no_best _ _ _) as [b|]; [|discriminate]. intros [= <-]. cbn [sg_test]. destruct (sg_test b); reflexivity.
Qed.
Lemma decide_watches (a : ht_config T) l d : decide k phi a l = Ok d ->
  match d with Keep l' | NullWins l' | SplitOn l' _ _ => dkeys (lf_obs l') = dkeys (lf_obs l) end /\ match d with SplitOn _ te _ => In (ht_att te) (dkeys (lf_obs l)) | _ => True end.
Proof.
  intros H. split.
  - unfold decide in H. cbv zeta in H. destruct (leaf_pure l); [injection H as <-; reflexivity|]. apply bind_Ok in H as (bs & Eb & H).
    destruct (rev _) as [|best [|second rest]] eqn:Er.
    + injection H as <-. reflexivity.
    + injection H as <-. destruct (sg_test best); reflexivity.
    + apply bind_Ok in H as (bound & _ & H). apply bind_Ok in H as (poor & _ & H). injection H as <-. destruct (_ || _); [destruct (sg_test best)|]; cbn [lf_obs]; apply disable_obs_keys.
  - apply decide_cases in H as [_ H]. destruct d as [| |l' te ds]; auto. destruct H as (_ & bs & best & Eb & Hin & Et & _).
    unfold suggestions in Eb. apply bind_Ok in Eb as (rs & E & Eb). injection Eb as <-. apply in_app_or in Hin as [Hin|Hin].
    + destruct (h_no_preprune a); [contradiction|]. destruct Hin as [<-|[]]. discriminate.
    + apply in_flat_map in Hin as ([s'|] & Hin & Hs); [|contradiction]. destruct Hs as [->|[]]. destruct (mapM_in _ _ _ E _ Hin) as ([i o] & Hio & Eo). cbn [fst snd] in Eo. apply best_of_att in Eo. rewrite Et in Eo. rewrite Eo. apply in_map_iff. exists (i, o). auto.
Qed.

(** ** What a leaf watches; instances that agree on what may be watched *)
Variables (A : Z -> Prop) (n : nat).
Definition watches (l : arf_leaf T) : Prop :=
  dkeys (lf_obs (al_leaf l)) = al_features l /\ (al_features l = [] \/ right_pick m n (al_features l)) /\ Forall A (al_features l).
Definition fitting (i i' : arf_inst T) : Prop :=
  length (ai_x i) = n /\ agree A (ai_x i) (ai_x i') /\ ai_pick i = ai_pick i' /\ right_pick m n (ai_pick i) /\ Forall A (ai_pick i).
Definition seen_test (te : htest T) : Prop := A (ht_att te) /\ 0 <= ht_att te < Z.of_nat n.
Lemma watches_new d : watches (al_new d). Proof. repeat split; cbn; auto. Qed.
Lemma observe_keys x y w obs i obs' : a_observe key cfg x y w obs i = Ok obs' -> exists o, obs' = dset obs i o.
Proof. unfold a_observe. cbv zeta. intros H. apply bind_Ok in H as (v & _ & H). apply bind_Ok in H as (o & _ & H). injection H as <-. eauto. Qed.
Lemma al_learn_rel b l i i' y w : watches l -> fitting i i' -> rrel b (fun a c => a = c /\ watches a) (al_learn k key cfg m l i y w) (al_learn k key cfg m l i' y w).
Proof.
  intros (Wk & Wp & Wa) (Ln & Ag & Ep & Rp & Pa).
  assert (E : al_learn k key cfg m l i y w = al_learn k key cfg m l i' y w).
  { unfold al_learn. cbv zeta. rewrite <- Ep. pose proof Ag as [L _]. rewrite <- L.
    assert (Ec : nba_counters k key (al_leaf l) (ai_x i) y w = nba_counters k key (al_leaf l) (ai_x i') y w).
    { unfold nba_counters. rewrite (nb_votes_agree key k A (lf_obs (al_leaf l)) _ _ _ Ag); [reflexivity|]. rewrite Wk. now apply Forall_forall. }
    rewrite Ec. match goal with |- bind ?a _ = _ => destruct a as [[mc nb]|e] end; cbn [bind]; auto.
    destruct (a_features m (al_features l) (length (ai_x i)) (ai_pick i)) as [fs|e] eqn:Ef; cbn [bind]; auto.
    assert (Hf : Forall A fs /\ Forall (fun a => 0 <= a < Z.of_nat n) fs).
    { unfold a_features in Ef. destruct (al_features l) as [|f r] eqn:Efe.
      - unfold a_sample in Ef. destruct (_ || _); [discriminate|]. injection Ef as <-. split; auto. apply Rp.
      - injection Ef as <-. split; auto. destruct Wp as [Wp|Wp]; [discriminate|apply Wp]. }
    destruct Hf as [Hf1 Hf2]. rewrite Forall_forall in Hf1, Hf2.
    rewrite (foldM_ext (a_observe key cfg (ai_x i) y w) (a_observe key cfg (ai_x i') y w)); [reflexivity|]. intros s a Ha. unfold a_observe. rewrite (at_index_agree A (ai_x i) (ai_x i')); auto. apply Hf2; auto. }
  rewrite <- E. apply rrel_diag. intros l' H. unfold al_learn in H. cbv zeta in H. apply bind_Ok in H as ([mc nb] & _ & H). apply bind_Ok in H as (fs & Ef & H). apply bind_Ok in H as (obs & Eo & H). injection H as <-.
  destruct (foldM_keys _ _ (observe_keys (ai_x i) y w) _ _ Eo) as [K1 K2]. unfold watches. cbn [al_leaf al_features lf_obs].
  unfold a_features in Ef. destruct (al_features l) as [|f r] eqn:Efe.
  - unfold a_sample in Ef. destruct (_ || _); [discriminate|]. injection Ef as <-. rewrite Wk in K2. split; [|split; auto]. apply K2. apply Rp.
  - injection Ef as <-. rewrite Wk in K1. split; [apply K1; auto|]. auto.
Qed.
Lemma al_decide_rel b l : watches l -> rrel b (drel (fun a c => a = c /\ watches a) eq (fun a c => a = c /\ seen_test a)) (al_decide k phi cfg l) (al_decide k phi cfg l).
Proof.
  intros (Wk & Wp & Wa). unfold al_decide. destruct (decide k phi (a_cfg cfg) (al_leaf l)) as [d|e] eqn:Ed; cbn; auto. apply decide_watches in Ed as [K S].
  assert (W : forall lf, dkeys (lf_obs lf) = dkeys (lf_obs (al_leaf l)) -> watches (mk_al lf (al_features l))) by (intros lf Hl; split; [cbn; congruence|split; auto]).
  destruct d as [lf|lf|lf te ds]; cbn; auto. split; [auto|]. split; [|clear; induction ds; constructor; auto]. split; auto. rewrite Wk in S. split; [rewrite Forall_forall in Wa; auto|].
  destruct Wp as [Wp|(_ & _ & Wp)]; [rewrite Wp in S; contradiction|]. rewrite Forall_forall in Wp. auto.
Qed.
Local Notation RL := (fun a c : arf_leaf T => a = c /\ watches a).
Local Notation RE := (fun a c : htest T => a = c /\ seen_test a).
Lemma nrel_diag (t t' : node (arf_leaf T) dist dist (htest T)) : nrel RL eq eq RE t t' -> t = t'.
Proof.
  revert t t'. apply nrel_ind'; [intros l l' [-> _]|intros i i' ->|intros te te' st st' ch ch' [-> _] -> _ H]; auto. f_equal. induction H as [|[a c] [a' c'] ch ch' [E1 E2] _ IH]; auto. cbn in E1, E2. congruence.
Qed.
Variable sz : sizes T (arf_leaf T) dist dist (htest T).
Lemma trel_diag (t t' : tree T (arf_leaf T) dist dist (htest T)) : trel RL eq eq RE t t' -> t = t'.
Proof. intros [R]. destruct t, t'. cbn in *. subst. f_equal. destruct t_root as [r|], t_root0 as [r'|]; try contradiction; auto. f_equal. now apply nrel_diag. Qed.
Lemma arf_alike b : alike (arf_ops k phi key cfg m) (arf_ops k phi key cfg m) (h_memory cfg) sz sz b fitting eq RL eq eq RE.
Proof.
  constructor; cbn [o_new o_child o_stop o_start o_learn o_learn_inactive o_due o_decide o_stats o_branch o_multiway o_add o_max o_before arf_ops].
  - split; auto. apply watches_new.
  - intros l l' d ? _ <-. split; auto. apply watches_new.
  - now intros l l' [-> _].
  - intros i ? <-. split; auto. apply watches_new.
  - intros l ? x x' y ? w [<- W] F <-. now apply al_learn_rel.
  - intros i ? x x' y ? w <- F <-. apply rrel_eq.
  - now intros l l' [-> _].
  - intros l ? [<- W]. now apply al_decide_rel.
  - now intros l l' [-> _].
  - intros t ? x x' [<- [S1 S2]] (_ & Ag & _). rewrite (branch_agree key A t _ _ Ag); [apply rrel_eq|lia|auto].
  - now intros t ? [<- _].
  - intros t ? x x' [<- [S1 S2]] (_ & Ag & _). rewrite (add_agree key A t _ _ Ag); [|lia|auto]. destruct (ht_add key t (ai_x x')) as [[t' c]|e] eqn:E; cbn; auto. apply add_att in E. unfold seen_test. rewrite E. repeat split; auto; lia.
  - now intros t ? [<- _].
  - intros d e a a' c c' Ha Hc. apply nrel_diag in Ha, Hc. now subst.
  - right. split; [now intros l l' [-> _]|]. split; [now intros i ? <-|]. intros s s' H. apply trel_diag in H. now subst.
Qed.
Lemma arf_rows_rel b rows rows' : Forall2 (fun r r' => fitting (fst r) (fst r') /\ snd r = snd r') rows rows' -> forall ws t t', trel RL eq eq RE t t' ->
  rrel b (trel RL eq eq RE) (arf_rows k phi key cfg m sz t rows ws) (arf_rows k phi key cfg m sz t' rows' ws).
Proof.
  induction 1 as [|[x y] [x' y'] rows rows' [Hx Hy] F IH]; intros ws t t' H; cbn [arf_rows]; [exact H|]. cbn [fst snd] in Hx, Hy. destruct ws as [|w ws]; [exact H|].
  eapply rrel_bind; [apply (rel_fit _ _ _ _ _ _ _ _ _ _ _ _ (arf_alike b)); eauto|]. intros a c Hac. now apply IH.
Qed.
Definition state_rel (s s' : arf T) : Prop := trel RL eq eq RE (ar_tree s) (ar_tree s') /\ ar_classes s = ar_classes s'.
Definition event_rel (e e' : arf_event T) : Prop :=
  match e, e' with
  | AFit rows c ws, AFit rows' c' ws' => Forall2 (fun r r' => fitting (fst r) (fst r') /\ snd r = snd r') rows rows' /\ c = c' /\ ws = ws'
  | AReset, AReset => True
  | _, _ => False
  end.
Lemma arf_run_rel b es es' : Forall2 event_rel es es' -> forall s s', state_rel s s' -> rrel b state_rel (arf_run k phi key cfg m sz s es) (arf_run k phi key cfg m sz s' es').
Proof.
  induction 1 as [|e e' es es' He F IH]; intros s s' H; cbn [arf_run]; [exact H|]. eapply rrel_bind with (RA := state_rel); [|intros a c Hac; now apply IH]. destruct H as [H1 H2].
  destruct e as [rows c ws|], e' as [rows' c' ws'|]; cbn in He; try contradiction; cbn [arf_step]; [|split; [apply rel_new|exact H2]]. destruct He as (He & <- & <-).
  unfold arf_fit. cbv zeta. rewrite H2. rewrite <- (F2_length _ _ _ He). destruct (Nat.eqb _ _); [|apply rrel_raise].
  eapply rrel_bind; [apply arf_rows_rel; [exact He|exact H1]|]. intros a d Had. split; auto.
Qed.
End Class.

(** ** Watching everything *)
Section Full.
Context {T : Type} {N : Num T} (k : T) (phi : T -> T) (key : T -> Z) (cfg : ht_config T) (n : nat).
Local Notation dist := (list (Z * T)).
Variables (sz : sizes T (arf_leaf T) dist dist (htest T)) (sz' : sizes T (leaf T) dist dist (htest T)).
Hypothesis Poor : h_poor cfg = false \/ h_kind cfg = MC.
Hypothesis Quiet : forall w, c_period_due (h_memory cfg) w = false.
Lemma nth_at {V} (pre x : list V) v : at_index (pre ++ v :: x) (Z.of_nat (length pre)) = Ok v.
Proof. unfold at_index. destruct (Z.ltb_spec (Z.of_nat (length pre)) 0); [lia|]. destruct (Z.ltb_spec (Z.of_nat (length pre)) 0); [lia|]. rewrite Nat2Z.id, nth_error_app2, Nat.sub_diag by lia. reflexivity. Qed.
Lemma observe_all y w x : forall pre obs, foldM (a_observe key cfg (pre ++ x) y w) (map Z.of_nat (seq (length pre) (length x))) obs = update_observers key (h_nominal cfg) obs (Z.of_nat (length pre)) x y w.
Proof.
  induction x as [|v x IH]; intros pre obs; cbn [seq map foldM update_observers length]; [reflexivity|]. unfold a_observe at 1. cbv zeta. rewrite nth_at. cbn [bind].
  destruct (co_update key _ v y w) as [o|e]; cbn [bind]; auto. specialize (IH (pre ++ [v])). rewrite <- app_assoc, app_length in IH. cbn [app length] in IH. rewrite Nat.add_1_r in IH. rewrite IH. f_equal; lia.
Qed.
Lemma full_decide l : decide k phi (a_cfg cfg) l = decide k phi cfg l.
Proof.
  destruct Poor as [P|P].
  - unfold decide. cbv zeta. cbn [a_cfg h_poor h_crit h_confidence h_tie]. rewrite P. destruct (leaf_pure l); [reflexivity|]. change (suggestions k phi (a_cfg cfg) l) with (suggestions k phi cfg l). destruct (suggestions k phi cfg l) as [bs|e]; cbn [bind]; auto.
  - f_equal. destruct cfg. cbn in P |- *. subst. reflexivity.
Qed.
Definition full_leaf (a : arf_leaf T) (l : leaf T) : Prop := al_leaf a = l /\ (al_features a = [] \/ al_features a = all_features n).
Definition full_inst (i : arf_inst T) (x : list T) : Prop := ai_x i = x /\ length x = n /\ ai_pick i = all_features n.
Lemma full_learn b a l i x y w : full_leaf a l -> full_inst i x -> rrel b full_leaf (al_learn k key cfg (Z.of_nat n) a i y w) (leaf_learn k key cfg l x y w).
Proof.
  intros [<- F] (<- & L & P). unfold al_learn, leaf_learn. cbv zeta.
  assert (E : a_features (Z.of_nat n) (al_features a) (length (ai_x i)) (ai_pick i) = Ok (all_features n)).
  { unfold a_features. destruct F as [->| ->].
    - unfold a_sample. rewrite L, P. destruct (Z.ltb_spec (Z.of_nat n) (Z.of_nat n)); [lia|]. destruct (Z.ltb_spec (Z.of_nat n) 0); [lia|]. reflexivity.
    - destruct n as [|n'] eqn:En; [unfold a_sample; rewrite L, P; reflexivity|reflexivity]. }
  rewrite E. eapply rrel_bind; [apply rrel_eq|]. intros [mc nb] ? <-. cbn [bind]. pose proof (observe_all y w (ai_x i) [] (lf_obs (al_leaf a))) as O. cbn [app length] in O. unfold all_features. rewrite <- L, O. change (Z.of_nat 0) with 0.
  eapply rrel_bind; [apply rrel_eq|]. intros o ? <-. cbn. split; auto. right. unfold all_features. now rewrite <- L.
Qed.
Lemma full_alike b : alike (arf_ops k phi key cfg (Z.of_nat n)) (ht_ops k phi key cfg) (h_memory cfg) sz sz' b full_inst eq full_leaf eq eq eq.
Proof.
  constructor; cbn [o_new o_child o_stop o_start o_learn o_learn_inactive o_due o_decide o_stats o_branch o_multiway o_add o_max o_before arf_ops ht_ops].
  - split; auto.
  - intros l l' d ? _ <-. split; auto.
  - now intros l l' [<- _].
  - intros i ? <-. split; auto.
  - intros l l' x x' y ? w H F <-. now apply full_learn.
  - intros i ? x x' y ? w <- F <-. apply rrel_eq.
  - now intros l l' [<- _].
  - intros a l [<- F]. unfold al_decide. rewrite full_decide. destruct (decide k phi cfg (al_leaf a)) as [[d|d|d te ds]|e]; cbn; auto; [split; auto..|]. split; [split; auto|]. split; auto. clear. induction ds; constructor; auto.
  - now intros l l' [<- _].
  - intros t ? x x' <- (<- & _). apply rrel_eq.
  - now intros t ? <-.
  - intros t ? x x' <- (<- & _). destruct (ht_add key t (ai_x x)) as [[t' c]|e]; cbn; auto.
  - now intros t ? <-.
  - intros d e p p' q q' Hm Hn. cbn [snd].
    assert (E : forall (u : node (arf_leaf T) dist dist (htest T)) (v : node (leaf T) dist dist (htest T)), nrel full_leaf eq eq eq u v -> match u with Active l => lf_stats (al_leaf l) | Inactive d => d | Split _ d _ => d end = match v with Active l => lf_stats l | Inactive d => d | Split _ d _ => d end) by (intros u v [l l' [<- _]|i i' Hi|]; auto).
    now rewrite (E _ _ Hm), (E _ _ Hn).
  - left. exact Quiet.
Qed.
Definition full_state (s : arf T) (s' : ht T) : Prop := trel full_leaf eq eq eq (ar_tree s) (ht_tree s') /\ ar_classes s = ht_classes s'.
Definition full_event (e : arf_event T) : ht_event T := match e with AFit rows c ws => HFit (map (fun r => (ai_x (fst r), snd r)) rows) c ws | AReset => HReset end.
Definition full_row (r : arf_inst T) : Prop := length (ai_x r) = n /\ ai_pick r = all_features n.
Lemma full_rows b rows : Forall (fun r => full_row (fst r)) rows -> forall ws t t', trel full_leaf eq eq eq t t' ->
  rrel b (trel full_leaf eq eq eq) (arf_rows k phi key cfg (Z.of_nat n) sz t rows ws) (ht_rows k phi key cfg sz' t' (map (fun r => (ai_x (fst r), snd r)) rows) ws).
Proof.
  induction 1 as [|[i y] rows Hr F IH]; intros ws t t' H; cbn [arf_rows ht_rows map fst snd]; [exact H|]. destruct ws as [|w ws]; [exact H|].
  eapply rrel_bind; [apply (rel_fit _ _ _ _ _ _ _ _ _ _ _ _ (full_alike b)); eauto; destruct Hr; repeat split; auto|]. intros a c Hac. now apply IH.
Qed.
Lemma full_run b es : arf_each full_row es -> forall s s', full_state s s' -> rrel b full_state (arf_run k phi key cfg (Z.of_nat n) sz s es) (ht_run k phi key cfg sz' s' (map full_event es)).
Proof.
  induction 1 as [|e es He F IH]; intros s s' H; cbn [arf_run ht_run map]; [exact H|]. eapply rrel_bind with (RA := full_state); [|intros a c Hac; now apply IH]. destruct H as [H1 H2].
  destruct e as [rows c ws|]; cbn [arf_step ht_step full_event]; [|split; [apply rel_new|exact H2]]. unfold arf_fit, ht_fit. cbv zeta. rewrite H2, map_length. destruct (Nat.eqb _ _); [|apply rrel_raise].
  eapply rrel_bind; [apply full_rows; [exact He|exact H1]|]. intros a d Had. split; auto.
Qed.
Lemma full_votes s s' x : full_state s s' -> length x = n -> arf_votes k phi key cfg (Z.of_nat n) s x = ht_votes k phi key cfg s' x.
Proof.
  intros [H _] L. unfold arf_votes, ht_votes.
  assert (A : rrel true (fun a b => match a, b with Some p, Some p' => nrel full_leaf eq eq eq p p' | None, None => True | _, _ => False end) (answering (arf_ops k phi key cfg (Z.of_nat n)) (ar_tree s) (mk_ai x [])) (answering (ht_ops k phi key cfg) (ht_tree s') x)).
  { pose proof (rel_answering _ _ _ sz sz' true _ _ _ _ _ _ (full_alike true) _ _ (mk_ai x (all_features n)) x H ltac:(repeat split; auto)) as R.
    replace (answering (arf_ops k phi key cfg (Z.of_nat n)) (ar_tree s) (mk_ai x [])) with (answering (arf_ops k phi key cfg (Z.of_nat n)) (ar_tree s) (mk_ai x (all_features n))); [exact R|].
    unfold answering. destruct (t_root (ar_tree s)) as [r|]; auto. f_equal. induction r as [l|i|te st ch IHr] using node_rect'; cbn [route]; auto. cbn [o_branch arf_ops ai_x]. destruct (ht_branch key te x) as [c|]; cbn [bind]; auto. destruct (0 <=? c)%Z; auto.
    clear - IHr. induction IHr as [|[kk c0] ch Hc _ IHc]; auto. cbn in Hc. destruct (Z.eqb kk c); [now rewrite Hc|exact IHc]. }
  destruct (answering _ (ar_tree s) _) as [[p|]|e], (answering _ (ht_tree s') _) as [[p'|]|e']; cbn in A |- *; try contradiction; try discriminate; auto; [|now rewrite A].
  destruct A as [l l' [<- _]|i i' <-|te te' st st' ch ch' _ <- _]; reflexivity.
Qed.
End Full.

(** ** Counters *)
Section Good.
Context {T : Type} {N : Num T} (k : T) (phi : T -> T) (key : T -> Z) (cfg : ht_config T) (m : Z).
Local Notation dist := (list (Z * T)).
Local Notation O := (arf_ops k phi key cfg m).
Variable sz : sizes T (arf_leaf T) dist dist (htest T).
Definition akeys_ok (l : arf_leaf T) : Prop := keys_ok (al_leaf l) /\ Forall (fun a => 0 <= a) (al_features l).
Definition apick_ok (i : arf_inst T) (y : Z) (w : T) : Prop := Forall (fun a => 0 <= a) (ai_pick i).
Definition arf_good (t : tree T (arf_leaf T) dist dist (htest T)) : Prop := good test_ok akeys_ok ndk t.
Lemma akeys_new d : ndk d -> akeys_ok (al_new d). Proof. intros H. split; [now apply keys_new|constructor]. Qed.
Lemma akeys_learn l i y w l' : akeys_ok l -> apick_ok i y w -> o_learn O l i y w = Ok l' -> akeys_ok l'.
Proof.
  cbn [o_learn arf_ops]. intros [K F] P H. unfold al_learn in H. cbv zeta in H. apply bind_Ok in H as ([mc nb] & _ & H). apply bind_Ok in H as (fs & Ef & H). apply bind_Ok in H as (obs & Eo & H). injection H as <-.
  assert (Ff : Forall (fun a => 0 <= a) fs). { unfold a_features, a_sample in Ef. destruct (al_features l); [|injection Ef as <-; auto]. destruct (_ || _); [discriminate|]. now injection Ef as <-. }
  split; [|exact Ff]. destruct K as [K1 K2]. split; [|now apply update_stats_ndk]. cbn [al_leaf lf_obs]. clear - K1 Ff Eo. revert Eo K1. generalize (lf_obs (al_leaf l)). induction Ff as [|a fs Ha F IH]; intros o Eo K; cbn [foldM] in Eo; [now injection Eo as <-|].
  apply bind_Ok in Eo as (o1 & E1 & Eo). apply observe_keys in E1 as (v & ->). apply (IH _ Eo). intros j Hj. apply In_dkeys_dset in Hj as [->|Hj]; auto.
Qed.
Lemma adecide_inv l d : al_decide k phi cfg l = Ok d -> exists d0, decide k phi (a_cfg cfg) (al_leaf l) = Ok d0 /\ d = match d0 with
      | Keep lf => Keep (mk_al lf (al_features l)) | NullWins lf => NullWins (mk_al lf (al_features l))
      | SplitOn lf te ds => SplitOn (mk_al lf (al_features l)) te ds end.
Proof. unfold al_decide. intros H. apply bind_Ok in H as (d0 & E & H). injection H as <-. eauto. Qed.
Lemma adecide_split l l' te ds : akeys_ok l -> o_decide O l = Ok (SplitOn l' te ds) -> test_ok te (length ds) /\ forall d, In d ds -> akeys_ok (o_child O l' d).
Proof.
  cbn [o_decide o_child arf_ops]. intros [K _] H. apply adecide_inv in H as ([lf|lf|lf te0 ds0] & E & H); try discriminate. injection H as -> -> ->. destruct (decide_split k phi key (a_cfg cfg) _ _ _ _ K E) as [A B]. split; auto. intros d Hd. apply akeys_new. apply (B d Hd).
Qed.
Lemma adecide_keys l d : akeys_ok l -> o_decide O l = Ok d -> match d with Keep l' | NullWins l' => akeys_ok l' | _ => True end.
Proof.
  cbn [o_decide arf_ops]. intros [K F] H. apply adecide_inv in H as (d0 & E & ->). apply (decide_keys k phi (a_cfg cfg) _ _ K) in E. destruct d0; auto; split; auto.
Qed.
Lemma adecide_keep l d : o_decide O l = Ok d -> match d with Keep l' | NullWins l' | SplitOn l' _ _ => o_stats O l' = o_stats O l end.
Proof. cbn [o_decide o_stats arf_ops]. intros H. apply adecide_inv in H as (d0 & E & ->). apply decide_cases in E as [E _]. destruct d0; exact E. Qed.
Lemma arf_fit_good t x y w t' : apick_ok x y w -> arf_good t -> fit_weighted O (h_memory cfg) sz t x y w = Ok t' ->
  arf_good t' /\ (t_decision t' = t_decision t \/ t_decision t' = t_decision t + 1 /\ t_growth t = true) /\ (t_growth t' = t_growth t \/ t_growth t' = false).
Proof.
  intros P G H. refine (fit_weighted_ok O test_ok akeys_ok ndk _ _ _ _ _ (h_memory cfg) sz _ apick_ok _ _ _ _ _ _ t x y w t' (or_intror P) G H); cbn.
  - intros t0 n0' x0 b. apply (branch_lt k phi key cfg).
  - intros l [[_ K] _]; exact K.
  - intros; now apply akeys_new.
  - reflexivity.
  - reflexivity.
  - apply adecide_split.
  - apply akeys_new. constructor.
  - exact akeys_learn.
  - intros i x0 y0 w0 i' K _ [= <-]. now apply update_stats_ndk.
  - exact adecide_keys.
  - exact adecide_keep.
  - intros t0 n0' x0 b t1 b' H1 H2 H3 H4 H5. destruct (add_branch k phi key cfg t0 n0' (ai_x x0) b t1 b' H1 H2 H3 H4 H5) as (A1 & A2 & A3). repeat split; auto. intros x2. apply (A3 (ai_x x2)).
Qed.
Lemma arf_split_cause t x y w t' : apick_ok x y w -> arf_good t -> fit_one O (h_memory cfg) sz t x y w = Ok t' ->
  (t_decision t' = t_decision t + 1 <-> exists p l l' l2 te ds, route O (root_or_new O t) x = Ok (p, Some (Active l)) /\ o_learn O l x y w = Ok l' /\
     t_growth t = true /\ o_due O l' = true /\ o_decide O l' = Ok (SplitOn l2 te ds)) /\
  (forall p l l' l2 te ds, route O (root_or_new O t) x = Ok (p, Some (Active l)) -> o_learn O l x y w = Ok l' -> t_growth t = true -> o_due O l' = true -> o_decide O l' = Ok (SplitOn l2 te ds) ->
     exists r' ch, t_root t' = Some r' /\ node_at r' p = Some (Split te (o_stats O l') ch) /\ dkeys ch = map Z.of_nat (seq 0 (length ds)) /\
       map (fun c => stats_of O (snd c)) ch = map (fun d => o_stats O (o_child O l2 d)) ds /\ Forall (fun c => is_split (snd c) = false) ch).
Proof.
  intros P G H. refine (split_cause O test_ok akeys_ok ndk _ _ _ _ _ (h_memory cfg) sz _ apick_ok _ _ _ _ _ _ t x y w t' P G H); cbn.
  - intros t0 n0' x0 b. apply (branch_lt k phi key cfg).
  - intros l [[_ K] _]; exact K.
  - intros; now apply akeys_new.
  - reflexivity.
  - reflexivity.
  - apply adecide_split.
  - apply akeys_new. constructor.
  - exact akeys_learn.
  - intros i x0 y0 w0 i' K _ [= <-]. now apply update_stats_ndk.
  - exact adecide_keys.
  - exact adecide_keep.
  - intros t0 n0' x0 b t1 b' H1 H2 H3 H4 H5. destruct (add_branch k phi key cfg t0 n0' (ai_x x0) b t1 b' H1 H2 H3 H4 H5) as (A1 & A2 & A3). repeat split; auto. intros x2. apply (A3 (ai_x x2)).
Qed.
Lemma arf_rows_good rows : Forall (fun r => Forall (fun a => 0 <= a) (ai_pick (fst r))) rows -> forall ws t t', arf_good t -> arf_rows k phi key cfg m sz t rows ws = Ok t' ->
  arf_good t' /\ t_decision t <= t_decision t' /\ (t_growth t = false -> t_decision t' = t_decision t /\ t_growth t' = false).
Proof.
  induction 1 as [|[x y] rows Hr F IH]; intros ws t t' G H; cbn [arf_rows] in H; [injection H as <-; split; [exact G|split; [lia|auto]]|]. destruct ws as [|w ws]; [injection H as <-; split; [exact G|split; [lia|auto]]|].
  apply bind_Ok in H as (t1 & E1 & H). destruct (arf_fit_good _ _ _ _ _ Hr G E1) as (G1 & D1 & R1). destruct (IH _ _ _ G1 H) as (G2 & D2 & R2). split; auto. split; [lia|]. intros Fg. destruct D1 as [D1|[_ D1]]; [|congruence]. destruct R2 as [R2 R3]; [destruct R1; congruence|]. split; [congruence|auto].
Qed.
Lemma arf_run_good es : arf_each (fun i => Forall (fun a => 0 <= a) (ai_pick i)) es -> forall s s', arf_good (ar_tree s) -> arf_run k phi key cfg m sz s es = Ok s' -> arf_good (ar_tree s').
Proof.
  induction 1 as [|e es He F IH]; intros s s' G H; cbn [arf_run] in H; [injection H as <-; auto|]. apply bind_Ok in H as (s1 & E1 & H). eapply IH; [|exact H]. destruct e as [rows c ws|]; cbn [arf_step] in E1.
  - unfold arf_fit in E1. cbv zeta in E1. destruct (Nat.eqb _ _); [|discriminate]. apply bind_Ok in E1 as (t & Et & E1). injection E1 as <-. eapply arf_rows_good; eauto.
  - injection E1 as <-. repeat split.
Qed.
End Good.
