(** Runs of the delayed evaluator that report nothing, and runs whose labels arrive too late. *)
From Coq Require Import List ZArith Bool Lia Sorted Permutation.
From Verif Require Import Base.Py Model.Evaluate Model.TimeManager Model.EvaluateDelayed Spec.DelayedSpec
  Proofs.TimeManagerProofs Proofs.DelayedProofs.
Import ListNotations.

Section Proofs.
Context {X Y P W : Type}.
Variable src : source (drow X Y W).
Notation event := (dev X Y P W).
Notation trc := (list event).
Variable weighted : bool.
Variable sort : list (trow (nat * X) Y (list P) W) -> list (trow (nat * X) Y (list P) W).
Hypothesis sort_ok : forall l, Permutation (sort l) l /\ by_avail (sort l).
Variable fit_r : trc -> nat -> res unit.
Variable predict_r : trc -> nat -> list X -> res (list P).
Hypothesis sized : forall t i xs ps, predict_r t i xs = Ok ps -> length ps = length xs.
Variable report_r : trc -> res unit.
Variable timeout : nat -> bool.
Variable n_models : nat.
Hypothesis some_model : 0 < n_models.
Variable classif : bool.
Variables batch n_wait max_samples : nat.
Variables p0 pre : nat.

Definition dquiet (t : trc) : Prop := existsb is_dreport t = false.
Lemma dquiet_app t l : dquiet t -> dquiet l -> dquiet (t ++ l).
Proof. unfold dquiet. intros H1 H2. now rewrite existsb_app, H1, H2. Qed.

Lemma dfit_all_quiet xs ys ws c : forall is_ t, dquiet t -> dquiet (fst (dfit_all fit_r is_ t xs ys ws c)).
Proof.
  induction is_ as [|i r IH]; intros t Q; simpl; auto. destruct (fit_r t i); auto. apply IH. now apply dquiet_app.
Qed.
Lemma dpredict_all_quiet xs : forall is_ t acc, dquiet t -> dquiet (fst (dpredict_all predict_r is_ t xs acc)).
Proof.
  induction is_ as [|i r IH]; intros t acc Q; simpl; auto. destruct (predict_r t i (map snd xs)); auto. apply IH. now apply dquiet_app.
Qed.
Lemma dscore_rows_quiet j : forall c (t : trc) tys ps, dquiet t -> dquiet (fst (dscore_rows c j t tys ps)).
Proof.
  induction c as [|c IH]; intros t tys ps Q; simpl; auto. destruct tys as [|[n y] tys]; auto. destruct ps; auto.
  apply IH. now apply dquiet_app.
Qed.
Lemma dscore_all_quiet yps len0 tys : forall js (t : trc), dquiet t -> dquiet (fst (dscore_all js yps len0 t tys)).
Proof.
  induction js as [|j js IH]; intros t Q; simpl; auto. destruct (nth_error yps j); auto.
  pose proof (dscore_rows_quiet j len0 t tys l Q) as H. destruct (dscore_rows len0 j t tys l) as [t1 [u|e]]; auto.
Qed.

Lemma process_quiet amax s S ws : dquiet (dtr s) -> dupd s = 0 -> 0 < dcnt s ->
  (S <> [] -> dcnt s < n_wait /\ dcnt s < max_samples) ->
  let '(s', r) := process fit_r report_r n_models classif n_wait max_samples amax s S ws in
  dquiet (dtr s') /\ dupd s' = 0 /\ dcnt s <= dcnt s'.
Proof.
  intros Q U C H. unfold process. destruct (transpose (map sp S)) as [yps|e] eqn:Et; [|auto].
  set (tys := combine (map fst (map sx S)) (map sy S)).
  assert (M : let '(s1, r1) := update_metrics_delayed report_r n_models n_wait max_samples amax s tys yps in
     dquiet (dtr s1) /\ dupd s1 = 0 /\ dcnt s1 = dcnt s).
  { unfold update_metrics_delayed. destruct yps as [|y0 yps']; [auto|].
    assert (HS : S <> []) by (intros ->; discriminate). destruct (H HS) as [H1 H2].
    pose proof (dscore_all_quiet (y0 :: yps') (length y0) tys (seq 0 n_models) (dtr s) Q) as SQ.
    destruct (dscore_all _ _ _ _ _) as [t [u|e]]; [|auto]. cbv zeta. cbn [fst] in SQ.
    destruct (negb (progress_ok amax)); [auto|]. destruct (Nat.eqb_spec n_wait 0); [auto|].
    rewrite U. rewrite Nat.mod_small by auto. destruct (Nat.eqb_spec (dcnt s) 0); [lia|].
    destruct (Nat.leb_spec max_samples (dcnt s)); [lia|]. destruct (Nat.ltb_spec (n_wait * (0 + 1)) (dcnt s)); [lia|].
    simpl. auto. }
  destruct (update_metrics_delayed _ _ _ _ _ _ _ _) as [s1 [u|e]]; [|destruct M as (A & B & D); repeat split; auto; lia].
  destruct M as (A & B & D). unfold update_classifiers. destruct (map sx S) as [|x xs]; [repeat split; auto; lia|].
  pose proof (dfit_all_quiet (x :: xs) (map sy S) ws (dfirst s1 && classif) (seq 0 n_models) (dtr s1) A) as FQ.
  destruct (dfit_all _ _ _ _ _ _ _) as [t [u2|e2]]; cbn in *; repeat split; auto; lia.
Qed.

Variable N : nat.
Hypothesis finite : src_len src = Some N.
Hypothesis pre_fits : p0 + pre <= N.
Hypothesis pre_pos : 0 < pre.
Hypothesis small_wait : N - p0 <= n_wait.
Hypothesis small_max : N - p0 <= max_samples.
Notation winv := (winv src n_models classif p0 pre).
Notation sinv := (sinv src n_models p0 pre).

Lemma sinv_count (s : dst X Y P W) Q : sinv s Q -> 0 < dcnt s /\ dcnt s + length Q <= N - p0.
Proof.
  intros S. destruct (S 0 some_model) as (P1 & _ & E). apply Permutation_length in P1.
  rewrite app_length, map_length, seq_length in P1. unfold stop in P1. rewrite finite in P1. lia.
Qed.

Lemma dbody_quiet amax s m : dtm s = Some m -> sinv s (tm_queue m) -> dquiet (dtr s) -> dupd s = 0 ->
  let '(s', r) := dbody src weighted sort fit_r predict_r report_r n_models classif batch n_wait max_samples amax s in
  dquiet (dtr s') /\ dupd s' = 0.
Proof.
  intros Em SI Q U. destruct (sinv_count _ _ SI) as [C1 C2]. unfold dbody. cbv zeta. cbn [dtm dpos dcnt dtr dfirst dupd]. rewrite Em.
  destruct (last _ _) as [now|]; [|auto]. unfold tm_get_available. cbn [tm_now tm_queue tm_use_weight tm_update_timestamp].
  set (D := filter (fun r => (tr_available r <=? now)%Z) (tm_queue m)). set (R := filter (fun r => (tr_available r >? now)%Z) (tm_queue m)).
  set (s1 := mkDst _ _ _ _ _ _).
  assert (LD : length D <= length (tm_queue m)).
  { pose proof (Permutation_length (filter_le_gt (tm_queue m) now)) as H. rewrite app_length in H. fold D in H. lia. }
  match goal with |- context [process _ _ _ _ _ _ _ s1 ?S ?w] => pose proof (process_quiet amax s1 S w) as PQ end.
  destruct (process _ _ _ _ _ _ _ _ _ _) as [s2 [u|e]].
  - destruct PQ as (Q2 & U2 & _); auto.
    { cbn. apply dquiet_app; [exact Q|reflexivity]. }
    { cbn. intros HS. destruct D; [contradiction|]. simpl in LD. lia. }
    match goal with |- context [dpredict_all _ ?is_ ?t ?xs ?a] => pose proof (dpredict_all_quiet xs is_ t a Q2) as PA end.
    destruct (dpredict_all _ _ _ _ _) as [t3 [preds|e]]; [|auto]. destruct (transpose preds); auto.
  - destruct PQ as (Q2 & U2 & _); auto.
    { cbn. apply dquiet_app; [exact Q|reflexivity]. }
    { cbn. intros HS. destruct D; [contradiction|]. simpl in LD. lia. }
Qed.

Lemma dloop_quiet amax : forall fuel it s m, dtm s = Some m -> winv s (tm_queue m) -> sinv s (tm_queue m) -> dquiet (dtr s) -> dupd s = 0 ->
  let '(s', e) := dloop src weighted sort fit_r predict_r report_r timeout n_models classif batch n_wait max_samples fuel it amax s in
  dquiet (dtr s') /\ dupd s' = 0.
Proof.
  induction fuel as [|f IH]; intros it s m Em I SI Q U; simpl; (destruct (_ && _ && _); [|auto]); [auto|].
  pose proof (dbody_ok src weighted sort sort_ok fit_r predict_r sized report_r timeout n_models some_model classif batch n_wait max_samples p0 pre amax s m Em I) as B.
  pose proof (dbody_quiet amax s m Em SI Q U) as BQ.
  destruct (dbody _ _ _ _ _ _ _ _ _ _ _ _ s) as [s1 [u|e]]; [|auto]. destruct BQ as [Q1 U1].
  destruct B as (_ & m1 & E1 & I1 & _ & _ & B). destruct u. destruct (B eq_refl) as [B1 _]. eapply IH; eauto.
Qed.

Lemma ddrain_quiet amax : forall fuel s m, dtm s = Some m -> winv s (tm_queue m) -> In DDrain (dtr s) -> 0 < dcnt s ->
  dcnt s + length (tm_queue m) <= N - p0 -> dquiet (dtr s) -> dupd s = 0 ->
  let '(s', o) := ddrain fit_r report_r n_models classif batch n_wait max_samples fuel amax s in dquiet (dtr s').
Proof.
  induction fuel as [|f IH]; intros s m Em I HD C1 C2 Q U; simpl; rewrite Em; (destruct (tm_has_more m); [|auto]); [auto|].
  destruct (tm_use_weight m) eqn:UW; [unfold tm_next; now rewrite UW|]. rewrite tm_next_ok by auto.
  set (D := firstn batch (tm_queue m)). set (R := skipn batch (tm_queue m)).
  assert (EQ : tm_queue m = D ++ R) by (symmetry; apply firstn_skipn).
  set (s1 := mkDst (dpos s) (dcnt s) (dtr s) (dfirst s) (dupd s) (Some (mkTM (tm_now m) R false))).
  change (map sample D) with (map smp D).
  destruct I as (G & FQ & AQ & DF & FT & HP & QL & SL).
  assert (I' : winv s (tm_queue m)) by (split; [exact G|]; repeat (split; [assumption|]); assumption).
  assert (FQ' := FQ). rewrite EQ, map_app in FQ'. apply fresh_app in FQ'. destruct FQ' as (FD & FR & DJ).
  pose proof (process_ok src fit_r report_r timeout n_models some_model classif n_wait max_samples p0 pre amax s1 (map smp D) None G FD (fun n _ => or_introl HD) DF FT) as PR.
  pose proof (process_quiet amax s1 (map smp D) None Q U C1) as PQ.
  destruct (process _ _ _ _ _ _ _ _ _ _) as [s2 r]. destruct PR as (G2 & P2 & M2 & F2 & l & E2 & Cl2 & PD2 & SB2 & OK2).
  assert (LQ : length D + length R = length (tm_queue m)) by (rewrite EQ, app_length; auto).
  assert (HW : map smp D <> [] -> dcnt s1 < n_wait /\ dcnt s1 < max_samples).
  { intros HS. destruct D; [contradiction|]. simpl in LQ. cbn. lia. }
  destruct (PQ HW) as (Q2 & U2 & C3).
  rewrite tags_smp in SB2. cbn [s1 dpos dtm dtr dcnt] in P2, M2, E2, OK2.
  destruct r as [u|e]; [|auto]. destruct u. destruct (OK2 eq_refl) as [N2 _]. rewrite map_length in N2.
  apply (IH s2 _ M2); auto.
  - cbn [tm_queue]. eapply winv_rest; eauto.
  - rewrite E2. apply in_or_app; auto.
  - rewrite N2. lia.
  - cbn [tm_queue]. rewrite N2. lia.
Qed.

Lemma delayed_quiet fuel :
  let r := delayed src weighted sort fit_r predict_r report_r timeout n_models classif batch n_wait max_samples fuel p0 pre in
  dr_end r <> ByException -> dquiet (dtr (dr_st r)) /\ dr_out r <> DReturned.
Proof.
  unfold delayed. cbv zeta.
  pose proof (start_dok src weighted fit_r n_models some_model classif p0 pre pre_pos) as ST. cbv zeta in ST.
  pose proof (dfit_all_quiet (map (fun r => (fst r, d_x (snd r))) (dtake src p0 pre)) (map (fun r => d_y (snd r)) (dtake src p0 pre))
     (weights weighted (dtake src p0 pre)) classif (seq 0 n_models) [] eq_refl) as FQ.
  destruct (Nat.ltb_spec 0 pre) as [_|]; [|lia].
  destruct (dfit_all _ _ _ _ _ _ _) as [t [u|e]]; [|cbn; congruence].
  destruct u. destruct ST as [G ST]. specialize (ST eq_refl). destruct (last _ _) as [now|]; [|cbn; congruence].
  destruct (ST now) as [W0 S0]. cbn [fst] in FQ.
  set (s0 := mkDst (p0 + pre) pre t false 0 (Some (tm_new now))) in *.
  pose proof (dloop_ok src weighted sort sort_ok fit_r predict_r sized report_r timeout n_models some_model classif batch n_wait max_samples p0 pre
    (dactual_max src max_samples p0) fuel 0 s0 (tm_new now) eq_refl W0) as L.
  pose proof (dloop_quiet (dactual_max src max_samples p0) fuel 0 s0 (tm_new now) eq_refl W0 S0 FQ eq_refl) as LQ.
  destruct (dloop _ _ _ _ _ _ _ _ _ _ _ _ _ _ _ s0) as [s2 e]. destruct L as (m & Em & I & _ & _ & K & _). destruct LQ as [Q2 U2].
  set (s2' := with_tr s2 (dtr s2 ++ [DDrain])).
  assert (I' : winv s2' (tm_queue m)).
  { eapply (winv_rest src n_models some_model classif p0 pre s2 (tm_queue m) [] (tm_queue m) [DDrain]); auto.
    - apply dthroughout_snoc; [apply I|exact Logic.I].
    - apply I.
    - simpl. tauto. }
  destruct (ddrain fit_r report_r n_models classif batch n_wait max_samples fuel (dactual_max src max_samples p0) s2') as [s3 o] eqn:ED.
  cbn [dr_end dr_st dr_out]. intros He. destruct (K He) as [K1 _]. destruct (sinv_count _ _ (K1 S0)) as [C1 C2].
  pose proof (ddrain_quiet (dactual_max src max_samples p0) fuel s2' m Em I' ltac:(apply in_or_app; right; left; reflexivity)
    C1 C2 ltac:(apply dquiet_app; [exact Q2|reflexivity]) U2) as DQ.
  rewrite ED in DQ. split; auto. destruct o; try discriminate. unfold dquiet in DQ. rewrite DQ, orb_false_r.
  destruct (Nat.eqb_spec n_models 0); [lia|discriminate].
Qed.
End Proofs.

(** ** Labels that come after the last arrival *)
Section Late.
Context {X Y P W : Type}.
Variable src : source (drow X Y W).
Notation trc := (list (dev X Y P W)).
Variable weighted : bool.
Variable sort : list (trow (nat * X) Y (list P) W) -> list (trow (nat * X) Y (list P) W).
Hypothesis sort_ok : forall l, Permutation (sort l) l /\ by_avail (sort l).
Variable fit_r : trc -> nat -> res unit.
Variable predict_r : trc -> nat -> list X -> res (list P).
Hypothesis fits : forall t i, fit_r t i = Ok tt.
Hypothesis predicts : forall t i xs, exists ps, predict_r t i xs = Ok ps /\ length ps = length xs.
Variable report_r : trc -> res unit.
Variable timeout : nat -> bool.
Hypothesis no_timeout : forall i, timeout i = false.
Variable n_models : nat.
Hypothesis some_model : 0 < n_models.
Variable classif : bool.
Variables batch n_wait max_samples : nat.
Hypothesis batch_pos : 0 < batch.
Variables p0 pre : nat.
Hypothesis late : forall i j, (d_arr (src_at src i) < d_av (src_at src j))%Z.
Notation winv := (winv src n_models classif p0 pre).

Lemma sized_late : forall t i xs ps, predict_r t i xs = Ok ps -> length ps = length xs.
Proof. intros t i xs ps H. destruct (predicts t i xs) as (ps' & E & L). congruence. Qed.

Lemma last_in {A} (f : A -> Z) (l : list A) v : last (map (fun r => Some (f r)) l) None = Some v -> exists a, In a l /\ f a = v.
Proof.
  induction l as [|a l IH]; [discriminate|]. intros H. destruct l as [|b l]; [simpl in H; injection H as <-; exists a; simpl; auto|].
  destruct IH as (c & Hc & E); [exact H|]. exists c. simpl in *. tauto.
Qed.

Lemma predict_all_late xs : forall is_ t acc, exists t' preds, dpredict_all predict_r is_ t xs acc = (t', Ok preds)
  /\ length preds = length acc + length is_ /\ (Forall (fun ps => length ps = length xs) acc -> Forall (fun ps : list P => length ps = length xs) preds).
Proof.
  induction is_ as [|i r IH]; intros t acc; simpl; [exists t, acc; split; auto|].
  destruct (predicts t i (map snd xs)) as (ps & -> & L). rewrite map_length in L.
  destruct (IH (t ++ [DPredict i xs ps]) (acc ++ [ps])) as (t' & preds & -> & L' & F). exists t', preds. split; auto.
  rewrite app_length in L'. simpl in L'. split; [lia|]. intros Fa. apply F. apply Forall_app; auto.
Qed.

Lemma dbody_late amax s m : dtm s = Some m -> winv s (tm_queue m) -> dhas_more src (dpos s) = true ->
  exists s', dbody src weighted sort fit_r predict_r report_r n_models classif batch n_wait max_samples amax s = (s', Ok tt)
    /\ dcnt s' = dcnt s.
Proof.
  intros Em (_ & _ & AQ & _) HM. unfold dbody. cbv zeta. cbn [dtm dpos dcnt dtr dfirst dupd]. rewrite Em, (dtake_eq src n_models some_model).
  set (ks := seq (dpos s) (stop src (dpos s + batch) - dpos s)). set (rows := map (fun n => (n, src_at src n)) ks).
  destruct (last (map (fun r => Some (d_arr (snd r))) rows) None) as [now|] eqn:EL.
  2: { exfalso. apply (last_map_some (fun r : nat * drow X Y W => d_arr (snd r))) in EL. unfold rows in EL. apply map_eq_nil in EL.
       apply (f_equal (@length nat)) in EL. unfold ks in EL. rewrite seq_length in EL. simpl in EL.
       unfold stop, dhas_more in *. destruct (src_len src); [apply Nat.ltb_lt in HM|]; lia. }
  unfold tm_get_available. cbn [tm_now tm_queue tm_use_weight tm_update_timestamp].
  assert (ED : filter (fun r => (tr_available r <=? now)%Z) (tm_queue m) = []).
  { destruct (last_in (fun r : nat * drow X Y W => d_arr (snd r)) rows now EL) as ([k d] & Hk & E).
    unfold rows in Hk. apply in_map_iff in Hk. destruct Hk as (k' & E' & _). injection E' as <- <-. simpl in E.
    clear - AQ late E. induction AQ as [|r q [H _] _ IH]; simpl; auto. rewrite IH. destruct (Z.leb_spec (tr_available r) now); auto.
    rewrite H in H0. specialize (late k' (qtag r)). lia. }
  rewrite ED. unfold process. cbn [map transpose update_metrics_delayed combine update_classifiers].
  set (xs := map (fun r : nat * drow X Y W => (fst r, d_x (snd r))) rows).
  set (s1 := mkDst _ _ _ _ _ _).
  destruct (predict_all_late xs (seq 0 n_models) (dtr s1) []) as (t3 & preds & E3 & L3 & F3).
  rewrite E3. simpl in L3. rewrite seq_length in L3. specialize (F3 (Forall_nil _)).
  destruct (transpose_ok preds (length xs)) as (yt & Ey & _).
  { destruct preds; [simpl in L3; lia|discriminate]. }
  { apply Forall_forall. exact F3. }
  rewrite Ey. eexists. split; reflexivity.
Qed.

Lemma dloop_late amax N : src_len src = Some N -> forall fuel it s m, dtm s = Some m -> winv s (tm_queue m) ->
  (Z.of_nat (dcnt s) < amax)%Z -> N - dpos s <= fuel ->
  let '(s', e) := dloop src weighted sort fit_r predict_r report_r timeout n_models classif batch n_wait max_samples fuel it amax s in
  e = ByCondition /\ N <= dpos s'.
Proof.
  intros HN. induction fuel as [|f IH]; intros it s m Em I C F; simpl; rewrite no_timeout;
    (destruct (Z.ltb_spec (Z.of_nat (dcnt s)) amax); [|lia]); cbn [andb negb];
    destruct (dhas_more src (dpos s)) eqn:HM; pose proof HM as HM'; unfold dhas_more in HM'; rewrite HN in HM';
    try (apply Nat.ltb_ge in HM'; auto); apply Nat.ltb_lt in HM'.
  - lia.
  - destruct (dbody_late amax s m Em I HM) as (s1 & E & C1).
    pose proof (dbody_ok src weighted sort sort_ok fit_r predict_r sized_late report_r timeout n_models some_model classif batch n_wait max_samples p0 pre amax s m Em I) as B.
    rewrite E in *. destruct B as (P1 & m1 & E1 & I1 & _). eapply IH; eauto; lia.
Qed.

Lemma fit_all_late xs ys ws c : forall is_ t, exists t', dfit_all fit_r is_ t xs ys ws c = (t', Ok tt).
Proof. induction is_ as [|i r IH]; intros t; simpl; [eauto|]. rewrite fits. apply IH. Qed.

Lemma delayed_late fuel N : src_len src = Some N -> 0 < pre -> p0 + pre <= N -> N <= fuel ->
  (Z.of_nat pre < dactual_max src max_samples p0)%Z ->
  let r := delayed src weighted sort fit_r predict_r report_r timeout n_models classif batch n_wait max_samples fuel p0 pre in
  dr_end r = ByCondition /\ N <= dpos (dr_st r).
Proof.
  intros HN Hp Hle Hf Ha. unfold delayed. cbv zeta.
  pose proof (start_dok src weighted fit_r n_models some_model classif p0 pre Hp) as ST. cbv zeta in ST.
  destruct (Nat.ltb_spec 0 pre) as [_|]; [|lia].
  match goal with |- context [dfit_all _ ?is_ ?t ?xs ?ys ?ws ?c] => destruct (fit_all_late xs ys ws c is_ t) as [t' Et] end.
  rewrite Et in *. destruct ST as [_ ST]. specialize (ST eq_refl).
  destruct (last _ _) as [now|] eqn:EL.
  2: { exfalso. apply (last_map_some (fun r : nat * drow X Y W => d_arr (snd r))) in EL. rewrite (dtake_eq src n_models some_model) in EL. apply map_eq_nil in EL.
       apply (f_equal (@length nat)) in EL. rewrite seq_length in EL. unfold stop in EL. rewrite HN in EL. simpl in EL. lia. }
  destruct (ST now) as [W0 _].
  set (s0 := mkDst (p0 + pre) pre t' false 0 (Some (tm_new now))) in *.
  pose proof (dloop_late (dactual_max src max_samples p0) N HN fuel 0 s0 (tm_new now) eq_refl W0 Ha ltac:(cbn; lia)) as L.
  pose proof (dloop_ok src weighted sort sort_ok fit_r predict_r sized_late report_r timeout n_models some_model classif batch n_wait max_samples p0 pre
    (dactual_max src max_samples p0) fuel 0 s0 (tm_new now) eq_refl W0) as K.
  destruct (dloop _ _ _ _ _ _ _ _ _ _ _ _ _ _ _ s0) as [s2 e]. destruct L as [-> L]. destruct K as (m & Em & I & _).
  set (s2' := with_tr s2 (dtr s2 ++ [DDrain])).
  assert (I' : winv s2' (tm_queue m)).
  { eapply (winv_rest src n_models some_model classif p0 pre s2 (tm_queue m) [] (tm_queue m) [DDrain]); auto.
    - apply dthroughout_snoc; [apply I|exact Logic.I].
    - apply I.
    - simpl. tauto. }
  pose proof (ddrain_ok src fit_r report_r timeout n_models some_model classif batch n_wait max_samples p0 pre (dactual_max src max_samples p0) fuel s2' m Em I'
    ltac:(apply in_or_app; right; left; reflexivity)) as DR.
  destruct (ddrain _ _ _ _ _ _ _ _ _ s2') as [s3 o]. cbn. destruct DR as (_ & -> & _). auto.
Qed.
End Late.
