(** Runs of the expert ensembles. *)
From Coq Require Import List ZArith Bool Reals Lra Lia Permutation.
From Verif Require Import Base.Py Base.Num Base.Dict Spec.Lists Spec.ExpertSpec Spec.LearnerSpec Spec.NaiveBayesSpec Model.Adwin Model.Knn Model.NaiveBayes
  Model.Learner Model.LearnerInstances Model.Experts Spec.ExpertRuns Proofs.ListFacts Proofs.KnnProofs Proofs.NaiveBayesProofs Proofs.ExpertProofs.
Import ListNotations.
Local Open Scope R_scope.

(** ** Naive Bayes as a base estimator *)
Lemma nb_nonneg {T} `{Num T} (k : T) (key : T -> Z) : nonneg_labels (nb_learner k key).
Proof.
  intros b x c b' H0. unfold predict_one in H0. cbn [lr_predict nb_learner] in H0.
  apply bind_Ok in H0 as ((p & b1) & E & H0). apply bind_Ok in E as (q & _ & E). injection E as <- <-.
  destruct q as [|a [|? ?]]; cbn in H0; try discriminate. injection H0 as <- <-. lia.
Qed.
Lemma mapM_length {A C} (f : A -> res C) l r : mapM f l = Ok r -> length r = length l.
Proof. revert r. induction l as [|a l IH]; intros r H; cbn in H; [injection H as <-; reflexivity|].
  apply bind_Ok in H as (b & _ & H). apply bind_Ok in H as (r' & E & H). injection H as <-. cbn. f_equal. auto. Qed.
Lemma nb_per_row {T} `{Num T} (k : T) (key : T -> Z) : label_per_row (nb_learner k key).
Proof.
  intros b xs p b' H0. cbn [lr_predict nb_learner] in H0. apply bind_Ok in H0 as (q & E & H0). injection H0 as <- <-.
  unfold nb_predict in E. apply bind_Ok in E as (P & E1 & E2). apply mapM_length in E2. rewrite map_length, E2.
  unfold nb_proba in E1. destruct (nb_dist b); [injection E1 as <-; apply map_length|]. eapply mapM_length; eauto.
Qed.

Lemma nb_well_behaved k key nominal s0 : k > 0 -> nb_new (option_map PyList nominal) = Ok s0 -> well_behaved (nb_learner k key) s0 None.
Proof.
  intros Hk E0.
  exists (fun m b => exists calls, fit_run key s0 calls = Ok b /\ Forall call_ok calls /\ Forall given_ok calls /\ first_given calls = None /\
            (0 <= m)%Z /\ forall c, has_label (flat_map call_samples calls) c -> (c <= m)%Z).
  split; [|split; [|split]].
  - exists []. repeat split; auto; try lia. intros c (X & w & []).
  - intros m m' b Hm (calls & H1 & H2 & H3 & H4 & H5 & H6). exists calls. repeat split; auto; try lia. intros c Hc. specialize (H6 c Hc). lia.
  - intros m b xs (calls & H1 & H2 & H3 & H4 & H5 & H6).
    destruct (nb_reach key nominal s0 calls E0 H2 H3) as (s & E & I & C & N & NN). rewrite E in H1. injection H1 as ->.
    set (h := flat_map call_samples calls) in *.
    assert (Hin : forall c, has_label h c -> In c (labels_seen h)).
    { intros c (X & w & Hc). unfold labels_seen. apply nodup_In. apply in_map_iff. exists (X, c, w). split; auto. }
    destruct (nb_proba_ok k key h b xs Hk I) as (P & EP & HP).
    { intros c Hc. split; auto. rewrite C, H4. exists c. split; [|lia]. cbn [class_list]. auto. }
    assert (HP' : Forall (fun r => r <> [] /\ (Z.of_nat (length r) <= m + 1)%Z) P).
    { clear -HP C H4 NN H6 H5. induction HP as [|X row xs P Hr HP IH]; constructor; auto. destruct h as [|[[X0 y] w] h'] eqn:Eh; cbn in Hr.
      - subst row. split; [discriminate|]. cbn. lia.
      - rewrite <- Eh in *. rewrite C, H4 in Hr. cbn [class_list] in Hr. destruct Hr as [_ [W1 W2]].
        assert (Hy : has_label h y) by (exists X0, w; rewrite Eh; now left).
        split.
        + intros ->. assert (In y (labels_seen h)) by (unfold labels_seen; apply nodup_In, in_map_iff; exists (X0, y, w); rewrite Eh; split; [auto|now left]).
          specialize (W1 y H). specialize (NN y Hy). cbn in W1. lia.
        + assert (has_label h (Z.of_nat (length row) - 1)).
          { unfold labels_seen in W2. apply nodup_In, in_map_iff in W2. destruct W2 as ([[X1 y1] w1] & W & Hi). cbn in W. subst y1. exists X1, w1. exact Hi. }
          specialize (H6 _ H). lia. }
    destruct (argmax_rows P) as (l & El & Hl).
    { eapply Forall_impl; [|exact HP']. cbn. tauto. }
    exists (map Z.of_nat l), b. split.
    + cbn [lr_predict nb_learner]. unfold nb_predict. rewrite EP. cbn [bind]. rewrite El. reflexivity.
    + split; [|split].
      * rewrite map_length. rewrite <- (F2_len _ _ _ Hl). symmetry. apply (F2_len _ _ _ HP).
      * apply Forall_forall. intros c Hc. apply in_map_iff in Hc. destruct Hc as (i & <- & Hi).
        clear -Hl HP' Hi. induction Hl as [|r i' P l Hr Hl IH]; [destruct Hi|]. inversion HP' as [|? ? [_ Hlen] HP'']; subst.
        destruct Hi as [<-|Hi]; [destruct Hr as [Hr _]; lia|auto].
      * exists calls. repeat split; auto.
  - intros m b x y (calls & H1 & H2 & H3 & H4 & H5 & H6) Hy.
    set (calls' := calls ++ [([(x, y)], None, None)]).
    assert (H2' : Forall call_ok calls') by (apply Forall_app; split; auto; constructor; auto; split; [exact Logic.I|constructor; auto; cbn; lia]).
    assert (H3' : Forall given_ok calls') by (apply Forall_app; split; auto; constructor; auto; exact Logic.I).
    destruct (nb_reach key nominal s0 calls' E0 H2' H3') as (s & E & _).
    exists s. split.
    + assert (Q : fit_run key s0 calls' = (s <- fit_run key s0 calls ;; nb_fit key s [(x, y)] None None)) by (unfold calls', fit_run; rewrite fold_left_app; reflexivity).
      rewrite Q, H1 in E. exact E.
    + exists calls'. split; [exact E|]. split; [exact H2'|]. split; [exact H3'|]. split; [|split; [lia|]].
      * unfold calls'. clear -H4. induction calls as [|[[r [c|]] w] calls IH]; cbn in *; auto; discriminate.
      * intros c Hc. destruct Hc as (X & w & Hc). unfold calls' in Hc. rewrite flat_map_app in Hc. apply in_app_or in Hc. destruct Hc as [Hc|Hc].
        -- apply H6. exists X, w. exact Hc.
        -- cbn in Hc. destruct (Req_EM_T 1 0); [lra|]. destruct Hc as [Hc|[]]. injection Hc as _ <- _. lia.
Qed.

(** ** Runs *)
Lemma foldM_app {A S} (f : S -> A -> res S) a b s : foldM f (a ++ b) s = (s' <- foldM f a s ;; foldM f b s').
Proof. revert s. induction a as [|x a IH]; intros s; cbn; [reflexivity|]. destruct (f s x); cbn; auto. Qed.
Lemma foldM_inv {A S} (P : S -> Prop) (f : S -> A -> res S) l : (forall s a s', P s -> In a l -> f s a = Ok s' -> P s') -> forall s s', P s -> foldM f l s = Ok s' -> P s'.
Proof.
  induction l as [|a l IH]; intros H s s' Hs E; cbn in E; [injection E as <-; auto|]. apply bind_Ok in E as (s1 & E1 & E2).
  eapply IH; [|eapply H; [exact Hs|left; reflexivity|exact E1]|exact E2]. intros ? ? ? ? ?. eapply H; eauto. right; auto.
Qed.
Lemma foldM_total {A S} (P : S -> Prop) (f : S -> A -> res S) l : (forall s a, P s -> In a l -> exists s', f s a = Ok s' /\ P s') -> forall s, P s -> exists s', foldM f l s = Ok s' /\ P s'.
Proof.
  induction l as [|a l IH]; intros H s Hs; cbn; [eauto|]. destruct (H s a Hs (or_introl eq_refl)) as (s1 & -> & H1). cbn. apply IH; auto.
  intros ? ? ? ?. apply H; auto. right; auto.
Qed.

Section R.
Context {X B : Type} (L : learner X R B) (base : B).

Lemma nonneg_x : nonneg_labels L -> forall x b c b', predict_one L b x = Ok (c, b') -> (0 <= c)%Z.
Proof. intros H x b c b' E. eapply H; eauto. Qed.

Lemma experts_predict_state l xs out l' : experts_predict L Rtrunc l xs = Ok (out, l') -> l <> [] -> map ex_weight l' = map ex_weight l.
Proof.
  unfold experts_predict. intros H Hn. apply bind_Ok in H as ((ps & l1) & E & H). destruct l as [|e l]; [congruence|]. injection H as _ <-.
  apply ask_spec in E. tauto.
Qed.
Lemma ask_total (I : B -> Prop) xs : (forall b, I b -> exists p b', lr_predict L b xs = Ok (p, b') /\ I b') ->
  forall l : list (expert R B), Forall (fun e => I (ex_est e)) l -> exists ps l', ask L l xs = Ok (ps, l') /\ Forall (fun e => I (ex_est e)) l'.
Proof.
  intros H. induction l as [|e l IH]; intros F; cbn [ask]; [exists [], []; auto|]. inversion F as [|? ? F1 F2]; subst.
  destruct (H _ F1) as (p & b' & -> & Hb). cbn [bind]. destruct (IH F2) as (ps & l' & -> & Hl). cbn [bind]. do 2 eexists. split; [reflexivity|]. constructor; auto.
Qed.

Section DWM.
Variables (n period : Z) (beta theta : R).
Hypotheses (Hn : (1 <= n)%Z) (Hb : 0 < beta) (Ht : theta <= 1) (HL : nonneg_labels L).

Lemma dwm_new_inv : dwm_inv n theta (dwm_new base : dwm R B).
Proof.
  unfold dwm_inv, dwm_new. cbn [dw_experts length]. split; [lia|]. split.
  - constructor; [|constructor]. cbn [ex_weight]. change (@n1 R NumR) with 1. lra.
  - constructor. reflexivity.
Qed.
Lemma dwm_fit_inv s rows classes sw s' : dwm_inv n theta s -> dwm_fit L base n period beta theta s rows classes sw = Ok s' -> dwm_inv n theta s'.
Proof. intros Hs E. eapply (foldM_inv (dwm_inv n theta)); [|exact Hs|exact E]. intros s1 [x y] s2 H1 _ H2. eapply dwm_one_inv; eauto. Qed.
Lemma dwm_inv_weights (s s' : dwm R B) : dwm_inv n theta s -> map ex_weight (dw_experts s') = map ex_weight (dw_experts s) -> dwm_inv n theta s'.
Proof.
  intros (H1 & H2 & H3) E. split; [|split].
  - rewrite <- (map_length ex_weight), E, map_length. auto.
  - rewrite <- Forall_map with (f := ex_weight) (P := fun w => 0 < w <= 1 /\ theta <= w) in *. rewrite E. auto.
  - rewrite <- Exists_map with (f := ex_weight) (P := fun w => w = 1) in *. rewrite E. auto.
Qed.
Lemma dwm_inv_nonempty (s : dwm R B) : dwm_inv n theta s -> dw_experts s <> [].
Proof. intros (_ & _ & H) E. rewrite E in H. inversion H. Qed.
Lemma dwm_reach_inv s : dwm_reached L base Rtrunc n period beta theta s -> dwm_inv n theta s.
Proof.
  intros (ops & E). eapply (foldM_inv (dwm_inv n theta)); [|exact dwm_new_inv|exact E].
  intros s1 o s2 H1 _ E2. destruct o as [rows classes sw|xs|]; cbn [dwm_op] in E2.
  - eapply dwm_fit_inv; eauto.
  - apply bind_Ok in E2 as ((p & s3) & E3 & E2). injection E2 as <-. unfold dwm_predict in E3. apply bind_Ok in E3 as ((q & l) & E3 & E4). injection E4 as _ <-.
    eapply dwm_inv_weights; [exact H1|]. cbn [dw_experts]. eapply experts_predict_state; eauto. apply dwm_inv_nonempty; auto.
  - injection E2 as <-. apply dwm_new_inv.
Qed.

Lemma dwm_total classes : period <> 0%Z -> beta < 1 -> well_behaved L base classes -> forall ops, Forall (plain_op classes) ops ->
  exists s, dwm_run L base Rtrunc n period beta theta ops = Ok s.
Proof.
  intros Hp Hb1 (I & I0 & I1 & I2 & I3) ops Hops.
  assert (I2' : forall m b x, I m b -> exists c b', predict_one L b x = Ok (c, b') /\ (0 <= c <= m)%Z /\ I m b').
  { intros m b x Hm. destruct (I2 m b [x] Hm) as (p & b' & E & El & F & Hb'). unfold predict_one. rewrite E. cbn [bind].
    destruct p as [|c [|? ?]]; try discriminate. exists c, b'. inversion F; auto. }
  set (P := fun s : dwm R B => dwm_inv n theta s /\ (2 <= dw_classes s)%Z /\ Forall (fun e => I (dw_classes s - 1)%Z (ex_est e)) (dw_experts s)).
  assert (P0 : P (dwm_new base)).
  { split; [apply dwm_new_inv|]. cbn. split; [lia|]. constructor; auto. }
  destruct (foldM_total P (dwm_op L base Rtrunc n period beta theta) ops) with (s := dwm_new base : dwm R B) as (s & E & _); auto; [|exists s; exact E].
  rewrite Forall_forall in Hops. intros s o Hs Ho. specialize (Hops o Ho). destruct o as [rows c sw|xs|]; cbn [dwm_op plain_op] in *.
  - destruct Hops as (-> & -> & Hrows). rewrite Forall_forall in Hrows. apply foldM_total; auto. intros s1 [x y] (A1 & A2 & A3) Hin.
    destruct (dwm_one_total L base n period beta theta I s1 x y classes) as (s' & E & B1 & B2); auto; try lra.
    { apply (Hrows (x, y)); auto. }
    { apply nonneg_x; auto. }
    exists s'. split; auto. split; auto. eapply dwm_one_inv; eauto.
  - destruct Hs as (A1 & A2 & A3). destruct (ask_total (I (dw_classes s - 1)%Z) xs) with (l := dw_experts s) as (ps & l' & E & F); auto.
    { intros b Hb'. destruct (I2 _ _ xs Hb') as (p & b' & E & _ & _ & Hb2). eauto. }
    unfold dwm_predict, experts_predict. rewrite E. cbn [bind]. pose proof (dwm_inv_nonempty s A1) as Hne.
    assert (W : map ex_weight l' = map ex_weight (dw_experts s)) by (apply ask_spec in E; tauto).
    destruct (dw_experts s) as [|e es] eqn:Ee; [congruence|]. cbn [bind]. eexists. split; [reflexivity|].
    split; [|split; auto]. eapply dwm_inv_weights; [exact A1|]. cbn [dw_experts]. rewrite W, Ee. reflexivity.
  - exists (dwm_new base). auto.
Qed.
End DWM.

Section AE.
Variables (n : Z) (beta gamma : R) (prune : pruning).
Hypotheses (Hn : (1 <= n)%Z) (Hb : 0 < beta) (Hg : 0 < gamma) (HL : nonneg_labels L).
Definition ae_state (k : Z) (s : addexp R B) : Prop :=
  ae_inv n s /\ ae_epochs s = k /\ ((k mod 1000 <> 0)%Z -> Rsum (map ex_weight (ae_experts s)) = 1).

Lemma ae_new_state : ae_state 0 (ae_new base).
Proof.
  split; [|split; [reflexivity|]].
  - split; cbn; [lia|]. constructor; auto. cbn. lra.
  - intros H. exfalso. apply H. reflexivity.
Qed.
Lemma ae_fit_state rows classes sw : forall s k s', ae_state k s -> ae_fit L base n beta gamma prune s rows classes sw = Ok s' -> ae_state (k + Z.of_nat (length rows)) s'.
Proof.
  induction rows as [|[x y] rows IH]; intros s k s' Hs E; cbn [ae_fit foldM] in E.
  - injection E as <-. replace (k + Z.of_nat (length (@nil (X * Z))))%Z with k by (cbn; lia). exact Hs.
  - unfold ae_fit in E. cbn [foldM] in E. apply bind_Ok in E as (s1 & E1 & E2). destruct Hs as (A1 & A2 & A3).
    destruct (ae_one_inv L base n beta gamma prune _ _ _ _ _ _ Hb Hg (nonneg_x HL x) A1 E1) as (B1 & B2 & B3).
    assert (S1 : ae_state (k + 1) s1) by (split; [auto|split; [lia|rewrite <- A2; auto]]).
    apply (IH _ _ _ S1) in E2. replace (k + Z.of_nat (length ((x, y) :: rows)))%Z with (k + 1 + Z.of_nat (length rows))%Z by (cbn [length]; lia). exact E2.
Qed.
Lemma ae_state_weights k s s' : ae_state k s -> ae_epochs s' = ae_epochs s -> map ex_weight (ae_experts s') = map ex_weight (ae_experts s) -> ae_state k s'.
Proof.
  intros ((H1 & H2) & H3 & H4) Ee E. split; [split|split].
  - rewrite <- (map_length ex_weight (ae_experts s')), E, map_length. auto.
  - rewrite <- Forall_map with (f := ex_weight) (P := fun w => 0 < w) in *. rewrite E. auto.
  - congruence.
  - rewrite E. auto.
Qed.
Lemma ae_nonempty k s : ae_state k s -> ae_experts s <> [].
Proof. intros ((H & _) & _) E. rewrite E in H. cbn in H. lia. Qed.
Lemma ae_run_state ops : forall s, ae_run L base Rtrunc n beta gamma prune ops = Ok s -> ae_state (samples_since ops) s.
Proof.
  induction ops as [|o ops IH] using rev_ind; intros s E.
  - injection E as <-. apply ae_new_state.
  - unfold ae_run in E. rewrite foldM_app in E. apply bind_Ok in E as (s1 & E1 & E2). specialize (IH _ E1). cbn [foldM] in E2. apply bind_Ok in E2 as (s2 & E2 & E3). injection E3 as ->.
    unfold samples_since. rewrite fold_left_app. cbn [fold_left]. fold (samples_since ops). destruct o as [rows c sw|xs|]; cbn [ae_op] in E2.
    + eapply ae_fit_state; eauto.
    + apply bind_Ok in E2 as ((p & s3) & E3 & E2). injection E2 as ->. unfold ae_predict in E3. apply bind_Ok in E3 as ((q & l) & E3 & E4). injection E4 as _ <-.
      eapply ae_state_weights; [exact IH|reflexivity|]. cbn [ae_experts]. eapply experts_predict_state; eauto. eapply ae_nonempty; eauto.
    + injection E2 as <-. apply ae_new_state.
Qed.
Lemma ae_reach_inv s : ae_reached L base Rtrunc n beta gamma prune s -> ae_inv n s.
Proof. intros (ops & E). apply ae_run_state in E. apply E. Qed.
(** The state before the training, at a reachable state *)
Lemma ae_mid_fine s y wrong (answers : list (Z * B)) : ae_inv n s -> length answers = length (ae_experts s) ->
  let mid := ae_mid base n gamma prune (after_vote beta true y (ae_experts s) answers) wrong in mid <> [] /\ forall e, In e mid -> 0 < ex_weight e.
Proof.
  intros (H1 & H2) Hl mid.
  destruct (ae_mid_ok base n gamma prune (after_vote beta true y (ae_experts s) answers) wrong) as (A1 & A2); auto.
  - rewrite after_vote_len; auto.
  - pose proof (after_vote_pos beta true y (ae_experts s) answers Hb H2) as Hp. first [exact Hp|rewrite Forall_forall in Hp; exact Hp].
  - split; auto. fold mid in A1. destruct mid; [cbn in A1; lia|discriminate].
Qed.
Lemma ae_step s x y classes sw s' : ae_reached L base Rtrunc n beta gamma prune s ->
  ae_one L base n beta gamma prune s x y classes sw = Ok s' ->
  exists answers h,
    answer_all L x (ae_experts s) answers /\
    plurality (Z.of_nat (Z.to_nat (class_count classes y (ae_classes s)))) (votes_of (map ex_weight (ae_experts s)) answers) h /\
    let mid := ae_mid base n gamma prune (after_vote beta true y (ae_experts s) answers) (negb (Z.eqb h y)) in
    let t := if ((ae_epochs s + 1) mod 1000 =? 0)%Z then 1 else Rsum (map ex_weight mid) in
    Forall2 (fun m e => lr_fit L (fst m) [(x, y)] classes sw = Ok (ex_est e) /\ ex_weight e = snd m / t) (map pair_of mid) (ae_experts s') /\
    ae_epochs s' = (ae_epochs s + 1)%Z /\ ae_classes s' = class_count classes y (ae_classes s).
Proof.
  intros Hr E. eapply ae_one_spec; [apply nonneg_x; auto| |exact E]. intros wrong answers Hl. apply ae_mid_fine; auto. apply ae_reach_inv; auto.
Qed.

Lemma ae_total classes : well_behaved L base classes -> forall ops, Forall (plain_op classes) ops ->
  exists s, ae_run L base Rtrunc n beta gamma prune ops = Ok s.
Proof.
  intros (I & I0 & I1 & I2 & I3) ops Hops.
  assert (I2' : forall m b x, I m b -> exists c b', predict_one L b x = Ok (c, b') /\ (0 <= c <= m)%Z /\ I m b').
  { intros m b x Hm. destruct (I2 m b [x] Hm) as (p & b' & E & El & F & Hb'). unfold predict_one. rewrite E. cbn [bind].
    destruct p as [|c [|? ?]]; try discriminate. exists c, b'. inversion F; auto. }
  set (P := fun s : addexp R B => ae_inv n s /\ (2 <= ae_classes s)%Z /\ Forall (fun e => I (ae_classes s - 1)%Z (ex_est e)) (ae_experts s)).
  assert (P0 : P (ae_new base)).
  { split; [apply ae_new_state|]. cbn. split; [lia|]. constructor; auto. }
  destruct (foldM_total P (ae_op L base Rtrunc n beta gamma prune) ops) with (s := ae_new base : addexp R B) as (s & E & _); auto; [|exists s; exact E].
  rewrite Forall_forall in Hops. intros s o Hs Ho. specialize (Hops o Ho). destruct o as [rows c sw|xs|]; cbn [ae_op plain_op] in *.
  - destruct Hops as (-> & -> & Hrows). rewrite Forall_forall in Hrows. apply foldM_total; auto. intros s1 [x y] (A1 & A2 & A3) Hin.
    destruct (ae_one_total L base n beta gamma prune I s1 x y classes) as (s' & E & B1 & B2); auto; try lra.
    { apply (Hrows (x, y)); auto. }
    { apply nonneg_x; auto. }
    exists s'. split; auto. split; auto. apply (ae_one_inv L base n beta gamma prune s1 x y classes None s' Hb Hg (nonneg_x HL x) A1 E).
  - destruct Hs as (A1 & A2 & A3). destruct (ask_total (I (ae_classes s - 1)%Z) xs) with (l := ae_experts s) as (ps & l' & E & F); auto.
    { intros b Hb'. destruct (I2 _ _ xs Hb') as (p & b' & E & _ & _ & Hb2). eauto. }
    unfold ae_predict, experts_predict. rewrite E. cbn [bind].
    assert (W : map ex_weight l' = map ex_weight (ae_experts s)) by (apply ask_spec in E; tauto).
    destruct (ae_experts s) as [|e es] eqn:Ee; [destruct A1 as (A1 & _); rewrite Ee in A1; cbn in A1; lia|]. cbn [bind]. eexists. split; [reflexivity|].
    split; [|split; auto]. destruct A1 as (A11 & A12). rewrite Ee in A11, A12. split; cbn [ae_experts].
    + rewrite <- (map_length ex_weight l'), W, map_length. auto.
    + rewrite <- Forall_map with (f := ex_weight) (P := fun w => 0 < w) in *. rewrite W. auto.
  - exists (ae_new base). auto.
Qed.
End AE.
End R.

(** ** Predictions from a weighted mean of labels *)
Lemma trunc_int (z : Z) (x : R) : (0 <= z)%Z -> IZR z <= x < IZR z + 1 -> Rtrunc x = z.
Proof.
  intros Hz H. unfold Rtrunc. destruct (Rle_dec 0 x) as [_|Hx].
  - unfold Int_part. replace (up x) with (z + 1)%Z; [lia|]. apply tech_up; rewrite plus_IZR; lra.
  - exfalso. apply Hx. apply IZR_le in Hz. lra.
Qed.
Lemma mean_const votes c : votes <> [] -> (forall v, In v votes -> fst v = c /\ 0 < snd v) -> mean_label votes = IZR c.
Proof.
  intros Hn H. unfold mean_label.
  assert (E : Rsum (map (fun v => IZR (fst v) * snd v) votes) = IZR c * Rsum (map snd votes)).
  { clear Hn. induction votes as [|v l IH]; cbn [map Rsum]; [lra|]. rewrite IH by (intros; apply H; right; auto). destruct (H v (or_introl eq_refl)) as (-> & _). lra. }
  assert (0 < Rsum (map snd votes)).
  { apply Rsum_pos; [destruct votes; [congruence|discriminate]|]. intros w Hw. apply in_map_iff in Hw as (v & <- & Hv). apply H; auto. }
  rewrite E. field. lra.
Qed.
Lemma mean_binary votes : votes <> [] -> (forall v, In v votes -> (fst v = 0 \/ fst v = 1)%Z /\ 0 < snd v) ->
  mean_label votes = support votes 1 / (support votes 0 + support votes 1) /\ 0 < support votes 0 + support votes 1 /\ 0 <= support votes 0 /\ 0 <= support votes 1.
Proof.
  intros Hn H. unfold mean_label.
  assert (E : Rsum (map (fun v => IZR (fst v) * snd v) votes) = support votes 1 /\ Rsum (map snd votes) = support votes 0 + support votes 1 /\ 0 <= support votes 0 /\ 0 <= support votes 1).
  { clear Hn. induction votes as [|[c w] l IH]; [cbn; lra|]. destruct IH as (E1 & E2 & E3 & E4); [intros; apply H; right; auto|].
    cbn [map Rsum fst snd]. rewrite !support_cons, E1, E2. destruct (H (c, w) (or_introl eq_refl)) as (Hc & Hw). cbn in Hc, Hw. destruct Hc as [->| ->]; cbn; lra. }
  destruct E as (-> & E & E3 & E4). rewrite E. repeat split; auto. rewrite <- E.
  apply Rsum_pos; [destruct votes; [congruence|discriminate]|]. intros w Hw. apply in_map_iff in Hw as (v & <- & Hv). apply H; auto.
Qed.
