From Coq Require Import List ZArith Bool Lia.
From Verif Require Import Model.Evaluate Spec.EvalSpec.
Import ListNotations.

Section Proofs.
Context {X Y P : Type}.
Notation row := (X * Y)%type.
Variable src : source row.
Variable fit_ok : list (ev X Y P) -> nat -> list row -> bool -> bool.
Variable predict : list (ev X Y P) -> nat -> list X -> option (list P).
Variable report_ok : list (ev X Y P) -> bool.
Variable timeout : nat -> bool.
Hypothesis sized : forall t i xs ps, predict t i xs = Some ps -> length ps = length xs.

Notation rb := (rows_between src).

Lemma take_rb k b : take src k b = rb k (k + b).
Proof. unfold take, rows_between. destruct (src_len src); do 2 f_equal; lia. Qed.

Lemma rb_nil a : rb a a = [].
Proof. unfold rows_between. replace (_ - a) with 0; auto. destruct (src_len src); lia. Qed.
Lemma rb_nil_ge a b : b <= a -> rb a b = [].
Proof. intros H. unfold rows_between. replace (_ - a) with 0; auto. destruct (src_len src); lia. Qed.

Lemma rb_app a b c : a <= b -> b <= c -> rb a b ++ rb b c = rb a c.
Proof.
  intros H1 H2. unfold rows_between. rewrite <- map_app. f_equal.
  destruct (src_len src) as [n|].
  - destruct (Nat.le_gt_cases n b).
    + replace (Nat.min c n - b) with 0 by lia. rewrite app_nil_r. f_equal. lia.
    + rewrite (Nat.min_l b) by lia. replace (Nat.min c n - a) with ((b - a) + (Nat.min c n - b)) by lia.
      rewrite seq_app. do 2 f_equal; lia.
  - replace (c - a) with ((b - a) + (c - b)) by lia. rewrite seq_app. do 2 f_equal; lia.
Qed.

Lemma trained_app i t1 t2 : @trained X Y P i (t1 ++ t2) = trained i t1 ++ trained i t2.
Proof. apply flat_map_app. Qed.
Lemma tested_app i t1 t2 : @tested X Y P i (t1 ++ t2) = tested i t1 ++ tested i t2.
Proof. apply flat_map_app. Qed.
Lemma predictions_app i t1 t2 : @predictions X Y P i (t1 ++ t2) = predictions i t1 ++ predictions i t2.
Proof. apply flat_map_app. Qed.
Lemma scores_app i t1 t2 : @scores X Y P i (t1 ++ t2) = scores i t1 ++ scores i t2.
Proof. apply flat_map_app. Qed.
Lemma fitted_app i t1 t2 : @fitted X Y P i (t1 ++ t2) = fitted i t1 || fitted i t2.
Proof. apply existsb_app. Qed.

Lemma throughout_snoc ok t (e : ev X Y P) : throughout ok t -> ok t e -> throughout ok (t ++ [e]).
Proof.
  intros H He t1 e' t2 E. destruct (rev_ind (fun l => l = [] \/ exists l' x, l = l' ++ [x]) (or_introl eq_refl)
    (fun x l _ => or_intror (ex_intro _ l (ex_intro _ x eq_refl))) t2) as [->|(t2' & x & ->)].
  - apply app_inj_tail in E. destruct E as [<- <-]. exact He.
  - change (t1 ++ e' :: t2' ++ [x]) with (t1 ++ (e' :: t2') ++ [x]) in E. rewrite app_assoc in E.
    apply app_inj_tail in E. destruct E as [E _]. eapply H; eauto.
Qed.
Lemma throughout_nil ok : throughout ok (@nil (ev X Y P)).
Proof. intros [|a t1] e t2 E; discriminate. Qed.
Lemma throughout_impl (ok ok' : list (ev X Y P) -> ev X Y P -> Prop) t : (forall a e, ok a e -> ok' a e) -> throughout ok t -> throughout ok' t.
Proof. intros H H1 t1 e' t2 E. apply H. eapply H1; eauto. Qed.

Variable n_models : nat.
Variable classif : bool.
Variables batch n_wait max_samples : nat.

Section Preq.
Variables p0 pre : nat.
Notation good := (throughout (test_then_train src p0 pre batch n_models classif)).

(** State of the trace between two iterations, when the stream is at position p. *)
Definition settled (p : nat) (t : list (ev X Y P)) : Prop :=
  forall i, i < n_models -> trained i t = rb p0 p /\ tested i t = rb (p0 + pre) p /\ scores i t = predictions i t.

Definition pred_phase (p j : nat) (rows : list row) (t : list (ev X Y P)) (acc : list (list P)) : Prop :=
  length acc = j /\ forall i, i < n_models -> trained i t = rb p0 p
   /\ (i < j -> tested i t = rb (p0 + pre) (p + batch) /\ exists ps, nth_error acc i = Some ps /\ length ps = length rows
          /\ predictions i t = scores i t ++ combine (map snd rows) ps /\ In (Predict i p rows ps) t)
   /\ (j <= i -> tested i t = rb (p0 + pre) p /\ scores i t = predictions i t).

Lemma predict_all_ok fr p (rows : list row) : rows = rb p (p + batch) -> p0 + pre <= p ->
  forall m j t acc, j + m = n_models -> good t -> pred_phase p j rows t acc ->
  (forall i, i < n_models -> fitted i t = fr) ->
  let '(t', r) := predict_all predict (seq j m) t p rows acc in
  good t' /\ (forall i, i < n_models -> fitted i t' = fr)
  /\ match r with Some preds => pred_phase p n_models rows t' preds | None => True end.
Proof.
  intros Hr Hp. induction m as [|m IH]; intros j t acc Hj G I F; simpl.
  - replace j with n_models in I by lia. auto.
  - destruct (predict t j (map fst rows)) as [ps|] eqn:E; [|auto].
    apply sized in E. rewrite map_length in E. destruct I as [La I].
    apply IH; [lia| | |].
    + apply throughout_snoc; auto. destruct (I j) as (I1 & _ & I2); [lia|]. destruct I2 as (I2 & _); auto.
      simpl. subst rows. repeat split; auto. lia.
    + split; [rewrite app_length; simpl; lia|]. intros i Hi. destruct (I i Hi) as (I1 & I2 & I3).
      rewrite trained_app, tested_app, scores_app, predictions_app. simpl. rewrite !app_nil_r.
      split; [exact I1|]. destruct (Nat.eqb_spec j i) as [->|Hne].
      * destruct (I3 (le_n _)) as [I3a I3b]. split; [|lia]. intros _. rewrite I3a, I3b. split.
        -- subst rows. apply rb_app; lia.
        -- exists ps. rewrite nth_error_app2 by lia. rewrite La, Nat.sub_diag. simpl. repeat split; auto.
           apply in_or_app. right. left. reflexivity.
      * rewrite !app_nil_r. split; intros Hij.
        -- destruct I2 as (I2 & ps' & K1 & K2 & K3 & K4); [lia|]. split; auto. exists ps'.
           rewrite nth_error_app1 by (apply nth_error_Some; congruence). repeat split; auto. apply in_or_app; auto.
        -- apply I3. lia.
    + intros i Hi. rewrite fitted_app. simpl. rewrite orb_false_r. auto.
Qed.

Lemma fold_score_prefix (l1 l2 : list (Y * P)) x : prefix (l1 ++ [x]) (l1 ++ x :: l2).
Proof. exists l2. now rewrite <- app_assoc. Qed.

(** Scoring model j: everything else is untouched. *)
Lemma score_rows_ok fr j : j < n_models -> forall ys ps (t : list (ev X Y P)), length ys = length ps -> good t ->
  predictions j t = scores j t ++ combine ys ps ->
  (forall i, i < n_models -> fitted i t = fr) ->
  exists t', score_rows (length ps) j t ys ps = (t', true) /\ good t'
    /\ (forall i, i < n_models -> fitted i t' = fr)
    /\ (forall i, trained i t' = trained i t) /\ (forall i, tested i t' = tested i t) /\ (forall i, predictions i t' = predictions i t)
    /\ (forall i, scores i t' = if j =? i then predictions i t else scores i t)
    /\ (forall e, In e t -> In e t').
Proof.
  intros Hj. induction ys as [|y ys IH]; intros [|p ps] t L G HP F; simpl in *; try discriminate.
  - exists t. repeat split; auto. intros i. destruct (Nat.eqb_spec j i); auto. subst. now rewrite HP, app_nil_r.
  - destruct (IH ps (t ++ [Score j y p])) as (t' & E & G' & F' & T1 & T2 & T3 & T4 & T5); auto.
    + apply throughout_snoc; auto. simpl. split; auto. rewrite HP. apply fold_score_prefix.
    + rewrite predictions_app, scores_app. simpl. rewrite Nat.eqb_refl, HP. simpl. rewrite app_nil_r, <- app_assoc. reflexivity.
    + intros i Hi. rewrite fitted_app. simpl. rewrite orb_false_r. auto.
    + exists t'. split; auto. split; auto. split; auto. split; [|split; [|split; [|split]]].
      * intros i. rewrite T1, trained_app. simpl. apply app_nil_r.
      * intros i. rewrite T2, tested_app. simpl. apply app_nil_r.
      * intros i. rewrite T3, predictions_app. simpl. apply app_nil_r.
      * intros i. rewrite T4, scores_app, predictions_app. simpl. destruct (j =? i); simpl; now rewrite ?app_nil_r.
      * intros e He. apply T5. apply in_or_app. auto.
Qed.

Definition score_phase (p j : nat) (rows : list row) (t : list (ev X Y P)) (preds : list (list P)) : Prop :=
  length preds = n_models - j /\ forall i, i < n_models -> trained i t = rb p0 p /\ tested i t = rb (p0 + pre) (p + batch)
   /\ (exists ps, In (Predict i p rows ps) t)
   /\ (i < j -> scores i t = predictions i t)
   /\ (j <= i -> exists ps, nth_error preds (i - j) = Some ps /\ length ps = length rows
          /\ predictions i t = scores i t ++ combine (map snd rows) ps).

Lemma score_all_ok fr p rows : forall preds j (t : list (ev X Y P)), j <= n_models -> good t -> score_phase p j rows t preds ->
  (forall i, i < n_models -> fitted i t = fr) ->
  exists t', score_all j preds (length rows) t (map snd rows) = (t', true) /\ good t'
    /\ (forall i, i < n_models -> fitted i t' = fr)
    /\ forall i, i < n_models -> trained i t' = rb p0 p /\ tested i t' = rb (p0 + pre) (p + batch)
         /\ scores i t' = predictions i t' /\ exists ps, In (Predict i p rows ps) t'.
Proof.
  induction preds as [|ps preds IH]; intros j t Hj G [L I] F; simpl in *.
  - exists t. split; [reflexivity|]. split; auto. split; auto.
    intros i Hi. destruct (I i Hi) as (I1 & I2 & I3 & I4 & I5). repeat split; auto. apply I4. lia.
  - assert (Hjn : j < n_models) by lia. destruct (I j Hjn) as (J1 & J2 & J3 & J4 & J5).
    destruct (J5 (le_n _)) as (ps' & K1 & K2 & K3). rewrite Nat.sub_diag in K1. simpl in K1. injection K1 as <-.
    destruct (score_rows_ok fr j Hjn (map snd rows) ps t) as (t1 & E & G1 & F1 & T1 & T2 & T3 & T4 & T5); auto.
    { now rewrite map_length. }
    rewrite <- K2, E. rewrite K2.
    apply IH; auto. split; [lia|]. intros i Hi. destruct (I i Hi) as (I1 & I2 & I3 & I4 & I5).
    rewrite T1, T2, T3, T4. split; auto. split; auto. split; [destruct I3 as (q & Hq); exists q; auto|]. split.
    + intros H. destruct (Nat.eqb_spec j i); auto. apply I4. lia.
    + intros H. destruct (Nat.eqb_spec j i); [lia|]. destruct I5 as (q & Q1 & Q2 & Q3); [lia|].
      exists q. replace (i - j) with (S (i - S j)) in Q1 by lia. auto.
Qed.

Lemma fit_all_ok fr p rows : rows = rb p (p + batch) -> p0 + pre <= p ->
  forall m j (t : list (ev X Y P)), j + m = n_models -> good t ->
  (forall i, i < n_models -> fitted i t = if i <? j then true else fr) ->
  (forall i, i < n_models -> trained i t = (if i <? j then rb p0 (p + batch) else rb p0 p) /\ tested i t = rb (p0 + pre) (p + batch)
         /\ scores i t = predictions i t /\ exists ps, In (Predict i p rows ps) t) ->
  let '(t', ok) := fit_all fit_ok (seq j m) t p rows (negb fr && classif) in
  good t' /\ (ok = true -> settled (p + batch) t' /\ forall i, i < n_models -> fitted i t' = true).
Proof.
  intros Hr Hp. induction m as [|m IH]; intros j t Hj G F I; simpl.
  - split; auto. intros _. split.
    + intros i Hi. destruct (I i Hi) as (I1 & I2 & I3 & _). destruct (Nat.ltb_spec i j); [auto|lia].
    + intros i Hi. rewrite (F i Hi). destruct (Nat.ltb_spec i j); [auto|lia].
  - destruct (fit_ok t j rows (negb fr && classif)); [|split; [auto|discriminate]].
    destruct (I j) as (J1 & J2 & J3 & J4); [lia|]. rewrite Nat.ltb_irrefl in J1.
    apply IH; [lia| | |].
    + apply throughout_snoc; auto. simpl. split; [lia|]. rewrite F by lia. rewrite Nat.ltb_irrefl. split; [apply andb_comm|].
      right. split; auto. split; auto. intros i Hi. apply I; auto.
    + intros i Hi. rewrite fitted_app, F by auto. simpl. rewrite orb_false_r.
      destruct (Nat.ltb_spec i (S j)), (Nat.ltb_spec i j), (Nat.eqb_spec j i); auto; try lia; destruct fr; auto.
    + intros i Hi. destruct (I i Hi) as (I1 & I2 & I3 & q & I4).
      rewrite trained_app, tested_app, scores_app, predictions_app. simpl. rewrite !app_nil_r.
      split; [|split; [|split]]; auto.
      * rewrite I1. destruct (Nat.ltb_spec i (S j)), (Nat.ltb_spec i j), (Nat.eqb_spec j i); try lia; rewrite ?app_nil_r; auto.
        subst rows. apply rb_app; lia.
      * exists q. apply in_or_app. auto.
Qed.

Lemma pretrain_ok cls : forall m j t, j + m = n_models -> 0 < pre -> good t ->
  cls = classif ->
  (forall i, i < n_models -> fitted i t = (i <? j)) ->
  (forall i, i < n_models -> trained i t = (if i <? j then rb p0 (p0 + pre) else []) /\ tested i t = [] /\ scores i t = predictions i t) ->
  let '(t', ok) := fit_all fit_ok (seq j m) t p0 (rb p0 (p0 + pre)) cls in
  good t' /\ (ok = true -> settled (p0 + pre) t' /\ forall i, i < n_models -> fitted i t' = true).
Proof.
  intros m. induction m as [|m IH]; intros j t Hj Hp G -> F I; simpl.
  - split; auto. intros _. split.
    + intros i Hi. destruct (I i Hi) as (I1 & I2 & I3). destruct (Nat.ltb_spec i j); [|lia]. rewrite rb_nil. auto.
    + intros i Hi. rewrite (F i Hi). destruct (Nat.ltb_spec i j); [auto|lia].
  - destruct (fit_ok t j (rb p0 (p0 + pre)) classif); [|split; [auto|discriminate]].
    destruct (I j) as (J1 & J2 & J3); [lia|]. rewrite Nat.ltb_irrefl in J1.
    apply IH; auto; [lia| | |].
    + apply throughout_snoc; auto. simpl. split; [lia|]. rewrite F by lia. rewrite Nat.ltb_irrefl. split; [now rewrite andb_true_r|].
      left. repeat split; auto. intros i Hi. apply I; auto.
    + intros i Hi. rewrite fitted_app, F by auto. simpl. rewrite orb_false_r.
      destruct (Nat.ltb_spec i (S j)), (Nat.ltb_spec i j), (Nat.eqb_spec j i); auto; lia.
    + intros i Hi. destruct (I i Hi) as (I1 & I2 & I3).
      rewrite trained_app, tested_app, scores_app, predictions_app. simpl. rewrite !app_nil_r.
      split; [|split]; auto.
      rewrite I1. destruct (Nat.ltb_spec i (S j)), (Nat.ltb_spec i j), (Nat.eqb_spec j i); try lia; rewrite ?app_nil_r; auto.
Qed.

Definition inv (s : st X Y P) : Prop :=
  good (tr s) /\ settled (pos s) (tr s) /\ pos s = p0 + cnt s /\ p0 + pre <= pos s
  /\ forall i, i < n_models -> fitted i (tr s) = negb (first_run s).

Lemma preq_body_ok amax s : inv s ->
  let '(s', ok) := preq_body src fit_ok predict report_ok n_models classif batch n_wait amax s in
  good (tr s') /\ pos s' = pos s + batch /\ (ok = true -> inv s' /\ cnt s' = cnt s + batch).
Proof.
  intros (G & S & E & Hp & F). unfold preq_body.
  set (rows := take src (pos s) batch). assert (Hr : rows = rb (pos s) (pos s + batch)) by apply take_rb.
  pose proof (predict_all_ok (negb (first_run s)) (pos s) rows Hr Hp n_models 0 (tr s) [] eq_refl G) as PA.
  assert (PI : pred_phase (pos s) 0 rows (tr s) []).
  { split; auto. intros i Hi. destruct (S i Hi) as (S1 & S2 & S3). split; auto. split; [lia|auto]. }
  specialize (PA PI F). destruct (predict_all predict (seq 0 n_models) (tr s) (pos s) rows []) as [t1 [preds|]];
    [|destruct PA as (PA & _); cbn; repeat split; auto; discriminate].
  destruct PA as (G1 & F1 & [L1 I1]).
  assert (HL : length (hd [] preds) = length rows \/ n_models = 0).
  { destruct n_models as [|m] eqn:En; [auto|left]. destruct (I1 0) as (_ & I2 & _); [lia|]. destruct I2 as (_ & ps & K1 & K2 & _); [lia|].
    destruct preds; [discriminate|]. simpl in *. congruence. }
  assert (SA : exists t2, score_all 0 preds (length (hd [] preds)) t1 (map snd rows) = (t2, true) /\ good t2
    /\ (forall i, i < n_models -> fitted i t2 = negb (first_run s))
    /\ forall i, i < n_models -> trained i t2 = rb p0 (pos s) /\ tested i t2 = rb (p0 + pre) (pos s + batch)
         /\ scores i t2 = predictions i t2 /\ exists ps, In (Predict i (pos s) rows ps) t2).
  { destruct HL as [HL|HL].
    - destruct (score_all_ok (negb (first_run s)) (pos s) rows preds 0 t1) as (t2 & E2 & G2 & F2 & I2); auto; [lia| |].
      + split; [lia|]. intros i Hi. destruct (I1 i Hi) as (K1 & K2 & _). destruct (K2 Hi) as (K3 & ps & K4 & K5 & K6 & K7).
        repeat split; eauto; [lia|]. intros _. exists ps. rewrite Nat.sub_0_r. auto.
      + exists t2. rewrite HL. auto.
    - assert (preds = []) as -> by (destruct preds; auto; simpl in L1; lia). exists t1. simpl. repeat split; auto; lia. }
  destruct SA as (t2 & -> & G2 & F2 & I2).
  destruct (negb (progress_ok amax)); [cbn; repeat split; auto; discriminate|].
  pose proof (fit_all_ok (negb (first_run s)) (pos s) rows Hr Hp n_models 0 t2 eq_refl G2) as FA.
  rewrite negb_involutive in FA. specialize (FA F2). 
  assert (I3 : forall i, i < n_models -> trained i t2 = (if i <? 0 then rb p0 (pos s + batch) else rb p0 (pos s)) /\ tested i t2 = rb (p0 + pre) (pos s + batch)
         /\ scores i t2 = predictions i t2 /\ exists ps, In (Predict i (pos s) rows ps) t2) by (intros i Hi; simpl; auto).
  specialize (FA I3). destruct (fit_all fit_ok (seq 0 n_models) t2 (pos s) rows (first_run s && classif)) as [t3 [|]];
    destruct FA as [G3 FA]; [|cbn; repeat split; auto; discriminate].
  destruct (FA eq_refl) as [S3 F3].
  assert (I4 : inv (mkSt (pos s + batch) (cnt s + batch) t3 false (upd s))).
  { repeat split; cbn; auto; try lia; apply S3; auto. }
  destruct (n_wait =? 0); [cbn; repeat split; auto; discriminate|].
  destruct (_ || _ || _); [|cbn; auto].
  unfold report. cbn [tr]. destruct (report_ok t3); [|cbn; repeat split; auto; discriminate].
  cbn. assert (G4 : good (t3 ++ [Report (cnt s + batch)])).
  { apply throughout_snoc; auto. intros i Hi. destruct (S3 i Hi) as (Q1 & _ & Q3). split; auto. rewrite Q1. f_equal. lia. }
  split; auto. split; auto. intros _. split; auto.
  unfold inv. cbn [tr pos cnt first_run]. split; auto. split; [|split; [lia|split; [lia|]]].
  - intros i Hi. rewrite trained_app, tested_app, scores_app, predictions_app. simpl. rewrite !app_nil_r. now apply S3.
  - intros i Hi. rewrite fitted_app, F3 by auto. reflexivity.
Qed.

Lemma preq_loop_ok amax : forall fuel it s, inv s ->
  let '(s', e) := preq_loop src fit_ok predict report_ok timeout n_models classif batch n_wait fuel it amax s in
  good (tr s') /\ pos s <= pos s' /\ (e <> ByException -> inv s')
  /\ (pos s' = pos s \/ (Z.of_nat (pos s' - p0) < amax + Z.of_nat batch)%Z).
Proof.
  induction fuel as [|f IH]; intros it s I; simpl.
  - destruct (_ && _ && _); (split; [apply I|]); (split; [lia|]); split; auto.
  - destruct ((Z.of_nat (cnt s) <? amax)%Z && negb (timeout it) && has_more src (pos s)) eqn:C; [|split; [apply I|]; split; [lia|]; split; auto].
    assert (Hc : (Z.of_nat (cnt s) < amax)%Z).
    { apply andb_true_iff in C. destruct C as [C _]. apply andb_true_iff in C. destruct C as [C _]. now apply Z.ltb_lt. }
    pose proof (preq_body_ok amax s I) as B. destruct (preq_body src fit_ok predict report_ok n_models classif batch n_wait amax s) as [s1 ok].
    destruct B as (G1 & P1 & B). destruct I as (_ & _ & E & _).
    destruct ok.
    + destruct (B eq_refl) as [I1 C1]. pose proof (IH (S it) s1 I1) as H.
      destruct (preq_loop src fit_ok predict report_ok timeout n_models classif batch n_wait f (S it) amax s1) as [s2 e].
      destruct H as (H1 & H2 & H3 & H4). split; auto. split; [lia|]. split; auto. right.
      destruct H4 as [->|H4]; auto. rewrite P1. lia.
    + split; auto. split; [lia|]. split; [congruence|]. right. rewrite P1. lia.
Qed.

Lemma preq_loop_steps amax : forall fuel it s, inv s ->
  let '(s', e) := preq_loop src fit_ok predict report_ok timeout n_models classif batch n_wait fuel it amax s in
  exists k, pos s' = pos s + k * batch.
Proof.
  induction fuel as [|f IH]; intros it s I; simpl; (destruct (_ && _ && _); [|exists 0; lia]).
  - exists 0; lia.
  - pose proof (preq_body_ok amax s I) as B. destruct (preq_body src fit_ok predict report_ok n_models classif batch n_wait amax s) as [s1 ok].
    destruct B as (_ & P1 & B). destruct ok; [|exists 1; lia].
    specialize (IH (S it) s1 (proj1 (B eq_refl))). destruct (preq_loop _ _ _ _ _ _ _ _ _ f _ _ _) as [s2 e].
    destruct IH as [k Hk]. exists (S k). simpl. lia.
Qed.

Lemma preq_loop_ends amax : 0 < batch -> forall fuel it s, (amax - Z.of_nat (cnt s) <= Z.of_nat fuel)%Z -> inv s ->
  snd (preq_loop src fit_ok predict report_ok timeout n_models classif batch n_wait fuel it amax s) <> OutOfFuel.
Proof.
  intros Hb. induction fuel as [|f IH]; intros it s Hf I; simpl.
  - destruct (Z.ltb_spec (Z.of_nat (cnt s)) amax); [lia|]. simpl. discriminate.
  - destruct (_ && _ && _); [|discriminate]. pose proof (preq_body_ok amax s I) as B.
    destruct (preq_body _ _ _ _ _ _ _ _ amax s) as [s1 ok]. destruct B as (_ & _ & B). destruct ok; [|discriminate].
    destruct (B eq_refl). apply IH; auto. lia.
Qed.

(** Without exceptions the body always completes, and reports in the last pass. *)
Lemma predict_all_total (Hw : forall t i xs, exists ps, predict t i xs = Some ps /\ length ps = length xs) k (rows : list row) :
  forall is_ t acc, exists t' preds, predict_all predict is_ t k rows acc = (t', Some preds).
Proof.
  induction is_ as [|i r IH]; intros t acc; simpl; [eauto|]. destruct (Hw t i (map fst rows)) as (ps & -> & _). apply IH.
Qed.
Lemma fit_all_total (Hw : forall t i r c, fit_ok t i r c = true) k (rows : list row) c :
  forall is_ t, exists t', fit_all fit_ok is_ t k rows c = (t', true).
Proof. induction is_ as [|i r IH]; intros t; simpl; [eauto|]. rewrite Hw. apply IH. Qed.

Lemma preq_body_total amax s : well_behaved fit_ok predict report_ok timeout -> (20 <= amax)%Z -> 0 < n_wait -> inv s ->
  exists s', preq_body src fit_ok predict report_ok n_models classif batch n_wait amax s = (s', true)
   /\ ((amax <= Z.of_nat (cnt s'))%Z -> exists t, tr s' = t ++ [Report (cnt s')]).
Proof.
  intros (W1 & W2 & W3 & W4) Ha Hn (G & S & E & Hp & F). unfold preq_body.
  set (rows := take src (pos s) batch). assert (Hr : rows = rb (pos s) (pos s + batch)) by apply take_rb.
  pose proof (predict_all_ok (negb (first_run s)) (pos s) rows Hr Hp n_models 0 (tr s) [] eq_refl G) as PA.
  destruct (predict_all_total W2 (pos s) rows (seq 0 n_models) (tr s) []) as (t1 & preds & Ep). rewrite Ep in *.
  destruct PA as (G1 & F1 & PP).
  { split; auto. intros i Hi. destruct (S i Hi) as (A & B & C). split; auto. split; [lia|]. auto. }
  { auto. }
  assert (SC : exists t2, score_all 0 preds (length (hd [] preds)) t1 (map snd rows) = (t2, true)).
  { destruct PP as [L PP]. destruct preds as [|p0' preds'].
    - simpl. eauto.
    - destruct (score_all_ok (negb (first_run s)) (pos s) rows (p0' :: preds') 0 t1) as (t2 & E2 & _); auto; [lia| |].
      + split; [lia|]. intros i Hi. destruct (PP i Hi) as (A & B & _). destruct (B Hi) as (B1 & ps & B2 & B3 & B4 & B5).
        split; auto. split; auto. split; [eauto|]. split; [lia|]. intros _. exists ps. rewrite Nat.sub_0_r. auto.
      + exists t2. rewrite <- E2. f_equal. simpl. destruct (PP 0) as (_ & B & _); [simpl in L; lia|].
        destruct B as (_ & ps & B2 & B3 & _); [simpl in L; lia|]. simpl in B2. congruence. }
  destruct SC as [t2 ->].
  assert (Hq : progress_ok amax = true).
  { unfold progress_ok. apply negb_true_iff, Z.eqb_neq. assert (1 <= amax / 20)%Z; [|lia].
    apply Z.div_le_lower_bound; lia. }
  rewrite Hq. simpl negb. cbv iota.
  destruct (fit_all_total W1 (pos s) rows (first_run s && classif) (seq 0 n_models) t2) as [t3 ->].
  destruct (Nat.eqb_spec n_wait 0); [lia|]. unfold report. cbn [tr pos cnt first_run upd]. rewrite W3.
  cbn [tr pos cnt first_run upd].
  destruct (Z.leb_spec amax (Z.of_nat (cnt s + batch))).
  - rewrite orb_true_r. simpl orb. cbv iota. eexists. split; [reflexivity|]. cbn [tr cnt]. eauto.
  - destruct (_ || _ || _); (eexists; split; [reflexivity|]; cbn [tr cnt]; lia).
Qed.

Lemma preq_loop_total amax : well_behaved fit_ok predict report_ok timeout -> (20 <= amax)%Z -> 0 < n_wait -> 0 < batch ->
  (forall p, has_more src p = false -> (amax <= Z.of_nat (p - p0))%Z) ->
  forall fuel it s, (amax - Z.of_nat (cnt s) <= Z.of_nat fuel)%Z -> inv s -> (Z.of_nat (cnt s) < amax)%Z ->
  exists s' t, preq_loop src fit_ok predict report_ok timeout n_models classif batch n_wait fuel it amax s = (s', ByCondition)
    /\ tr s' = t ++ [Report (cnt s')] /\ (amax <= Z.of_nat (cnt s'))%Z.
Proof.
  intros W Ha Hn Hb Hm. induction fuel as [|f IH]; intros it s Hf I Hc; simpl; [lia|].
  replace ((Z.of_nat (cnt s) <? amax)%Z && negb (timeout it) && has_more src (pos s)) with true.
  2: { destruct W as (_ & _ & _ & ->). destruct (Z.ltb_spec (Z.of_nat (cnt s)) amax); [|lia]. simpl.
       destruct (has_more src (pos s)) eqn:HM; auto. apply Hm in HM. destruct I as (_ & _ & E & _). lia. }
  destruct (preq_body_total amax s W Ha Hn I) as (s1 & E1 & R1). rewrite E1.
  pose proof (preq_body_ok amax s I) as B. rewrite E1 in B. destruct B as (_ & _ & B). destruct (B eq_refl) as [I1 C1].
  destruct (Z.ltb_spec (Z.of_nat (cnt s1)) amax) as [Hlt|Hge].
  - apply IH; auto. lia.
  - destruct (R1 Hge) as [t Ht]. exists s1, t. split; auto.
    destruct f; simpl; (destruct (Z.ltb_spec (Z.of_nat (cnt s1)) amax); [lia|]; reflexivity).
Qed.

(** The start state after pretraining, or the trace left by a pretraining that raised. *)
Lemma start_ok : 
  match (if 0 <? pre then
           match fit_all fit_ok (seq 0 n_models) [] p0 (take src p0 pre) classif with
           | (t, true) => inl (mkSt (p0 + pre) pre t false 0)
           | (t, false) => inr (mkSt (p0 + pre) 0 t true 0)
           end
         else inl (mkSt p0 0 [] true 0)) with
  | inl s1 => inv s1 /\ pos s1 = p0 + pre
  | inr s => good (tr s) /\ pos s = p0 + pre
  end.
Proof.
  assert (GN : good []) by apply throughout_nil.
  destruct (Nat.ltb_spec 0 pre).
  - rewrite take_rb. pose proof (pretrain_ok classif n_models 0 [] eq_refl H GN eq_refl) as PT.
    destruct (fit_all fit_ok _ _ _ _ _) as [t ok]. destruct PT as [G S]; auto.
    destruct ok; [|split; auto]. destruct (S eq_refl) as [S1 F1]. split; [|reflexivity].
    split; [exact G|]. split; [exact S1|]. cbn [pos cnt tr first_run]. split; [lia|]. split; [lia|]. exact F1.
  - assert (pre = 0) by lia. subst. split; [|cbn; lia]. split; [exact GN|]. cbn [pos cnt tr first_run].
    split; [|split; [lia|split; [lia|reflexivity]]]. intros i Hi. rewrite !rb_nil_ge by lia. auto.
Qed.
End Preq.
End Proofs.

