(** Configuration, reported lines and output file of the evaluators (C345-C350). *)
From Coq Require Import List ZArith QArith Bool Lia Permutation.
From Verif Require Import Base.Py Base.Num Model.EvalOutput Spec.EvalOutputSpec Proofs.EvalOutputProofs.
Import ListNotations.
Local Open Scope nat_scope.

(** C345: which metrics are accepted for a stream of one target, and as which task *)
Theorem config_single (ms : list metric) :
  (check_config 1 false ms = Ok (Classification, reordered ms) <-> Forall (fun m => of_classification m \/ of_either m) ms /\ Exists of_classification ms) /\
  (check_config 1 false ms = Ok (Regression, reordered ms) <-> Forall (fun m => of_regression m \/ of_either m) ms /\ Exists of_regression ms) /\
  (check_config 1 false ms = Ok (Classification, reordered ms) \/ check_config 1 false ms = Ok (Regression, reordered ms) \/ check_config 1 false ms = Raise ValueError).
Proof.
  assert (KC : forall m, In m CLASSIFICATION_METRICS <-> of_classification m \/ of_either m).
  { intros m. unfold of_classification, of_either. simpl. intuition. }
  assert (KR : forall m, In m REGRESSION_METRICS <-> of_regression m \/ of_either m).
  { intros m. unfold of_regression, of_either. simpl. intuition. }
  assert (SC : forall l, subset l CLASSIFICATION_METRICS = true <-> Forall (fun m => of_classification m \/ of_either m) l).
  { intros l. rewrite subset_all, !Forall_forall. split; intros H m I; apply KC; auto. }
  assert (SR : forall l, subset l REGRESSION_METRICS = true <-> Forall (fun m => of_regression m \/ of_either m) l).
  { intros l. rewrite subset_all, !Forall_forall. split; intros H m I; apply KR; auto. }
  assert (IC : forall l, subset l CLASSIFICATION_METRICS = true -> (same_inter l CLASSIFICATION_METRICS REGRESSION_METRICS = false <-> Exists of_classification l)).
  { intros l H. rewrite same_inter_false, !Exists_exists. rewrite subset_all, Forall_forall in H. split; intros (m & I & X); exists m; split; auto.
    - specialize (H m I). apply KC in H. destruct H as [H|[-> | [-> | ->]]]; auto; exfalso; apply X; reflexivity.
    - intros E. unfold of_classification in X. simpl in X. decompose [or] X; subst; try discriminate; tauto. }
  assert (IR : forall l, subset l REGRESSION_METRICS = true -> (same_inter l CLASSIFICATION_METRICS REGRESSION_METRICS = false <-> Exists of_regression l)).
  { intros l H. rewrite same_inter_false, !Exists_exists. rewrite subset_all, Forall_forall in H. split; intros (m & I & X); exists m; split; auto.
    - specialize (H m I). apply KR in H. destruct H as [H|[-> | [-> | ->]]]; auto; exfalso; apply X; reflexivity.
    - intros E. destruct X as [-> | ->]; discriminate. }
  assert (PC : forall l, subset l CLASSIFICATION_METRICS = true -> subset l PLOT_TYPES = true).
  { intros l. rewrite !subset_all, !Forall_forall. intros H m I. specialize (H m I). simpl in *. intuition. }
  assert (PR : forall l, subset l REGRESSION_METRICS = true -> subset l PLOT_TYPES = true).
  { intros l. rewrite !subset_all, !Forall_forall. intros H m I. specialize (H m I). simpl in *. intuition. }
  assert (EX : forall P : metric -> Prop, Exists P (reordered ms) <-> Exists P ms).
  { intros P. rewrite !Exists_exists. split; intros (m & I & X); exists m; split; auto; apply reordered_in; auto. }
  assert (RS : forall b, subset (reordered ms) b = subset ms b).
  { intros b. apply Bool.eq_iff_eq_true. rewrite !subset_all. apply reordered_forall. }
  unfold check_config. change (1 <? 1)%Z with false. change (1 =? 1)%Z with true. cbv iota zeta. rewrite !RS, orb_false_r.
  rewrite <- SC, <- SR.
  destruct (subset ms CLASSIFICATION_METRICS) eqn:C.
  - rewrite (PC _ C). simpl. pose proof (IC (reordered ms)) as I. rewrite RS, EX in I. specialize (I C).
    destruct (same_inter _ _ _) eqn:S.
    + assert (~ Exists of_classification ms) by (intros X; apply I in X; discriminate).
      repeat split; intros; try discriminate; try tauto; auto.
      exfalso. destruct H0 as [A B]. pose proof (IR (reordered ms)) as J. rewrite RS, EX in J. specialize (J A). rewrite S in J. apply J in B. discriminate.
    + repeat split; intros; try discriminate; auto; try (apply I; reflexivity).
      exfalso. destruct H as [A B]. rewrite subset_all, Forall_forall in C. apply Exists_exists in B. destruct B as (m & Im & Om).
      specialize (C m Im). destruct Om as [-> | ->]; simpl in C; intuition discriminate.
  - destruct (subset ms REGRESSION_METRICS) eqn:R.
    + rewrite (PR _ R). simpl. pose proof (IR (reordered ms)) as I. rewrite RS, EX in I. specialize (I R).
      destruct (same_inter _ _ _) eqn:S.
      * repeat split; intros; try discriminate; try tauto; auto. destruct H; discriminate. destruct H as [_ B]. apply I in B. discriminate.
      * repeat split; intros; try discriminate; auto; try (apply I; reflexivity). destruct H; discriminate.
    + destruct (negb _); [|destruct (same_inter _ _ _)]; repeat split; intros; try discriminate; try (destruct H; discriminate); auto.
Qed.

(** C346: which metrics are accepted for a stream of several targets *)
Theorem config_multi (n : Z) (points : bool) (ms : list metric) : (1 < n)%Z ->
  (check_config n points ms = Ok (MultiTargetClassification, reordered ms) <-> Forall (fun m => of_multi_label m \/ of_cost m) ms) /\
  (check_config n points ms = Ok (MultiTargetRegression, reordered ms) <-> Forall (fun m => of_multi_target m \/ of_cost m) ms /\ Exists of_multi_target ms) /\
  (check_config n points ms = Ok (MultiTargetClassification, reordered ms) \/ check_config n points ms = Ok (MultiTargetRegression, reordered ms) \/ check_config n points ms = Raise ValueError).
Proof.
  intros Hn.
  assert (SC : subset ms MULTI_TARGET_CLASSIFICATION_METRICS = true <-> Forall (fun m => of_multi_label m \/ of_cost m) ms).
  { rewrite subset_all, !Forall_forall. unfold of_multi_label, of_cost. split; intros H m I; specialize (H m I); simpl in *; intuition. }
  assert (SR : subset ms MULTI_TARGET_REGRESSION_METRICS = true <-> Forall (fun m => of_multi_target m \/ of_cost m) ms).
  { rewrite subset_all, !Forall_forall. unfold of_multi_target, of_cost. split; intros H m I; specialize (H m I); simpl in *; intuition. }
  assert (PC : subset ms MULTI_TARGET_CLASSIFICATION_METRICS = true -> subset ms PLOT_TYPES = true).
  { rewrite !subset_all, !Forall_forall. intros H m I. specialize (H m I). simpl in *. intuition. }
  assert (PR : subset ms MULTI_TARGET_REGRESSION_METRICS = true -> subset ms PLOT_TYPES = true).
  { rewrite !subset_all, !Forall_forall. intros H m I. specialize (H m I). simpl in *. intuition. }
  assert (RS : forall b, subset (reordered ms) b = subset ms b).
  { intros b. apply Bool.eq_iff_eq_true. rewrite !subset_all. apply reordered_forall. }
  unfold check_config. replace (n <? 1)%Z with false by (symmetry; apply Z.ltb_ge; lia). replace (n =? 1)%Z with false by (symmetry; apply Z.eqb_neq; lia).
  cbv zeta. rewrite !RS, <- SC, <- SR.
  destruct (subset ms MULTI_TARGET_CLASSIFICATION_METRICS) eqn:C.
  - rewrite PC by auto. simpl. repeat split; intros; try discriminate; auto.
    exfalso. destruct H as [A B]. rewrite subset_all, Forall_forall in C. apply Exists_exists in B. destruct B as (m & Im & Om).
    specialize (C m Im). unfold of_multi_target in Om. simpl in *. decompose [or] Om; subst; intuition discriminate.
  - destruct (subset ms MULTI_TARGET_REGRESSION_METRICS) eqn:R.
    + rewrite PR by auto. simpl. repeat split; intros; try discriminate; auto.
      apply Exists_exists. rewrite <- not_true_iff_false, subset_all in C.
      rewrite <- Exists_exists. destruct (Exists_dec of_multi_target ms) as [X|X]; auto.
      { intros m. unfold of_multi_target. apply in_dec, metric_eq_dec. }
      exfalso. apply C. apply Forall_forall. intros m I. rewrite subset_all, Forall_forall in R. specialize (R m I).
      simpl in R. simpl. assert (H0 : ~ of_multi_target m) by (intros Y; apply X, Exists_exists; eauto). unfold of_multi_target in *. simpl in *. clear - R H0. tauto.
    + destruct (negb _); repeat split; intros; try discriminate; try (destruct H; discriminate); auto.
Qed.

(** C347: the metrics of an accepted configuration are those asked for, those of cost last, otherwise in their order *)
Theorem config_keeps_metrics (n : Z) (points : bool) (ms ms' : list metric) (t : task) :
  check_config n points ms = Ok (t, ms') ->
  Permutation ms ms' /\ exists a b, ms' = a ++ b /\ subseq a ms /\ subseq b ms /\ Forall (fun m => ~ of_cost m) a /\ Forall of_cost b.
Proof.
  intros H. assert (ms' = reordered ms) as ->.
  { unfold check_config in H. cbv zeta in H.
    repeat match type of H with (if ?c then _ else _) = _ => destruct c end; inversion H; auto. }
  split; [apply reordered_perm|]. eexists _, _. split; [reflexivity|]. split; [apply filter_subseq|]. split; [apply filter_subseq|].
  unfold of_cost. split; apply Forall_forall; intros m I; apply filter_In in I; destruct I as [_ I]; destruct m; simpl in I; try discriminate; auto; intros [X|X]; discriminate.
Qed.

(** C348: a report of an accepted configuration succeeds, and its line has one value per column of the header, the one the column names *)
Theorem report_matches_header {T} {N : Num T} (me : measured T) (nt : Z) (ms ms' : list metric) (t : task) (n features : nat) (id : T) :
  check_config nt false ms = Ok (t, ms') -> (In DATA_POINTS ms -> 1 <= n /\ 2 <= features) ->
  exists b, update_metrics me t n features ms' = Ok b /\
            line n b ms' id = Ok (map (meaning me n id (nofZ (-1)%Z)) (header n ms')).
Proof.
  intros H D.
  assert (ms' = reordered ms /\ forall m, In m ms -> has_score t m = true \/ of_either m \/ m = DATA_POINTS) as [-> K].
  { unfold check_config in H. cbv zeta in H. rewrite orb_false_r in H.
    repeat match type of H with (if ?c then _ else _) = _ => destruct c eqn:? end; inversion H; subst; split; auto; intros m I;
    match goal with S : subset (reordered ms) _ = true |- _ => rewrite subset_all, Forall_forall in S; specialize (S m (proj2 (reordered_in ms m) I)); simpl in S; unfold of_either;
      decompose [or] S; subst; simpl; try tauto end. }
  destruct (update_total me t n features (reordered ms)) as [b B].
  { intros m I. apply (proj1 (reordered_in ms m)) in I. destruct (K m I) as [S|[[-> | [-> | ->]] | ->]]; try (eexists; reflexivity).
    - destruct m; simpl; try (destruct t; discriminate); rewrite S; eexists; reflexivity.
    - destruct (D I) as [D1 D2]. simpl. destruct n; [lia|]. simpl. destruct (Nat.ltb_spec features 2); [lia|]. eexists; reflexivity. }
  exists b. split; auto. unfold line. rewrite (fields_ok me n b id).
  - reflexivity.
  - intros m I. destruct (look_update me _ _ _ _ _ _ B I) as (e & Lk & E). eapply fields_of_metric; eauto.
Qed.
(** With data points asked for, metrics of regression are accepted for a classification, and no report succeeds; likewise on a stream of one feature *)
Theorem report_succeeds_refuted :
  (exists ms ms' t, check_config 1 true ms = Ok (t, ms') /\ forall T (N : Num T) (me : measured T) n features, 1 <= n -> update_metrics me t n features ms' = Raise AttributeError) /\
  (exists ms' t, check_config 1 true [DATA_POINTS] = Ok (t, ms') /\ forall T (N : Num T) (me : measured T) n, update_metrics me t n 1 ms' = Raise IndexError).
Proof.
  split.
  - exists [MSE; DATA_POINTS], [MSE; DATA_POINTS], Classification. split; [reflexivity|]. intros T N me n f H. destruct n; [lia|]. reflexivity.
  - exists [DATA_POINTS], Classification. split; [reflexivity|]. intros T N me n. destruct n; reflexivity.
Qed.

(** C349: whatever evaluations went before, at every moment of an evaluation the file holds its header and a first part of its lines,
    the others fit the buffer or are a single one; at the end it holds all of them *)
Theorem file_holds_prefix {L} (size : L -> Z) (limit : Z) (runs : list (list L * list L)) (top ls : list L) :
  (forall l, (0 < size l)%Z) ->
  let before := flat_map (fun r => evaluation (fst r) (snd r)) runs in
  let s := frun size limit ofile_new (before ++ FInit top :: map FLine ls) in
  let s' := frun size limit ofile_new (before ++ evaluation top ls) in
  (exists written kept, ls = written ++ kept /\ o_file s = top ++ written /\ ((total size kept <= limit)%Z \/ length kept <= 1)) /\
  o_file s' = top ++ ls.
Proof.
  intros P before s s'.
  assert (C : clean (frun size limit ofile_new before)) by (apply evaluations_clean; auto; split; reflexivity).
  split.
  - subst s. unfold frun at 1. rewrite fold_left_app. simpl.
    destruct (lines_good size limit P top ls [] _ (init_good size limit top _ C)) as (w & E & F & S & B).
    exists w, (o_buf (frun size limit (fstep size limit (frun size limit ofile_new before) (FInit top)) (map FLine ls))).
    split; [exact E|]. split; [exact F|]. rewrite <- S. exact B.
  - subst s'. unfold frun. rewrite fold_left_app. apply (evaluation_good size limit P top ls _ C).
Qed.
(** An evaluation left by an exception before its flush leaves lines that the next one writes to its own file; the last samples of a delayed
    evaluation are tested and learned outside its try (evaluate_prequential_delayed.py 471-486) *)
Theorem file_fresh_refuted :
  exists (top ls top' ls' : list nat),
    o_file (frun (fun _ => 60%Z) 8192 ofile_new ((FInit top :: map FLine ls) ++ evaluation top' ls')) <> top' ++ ls'.
Proof. exists [0], [1], [0], [2]. vm_compute. discriminate. Qed.

(** C350: the constructor adds to the list of metrics it is given, so a second evaluator built from it asks for more *)
Theorem constructor_keeps_list_refuted :
  (forall l, snd (new_metrics true (Some l)) <> Some l) /\
  (forall l, match snd (new_metrics true (Some l)) with Some l' => fst (new_metrics true (Some l')) <> fst (new_metrics true (Some l)) | None => False end).
Proof.
  assert (forall l : list metric, l ++ [DATA_POINTS] <> l) as A by (intros l E; apply (f_equal (@length _)) in E; rewrite app_length in E; simpl in E; lia).
  split; intros l; simpl; [intros E; inversion E; eapply A; eauto|apply A].
Qed.
Example config_applies : check_config 1 false [RUNNING_TIME; ACCURACY; TRUE_VS_PREDICTED; KAPPA] = Ok (Classification, [ACCURACY; TRUE_VS_PREDICTED; KAPPA; RUNNING_TIME])
  /\ check_config 1 false [MODEL_SIZE; MSE] = Ok (Regression, [MSE; MODEL_SIZE]) /\ check_config 1 false [TRUE_VS_PREDICTED] = Raise ValueError
  /\ check_config 1 false [MSE; ACCURACY] = Raise ValueError /\ check_config 3 false [AMSE; RUNNING_TIME] = Ok (MultiTargetRegression, [AMSE; RUNNING_TIME]).
Proof. repeat split; reflexivity. Qed.
Example header_applies : header 2 [ACCURACY; TRUE_VS_PREDICTED; MODEL_SIZE] =
  [CId; CMean ACCURACY 0; CCurrent ACCURACY 0; CMean ACCURACY 1; CCurrent ACCURACY 1; CTrue; CPred 0; CPred 1; CSize 0; CSize 1].
Proof. reflexivity. Qed.
Example file_applies : let s := frun (fun _ => 60%Z) 130 ofile_new (evaluation [0] [7; 8] ++ FInit [0] :: map FLine [1; 2; 3]) in o_file s = [0; 1; 2] /\ o_buf s = [3].
Proof. vm_compute. auto. Qed.

Print Assumptions config_single.
Print Assumptions config_multi.
Print Assumptions config_keeps_metrics.
Print Assumptions report_matches_header.
Print Assumptions report_succeeds_refuted.
Print Assumptions file_holds_prefix.
Print Assumptions file_fresh_refuted.
Print Assumptions constructor_keeps_list_refuted.
