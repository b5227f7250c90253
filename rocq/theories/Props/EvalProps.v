(** C41, C42, C43, C79: the prequential and the holdout evaluator. *)
From Coq Require Import List ZArith Bool Lia.
From Verif Require Import Model.Evaluate Spec.EvalSpec Spec.StreamSpec Proofs.EvalProofs Proofs.HoldoutProofs Proofs.EvalSummary.
Import ListNotations.

Section Props.
Context {X Y P : Type}.
Notation row := (X * Y)%type.
Variable src : source row.
Variable fit_ok : list (ev X Y P) -> nat -> list row -> bool -> bool.
Variable predict : list (ev X Y P) -> nat -> list X -> option (list P).
Variable report_ok : list (ev X Y P) -> bool.
Variable timeout : nat -> bool.
Variable n_models : nat.
Variable classif : bool.
Variables batch n_wait max_samples : nat.
Notation run := (prequential src fit_ok predict report_ok timeout n_models classif batch n_wait max_samples).
Notation sized := (forall t i xs ps, predict t i xs = Some ps -> length ps = length xs).

(** C41. At every moment of every run, however it ends: see [test_then_train]. *)
Theorem prequential_tests_then_trains : sized -> forall fuel p0 pre,
  throughout (test_then_train src p0 pre batch n_models classif) (tr (r_st (run fuel p0 pre))).
Proof.
  intros Hs fuel p0 pre. unfold prequential.
  pose proof (start_ok src fit_ok n_models classif batch p0 pre) as S0.
  destruct (if 0 <? pre then _ else _) as [s1|s1]; [|apply S0].
  pose proof (preq_loop_ok src fit_ok predict report_ok timeout Hs n_models classif batch n_wait p0 pre
    (actual_max src max_samples p0) fuel 0 s1 (proj1 S0)) as L.
  destruct (preq_loop _ _ _ _ _ _ _ _ _ _ _ _ _) as [s2 e]. exact (proj1 L).
Qed.

(** C41. When the run is not cut short by an exception, every model has been trained on all rows drawn, has
    predicted all of them but the pretraining ones, and was scored on exactly its predictions. *)
Theorem prequential_scores_everything : sized -> forall fuel p0 pre,
  r_outcome (run fuel p0 pre) <> PretrainRaised -> r_end (run fuel p0 pre) <> ByException ->
  let s := r_st (run fuel p0 pre) in
  pos s = p0 + cnt s /\
  forall i, i < n_models -> trained i (tr s) = rows_between src p0 (pos s)
    /\ tested i (tr s) = rows_between src (p0 + pre) (pos s) /\ scores i (tr s) = predictions i (tr s).
Proof.
  intros Hs fuel p0 pre. unfold prequential.
  pose proof (start_ok src fit_ok n_models classif batch p0 pre) as S0.
  destruct (if 0 <? pre then _ else _) as [s1|s1]; [|simpl; congruence].
  pose proof (preq_loop_ok src fit_ok predict report_ok timeout Hs n_models classif batch n_wait p0 pre
    (actual_max src max_samples p0) fuel 0 s1 (proj1 S0)) as L.
  destruct (preq_loop _ _ _ _ _ _ _ _ _ _ _ _ _) as [s2 e]. cbn [r_st r_end]. intros _ He.
  destruct L as (_ & _ & L & _). destruct (L He) as (_ & S & E & _). split; auto.
Qed.

(** C41, C42. The run terminates: with batches of at least one row the loop makes at most [max_samples] passes. *)
Theorem prequential_terminates : sized -> 0 < batch -> forall fuel p0 pre, max_samples <= fuel ->
  r_end (run fuel p0 pre) <> OutOfFuel.
Proof.
  intros Hs Hb fuel p0 pre Hf. unfold prequential.
  pose proof (start_ok src fit_ok n_models classif batch p0 pre) as S0.
  destruct (if 0 <? pre then _ else _) as [s1|s1]; [|simpl; congruence].
  pose proof (preq_loop_ends src fit_ok predict report_ok timeout Hs n_models classif batch n_wait p0 pre
    (actual_max src max_samples p0) Hb fuel 0 s1) as L.
  destruct (preq_loop _ _ _ _ _ _ _ _ _ _ _ _ _) as [s2 e]. cbn [r_end]. apply L; [|apply S0].
  pose proof (actual_max_upper src max_samples p0). lia.
Qed.

(** C42, part that holds: the position never moves past max_samples by a whole batch, and not at all when the
    batch size divides the samples to evaluate (for instance with batches of one row). *)
Theorem prequential_draws_at_most_partial : sized -> forall fuel p0 pre,
  let s := r_st (run fuel p0 pre) in
  (pos s = p0 + pre \/ pos s < p0 + max_samples + batch)
  /\ (Nat.divide batch (max_samples - pre) -> pos s <= p0 + Nat.max max_samples pre).
Proof.
  intros Hs fuel p0 pre. unfold prequential.
  pose proof (start_ok src fit_ok n_models classif batch p0 pre) as S0.
  destruct (if 0 <? pre then _ else _) as [s1|s1]; [|cbn [r_st]; destruct S0 as [_ ->]; split; [auto|lia]].
  destruct S0 as [I1 P1]. pose proof (preq_loop_ok src fit_ok predict report_ok timeout Hs n_models classif batch n_wait p0 pre
    (actual_max src max_samples p0) fuel 0 s1 I1) as L.
  pose proof (preq_loop_steps src fit_ok predict report_ok timeout Hs n_models classif batch n_wait p0 pre
    (actual_max src max_samples p0) fuel 0 s1 I1) as K.
  destruct (preq_loop _ _ _ _ _ _ _ _ _ _ _ _ _) as [s2 e]. cbn [r_st]. destruct L as (_ & L1 & _ & L2).
  pose proof (actual_max_upper src max_samples p0). destruct K as [k K]. rewrite P1 in *.
  split; [lia|]. intros [q Hq]. destruct L2 as [L2|L2]; [lia|].
  destruct (Nat.le_gt_cases k q) as [C|C]; [|exfalso].
  - assert (k * batch <= q * batch) by (apply Nat.mul_le_mono_r; auto). lia.
  - assert (S q * batch <= k * batch) by (apply Nat.mul_le_mono_r; auto). simpl in H0. lia.
Qed.

(** C42 refuted: a well-behaved run over an unbounded stream always draws more than max_samples samples when
    the batch size does not divide the number of samples to evaluate. *)
Theorem prequential_overshoots_refuted : well_behaved fit_ok predict report_ok timeout -> src_len src = None ->
  0 < batch -> 0 < n_wait -> 20 <= max_samples ->
  forall fuel p0 pre, max_samples <= fuel -> pre < max_samples -> ~ Nat.divide batch (max_samples - pre) ->
  let s := r_st (run fuel p0 pre) in
  p0 + max_samples < pos s /\ forall i, i < n_models -> length (tested i (tr s)) > max_samples - pre.
Proof.
  intros W Hsrc Hb Hn Hm fuel p0 pre Hf Hp Hd.
  assert (Hs : sized).
  { destruct W as (_ & W & _). intros t i xs ps E. destruct (W t i xs) as (ps' & E' & L). congruence. }
  assert (Ea : actual_max src max_samples p0 = Z.of_nat max_samples).
  { unfold actual_max, remaining. now rewrite Hsrc. }
  unfold prequential. pose proof (start_ok src fit_ok n_models classif batch p0 pre) as S0.
  assert (SI : exists s1, (if 0 <? pre then
           match fit_all fit_ok (seq 0 n_models) [] p0 (take src p0 pre) classif with
           | (t, true) => inl (mkSt (p0 + pre) pre t false 0)
           | (t, false) => inr (mkSt (p0 + pre) 0 t true 0)
           end
         else inl (mkSt p0 0 [] true 0)) = inl s1 :> st X Y P + st X Y P).
  { destruct (0 <? pre); [|eauto]. destruct W as (W & _).
    destruct (fit_all_total fit_ok W p0 (take src p0 pre) classif (seq 0 n_models) []) as [t ->]. eauto. }
  destruct SI as [s1 E1]. rewrite E1 in *. destruct S0 as [I1 P1]. rewrite Ea.
  assert (Hc1 : (Z.of_nat (cnt s1) < Z.of_nat max_samples)%Z) by (destruct I1 as (_ & _ & E & _); lia).
  destruct (preq_loop_total src fit_ok predict report_ok timeout Hs n_models classif batch n_wait p0 pre
    (Z.of_nat max_samples) W ltac:(lia) Hn Hb ltac:(unfold has_more; rewrite Hsrc; discriminate) fuel 0 s1 ltac:(lia) I1 Hc1) as (s2 & t & E2 & _ & R).
  pose proof (preq_loop_steps src fit_ok predict report_ok timeout Hs n_models classif batch n_wait p0 pre
    (Z.of_nat max_samples) fuel 0 s1 I1) as K.
  pose proof (preq_loop_ok src fit_ok predict report_ok timeout Hs n_models classif batch n_wait p0 pre
    (Z.of_nat max_samples) fuel 0 s1 I1) as L.
  rewrite E2 in *. cbn [r_st]. destruct K as [k K]. destruct L as (_ & _ & L & _). destruct (L ltac:(discriminate)) as (_ & S2 & E3 & _).
  assert (p0 + max_samples < pos s2).
  { destruct (Nat.eq_dec (pos s2) (p0 + max_samples)) as [E|]; [|lia]. exfalso. apply Hd. exists k. lia. }
  split; auto. intros i Hi. destruct (S2 i Hi) as (_ & -> & _). unfold rows_between. rewrite map_length, seq_length, Hsrc. lia.
Qed.

(** C79. A well-behaved evaluation of at least 20 samples returns, and the last thing it does is to report on
    everything evaluated. *)
Theorem prequential_reports_everything : well_behaved fit_ok predict report_ok timeout ->
  0 < batch -> 0 < n_wait -> forall fuel p0 pre,
  p0 <= match src_len src with Some n => n | None => p0 end ->
  (20 <= actual_max src max_samples p0)%Z -> (Z.of_nat pre < actual_max src max_samples p0)%Z -> max_samples <= fuel ->
  let r := run fuel p0 pre in
  r_outcome r = Returned /\ r_end r = ByCondition
  /\ (exists t, tr (r_st r) = t ++ [Report (cnt (r_st r))])
  /\ (actual_max src max_samples p0 <= Z.of_nat (cnt (r_st r)))%Z.
Proof.
  intros W Hb Hn fuel p0 pre Hl Ha Hp Hf.
  assert (Hs : sized).
  { destruct W as (_ & W & _). intros t i xs ps E. destruct (W t i xs) as (ps' & E' & L). congruence. }
  unfold prequential. pose proof (start_ok src fit_ok n_models classif batch p0 pre) as S0.
  assert (SI : exists s1, (if 0 <? pre then
           match fit_all fit_ok (seq 0 n_models) [] p0 (take src p0 pre) classif with
           | (t, true) => inl (mkSt (p0 + pre) pre t false 0)
           | (t, false) => inr (mkSt (p0 + pre) 0 t true 0)
           end
         else inl (mkSt p0 0 [] true 0)) = inl s1 :> st X Y P + st X Y P).
  { destruct (0 <? pre); [|eauto]. destruct W as (W & _).
    destruct (fit_all_total fit_ok W p0 (take src p0 pre) classif (seq 0 n_models) []) as [t ->]. eauto. }
  destruct SI as [s1 E1]. rewrite E1 in *. destruct S0 as [I1 P1].
  assert (Hc1 : (Z.of_nat (cnt s1) < actual_max src max_samples p0)%Z) by (destruct I1 as (_ & _ & E & _); lia).
  pose proof (actual_max_upper src max_samples p0) as HU.
  destruct (preq_loop_total src fit_ok predict report_ok timeout Hs n_models classif batch n_wait p0 pre
    (actual_max src max_samples p0) W Ha Hn Hb
    (fun p => exhausted_covers src max_samples p0 p Hl) fuel 0 s1 ltac:(lia) I1 Hc1) as (s2 & t & E2 & Ht & R).
  cbv zeta. rewrite E2. cbn [r_outcome r_end r_st]. split; [|eauto].
  unfold summary. rewrite Ht, existsb_app. simpl. now rewrite !orb_true_r.
Qed.

(** C79 refuted: for fewer than 20 samples no run ever reports anything, and evaluate raises at the end. *)
Theorem prequential_fewer_than_20_refuted : forall fuel p0 pre, 0 < n_models ->
  (0 <= actual_max src max_samples p0 < 20)%Z ->
  r_outcome (run fuel p0 pre) <> Returned /\ existsb is_report (tr (r_st (run fuel p0 pre))) = false.
Proof.
  intros fuel p0 pre Hn Ha. unfold prequential.
  pose proof (fit_all_quiet fit_ok p0 (take src p0 pre) classif (seq 0 n_models) [] eq_refl) as FQ.
  assert (Q : match (if 0 <? pre then
           match fit_all fit_ok (seq 0 n_models) [] p0 (take src p0 pre) classif with
           | (t, true) => inl (mkSt (p0 + pre) pre t false 0)
           | (t, false) => inr (mkSt (p0 + pre) 0 t true 0)
           end
         else inl (mkSt p0 0 [] true 0)) with inl s => quiet (tr s) | inr s => quiet (tr s : list (ev X Y P)) end).
  { destruct (0 <? pre); [|reflexivity]. destruct (fit_all _ _ _ _ _ _) as [t [|]]; exact FQ. }
  destruct (if 0 <? pre then _ else _) as [s1|s1]; [|split; [simpl; discriminate|exact Q]].
  pose proof (preq_loop_quiet src fit_ok predict report_ok timeout n_models classif batch n_wait (actual_max src max_samples p0) Ha fuel 0 s1 Q) as L.
  destruct (preq_loop _ _ _ _ _ _ _ _ _ _ _ _ _) as [s2 e]. cbn [r_st r_outcome fst] in *. split; [|exact L].
  unfold summary. rewrite L. destruct (Nat.eqb_spec n_models 0); [lia|]. discriminate.
Qed.

(** ** Holdout *)
Variable test_size : nat.
Variable dynamic : bool.
Notation hrun := (holdout src fit_ok predict report_ok timeout n_models classif batch n_wait max_samples test_size dynamic).

(** C43. No row is used both for training and for testing, by any models, at any time of any run. *)
Theorem holdout_trains_and_tests_apart : forall fuel p0, disjoint_use src (tr (r_st (hrun fuel p0))).
Proof. intros. apply holdout_ok. Qed.

(** C43. The static test set is the first test_size rows, for every test. *)
Theorem holdout_static_test_set : dynamic = false -> forall fuel p0 i k rows ps,
  In (Predict i k rows ps) (tr (r_st (hrun fuel p0))) -> k = p0 /\ rows = rows_between src p0 (p0 + test_size).
Proof. intros Hd fuel p0. now apply holdout_ok. Qed.

(** C43. Reports cover exactly the predictions made so far; with a static test set all models have then been
    trained on exactly all the rows after the test set. *)
Theorem holdout_reports : sized -> forall fuel p0,
  throughout (test_reports src p0 test_size n_models dynamic) (tr (r_st (hrun fuel p0))).
Proof. intros Hs fuel p0. now apply holdout_ok. Qed.

Theorem holdout_terminates : 0 < batch -> forall fuel p0, max_samples <= fuel -> r_end (hrun fuel p0) <> OutOfFuel.
Proof.
  intros Hb fuel p0 Hf. unfold holdout. cbv zeta.
  pose proof (hold_loop_ends src fit_ok predict report_ok timeout n_models classif batch n_wait test_size dynamic p0
    (actual_max src max_samples p0) Hb fuel 0 _ ltac:(pose proof (actual_max_upper src max_samples p0); lia)
    (holdout_inv0 src predict n_models batch test_size dynamic p0)) as L.
  destruct (hold_loop _ _ _ _ _ _ _ _ _ _ _ _ _ _ _) as [h e]. exact L.
Qed.

(** C79 refuted for holdout as well. *)
Theorem holdout_fewer_than_20_refuted : forall fuel p0, 0 < n_models ->
  (0 <= actual_max src max_samples p0 < 20)%Z ->
  r_outcome (hrun fuel p0) = SummaryRaised /\ existsb is_report (tr (r_st (hrun fuel p0))) = false.
Proof.
  intros fuel p0 Hn Ha. unfold holdout. cbv zeta.
  pose proof (hold_loop_quiet src fit_ok predict report_ok timeout n_models classif batch n_wait test_size dynamic
    (actual_max src max_samples p0) Ha fuel 0 (if dynamic then mkH (mkSt p0 0 [] true 0) None 0
            else mkH (mkSt (p0 + test_size) test_size [] true 0) (Some (p0, take src p0 test_size)) 0)) as L.
  destruct (hold_loop _ _ _ _ _ _ _ _ _ _ _ _ _ _ _) as [h e]. cbn [r_outcome r_st fst] in *.
  assert (Q : quiet (tr (h_st h))) by (apply L; destruct dynamic; reflexivity). split; [|exact Q].
  unfold summary. rewrite Q. destruct (Nat.eqb_spec n_models 0); [lia|]. reflexivity.
Qed.
End Props.

(** The batches are those the stream delivers (C37): [take] over a table is its rows k..k+b-1. *)
Theorem take_of_list : forall A B (d : A * B) l k b, take (of_list d l) k b = rows_at k b l.
Proof.
  intros A B d l k b. unfold take, of_list, rows_at. simpl. revert k b.
  assert (G : forall m k, k + m <= length l -> map (fun i => nth i l d) (seq k m) = firstn m (skipn k l)).
  { induction m as [|m IH]; intros k H; [reflexivity|]. simpl. rewrite IH by lia.
    assert (E : skipn k l = nth k l d :: skipn (S k) l).
    { clear - H. revert k H. induction l as [|a l IH]; intros k H; simpl in *; [lia|]. destruct k; auto. apply IH. lia. }
    rewrite E. reflexivity. }
  intros k b. destruct (Nat.le_gt_cases (length l) k) as [C|C].
  - replace (Nat.min b (length l - k)) with 0 by lia. rewrite skipn_all2 by lia. now rewrite firstn_nil.
  - rewrite G by lia. destruct (Nat.le_gt_cases b (length l - k)).
    + now rewrite Nat.min_l by lia.
    + rewrite Nat.min_r by lia. rewrite !firstn_all2; auto; rewrite skipn_length; lia.
Qed.

(** Non-vacuity: a learner that predicts how many rows it was trained on. *)
Local Notation tfit := (fun (_ : list (ev Z Z nat)) (_ : nat) (_ : list (Z * Z)) (_ : bool) => true).
Local Notation tpred := (fun (t : list (ev Z Z nat)) (i : nat) (xs : list Z) => Some (map (fun _ => length (trained i t)) xs)).
Local Notation gen := (mkSource None (fun i => (Z.of_nat i, Z.of_nat (i * i)))).

Example learner_well_behaved : well_behaved tfit tpred (fun _ => true) (fun _ => false).
Proof. repeat split; auto. intros t i xs. eexists. split; [reflexivity|]. apply map_length. Qed.

(** Generator, max 25, pretraining on 3 rows, batches of 10: 33 rows are drawn. *)
Example overshoot_run :
  let s := r_st (prequential gen tfit tpred (fun _ => true) (fun _ => false) 2 true 10 10 25 25 0 3) in
  pos s = 33 /\ scores 1 (tr s) = map (fun i => (Z.of_nat (i * i), 3)) (seq 3 10) ++ map (fun i => (Z.of_nat (i * i), 13)) (seq 13 10)
     ++ map (fun i => (Z.of_nat (i * i), 23)) (seq 23 10).
Proof. vm_compute. auto. Qed.

(** A table with 30 rows, evaluated to the end. *)
Example table_run :
  let r := prequential (of_list (0, 0)%Z (map (fun i => (Z.of_nat i, 1%Z)) (seq 0 30))) tfit tpred (fun _ => true) (fun _ => false) 1 true 4 5 100 100 0 2 in
  r_outcome r = Returned /\ cnt (r_st r) = 30 /\ length (scores 0 (tr (r_st r))) = 28.
Proof. vm_compute. auto. Qed.

(** Holdout with a dynamic test set on a generator. *)
Example holdout_run :
  let s := r_st (holdout gen tfit tpred (fun _ => true) (fun _ => false) 1 true 4 12 40 5 true 40 0) in
  map fst (tested 0 (tr s)) = map Z.of_nat (seq 12 5 ++ seq 29 5 ++ seq 42 5) /\ length (trained 0 (tr s)) = 32.
Proof. vm_compute. auto. Qed.

Print Assumptions prequential_tests_then_trains.
Print Assumptions prequential_overshoots_refuted.
Print Assumptions prequential_reports_everything.
Print Assumptions prequential_fewer_than_20_refuted.
Print Assumptions holdout_trains_and_tests_apart.
Print Assumptions holdout_reports.
Print Assumptions take_of_list.
