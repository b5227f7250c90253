(** C224-C230: StreamingRandomPatchesClassifier. *)
From Coq Require Import List ZArith QArith Bool Lia Reals Lra Permutation Sorting.Sorted.
From Verif Require Import Base.Py Base.Num Base.Dict Model.Adwin Model.Knn Model.Generators Model.ClassMetrics Model.RandomPatches
  Spec.Lists Spec.AdaptiveForestSpec Spec.RandomPatchesSpec Proofs.ListFacts Proofs.KnnProofs Proofs.AdaptiveForestProofs Proofs.AdaptiveForestVotes Proofs.RandomPatchesProofs.
Import ListNotations.
Local Open Scope nat_scope.

Section Props.
Context {V T B D E G : Type} {N : Num T}.
Variables (b_fit : B -> list V -> Z -> option (list Z) -> Z -> res B) (b_predict : B -> list V -> res Z) (b_proba : B -> list V -> res (list T))
  (b_reset b_new : B -> B) (b_nominal : B -> option (list nat) -> B)
  (d_add : D -> bool -> D) (d_change : D -> bool) (d_clone : D -> D)
  (e_new : E) (e_add : E -> Z -> Z -> T -> res E) (e_accuracy : E -> res T)
  (poisson : G -> Z * G) (shuffled : G -> nat -> list nat * G) (choice : G -> nat -> nat -> list nat * G) (seed : G)
  (rsqrt : nat -> Z) (percent : Z -> nat -> Z)
  (base : B) (n_estimators : nat) (mode : smode) (size : Z) (drift warning : D) (unweighted no_drift no_background : bool) (nominal : list nat).
Notation smember := (smember B D E).
Notation srp := (srp B D E G).
Notation run := (srp_run b_fit b_predict b_proba b_reset b_new b_nominal d_add d_change d_clone e_new e_add e_accuracy poisson shuffled choice seed rsqrt percent base n_estimators mode size drift warning unweighted no_drift no_background nominal).
Notation fit := (srp_fit b_fit b_predict b_proba b_reset b_new b_nominal d_add d_change d_clone e_new e_add poisson shuffled choice rsqrt percent base n_estimators mode size drift warning no_drift no_background nominal).
Notation predict := (srp_predict b_proba b_new d_clone e_new e_accuracy shuffled choice rsqrt percent base n_estimators mode size drift warning unweighted nominal).
Notation member_row := (smember_row b_fit b_predict b_proba b_reset b_new b_nominal d_add d_change d_clone e_new e_add poisson choice no_drift no_background nominal).
Notation new := (srp_new (B := B) (D := D) (E := E) seed).
Notation sgrown := (sgrown (T := T) b_fit b_nominal nominal).
Notation subspace_k := (subspace_k rsqrt percent mode size).
(** [choice g n k] is a sample of [k] of the numbers below [n] without repetition; [shuffled g n] is a permutation of the numbers below [n]. *)
Hypothesis choice_fine : forall g n k, k <= n -> let l := fst (choice g n k) in length l = k /\ NoDup l /\ Forall (fun i => i < n) l.
Hypothesis shuffled_fine : forall g n, Permutation (fst (shuffled g n)) (seq 0 n).

(** *** C224: rows counted and rows learnt.  All instances have [n] features. *)
Lemma run_ok mt n fuel os s : Forall (op_width n) os -> run fuel (new mt) os = Ret s ->
  srp_ok b_fit b_predict b_proba b_reset b_new b_nominal d_add d_change d_clone e_new e_add poisson choice rsqrt percent base n_estimators mode size drift warning no_drift no_background nominal mt n (slessons [] os) s.
Proof.
  intros W H. refine (srp_run_ok b_fit b_predict b_proba b_reset b_new b_nominal d_add d_change d_clone e_new e_add e_accuracy poisson shuffled choice seed rsqrt percent base n_estimators mode size drift warning unweighted no_drift no_background nominal choice_fine shuffled_fine mt n fuel os [] _ _ _ W H). apply srp_new_ok.
Qed.
Theorem srp_rows_counted mt n fuel os s : Forall (op_width n) os -> run fuel (new mt) os = Ret s ->
  sr_seen s = length (slessons [] os) /\ match sr_members s with None => slessons [] os = [] | Some ms => length ms = n_estimators end.
Proof.
  intros W H. destruct (run_ok _ _ _ _ _ W H) as (A & B1 & C).
  split; auto. destruct (sr_members s); tauto.
Qed.

(** The rows of the ensemble with the numbers [ks] that a member is to learn them with; what a member starts with after [drifts] drifts: a new estimator *)
Notation fresh := (sfresh b_reset b_new base).
Notation life := (slife b_fit b_predict b_proba b_reset b_new b_nominal d_add d_change d_clone e_new e_add choice base drift warning no_drift no_background nominal).
(** A member's estimator had learnt nothing when it was made, and has learnt the rows since, each as often as drawn (once with random subspaces), reduced to the features of the member;
    these are all rows if the member has had no drift.  The estimator dates from the last drift (row [ld]) or before it.  It was told its nominal features, unless it was made at a drift. *)
Theorem srp_estimators mt n fuel os s ms i m : Forall (op_width n) os -> run fuel (new mt) os = Ret s -> sr_members s = Some ms -> nth_error ms i = Some m ->
  exists ks ld, length ks = length (slessons [] os) /\ Forall (fun k => match sr_method s with Subspaces => k = 1%Z | _ => exists g, k = fst (poisson g) end) ks /\
    let fs := feed 1 (slessons [] os) ks in
    ld <= length fs /\ (sm_drifts m = 0 <-> ld = 0) /\ (0 < sm_drifts m -> sm_created m <= ld) /\
    exists b told, fresh (sm_drifts m) b /\ sgrown (sm_feats m) told b (if Nat.eqb (sm_drifts m) 0 then fs else since (sm_created m) fs) (sm_base m) /\
      (told = Nat.ltb 0 (length nominal) \/ (told = false /\ 0 < sm_drifts m /\ sm_created m = ld)).
Proof.
  intros W H Em Hi. destruct (run_ok _ _ _ _ _ W H) as (A & B1 & C). rewrite Em in C. destruct C as [C1 C2]. destruct (C2 i m Hi) as (f0 & ks & ld & lw & D1 & D2 & D3 & D4).
  exists ks, ld. split; auto. split. { eapply Forall_impl; [|exact D3]. unfold drawn. intros k. destruct (sr_method s); auto. }
  cbv zeta. pose proof (slife_numbered _ _ _ _ _ _ _ _ _ _ _ _ _ _ _ _ _ _ _ _ _ _ _ D4) as NU. destruct (slife_ok _ _ _ _ _ _ _ _ _ _ _ _ _ _ _ _ _ _ _ _ _ _ _ D4) as (HT & HB & HN).
  destruct HN as (N1 & N2 & N3 & N4 & N5). unfold sorigin in N3. split; auto. split; auto. split; [destruct (Nat.eqb_spec (sm_drifts m) 0); lia|].
  destruct HT as (b & told & T1 & T2 & T3 & T4). exists b, told. split; auto. unfold sorigin in T2. split.
  - destruct (Nat.eqb (sm_drifts m) 0); auto. rewrite since_0 in T2 by exact NU. auto.
  - unfold can_tell in T4. intuition.
Qed.
(** A background estimator exists from a warning (row [lw]) to the next drift, and has learnt the rows since the warning on features of its own. *)
Theorem srp_background mt n fuel os s ms i m : Forall (op_width n) os -> run fuel (new mt) os = Ret s -> sr_members s = Some ms -> nth_error ms i = Some m ->
  exists ks ld lw, length ks = length (slessons [] os) /\ Forall (fun k => match sr_method s with Subspaces => k = 1%Z | _ => exists g, k = fst (poisson g) end) ks /\
    let fs := feed 1 (slessons [] os) ks in
    lw <= length fs /\ (sm_drifts m = 0 <-> ld = 0) /\ (sm_warns m = 0 <-> lw = 0) /\
    match sm_bg m with
    | None => lw <= ld
    | Some b => ld < lw /\ sb_created b = lw /\ no_background = false /\ exists b', sgrown (sb_feats b) (Nat.ltb 0 (length nominal)) (b_new b') (since lw fs) (sb_base b)
    end.
Proof.
  intros W H Em Hi. destruct (run_ok _ _ _ _ _ W H) as (A & B1 & C). rewrite Em in C. destruct C as [C1 C2]. destruct (C2 i m Hi) as (f0 & ks & ld & lw & D1 & D2 & D3 & D4).
  exists ks, ld, lw. split; auto. split. { eapply Forall_impl; [|exact D3]. unfold drawn. intros k. destruct (sr_method s); auto. }
  cbv zeta. destruct (slife_ok _ _ _ _ _ _ _ _ _ _ _ _ _ _ _ _ _ _ _ _ _ _ _ D4) as (HT & HB & HN).
  destruct HN as (N1 & N2 & N3 & N4 & N5). repeat (split; [tauto|]). unfold sbg_ok in HB. destruct (sm_bg m) as [b|]; auto. destruct HB as (Q1 & Q2 & Q3 & Q4 & Q5 & Q6). auto.
Qed.

(** *** C225: the evaluator of a member holds its answers before learning, since its last drift, each with the sample weight. *)
Theorem srp_evaluator mt n fuel os s ms i m : Forall (op_width n) os -> run fuel (new mt) os = Ret s -> sr_members s = Some ms -> nth_error ms i = Some m ->
  exists f0 ks ld lw ps, let fs := feed 1 (slessons [] os) ks in life f0 fs ld lw m /\ (sm_drifts m = 0 <-> ld = 0) /\ length ps = length fs /\
    (forall j f, nth_error fs j = Some f -> exists mj ldj lwj, life f0 (firstn j fs) ldj lwj mj /\ answer b_proba mj (r_x f) = Ok (Z.to_nat (nth j ps 0%Z)) /\ (0 <= nth j ps 0)%Z) /\
    judged (fun e p y w => e_add e y p w) e_new (filter (fun pf => Nat.ltb ld (r_n (snd pf))) (combine ps fs)) (sm_eval m).
Proof.
  intros W H Em Hi. destruct (run_ok _ _ _ _ _ W H) as (A & B1 & C). rewrite Em in C. destruct C as [C1 C2]. destruct (C2 i m Hi) as (f0 & ks & ld & lw & D1 & D2 & D3 & D4).
  destruct (slife_eval _ _ _ _ _ _ _ _ _ _ _ _ _ _ _ _ _ _ _ _ _ _ _ D4) as (ps & P1 & P2 & P3). destruct (slife_ok _ _ _ _ _ _ _ _ _ _ _ _ _ _ _ _ _ _ _ _ _ _ _ D4) as (_ & _ & HN).
  exists f0, ks, ld, lw, ps. cbv zeta. split; auto. split; [apply HN|]. auto.
Qed.
(** One row for one member: its answer before learning goes to the evaluator, with the sample weight; it learns the row as often as drawn, on its features; whether it then
    answers wrongly goes to both detectors.  There is a drift exactly when the drift detector reports a change, and a warning exactly when the warning detector does. *)
Theorem srp_detectors mt x y w cl seen m g m' g' : member_row mt x y w cl seen m g = Ok (m', g') -> exists k xs ps p e,
  match mt with Subspaces => k = 1%Z | _ => k = fst (poisson g) end /\ restricted (sm_feats m) x xs /\ b_proba (sm_base m) xs = Ok ps /\ np_argmax ps = Ok p /\ e_add (sm_eval m) y (Z.of_nat p) w = Ok e /\
  if (0 <? k)%Z && negb no_drift then
    exists b0 b q, (b0 = sm_base m \/ exists o, b0 = b_nominal (sm_base m) o) /\ b_fit b0 xs y cl k = Ok b /\ b_predict b xs = Ok q /\
     let wrong := negb (q =? y)%Z in
     let drifts := d_change (d_add (sm_drift m) wrong) in
     let warned := negb no_background && d_change (d_add (sm_warn m) wrong) in
     sm_drifts m' = (if drifts then S (sm_drifts m) else sm_drifts m) /\ sm_warns m' = (if warned then S (sm_warns m) else sm_warns m) /\
     sm_eval m' = (if drifts then e_new else e) /\ (drifts = true -> sm_bg m' = None) /\
     (drifts = false -> sm_base m' = b /\ sm_feats m' = sm_feats m /\ sm_drift m' = d_add (sm_drift m) wrong /\
        sm_warn m' = (if no_background then sm_warn m else if warned then d_clone (d_add (sm_warn m) wrong) else d_add (sm_warn m) wrong))
  else sm_drifts m' = sm_drifts m /\ sm_warns m' = sm_warns m /\ sm_eval m' = e /\ sm_feats m' = sm_feats m /\ sm_drift m' = sm_drift m /\ sm_warn m' = sm_warn m.
Proof.
  clear choice_fine shuffled_fine. intros H. destruct (smember_row_ok _ _ _ _ _ _ _ _ _ _ _ _ _ _ _ _ _ _ _ _ _ _ _ _ _ _ H) as (k & g1 & S1 & S2).
  destruct (srow_detects _ _ _ _ _ _ _ _ _ _ _ _ _ _ _ _ _ _ _ _ S1) as (p & e & A1 & A2 & A3). simpl in *. unfold answer in A1.
  destruct (subset (sm_feats m) x) as [xs|] eqn:EX; [|discriminate]. cbn [bind] in A1. destruct (b_proba (sm_base m) xs) as [ps|] eqn:EP; [|discriminate]. cbn [bind] in A1.
  exists k, xs, ps, p, e. split; [destruct mt; [tauto| |]; rewrite <- S2; reflexivity|]. split; [apply subset_ok; auto|]. repeat (split; [assumption|]).
  destruct ((0 <? k)%Z && negb no_drift); auto. destruct A3 as (b & t & xs' & q & F1 & F2 & F3 & F4). injection F2 as <-. unfold base_fit in F1. rewrite EX in F1. cbn [bind] in F1.
  match type of F1 with bind (b_fit ?a _ _ _ _) _ = _ => destruct (b_fit a xs y cl k) as [b'|] eqn:EB; [|discriminate]; exists a end. cbn [bind] in F1. injection F1 as <- <-. exists b', q.
  split; [destruct (sm_feats m); [destruct (sm_tell m)|]; eauto|]. auto.
Qed.

(** *** C226: the features of the members.  The size of the subspaces is [k]; every member and every background estimator has [k] features without repetition, or all features with resampling. *)
Theorem srp_features mt n fuel os s ms i m : Forall (op_width n) os -> run fuel (new mt) os = Ret s -> sr_members s = Some ms -> nth_error ms i = Some m ->
  let fine fe := match fe with
    | None => sr_method s = Resampling
    | Some l => sr_method s <> Resampling /\ NoDup l /\ Forall (fun f => f < n) l /\
        (let k := subspace_k n in k <> 0 /\ k < Z.of_nat n /\ Z.of_nat (length l) = if (k =? 1) && Nat.ltb 2 n then 2 else Z.max 0 k)%Z
    end in
  fine (sm_feats m) /\ forall b, sm_bg m = Some b -> fine (sb_feats b).
Proof.
  intros W H Em Hi. destruct (run_ok _ _ _ _ _ W H) as (A & B1 & C). rewrite Em in C. destruct C as [C1 C2]. destruct (C2 i m Hi) as (f0 & ks & ld & lw & D1 & D2 & D3 & D4).
  assert (FW : Forall (fun f => length (r_x f) = n) (feed 1 (slessons [] os) ks)).
  { clear - W. assert (AA : forall os (L : list (list V * Z * T * option (list Z))), Forall (op_width n) os -> Forall (fun l => length (fst (fst (fst l))) = n) L -> Forall (fun l => length (fst (fst (fst l))) = n) (slessons L os)).
    { clear. induction os as [|[rows cl|q xs|] os IH]; intros L W F; inversion W; subst; simpl; auto. apply IH; auto. apply Forall_app. split; auto. unfold slessons1. apply Forall_map. auto. }
    specialize (AA os [] W ltac:(constructor)). generalize (slessons [] os) AA. clear. intros L F. generalize 1. revert ks. induction F as [|[[[x y] w] cl] L Hx F IH]; intros ks k; simpl; constructor; auto. }
  intros fine. unfold starts, used_k in D1. destruct f0 as [l0|].
  - destruct D1 as (D5 & k & D6 & D7). destruct (slife_feats _ _ _ _ _ _ _ _ _ _ _ _ _ _ _ _ _ _ (Some k) n _ _ _ _ _ choice_fine D7 D4 FW) as [F1 F2].
    assert (AA : forall fe, feats_ok (Some k) n fe -> fine fe).
    { intros [l|]; unfold feats_ok, fine; [|tauto]. intros (L1 & L2 & L3). repeat split; auto; destruct (Z.eqb_spec (subspace_k n) 0); simpl in D6; try discriminate; destruct (Z.leb_spec (Z.of_nat n) (subspace_k n)); try discriminate; auto.
      injection D6 as <-. rewrite L1. destruct (_ && _); lia. }
    split; auto.
  - destruct (slife_feats _ _ _ _ _ _ _ _ _ _ _ _ _ _ _ _ _ _ None n _ _ _ _ _ choice_fine (I : feats_ok None n None) D4 FW) as [F1 F2].
    assert (AA : forall fe, feats_ok None n fe -> fine fe) by (intros [l|]; unfold feats_ok, fine; tauto). split; auto.
Qed.

(** The subspaces made for at most 20 features: no two members start with the same features. *)
Theorem srp_subspaces_distinct mt fuel n xs l s : mt <> Resampling -> n <= 20 -> predict fuel n xs (new mt) = Ret (l, s) ->
  l = repeat 0 (length xs) /\ exists ms, sr_members s = Some ms /\ length ms = n_estimators /\
  (sr_method s = Resampling \/ (NoDup (map sm_feats ms) /\ exists k, forall m, In m ms -> exists fe, sm_feats m = Some fe /\ k_subset k n fe)).
Proof.
  clear choice_fine. intros NR NL H. unfold srp_predict, srp_init in H. simpl sr_members in H. cbv iota in H.
  destruct (init_members b_new d_clone e_new shuffled choice rsqrt percent base n_estimators mode size drift warning nominal fuel n (new mt)) as [[ms s1]| |] eqn:EI; try discriminate. injection H as <- <-. split; auto. exists ms.
  assert (AA : match make_subspaces choice rsqrt percent n_estimators mode size fuel n seed with
      | Ret (Some subs, g) => let (perm, g') := shuffled g n_estimators in let ms := map (fun i => new_smember b_new d_clone e_new base drift warning nominal 0 (Some (nth i subs []))) perm in Ret (ms, mk_srp (Some ms) 0 mt g')
      | Ret (None, g) => let ms := repeat (new_smember b_new d_clone e_new base drift warning nominal 0 None) n_estimators in Ret (ms, mk_srp (Some ms) 0 Resampling g)
      | Exc e => Exc e | Loop => Loop end = Ret (ms, s1)) by (destruct mt; auto; congruence). clear EI.
  unfold make_subspaces in AA. cbv zeta in AA. set (k := subspace_k n) in AA. destruct (negb (k =? 0)%Z && (k <? Z.of_nat n)%Z) eqn:EK.
  - apply Nat.leb_le in NL. rewrite NL in AA. simpl in AA. destruct (Z.ltb_spec k 0); [discriminate|]. set (k2 := if (k =? 1)%Z && Nat.ltb 2 n then 2%Z else k) in AA.
    destruct (widen fuel 0 (combs (Z.to_nat k2) 0 n) n_estimators) as [subs| |] eqn:EW; try discriminate. apply widen_ret in EW. destruct EW as [-> LE].
    pose proof (shuffled_fine seed n_estimators) as SF. destruct (shuffled seed n_estimators) as [perm g']. simpl in SF. injection AA as <- <-. simpl. rewrite map_length, (Permutation_length SF), seq_length. split; auto. split; auto. right. rewrite map_map. simpl.
    split.
    + apply (Permutation_NoDup (l := map (fun i => Some (nth i (combs (Z.to_nat k2) 0 n) [])) (seq 0 n_estimators))); [apply Permutation_map, Permutation_sym; auto|].
      assert (ND : NoDup (combs (Z.to_nat k2) 0 n)) by (apply (combs_nodup _ (n - 0)); auto).
      apply NoDup_nth_error. intros a b La Eab. rewrite map_length, seq_length in La. rewrite nth_error_map in Eab. rewrite nth_error_map in Eab.
      rewrite (nth_error_nth' _ 0) in Eab by (rewrite seq_length; auto). rewrite seq_nth in Eab by auto. simpl in Eab.
      destruct (nth_error (seq 0 n_estimators) b) as [b'|] eqn:Eb; [|discriminate]. simpl in Eab. assert (Lb : b < n_estimators) by (rewrite <- (seq_length n_estimators 0); apply nth_error_Some; congruence).
      rewrite (nth_error_nth' _ 0) in Eb by (rewrite seq_length; auto). rewrite seq_nth in Eb by auto. injection Eb as <-. injection Eab as Eab. simpl in Eab. apply (NoDup_nth (combs (Z.to_nat k2) 0 n) []) in Eab; auto; lia.
    + exists (Z.to_nat k2). intros m Hm. apply in_map_iff in Hm. destruct Hm as (i & <- & Hi). simpl. eexists. split; [reflexivity|]. apply (Permutation_in i SF) in Hi. apply in_seq in Hi.
      assert (Hin : In (nth i (combs (Z.to_nat k2) 0 n) []) (combs (Z.to_nat k2) 0 n)) by (apply nth_In; lia). apply (combs_in _ (n - 0)) in Hin; auto. destruct Hin as (L1 & L2 & L3). split; auto. split; auto. eapply Forall_impl; [|exact L3]. simpl; lia.
  - injection AA as <- <-. simpl. rewrite repeat_length. auto.
Qed.
(** All combinations are made, each once. *)
Theorem srp_all_combinations k n : NoDup (combs k 0 n) /\ length (combs k 0 n) = binom n k /\ forall l, In l (combs k 0 n) <-> k_subset k n l.
Proof.
  clear. split; [apply (combs_nodup _ (n - 0)); auto|]. split; [apply combs_len; lia|]. intros l. rewrite (combs_in k (n - 0)) by auto. unfold subset_from, k_subset. split; intros (A & B1 & C); repeat split; auto; (eapply Forall_impl; [|exact C]); simpl; lia.
Qed.
(** REFUTED: the first call returns.  With at most 20 features and fewer subspaces than members, neither training nor prediction ever returns. *)
Theorem srp_endless_refuted (s : srp) n k fuel : sr_members s = None -> sr_method s <> Resampling -> subspace_k n = Z.of_nat k -> 2 <= k -> k < n -> n <= 20 -> binom n k < n_estimators ->
  (forall xs, predict fuel n xs s = Loop) /\ forall x y w rows cl, length x = n -> fit fuel ((x, y, w) :: rows) cl s = Loop.
Proof.
  clear choice_fine shuffled_fine. intros EM NR EK K2 KN NL BN.
  assert (AA : forall g, make_subspaces choice rsqrt percent n_estimators mode size fuel n g = Loop).
  { intros g. unfold make_subspaces. cbv zeta. rewrite EK. destruct (Z.eqb_spec (Z.of_nat k) 0); [lia|]. destruct (Z.ltb_spec (Z.of_nat k) (Z.of_nat n)); [|lia]. simpl. apply Nat.leb_le in NL. rewrite NL. simpl. destruct (Z.ltb_spec (Z.of_nat k) 0); [lia|].
    destruct (Z.eqb_spec (Z.of_nat k) 1); [lia|]. simpl. rewrite Nat2Z.id, widen_loops; auto. rewrite (combs_len k n) by lia. auto. }
  split.
  - intros xs. unfold srp_predict, srp_init. rewrite EM. unfold init_members. destruct (sr_method s); [rewrite AA| congruence|rewrite AA]; auto.
  - intros x y w rows cl <-. simpl. unfold srp_init. simpl. rewrite EM. unfold init_members. simpl. destruct (sr_method s); [rewrite AA| congruence|rewrite AA]; auto.
Qed.
(** The defaults (60 percent of the features, 100 members): from 3 to 8 features nothing ever returns. *)
Theorem srp_default_endless_refuted (s : srp) n fuel : mode = ModePercent -> size = 60%Z -> n_estimators = 100 -> (forall n, 2 * Z.abs (100 * percent 60 n - 60 * Z.of_nat n) <= 100)%Z ->
  sr_members s = None -> sr_method s <> Resampling -> 3 <= n <= 8 ->
  (forall xs, predict fuel n xs s = Loop) /\ forall x y w rows cl, length x = n -> fit fuel ((x, y, w) :: rows) cl s = Loop.
Proof.
  clear choice_fine shuffled_fine. intros -> -> -> HP EM NR Hn. specialize (HP n). 
  assert (C : exists k, (RandomPatches.subspace_k rsqrt percent ModePercent 60 n = Z.of_nat k) /\ 2 <= k /\ k < n /\ binom n k < 100).
  { unfold RandomPatches.subspace_k. assert (Hc : n = 3 \/ n = 4 \/ n = 5 \/ n = 6 \/ n = 7 \/ n = 8) by lia.
    destruct Hc as [->|[->|[->|[->|[->| ->]]]]]; [exists 2|exists 2|exists 3|exists 4|exists 4|exists 5]; cbv zeta.
    1: replace (percent 60 3) with 2%Z by lia. 2: replace (percent 60 4) with 2%Z by lia. 3: replace (percent 60 5) with 3%Z by lia. 4: replace (percent 60 6) with 4%Z by lia. 5: replace (percent 60 7) with 4%Z by lia. 6: replace (percent 60 8) with 5%Z by lia.
    all: (split; [reflexivity|]); (split; [lia|]); (split; [lia|]); apply Nat.ltb_lt; reflexivity. }
  destruct C as (k & C1 & C2 & C3 & C4). 
  assert (AA : forall g, make_subspaces choice rsqrt percent 100 ModePercent 60 fuel n g = Loop).
  { intros g. unfold make_subspaces. cbv zeta. rewrite C1. destruct (Z.eqb_spec (Z.of_nat k) 0); [lia|]. destruct (Z.ltb_spec (Z.of_nat k) (Z.of_nat n)); [|lia]. simpl. destruct (Nat.leb_spec n 20); [|lia]. simpl. destruct (Z.ltb_spec (Z.of_nat k) 0); [lia|].
    destruct (Z.eqb_spec (Z.of_nat k) 1); [lia|]. simpl. rewrite Nat2Z.id, widen_loops; auto. rewrite (combs_len k n) by lia. auto. }
  split.
  - intros xs. unfold srp_predict, srp_init. rewrite EM. unfold init_members. destruct (sr_method s); [rewrite AA| congruence|rewrite AA]; auto.
  - intros x y w rows cl <-. cbn [srp_fit]. unfold srp_row, srp_init. cbn [sr_members sr_seen sr_method sr_rng]. rewrite EM. unfold init_members. cbn [sr_members sr_seen sr_method sr_rng]. destruct (sr_method s); [rewrite AA| congruence|rewrite AA]; auto.
Qed.
(** REFUTED: the subspaces are random.  With at most 20 features they are the first combinations in lexicographic order: if there are enough of them with the features 0 to j-1, every member has these. *)
Theorem srp_first_features_refuted mt fuel n k j xs l s ms m fe f : n <= 20 -> subspace_k n = Z.of_nat k -> 2 <= k -> j <= k -> n_estimators <= binom (n - j) (k - j) ->
  predict fuel n xs (new mt) = Ret (l, s) -> sr_members s = Some ms -> In m ms -> sm_feats m = Some fe -> f < j -> In f fe.
Proof.
  clear choice_fine. intros NL EK K2 JK NB H Em Hm Hfe Hf. unfold srp_predict, srp_init in H. simpl sr_members in H. cbv iota in H.
  destruct (init_members b_new d_clone e_new shuffled choice rsqrt percent base n_estimators mode size drift warning nominal fuel n (new mt)) as [[ms1 s1]| |] eqn:EI; try discriminate. injection H as <- <-.
  assert (RP : forall r, Ret (repeat (new_smember b_new d_clone e_new base drift warning nominal 0 None) n_estimators, mk_srp (Some (repeat (new_smember b_new d_clone e_new base drift warning nominal 0 None) n_estimators)) 0 Resampling r) = Ret (ms1, s1) -> False).
  { intros r Hr. injection Hr as <- <-. simpl in Em. injection Em as <-. apply repeat_spec in Hm. subst m. discriminate. }
  assert (AA : match make_subspaces choice rsqrt percent n_estimators mode size fuel n seed with
      | Ret (Some subs, g) => let (perm, g') := shuffled g n_estimators in let ms := map (fun i => new_smember b_new d_clone e_new base drift warning nominal 0 (Some (nth i subs []))) perm in Ret (ms, mk_srp (Some ms) 0 mt g')
      | Ret (None, g) => let ms := repeat (new_smember b_new d_clone e_new base drift warning nominal 0 None) n_estimators in Ret (ms, mk_srp (Some ms) 0 Resampling g)
      | Exc e => Exc e | Loop => Loop end = Ret (ms1, s1)) by (unfold init_members in EI; simpl in EI; destruct mt; auto; exfalso; eapply RP; exact EI). clear EI.
  unfold make_subspaces in AA. cbv zeta in AA. rewrite EK in AA. destruct (Z.eqb_spec (Z.of_nat k) 0); [lia|]. destruct (Z.ltb_spec (Z.of_nat k) (Z.of_nat n)); simpl in AA; [|exfalso; eapply RP; exact AA].
  apply Nat.leb_le in NL. rewrite NL in AA. simpl in AA. destruct (Z.ltb_spec (Z.of_nat k) 0); [lia|]. destruct (Z.eqb_spec (Z.of_nat k) 1); [lia|]. simpl in AA. rewrite Nat2Z.id in AA.
  destruct (widen fuel 0 (combs k 0 n) n_estimators) as [subs| |] eqn:EW; try discriminate. apply widen_ret in EW. destruct EW as [-> LE].
  pose proof (shuffled_fine seed n_estimators) as SF. destruct (shuffled seed n_estimators) as [perm g']. simpl in SF. injection AA as <- <-. simpl in Em. injection Em as <-.
  apply in_map_iff in Hm. destruct Hm as (i & <- & Hi). simpl in Hfe. injection Hfe as <-. apply (Permutation_in i SF) in Hi. apply in_seq in Hi. apply (combs_first j); auto; lia.
Qed.
(** A size below minus the number of features: RecursionError (a RuntimeError). *)
Theorem srp_negative_size (s : srp) n fuel xs : sr_members s = None -> sr_method s <> Resampling -> (subspace_k n < 0)%Z -> predict fuel n xs s = Exc RuntimeError.
Proof.
  clear choice_fine shuffled_fine. intros EM NR HK.
  assert (AA : forall g, make_subspaces choice rsqrt percent n_estimators mode size fuel n g = Exc RuntimeError).
  { intros g. unfold make_subspaces. cbv zeta. destruct (Z.eqb_spec (subspace_k n) 0); [lia|]. destruct (Z.ltb_spec (subspace_k n) (Z.of_nat n)); [|lia]. simpl. destruct (Z.ltb_spec (subspace_k n) 2); [|lia]. rewrite orb_true_r. destruct (Z.ltb_spec (subspace_k n) 0); [|lia]. auto. }
  unfold srp_predict, srp_init. rewrite EM. unfold init_members. destruct (sr_method s); [rewrite AA| congruence|rewrite AA]; auto.
Qed.

(** *** C227, REFUTED: the training method is the one asked for.  If the subspaces were to have no features, or all, the ensemble changes its parameter to resampling, and reset does not change it back:
    every later ensemble uses all features, whatever their number. *)
Theorem srp_method_refuted mt n xs fuel s os s' ms m n2 : (subspace_k n = 0 \/ Z.of_nat n <= subspace_k n)%Z -> run fuel (new mt) [SAsk n xs; SAgain] = Ret s -> Forall (op_width n2) os -> run fuel s os = Ret s' ->
  sr_method s = Resampling /\ sr_method s' = Resampling /\ (sr_members s' = Some ms -> In m ms -> sm_feats m = None).
Proof.
  intros HK H W H'. assert (UK : used_k rsqrt percent mode size n = None) by (unfold used_k; destruct HK as [->|HK]; auto; apply Z.leb_le in HK; rewrite HK, orb_true_r; auto).
  assert (SM : sr_method s = Resampling /\ sr_members s = None /\ sr_seen s = 0).
  { simpl in H. destruct (predict fuel n xs (new mt)) as [[l s1]| |] eqn:EP; try discriminate. injection H as <-. simpl. split; auto. unfold srp_predict, srp_init in EP. simpl sr_members in EP. cbv iota in EP.
    destruct (init_members b_new d_clone e_new shuffled choice rsqrt percent base n_estimators mode size drift warning nominal fuel n (new mt)) as [[ms1 s2]| |] eqn:EI; try discriminate. injection EP as <- <-.
    destruct (init_members_ok _ _ _ _ _ _ _ _ _ _ _ _ _ _ choice_fine shuffled_fine _ _ _ _ _ EI) as (A1 & A2 & A3 & A4 & A5). destruct A4 as [A4|[A4 _]]; auto. rewrite A4. simpl. destruct mt; auto.
    - unfold init_members in EI. simpl in EI. unfold make_subspaces in EI. cbv zeta in EI. destruct (Z.eqb_spec (subspace_k n) 0); [simpl in EI; injection EI as <- <-; simpl in A4; congruence|]. destruct (Z.ltb_spec (subspace_k n) (Z.of_nat n)); [lia|simpl in EI; injection EI as <- <-; simpl in A4; congruence].
    - unfold init_members in EI. simpl in EI. unfold make_subspaces in EI. cbv zeta in EI. destruct (Z.eqb_spec (subspace_k n) 0); [simpl in EI; injection EI as <- <-; simpl in A4; congruence|]. destruct (Z.ltb_spec (subspace_k n) (Z.of_nat n)); [lia|simpl in EI; injection EI as <- <-; simpl in A4; congruence]. }
  destruct SM as (M1 & M2 & M3). split; auto.
  assert (OK0 : srp_ok b_fit b_predict b_proba b_reset b_new b_nominal d_add d_change d_clone e_new e_add poisson choice rsqrt percent base n_estimators mode size drift warning no_drift no_background nominal Resampling n2 [] s).
  { unfold srp_ok. rewrite M2, M1, M3. repeat split. left. auto. }
  pose proof (srp_run_ok b_fit b_predict b_proba b_reset b_new b_nominal d_add d_change d_clone e_new e_add e_accuracy poisson shuffled choice seed rsqrt percent base n_estimators mode size drift warning unweighted no_drift no_background nominal choice_fine shuffled_fine Resampling n2 fuel os [] _ _ OK0 W H') as (A & B1 & C).
  assert (MR : sr_method s' = Resampling) by (destruct B1 as [->|[-> _]]; auto). split; auto. intros Em Hm. rewrite Em in C. destruct C as [C1 C2]. apply In_nth_error in Hm. destruct Hm as [i Hi]. destruct (C2 i m Hi) as (f0 & ks & ld & lw & D1 & D2 & D3 & D4).
  unfold starts in D1. destruct f0 as [l0|]; [tauto|].
  assert (FW : forall fs ld lw m, life None fs ld lw m -> sm_feats m = None /\ (forall b, sm_bg m = Some b -> sb_feats b = None)).
  { clear - b_fit. intros fs ld lw m. induction 1 as [n0|fs ld lw m f g m' g' HL IH Hn HR]; [simpl; split; auto; discriminate|]. destruct IH as [I1 I2].
    unfold srow in HR. destruct (answer b_proba m (r_x f)) as [p|]; simpl in HR; [|discriminate]. destruct (e_add _ _ _ _) as [e|]; simpl in HR; [|discriminate].
    destruct (0 <? r_k f)%Z; [|injection HR as <- <-; simpl; auto]. unfold smember_fit in HR. simpl in HR. rewrite I1 in HR. simpl in HR.
    destruct (base_fit b_fit b_nominal nominal (sm_base m) None (sm_tell m) (r_x f) (r_y f) (r_cl f) (r_k f)) as [[b t]|]; simpl in HR; [|discriminate]. destruct (b_predict b (r_x f)) as [q|]; simpl in HR; [|discriminate].
    match type of HR with bind ?a _ = _ => destruct a as [bg|] eqn:EBG; simpl in HR; [|discriminate] end.
    assert (I3 : forall b, bg = Some b -> sb_feats b = None).
    { intros b2 ->. destruct (sm_bg m) as [b1|]; [|discriminate]. destruct (base_fit _ _ _ (sb_base b1) _ _ _ _ _ _) as [[b3 t3]|]; simpl in EBG; [|discriminate]. destruct (subset (sb_feats b1) (r_x f)); simpl in EBG; [|discriminate].
      destruct (b_predict b3 _); simpl in EBG; [|discriminate]. injection EBG as <-. simpl. auto. }
    clear EBG I2. destruct no_drift; [injection HR as <- <-; simpl; auto|].
    match type of HR with bind ?a _ = _ => destruct a as [[m2 g2]|] eqn:EW; simpl in HR; [|discriminate] end.
    assert (F4 : sm_feats m2 = None /\ (forall b, sm_bg m2 = Some b -> sb_feats b = None)).
    { unfold check_swarning in EW. destruct no_background; [injection EW as <- <-; simpl; auto|]. destruct (d_change _); simpl in EW; injection EW as <- <-; simpl; split; auto. intros b2 Hb. injection Hb as <-. auto. }
    destruct F4 as [F4 F5]. unfold check_sdrift in HR. destruct (d_change _); [|injection HR as <- <-; simpl; auto]. destruct (sm_bg m2) as [b1|].
    - destruct no_background; [discriminate|]. injection HR as <- <-. simpl. split; [auto|discriminate].
    - rewrite F4 in HR. simpl in HR. injection HR as <- <-. simpl. split; [auto|discriminate]. }
  apply (FW _ _ _ _ D4).
Qed.

(** *** C229, REFUTED: sample weights.  They are given only to the evaluators: two ensembles trained on the same rows with different weights, zeros among them, have the same estimators,
    features, detectors, drifts and background estimators. *)
Theorem srp_weights_refuted fuel cl rows rows' s r r' : map fst rows = map fst rows' -> fit fuel rows cl s = Ret r -> fit fuel rows' cl s = Ret r' ->
  sr_seen r = sr_seen r' /\ sr_method r = sr_method r' /\ sr_rng r = sr_rng r' /\
  forall ms ms' i m m', sr_members r = Some ms -> sr_members r' = Some ms' -> nth_error ms i = Some m -> nth_error ms' i = Some m' ->
    sm_base m = sm_base m' /\ sm_feats m = sm_feats m' /\ sm_drift m = sm_drift m' /\ sm_warn m = sm_warn m' /\ sm_bg m = sm_bg m' /\ sm_created m = sm_created m' /\ sm_drifts m = sm_drifts m' /\ sm_warns m = sm_warns m'.
Proof.
  clear choice_fine shuffled_fine. intros EM H H'. destruct (srp_fit_same _ _ _ _ _ _ _ _ _ _ _ _ _ _ _ _ _ _ _ _ _ _ _ _ _ _ _ _ _ _ _ _ _ (same_srp_refl s) EM H H') as (S1 & S2 & S3 & S4). repeat (split; [assumption|]).
  intros ms ms' i m m' E1 E2 I1 I2. rewrite E1, E2 in S4. clear - S4 I1 I2. revert i I1 I2. induction S4 as [|a b ms ms' AB F IH]; intros [|i] I1 I2; simpl in *; try discriminate; eauto. injection I1 as <-. injection I2 as <-. unfold same_but_eval in AB. tauto.
Qed.

(** *** C230: answers.  Before any training predict returns zeros (see srp_subspaces_distinct for the ensemble it makes). *)
Theorem srp_answers_untrained mt fuel n xs l s : predict fuel n xs (new mt) = Ret (l, s) -> l = repeat 0 (length xs) /\ sr_seen s = 0.
Proof.
  intros H. unfold srp_predict, srp_init in H. simpl sr_members in H. cbv iota in H.
  destruct (init_members b_new d_clone e_new shuffled choice rsqrt percent base n_estimators mode size drift warning nominal fuel n (new mt)) as [[ms s1]| |] eqn:EI; try discriminate. injection H as <- <-. split; auto.
  destruct (init_members_ok _ _ _ _ _ _ _ _ _ _ _ _ _ _ choice_fine shuffled_fine _ _ _ _ _ EI) as (A1 & A2 & A3 & A4 & A5). auto.
Qed.
End Props.

(** *** C230, over the reals: the votes.  Each member divides its weight among the classes as it divides its probabilities; the weight is its accuracy, or 1 if the vote is unweighted or the accuracy is not positive.
    The numbers returned add up to the weights, and the answer is the least class with most votes. *)
Lemma voices_sum unweighted (b : list R * R) len : (forall p, In p (fst b) -> 0 <= p)%R -> ((0 < Rsum (fst b))%R -> length (fst b) <= len) -> Rsum (map (fun c => svoice unweighted b c) (seq 0 len)) = sweight unweighted b.
Proof.
  intros NN HL. unfold svoice. assert (A : forall w l, Rsum (map (fun c => w * (nth c (fst b) 0 / Rsum (fst b)))%R l) = (w * (Rsum (map (fun c => nth c (fst b) 0%R) l) / Rsum (fst b)))%R).
  { clear. intros w l. induction l as [|a l IH]; simpl; [unfold Rdiv; ring|]. rewrite IH. unfold Rdiv. ring. }
  rewrite A. unfold sweight. destruct (Rlt_dec 0 (Rsum (fst b))) as [P|P]; [|ring]. specialize (HL P). replace len with (length (fst b) + (len - length (fst b))) by lia. rewrite seq_app, map_app, Rsum_app, <- (Rsum_map_nth (fst b)).
  assert (Z : forall k o, length (fst b) <= o -> Rsum (map (fun c => nth c (fst b) 0%R) (seq o k)) = 0%R). { clear. induction k as [|k IH]; intros o Ho; simpl; auto. rewrite nth_overflow by auto. rewrite IH by lia. ring. }
  rewrite Z by (simpl; auto). rewrite Rplus_0_r. unfold Rdiv. rewrite Rinv_r by lra. ring.
Qed.
Lemma max_le l : forall a, a <= fold_left Nat.max l a /\ forall x, In x l -> x <= fold_left Nat.max l a.
Proof. induction l as [|y l IH]; intros a; simpl; [split; [auto|tauto]|]. destruct (IH (Nat.max a y)) as [I1 I2]. split; [lia|]. intros x [<-|I]; [lia|auto]. Qed.
Theorem srp_votes {V B D E : Type} (b_proba : B -> list V -> res (list R)) (e_accuracy : E -> res R) unweighted (x : list V) (ms : list (smember B D E)) bs : Forall2 (sballot b_proba e_accuracy x) ms bs ->
  exists v c, svotes b_proba e_accuracy unweighted x ms [0%R] = Ok v /\ (forall c, nth c v 0%R = Rsum (map (fun b => svoice unweighted b c) bs)) /\ Rsum v = Rsum (map (sweight unweighted) bs) /\
    np_argmax v = Ok c /\ (forall j, j < length v -> (nth j v 0 <= nth c v 0)%R) /\ (forall j, j < c -> (nth j v 0 < nth c v 0)%R).
Proof.
  intros F. destruct (svotes_ok b_proba e_accuracy unweighted x ms bs [0%R] F) as (v & V1 & V2 & V3). simpl length in V3.
  assert (VN : v <> []). { intros ->. simpl in V3. match type of V3 with _ = fold_left Nat.max ?l 1 => pose proof (proj1 (max_le l 1)) end. lia. }
  destruct (np_argmax_ok v VN) as (c & A1 & A2 & A3 & A4). exists v, c. split; auto. assert (V2' : forall c, nth c v 0%R = Rsum (map (fun b => svoice unweighted b c) bs)). { intros d. rewrite V2. destruct d as [|[|d]]; simpl; ring. }
  split; auto. split; [|split; [auto|split; auto]].
  rewrite (Rsum_map_nth v). rewrite (map_ext _ _ V2'). clear V2 V2' A1 A2 A3 A4 V1 VN.
  assert (HL : forall b, In b bs -> (forall p, In p (fst b) -> 0 <= p)%R /\ ((0 < Rsum (fst b))%R -> length (fst b) <= length v)).
  { intros b Hb. split.
    - clear - F Hb. induction F as [|m b0 ms bs HB F IH]; [destruct Hb|]. destruct Hb as [->|Hb]; auto. destruct HB as (xs & _ & _ & P & _). auto.
    - intros P. rewrite V3. apply max_le. apply in_map_iff. exists b. split; auto. apply filter_In. split; auto. apply Rltb_true. auto. }
  clear V3 F. generalize dependent (length v). intros len HL. clear v. induction bs as [|b bs IH]; simpl.
  - induction (seq 0 len); simpl; auto. rewrite IHl. ring.
  - assert (A : forall l, Rsum (map (fun c => (svoice unweighted b c + Rsum (map (fun b => svoice unweighted b c) bs)))%R l) = (Rsum (map (fun c => svoice unweighted b c) l) + Rsum (map (fun c => Rsum (map (fun b => svoice unweighted b c) bs)) l))%R).
    { clear. induction l as [|a l IH]; simpl; [ring|]. rewrite IH. ring. }
    rewrite A, IH by (intros; apply HL; right; auto). rewrite voices_sum; auto; apply HL; left; auto.
Qed.
(** REFUTED: the numbers predict_proba returns are probabilities.  With members of accuracy 1 they add up to the number of members. *)
Theorem srp_probabilities_refuted {V B D E : Type} (b_proba : B -> list V -> res (list R)) (e_accuracy : E -> res R) (x : list V) (ms : list (smember B D E)) bs : Forall2 (sballot b_proba e_accuracy x) ms bs ->
  (forall b, In b bs -> 0 < Rsum (fst b) /\ snd b = 1)%R -> exists v, svotes b_proba e_accuracy false x ms [0%R] = Ok v /\ Rsum v = INR (length ms).
Proof.
  intros F H. destruct (srp_votes b_proba e_accuracy false x ms bs F) as (v & c & V1 & _ & V3 & _). exists v. split; auto. rewrite V3. assert (L : length bs = length ms) by (clear - F; induction F; simpl; auto). rewrite <- L. clear - H.
  induction bs as [|b bs IH]; [reflexivity|]. change (length (b :: bs)) with (S (length bs)). rewrite S_INR. simpl. rewrite IH by (intros; apply H; right; auto). destruct (H b) as [P A]; [left; auto|]. unfold sweight. rewrite A. destruct (Rlt_dec 0 (Rsum (fst b))); [|contradiction]. destruct (Rlt_dec 0 1); lra.
Qed.
(** REFUTED: more accurate members weigh more.  A member that was always wrong weighs 1, more than one that was wrong once. *)
Theorem srp_zero_accuracy_refuted ps a : (0 < Rsum ps)%R -> (0 < a < 1)%R -> (sweight false (ps, a) < sweight false (ps, 0%R))%R.
Proof. intros P A. unfold sweight. simpl. destruct (Rlt_dec 0 (Rsum ps)); [|contradiction]. destruct (Rlt_dec 0 a); [|lra]. destruct (Rlt_dec 0 0); lra. Qed.
(** REFUTED: predict takes several instances.  If the votes for two of them have different lengths, predict fails, although each alone would be answered. *)
Theorem srp_ragged_refuted {V T B D E G} {N : Num T} b_proba b_new d_clone e_new e_accuracy shuffled choice rsqrt percent (base : B) n_est mode size (drift warning : D) unweighted nominal (s : srp B D E G) ms fuel n (x x' : list V) (v v' : list T) :
  sr_members s = Some ms -> svotes b_proba e_accuracy unweighted x ms [n0] = Ok v -> svotes b_proba e_accuracy unweighted x' ms [n0] = Ok v' -> length v <> length v' ->
  srp_predict b_proba b_new d_clone e_new e_accuracy shuffled choice rsqrt percent base n_est mode size drift warning unweighted nominal fuel n [x; x'] s = Exc AxisError.
Proof.
  intros EM E1 E2 NE. unfold srp_predict, srp_proba. rewrite EM. simpl. rewrite E1. simpl. rewrite E2. simpl. destruct (Nat.eqb_spec (length v') (length v)); [congruence|]. reflexivity.
Qed.

(** *** An ensemble for the examples: an estimator remembers the rows it learnt (last first) and what it was told about nominal features, and answers the label it last learnt more than once (0 at first), with as many
    probabilities as needed; detectors count errors and report at a given count; the draws are given.  Samples are the last numbers, shuffles the reversal. *)
Definition toy_est : Type := list (list Z * Z * Z) * list (option (list nat)).
Definition toy_label (b : toy_est) : Z := match find (fun r => (2 <=? snd r)%Z) (fst b) with None => 0%Z | Some (_, y, _) => y end.
Definition toy_draw (g : list Z) : Z * list Z := match g with [] => (1%Z, []) | k :: g => (k, g) end.
Definition toy_choice (g : list Z) (n k : nat) : list nat * list Z := (seq (n - k) k, g).
Definition toy_shuffled (g : list Z) (n : nat) : list nat * list Z := (rev (seq 0 n), g).
Definition toy n_est mode size nominal mt seed (drift warning : nat * nat) fuel (os : list (srp_op Z Q)) := srp_run (T := Q) (B := toy_est) (D := nat * nat)
  (fun b xs y _ k => Ok ((xs, y, k) :: fst b, snd b)) (fun b _ => Ok (toy_label b)) (fun b _ => Ok (repeat 0%Q (Z.to_nat (toy_label b)) ++ [1%Q])) (fun _ => ([], [])) (fun _ => ([], [])) (fun b o => (fst b, o :: snd b))
  (fun d (wrong : bool) => (fst d, if wrong then S (snd d) else snd d)) (fun d => Nat.leb (fst d) (snd d)) (fun d => (fst d, 0))
  (cpe_new 2) cpe_add cpe_accuracy toy_draw toy_shuffled toy_choice seed (fun n => Z.of_nat (Nat.sqrt n)) (fun k n => ((k * Z.of_nat n + 50) / 100)%Z)
  ([], []) n_est mode size drift warning false false false nominal fuel (srp_new seed mt) os.
Lemma toy_choice_fine : forall g n k, k <= n -> let l := fst (toy_choice g n k) in length l = k /\ NoDup l /\ Forall (fun i => i < n) l.
Proof. intros g n k H. simpl. rewrite seq_length. split; auto. split; [apply seq_NoDup|]. apply Forall_forall. intros i I. apply in_seq in I. lia. Qed.
Lemma toy_shuffled_fine : forall g n, Permutation (fst (toy_shuffled g n)) (seq 0 n).
Proof. intros g n. simpl. apply Permutation_sym, Permutation_rev. Qed.
Definition story (m : smember toy_est (nat * nat) (cpe Q)) := (sm_base m, sm_feats m, sm_created m, (sm_drifts m, sm_warns m), option_map (fun b => (sb_base b, sb_feats b, sb_created b)) (sm_bg m)).
Definition told (o : out (srp toy_est (nat * nat) (cpe Q) (list Z))) := match o with Ret s => Some (sr_seen s, sr_method s, option_map (map story) (sr_members s)) | _ => None end.
(** *** C228, REFUTED: every estimator knows which of its features are nominal.  Feature 2 is nominal.  The first estimator, with features 0 and 2, is told so (position 1); it is wrong at the first row, which is a warning and a drift at once: the
    estimator made there has the features 1 and 2, learns the second and third row, and is told nothing. *)
Theorem srp_nominal_refuted : told (toy 1 ModeM 2 [2] Subspaces [] (1, 0) (1, 0) 9 [SFit [([5; 6; 7]%Z, 1%Z, 1%Q); ([5; 6; 7]%Z, 0%Z, 1%Q); ([5; 6; 7]%Z, 0%Z, 1%Q)] None]) =
  Some (3, Subspaces, Some [(([([6; 7], 0, 1); ([6; 7], 0, 1)], [])%Z, Some [1; 2], 1, (1, 1), None)]).
Proof. vm_compute. reflexivity. Qed.
(** With resampling no estimator is ever told. *)
Theorem srp_nominal_resampling_refuted : told (toy 1 ModeM 2 [0; 1; 2] Resampling [3]%Z (9, 0) (9, 0) 9 [SFit [([5; 6; 7]%Z, 1%Z, 1%Q)] None]) = Some (1, Resampling, Some [(([([5; 6; 7], 1, 3)], [])%Z, None, 1, (0, 0), None)]).
Proof. vm_compute. reflexivity. Qed.
(** A run of random patches with two members.  The first has a warning at row 2 and a drift at row 4; its estimator is the background estimator, which has learnt the rows 3 to 7.  The second has a warning at row 6 and a drift at row 7. *)
Example srp_estimators_applies : told (toy 2 ModeM 2 [1] Patches [1; 1; 1; 0; 1; 1; 1; 2; 1; 0; 1; 1; 1; 1]%Z (3, 0) (2, 0) 9
    [SAsk 3 [[5; 6; 7]%Z]; SFit [([1; 6; 7]%Z, 1%Z, 1%Q); ([2; 6; 7]%Z, 1%Z, 1%Q); ([3; 6; 8]%Z, 0%Z, 1%Q)] None; SFit [([4; 6; 9]%Z, 1%Z, 1%Q); ([5; 6; 4]%Z, 0%Z, 1%Q); ([6; 6; 4]%Z, 0%Z, 1%Q); ([7; 6; 4]%Z, 0%Z, 1%Q)] None]) =
  Some (7, Patches, Some [(([([6; 4], 0, 1); ([6; 4], 0, 1); ([6; 4], 0, 1); ([6; 9], 1, 1); ([6; 8], 0, 1)]%Z, [Some [0]]), Some [1; 2], 2, (1, 1), None); (([([6; 4], 0, 1)]%Z, [Some [0]]), Some [1; 2], 6, (1, 1), None)]).
Proof. vm_compute. reflexivity. Qed.
Definition feats_made (o : out (srp toy_est (nat * nat) (cpe Q) (list Z))) := match o with Ret s => Some (sr_method s, option_map (map sm_feats) (sr_members s)) | _ => None end.
(** Subspaces of 2 of 4 features for five members; for seven members there is no answer. *)
Example srp_subspaces_applies : feats_made (toy 5 ModeM 2 [] Patches [] (9, 0) (9, 0) 9 [SAsk 4 []]) = Some (Patches, Some [Some [1; 3]; Some [1; 2]; Some [0; 3]; Some [0; 2]; Some [0; 1]]).
Proof. vm_compute. reflexivity. Qed.
Example srp_endless_applies : toy 7 ModeM 2 [] Patches [] (9, 0) (9, 0) 1000 [SAsk 4 []] = Loop.
Proof. vm_compute. reflexivity. Qed.
(** The default at 5 features, here with 20 members *)
Example srp_default_applies : toy 20 ModePercent 60 [] Patches [] (9, 0) (9, 0) 1000 [SFit [([1; 2; 3; 4; 5]%Z, 0%Z, 1%Q)] None] = Loop /\ (forall n, 2 * Z.abs (100 * ((60 * Z.of_nat n + 50) / 100) - 60 * Z.of_nat n) <= 100)%Z.
Proof. split; [vm_compute; reflexivity|]. intros n. Z.to_euclidean_division_equations. lia. Qed.
(** The default at 20 features: 12 of them, 100 members, and 165 combinations contain the first nine features. *)
Example srp_first_features_applies : Nat.leb 100 (binom (20 - 9) (12 - 9)) = true /\ ((60 * 20 + 50) / 100 = 12)%Z.
Proof. split; reflexivity. Qed.
(** 60 percent of 2 features are both; afterwards 10 features are all used by everyone. *)
Example srp_method_applies : feats_made (toy 2 ModePercent 60 [] Patches [] (9, 0) (9, 0) 9 [SAsk 2 []; SAgain; SAsk 10 []]) = Some (Resampling, Some [None; None]) /\
  feats_made (toy 2 ModePercent 60 [] Patches [] (9, 0) (9, 0) 9 [SAsk 10 []]) = Some (Patches, Some [Some [0; 1; 2; 3; 4; 6]; Some [0; 1; 2; 3; 4; 5]]).
Proof. split; vm_compute; reflexivity. Qed.
Example srp_negative_applies : toy 2 ModeM (-7) [] Patches [] (9, 0) (9, 0) 9 [SAsk 5 []] = Exc RuntimeError.
Proof. vm_compute. reflexivity. Qed.
(** Weights 0 train as well. *)
Example srp_weights_applies : told (toy 1 ModeM 2 [] Patches [2]%Z (9, 0) (9, 0) 9 [SFit [([5; 6; 7]%Z, 1%Z, 0%Q)] None]) = Some (1, Patches, Some [(([([5; 6], 1, 2)]%Z, []), Some [0; 1], 1, (0, 0), None)]).
Proof. vm_compute. reflexivity. Qed.
Example srp_votes_applies : let bs := [([1; 3], 1 / 2); ([0; 0; 2], 0); ([0; 0], 1)]%R in
  (Rsum (map (fun b => svoice false b 0) bs) = 1 / 8 /\ Rsum (map (fun b => svoice false b 2) bs) = 1 /\ Rsum (map (sweight false) bs) = 3 / 2)%R.
Proof.
  cbv zeta. unfold svoice, sweight. simpl. repeat match goal with |- context[Rlt_dec ?a ?b] => destruct (Rlt_dec a b); try lra end.
Qed.

Print Assumptions srp_rows_counted.
Print Assumptions srp_estimators.
Print Assumptions srp_background.
Print Assumptions srp_evaluator.
Print Assumptions srp_detectors.
Print Assumptions srp_features.
Print Assumptions srp_subspaces_distinct.
Print Assumptions srp_all_combinations.
Print Assumptions srp_endless_refuted.
Print Assumptions srp_default_endless_refuted.
Print Assumptions srp_first_features_refuted.
Print Assumptions srp_negative_size.
Print Assumptions srp_method_refuted.
Print Assumptions srp_weights_refuted.
Print Assumptions srp_answers_untrained.
Print Assumptions srp_votes.
Print Assumptions srp_probabilities_refuted.
Print Assumptions srp_zero_accuracy_refuted.
Print Assumptions srp_ragged_refuted.
Print Assumptions srp_nominal_refuted.
Print Assumptions srp_nominal_resampling_refuted.
