(** C219-C223: AdaptiveRandomForestRegressor. *)
From Coq Require Import List ZArith QArith Bool Lia Reals Lra.
From Verif Require Import Base.Py Base.Num Model.Adwin Model.Knn Model.AdaptiveForest Model.ForestRegressor
  Spec.Lists Spec.AdaptiveForestSpec Spec.ForestRegressorSpec Proofs.ListFacts Proofs.AdaptiveForestProofs Proofs.AdaptiveForestVotes Proofs.ForestRegressorProofs.
Import ListNotations.
Local Open Scope nat_scope.

Section Props.
Context {X T B D E G : Type} {N : Num T}.
Variables (t_init : Z -> Z -> B) (t_fit : B -> X -> T -> Z -> res B) (t_predict : B -> X -> res T) (t_reset t_new : B -> B)
  (d_add : D -> T -> D) (d_change : D -> bool) (d_reset : D -> D)
  (e_new : E) (e_add : E -> T -> T -> res E) (e_error : E -> res T)
  (poisson : G -> Z * G) (seeds : G -> nat -> list Z * G) (seed : G) (width : X -> nat) (rsqrt rlog2 : nat -> Z) (part : T -> nat -> Z)
  (n_estimators : nat) (drift warning : option D) (agg : aggregation) (by_error : bool) (crit : criterion).
Notation run := (arfr_run t_init t_fit t_predict t_reset t_new d_add d_change d_reset e_new e_add e_error poisson seeds seed width rsqrt rlog2 part n_estimators drift warning agg by_error crit).
Notation init := (arfr_init (B := B) (D := D) (E := E) seed).
Notation rlife := (rlife t_init t_fit t_predict t_reset t_new d_add d_change d_reset e_new e_add drift warning crit).
Notation rfresh := (rfresh t_init t_reset t_new).
Notation career := (career t_fit t_predict e_new e_add).
Notation rmember := (rmember T B D E).
Notation rforest := (rforest T B D E G).
(** The rows as the [i]-th member sees them after the calls [os]: those since the last reset, numbered from 1.  The generator made with the seed first gives the members their seeds;
    of the draws that follow, the member gets every n_estimators-th. *)
Definition rseen_by (i : nat) (os : list (arfr_op X T)) : list (rrow X T) :=
  let L := rlessons [] os in rfeed 1 L (column n_estimators i (length L) (draws poisson (length L * n_estimators) (snd (seeds seed n_estimators)))).
Definition seed_of (i : nat) : Z := nth i (fst (seeds seed n_estimators)) 0%Z.
(** numpy.random.randint gives as many numbers as it is asked for. *)
Hypothesis seeds_len : length (fst (seeds seed n_estimators)) = n_estimators.

Lemma init_rforest_ok m : rforest_ok t_init t_fit t_predict t_reset t_new d_add d_change d_reset e_new e_add poisson seeds seed n_estimators drift warning crit [] (init m).
Proof. unfold rforest_ok. simpl. auto. Qed.
Lemma run_ok mx os s : run (init mx) os = Ok s -> rforest_ok t_init t_fit t_predict t_reset t_new d_add d_change d_reset e_new e_add poisson seeds seed n_estimators drift warning crit (rlessons [] os) s.
Proof. intros H. eapply arfr_run_ok; [exact seeds_len|apply init_rforest_ok|exact H]. Qed.

(** *** C219: how many trees there are, how many rows were counted, and where the random numbers come from. *)
Theorem arfr_rows_counted mx os s : run (init mx) os = Ok s ->
  rf_seen s = length (rlessons [] os) /\
  match rf_members s with
  | None => rlessons [] os = [] /\ rf_rng s = seed
  | Some ms => length ms = n_estimators /\ rf_rng s = after poisson (length (rlessons [] os) * n_estimators) (snd (seeds seed n_estimators))
  end.
Proof. intros H. destruct (run_ok _ _ _ H) as (A & B1). split; auto. destruct (rf_members s); tauto. Qed.

(** The tree of each member is a tree that had learnt nothing, and its evaluator a new one; it has met the rows since it was made, all rows of the forest if the member has had no drift.
    Of each row with a positive draw it was asked first, its answer went to the evaluator, and then it learnt the row with the draw as weight. *)
Theorem arfr_trees mx os s ms i m : run (init mx) os = Ok s -> rf_members s = Some ms -> nth_error ms i = Some m ->
  let fs := rseen_by i os in
  exists v, rf_maxf s = MInt v /\
  (exists b ps, rfresh v (seed_of i) (rm_drifts m) b /\ career b (if Nat.eqb (rm_drifts m) 0 then fs else rsince (rm_created m) fs) (rm_tree m) (rm_eval m) ps) /\
  (rm_drifts m = 0 <-> rm_last_drift m = 0) /\ (0 < rm_drifts m -> rm_created m <= rm_last_drift m) /\ rm_last_drift m <= length fs.
Proof.
  intros H Em Hi fs. destruct (run_ok _ _ _ H) as (A & D1). rewrite Em in D1. destruct D1 as (D1 & D2 & v & D3 & D4). specialize (D4 i m Hi).
  pose proof (rlife_numbered _ _ _ _ _ _ _ _ _ _ _ _ _ _ _ _ _ D4) as NU. destruct (rlife_ok _ _ _ _ _ _ _ _ _ _ _ _ _ _ _ _ _ D4) as (HT & HB & HN). exists v. split; auto.
  change (rfeed 1 _ _) with fs in HT, HB, HN, NU. destruct HN as (N1 & N2 & N3 & N4 & _). unfold rtree_ok, rorigin in *. destruct HT as (b & ps0 & ps1 & F1 & G1 & _). split; [|split; [auto|split; [|auto]]].
  - exists b, (ps0 ++ ps1). split; auto. destruct (Nat.eqb (rm_drifts m) 0); auto. rewrite rsince_0 in G1 by exact NU. auto.
  - destruct (Nat.eqb_spec (rm_drifts m) 0); lia.
Qed.
(** A background tree exists from a warning to the next drift, and has met the rows since the warning in the same way. *)
Theorem arfr_background mx os s ms i m : run (init mx) os = Ok s -> rf_members s = Some ms -> nth_error ms i = Some m ->
  let fs := rseen_by i os in
  match rm_bg m with
  | None => rm_last_warn m <= rm_last_drift m
  | Some b => rm_last_drift m < rm_last_warn m /\ rm_last_warn m <= length fs /\ rb_created b = rm_last_warn m /\ exists b' ps, career (t_new b') (rsince (rm_last_warn m) fs) (rb_tree b) (rb_eval b) ps
  end.
Proof.
  intros H Em Hi fs. destruct (run_ok _ _ _ H) as (A & D1). rewrite Em in D1. destruct D1 as (D1 & D2 & v & D3 & D4). specialize (D4 i m Hi).
  destruct (rlife_ok _ _ _ _ _ _ _ _ _ _ _ _ _ _ _ _ _ D4) as (HT & HB & HN). change (rfeed 1 _ _) with fs in HB, HN.
  unfold rbg_ok in HB. destruct HN as (N1 & _). destruct (rm_bg m); tauto.
Qed.

(** *** C220: drifts and warnings.  A member has a drift (a warning) at the rows where its drift (warning) detector reports a change, and at no other.  The detectors are told, of each row the member learns, the value
    [v]: the quantity watched (the error, its square or the answer) for the answer before learning, in relation to the same quantity for the rows learnt since the last drift, [ps]. *)
Theorem arfr_detectors v sd fs m f m' : rlife v sd fs m -> q_n f = S (length fs) ->
  rmember_row t_fit t_predict t_reset t_new d_add d_change d_reset e_new e_add drift warning crit (q_x f) (q_y f) (q_k f) (q_n f) m = Ok m' ->
  match rm_drift m with
  | None => drift = None
  | Some d =>
     if (0 <? q_k f)%Z then
       exists b ps0 ps p, rfresh v sd (rm_drifts m) b /\ career b (if Nat.eqb (rm_drifts m) 0 then fs else rsince (rm_created m) fs) (rm_tree m) (rm_eval m) (ps0 ++ ps) /\
        length ps = length (filter (fun f => (0 <? q_k f)%Z) (rsince (rm_last_drift m) fs)) /\ t_predict (rm_tree m) (q_x f) = Ok p /\
        let v := fst (normalize (watched crit (q_y f) p) (norm_after (map (fun yp => watched crit (fst yp) (snd yp)) ps))) in
        let drifts := d_change (d_add d v) in
        let warned := match rm_warn m with None => false | Some u => d_change (d_add u v) end in
        rm_drifts m' = (if drifts then S (rm_drifts m) else rm_drifts m) /\ rm_last_drift m' = (if drifts then q_n f else rm_last_drift m) /\
        rm_warns m' = (if warned then S (rm_warns m) else rm_warns m) /\ rm_last_warn m' = (if warned then q_n f else rm_last_warn m) /\
        (drifts = false -> rm_drift m' = Some (d_add d v) /\ rm_warn m' = option_map (fun u => if warned then d_reset (d_add u v) else d_add u v) (rm_warn m)) /\
        (drifts = true -> rm_bg m' = None)
     else m' = m
  end.
Proof.
  intros HL Hn HR. assert (HL' : rlife v sd (fs ++ [f]) m') by (eapply rlife_row; eauto). pose proof (rlife_numbered _ _ _ _ _ _ _ _ _ _ _ _ _ _ _ _ _ HL) as NU.
  destruct (rlife_ok _ _ _ _ _ _ _ _ _ _ _ _ _ _ _ _ _ HL) as (HT & _ & HN). destruct (rlife_ok _ _ _ _ _ _ _ _ _ _ _ _ _ _ _ _ _ HL') as (_ & HB' & HN').
  destruct HN as (N1 & N2 & _ & N4 & _ & N6 & _). destruct (rm_drift m) as [d|] eqn:ED; [|apply N6; reflexivity].
  destruct (Z.ltb_spec 0 (q_k f)) as [HK|HK]; [|unfold rmember_row in HR; destruct (Z.ltb_spec 0 (q_k f)); [lia|congruence]].
  destruct (rrow_detects t_fit t_predict t_reset t_new d_add d_change d_reset e_new e_add drift warning crit _ _ _ _ _ _ d ED HR HK) as (p & E1 & E3).
  destruct HT as (b & ps0 & ps1 & F1 & G1 & G2 & G3). exists b, ps0, ps1, p. split; auto. split. { unfold rorigin in G1. destruct (Nat.eqb (rm_drifts m) 0); auto. rewrite rsince_0 in G1 by exact NU. auto. }
  split; [exact G2|]. split; [exact E1|]. assert (ND : drift <> None) by (intros W; apply N6 in W; discriminate). rewrite G3 in E3 by exact ND.
  cbv zeta in *. destruct E3 as (H1 & H2 & H3 & H4 & H5). repeat (split; [assumption|]). intros Hd. rewrite Hd in H2. unfold rbg_ok in HB'. destruct (rm_bg m') as [b1|]; auto. exfalso.
  destruct HN' as (M1 & _). destruct HB' as (HB' & _). rewrite app_length in M1. simpl in M1. lia.
Qed.

(** *** C222: max_features is between 1 and the number of features, and a fraction outside (0, 1] is refused ... *)
Theorem arfr_max_features m n v : 1 <= n -> rmax_features rsqrt rlog2 part m n = Ok v -> (1 <= v <= Z.of_nat n)%Z.
Proof.
  intros Hn H. assert (E0 : v = max_features rsqrt rlog2 part m n). { destruct m; simpl in H; try (injection H as <-; reflexivity). destruct (_ || _); [discriminate|]. injection H as <-. reflexivity. }
  rewrite E0. apply max_features_range. auto.
Qed.
Theorem arfr_fraction_refused f n : ((f <=? n0) || (n1 <? f))%num = true -> rmax_features rsqrt rlog2 part (MFloat f) n = Raise ValueError.
Proof. intros H. simpl. rewrite H. reflexivity. Qed.
(** ... but after a reset it is 1, whatever it was. *)
Theorem arfr_reset_refuted s n : 1 <= n -> exists ms s1, init_rensemble t_init e_new seeds rsqrt rlog2 part n_estimators drift warning n (arfr_reset seed s) = Ok (ms, s1) /\
  rf_maxf s1 = MInt 1 /\ forall i m, nth_error ms i = Some m -> rm_tree m = t_init 1 (seed_of i).
Proof.
  intros Hn. unfold init_rensemble. simpl. unfold max_features. cbv zeta. simpl. destruct (Z.ltb_spec (Z.of_nat n) 1); [lia|].
  unfold seed_of. destruct (seeds seed n_estimators) as [sd g]. eexists _, _. split; [reflexivity|]. split; auto. intros i m Hi. rewrite nth_error_map in Hi. destruct (nth_error sd i) eqn:Ez; [|discriminate].
  injection Hi as <-. simpl. rewrite (nth_error_nth _ _ _ Ez). reflexivity.
Qed.
End Props.

(** *** C221: the value told to the detectors, over the reals: the standard score of the last value among those since the last drift, moved from [-3, 3] to [0, 1].  It is between
    0 and 1 for the first ten values ... *)
Theorem arfr_normalized (xs : list R) x : fst (normalize x (norm_after xs)) = scored xs x.
Proof. apply norm_scored. Qed.
Theorem arfr_normalized_range xs x : length xs < 10 -> (0 <= fst (normalize x (norm_after xs)) <= 1)%R.
Proof. intros H. rewrite norm_scored. apply scored_range. auto. Qed.
(** ... and need not be from the eleventh on: a detector for numbers between 0 and 1 is told greater ones. *)
Theorem arfr_normalized_refuted c x : (c < x)%R -> (1 < fst (normalize x (norm_after (repeat c 10))))%R.
Proof. intros H. rewrite norm_scored. apply scored_over. auto. Qed.

(** What is watched: the squared error, the absolute error or the answer itself. *)
Theorem arfr_watched (y p : R) : watched CSquare y p = ((y - p) ^ 2)%R /\ watched CAbs y p = Rabs (y - p) /\ watched CPrediction y p = p.
Proof.
  split; [cbn; ring|]. split; [|reflexivity]. unfold watched, n0. cbn [nltb nsub nofZ NumR]. destruct (Rltb (y - p) 0) eqn:E.
  - apply Rltb_true in E. rewrite Rabs_left by lra. cbn. lra.
  - apply Rltb_false in E. rewrite Rabs_pos_eq by lra. reflexivity.
Qed.

(** *** C223: the prediction, over the reals.  With the mean and the weights by error, of at least two trees: the weights are not negative and have the sum 1, a tree with a smaller error has the greater weight, and the prediction
    is between the least and the greatest answer. *)
Theorem arfr_weighted (ps es : list R) : length ps = length es -> 2 <= length es -> (forall e, In e es -> (0 <= e)%R) -> (0 < Rsum es)%R ->
  weighted ps es = Val (Rsum (map (fun pe => fst pe * tree_weight es (snd pe)) (combine ps es)))%R /\
  Rsum (map (tree_weight es) es) = 1%R /\ (forall e, In e es -> (0 <= tree_weight es e)%R) /\ (forall e e', (e < e')%R -> (tree_weight es e' < tree_weight es e)%R).
Proof.
  intros LL L P H. repeat split.
  - apply weighted_R; auto.
  - apply tree_weight_sum; auto. lra.
  - intros e I. apply tree_weight_nonneg; auto.
  - intros e e' I. apply tree_weight_antitone; auto.
Qed.
Theorem arfr_prediction_range (ps : list R) errors agg by_error lo hi : ps <> [] -> (forall p, In p ps -> (lo <= p <= hi)%R) ->
  (agg = ByMean -> by_error = true -> exists es, errors = Ok es /\ length es = length ps /\ 2 <= length es /\ forall e, In e es -> (0 <= e)%R) ->
  exists v, aggregate agg by_error ps errors = Ok (Val v) /\ (lo <= v <= hi)%R.
Proof.
  intros NE P He. unfold aggregate. destruct agg; [destruct by_error|].
  - destruct (He eq_refl eq_refl) as (es & -> & L1 & L2 & Pe). simpl. destruct (weighted_range ps es lo hi) as (v & -> & Hv); auto. eauto.
  - rewrite mean_R. eexists. split; [reflexivity|]. apply mean_range; auto.
  - eexists. split; [reflexivity|]. apply median_range; auto.
Qed.
(** At least half of the answers are at most the median, and at least half at least. *)
Theorem arfr_median (ps : list R) : ps <> [] -> length ps <= 2 * length (filter (fun p => Rleb p (median ps)) ps) /\ length ps <= 2 * length (filter (fun p => Rleb (median ps) p) ps).
Proof. apply median_half. Qed.
(** Without errors so far, it is the plain mean. *)
Theorem arfr_no_errors (ps es : list R) : Rsum es = 0%R -> weighted ps es = Val (Rmean ps).
Proof. apply weighted_zero. Qed.
(** A single tree with an error predicts nan. *)
Theorem arfr_single_tree_refuted (p e : R) : e <> 0%R -> weighted [p] [e] = NaN.
Proof. apply weighted_one. Qed.
(** A tree made at the last row has no error yet (0), and so a greater weight than each tree that has been wrong. *)
Theorem arfr_new_tree_refuted es e : 2 <= length es -> (0 < Rsum es)%R -> (0 < e)%R -> (tree_weight es e < tree_weight es 0)%R.
Proof. intros L H P. apply tree_weight_antitone; auto. Qed.

(** *** A forest for the examples: a tree answers the target it last learnt (0 at first); detectors count the values told and report at a given count; the evaluator keeps what it is told. *)
Definition rtree : Type := Z * list (Q * Z).
Definition rdraw (g : list Z) : Z * list Z := match g with [] => (1%Z, []) | k :: g => (k, g) end.
Definition rtoy n (drift warning : option (nat * list Q)) (g : list Z) (mx : mf Q) (os : list (arfr_op Z Q)) := arfr_run (T := Q)
  (fun v sd => (sd, [])) (fun b _ y k => Ok (fst b, (y, k) :: snd b)) (fun b _ => Ok match snd b with [] => 0%Q | (y, _) :: _ => y end) (fun b => ((fst b + 100)%Z, [])) (fun b => ((fst b + 10)%Z, []))
  (fun d v => (fst d, v :: snd d)) (fun d => Nat.leb (fst d) (length (snd d))) (fun d => (fst d, []))
  ([] : list (Q * Q)) (fun e y p => Ok ((y, p) :: e)) (fun e => Ok (inject_Z (Z.of_nat (length e)))) rdraw (fun g n => (map Z.of_nat (seq 1 n), g)) g (fun _ => 3) (fun _ => 2%Z) (fun _ => 2%Z) (fun (_ : Q) _ => 1%Z)
  n drift warning ByMean false CAbs (arfr_init g mx) os.
Definition rstory (m : rmember Q rtree (nat * list Q) (list (Q * Q))) := (rm_tree m, rm_eval m, (rm_created m, rm_last_drift m, rm_last_warn m), (rm_drifts m, rm_warns m), option_map (fun b => (rb_tree b, rb_eval b, rb_created b)) (rm_bg m)).
(** Two members, six rows.  The first member learns all rows: a warning after two values, a drift after three, when the tree made at the warning takes over, and the same again at the rows 5 and 6.  The second skips the rows
    2 and 4: a warning at row 3, a drift at row 5. *)
Example arfr_trees_applies : match rtoy 2 (Some (3, [])) (Some (2, [])) [1; 1; 2; 0; 1; 2; 1; 0; 1; 1; 1; 3]%Z MAuto [RFit 3 [(0%Z, 5%Q); (0%Z, 7%Q); (0%Z, 6%Q)]; RAsk 0%Z; RFit 3 [(0%Z, 9%Q); (0%Z, 4%Q); (0%Z, 8%Q)]] with
  | Ok s => option_map (map rstory) (rf_members s) | Raise _ => None end =
  Some [((21%Z, [(8%Q, 1%Z)]), [(8%Q, 0%Q)], (5, 6, 5), (2, 2), None); ((12%Z, [(8%Q, 3%Z); (4%Q, 1%Z)]), [(8%Q, 4%Q); (4%Q, 0%Q)], (3, 5, 3), (1, 1), None)].
Proof. vm_compute. reflexivity. Qed.
Example arfr_weighted_applies : tree_weight [1; 3; 0]%R 1 = (3 / 8)%R /\ tree_weight [1; 3; 0]%R 3 = (1 / 8)%R /\ tree_weight [1; 3; 0]%R 0 = (1 / 2)%R /\ (0 < Rsum [1; 3; 0])%R.
Proof. unfold tree_weight. simpl. repeat split; try lra; field. Qed.

Print Assumptions arfr_rows_counted.
Print Assumptions arfr_trees.
Print Assumptions arfr_background.
Print Assumptions arfr_detectors.
Print Assumptions arfr_max_features.
Print Assumptions arfr_fraction_refused.
Print Assumptions arfr_reset_refuted.
Print Assumptions arfr_watched.
Print Assumptions arfr_normalized.
Print Assumptions arfr_normalized_range.
Print Assumptions arfr_normalized_refuted.
Print Assumptions arfr_weighted.
Print Assumptions arfr_prediction_range.
Print Assumptions arfr_median.
Print Assumptions arfr_no_errors.
Print Assumptions arfr_single_tree_refuted.
Print Assumptions arfr_new_tree_refuted.
