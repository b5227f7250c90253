(** Extremely fast decision tree: weights, statistics, counters, split rules, re-evaluation. *)
From Coq Require Import List ZArith Bool Reals Lra Lia Permutation Floats.
From Verif Require Import Base.Py Base.Num Base.NumFloat Base.Dict Model.Suggestion Model.Knn Model.NaiveBayes Model.SplitCriteria Model.TreeSkeleton Model.HoeffdingTree Model.Efdt
  Spec.Lists Spec.TreeSpec Spec.SplitRuleSpec Spec.CriteriaSpec Spec.EfdtSpec Proofs.TreeProofs Proofs.HoeffdingProofs Proofs.SplitRuleProofs Proofs.CriteriaProofs Proofs.NaiveBayesProofs Proofs.EfdtProofs
  Props.HoeffdingProps Props.HoeffdingPredictProps.
Import ListNotations.
Local Open Scope Z_scope.

Section General.
Context {T : Type} {N : Num T}.
(** External functions, constructor arguments, object sizes: all arbitrary *)
Variables (k : T) (phi : T -> T) (key : T -> Z) (cfg : ht_config T) (min_re : T) (sz : sizes T (leaf T) (list (Z * T)) (esplit T) (htest T)).
Local Notation fit := (efdt_fit k phi key cfg min_re sz).
Local Notation run := (efdt_run k phi key cfg min_re sz).
Local Notation enode := (node (leaf T) (list (Z * T)) (esplit T) (htest T)).

(** C269, refuted: with two or more rows in a call, every sample is given the weight of the first one; the other weights are
    never read. *)
Theorem efdt_sample_weights_refuted : forall s rows c w ws ws', (1 < length rows)%nat ->
  fit s rows c (Some (w :: ws)) = fit s rows c (Some (w :: ws')) /\ fit s rows c (Some (w :: ws)) = fit s rows c (Some (repeat w (length rows))).
Proof.
  intros s rows c w ws ws' L. destruct rows as [|r0 [|r1 rows]]; cbn in L; try lia. split; reflexivity.
Qed.
(** What a call does: its rows one by one, with that weight. *)
Theorem efdt_one_by_one : forall rows s c ws s', run s [EFit rows c ws] = Ok s' -> (length rows > 1)%nat -> ef_classes s <> None ->
  run s (map (fun row => EFit [row] c (Some [weight_of_all ws])) rows) = Ok s'.
Proof.
  intros rows s c ws s' H L Cs. cbn [efdt_run efdt_do bind] in H. apply bind_Ok in H as (s1 & H & E). injection E as ->. unfold efdt_fit in H. apply bind_Ok in H as (u & U & H). apply bind_Ok in H as (t & F & H).
  assert (Eu : u = repeat (weight_of_all ws) (length rows)).
  { unfold weights_used in U. destruct (Nat.eqb_spec (length rows) 1); [lia|]. destruct ws as [[|w ws]|]; [discriminate|now injection U as <-|now injection U as <-]. }
  subst u. injection H as <-. destruct (ef_classes s) as [cl|] eqn:Ec; [|contradiction]. clear L U Cs. revert s t F Ec. induction rows as [|[x y] rows IH]; intros s t F Ec; cbn [length repeat efdt_rows map efdt_run efdt_do] in *.
  - injection F as <-. destruct s as [tr cs]. cbn in Ec. now subst cs.
  - apply bind_Ok in F as (t1 & F1 & F). unfold efdt_fit, weights_used. cbn [length Nat.eqb efdt_rows bind]. rewrite F1, Ec. cbn [bind]. apply IH; auto.
Qed.

(** C270: when every split has two branches and the memory limit does not bind, the counters are the numbers of nodes.  Missing:
    multiway splits and inactive leaves, for which it is false (below). *)
Theorem efdt_counters_partial : forall es s, two_branches cfg -> (forall w, c_period_due (h_memory cfg) w = false) -> enough_memory (h_memory cfg) (ef_tree (efdt_new (T := T))) ->
  run efdt_new es = Ok s -> counters_right (ef_tree s) /\ t_inactive (ef_tree s) = 0.
Proof.
  intros es s Tw Nd Rm H. assert (C : counted cfg (ef_tree s)) by (eapply (run_counted k phi key cfg min_re sz Tw Nd es); eauto; [repeat split]). destruct C as (A & B & _). auto.
Qed.

(** C271: the split rules.  [offers]: the best suggestion of every attribute seen at the node that has one *)
Definition offers (stats : list (Z * T)) (obs : list (Z * cobs T)) (bs : list (suggestion (option (htest T)) (list (list (Z * T))) T)) : Prop :=
  exists per, mapM (fun io => best_of k phi cfg stats (fst io) (snd io)) obs = Ok per /\ bs = flat_map (fun b => match b with Some s => [s] | None => [] end) per.
Definition bound (stats : list (Z * T)) : T := epsilon (cr_range (h_crit cfg) stats) (h_confidence cfg) (vsum stats).
(** The merit of not splitting: that of the undivided distribution, 0 if it is -inf *)
Definition no_split (stats : list (Z * T)) : option T := Some (match cr_merit (h_crit cfg) stats [stats] with Some m => m | None => n0 end).

Lemma bound_is stats b : Efdt.bound_of cfg stats = Ok b -> b = bound stats.
Proof.
  unfold Efdt.bound_of, hoeffding_bound. intros H. apply bind_Ok in H as (i & Ei & H). injection H as <-. unfold pydiv in Ei. destruct (_ =? _)%num; [discriminate|]. now injection Ei as <-.
Qed.
Lemma candidates_best stats obs bs best rest : ordered T -> candidates k phi cfg stats obs = Ok bs -> rev bs = best :: rest ->
  exists all others, offers stats obs all /\ best_is all best others /\ Permutation rest others.
Proof.
  intros Hord H Er. unfold candidates in H. apply bind_Ok in H as (per & E & H). injection H as <-.
  destruct (best_sorted _ _ _ Hord Er) as (others & B & P). exists (flat_map (fun b => match b with Some s => [s] | None => [] end) per), others. split; auto. exists per. auto.
Qed.
Lemma offers_unique stats obs a b : offers stats obs a -> offers stats obs b -> a = b.
Proof. intros (p & E & ->) (q & E' & ->). rewrite E in E'. now injection E' as ->. Qed.
Lemma pure_iff stats : NoDup (dkeys stats) -> Efdt.pure stats = false <-> mixed stats.
Proof. intros ND. exact (pure_mixed (leaf_new stats) ND). Qed.
(** A leaf that is due becomes a split node on the best suggestion exactly if it has seen two classes and the best suggestion
    exceeds the merit of not splitting by more than the bound, or the bound is below the tie threshold. *)
Theorem efdt_leaf_split_rule : forall l x y w t' d e, ordered T -> NoDup (dkeys (lf_stats l)) -> (h_grace cfg <=? vsum (lf_stats l) - lf_last l)%num = true ->
  process k phi key cfg min_re true (Active l) x y w = Ok (t', d, e) ->
  (is_split t' = true <-> mixed (lf_stats l) /\ exists bs best others te, offers (lf_stats l) (lf_obs l) bs /\ best_is bs best others /\ sg_test best = Some te
     /\ (exceeds_by (bound (lf_stats l)) (sg_merit best) (no_split (lf_stats l)) \/ (bound (lf_stats l) <? h_tie cfg)%num = true))
  /\ (forall te st ch, t' = Split te st ch -> es_stats st = lf_stats l /\ es_obs st = lf_obs l /\ es_seen st = vsum (lf_stats l) /\
        exists bs best others, offers (lf_stats l) (lf_obs l) bs /\ best_is bs best others /\ sg_test best = Some te
          /\ map snd ch = map (fun dd => Active (leaf_new dd)) (sg_dists best)).
Proof.
  intros l x y w t' d e Hord ND Due H. cbn [process] in H. unfold leaf_weight in H. rewrite Due in H. cbn [andb] in H. apply bind_Ok in H as (v & A & H). unfold attempt in A.
  assert (KL : forall X : Prop, v = None -> (X -> False) -> (is_split t' = true <-> X) /\ (forall te st ch, t' = Split te st ch -> es_stats st = lf_stats l /\ es_obs st = lf_obs l /\ es_seen st = vsum (lf_stats l) /\
     exists bs best others, offers (lf_stats l) (lf_obs l) bs /\ best_is bs best others /\ sg_test best = Some te /\ map snd ch = map (fun dd => Active (leaf_new dd)) (sg_dists best))).
  { intros X -> NX. injection H as <- _ _. split; [split; [discriminate|intros C; destruct (NX C)]|discriminate]. }
  destruct (leaf_pure l) eqn:Ep.
  { injection A as <-. apply KL; auto. intros [C _]. apply pure_mixed in C; auto. congruence. }
  apply pure_mixed in Ep; auto. apply bind_Ok in A as (bs & Eb & A). destruct (rev bs) as [|best rest] eqn:Er.
  { injection A as <-. apply KL; auto. intros (_ & all & b & o & te & Of & (pre & post & Ea & _) & _). unfold candidates in Eb. apply bind_Ok in Eb as (per & E & Eb). injection Eb as <-.
    apply (f_equal (@rev _)) in Er. rewrite rev_involutive in Er. cbn in Er. pose proof (sort_stable_perm (fun a b => negb (mgt (sg_merit a) (sg_merit b))) (flat_map (fun b => match b with Some s => [s] | None => [] end) per)) as P.
    rewrite Er in P. apply Permutation_sym, Permutation_nil in P. destruct Of as (per' & E' & ->). rewrite E in E'. injection E' as <-. rewrite P in Ea. now destruct pre. }
  destruct (candidates_best _ _ _ _ _ Hord Eb Er) as (all & others & Of & B & P).
  apply bind_Ok in A as (bd & Ebd & A). apply bound_is in Ebd. subst bd.
  assert (U : forall b o all', offers (lf_stats l) (lf_obs l) all' -> best_is all' b o -> b = best).
  { intros b o all' Of' B'. rewrite (offers_unique _ _ _ _ Of' Of) in B'. now destruct (best_is_unique _ _ _ _ _ Hord B B') as [-> _]. }
  injection A as A. destruct (sg_test best) as [te|] eqn:Et.
  2:{ symmetry in A. apply KL; auto. intros (_ & all' & b & o & te & Of' & B' & Et' & _). rewrite (U _ _ _ Of' B') in Et'. congruence. }
  destruct (gap_gt _ _ _ || _) eqn:Eg; symmetry in A.
  - subst v. injection H as <- _ _. split.
    + split; [intros _|reflexivity]. split; auto. exists all, best, others, te. repeat split; auto. apply orb_true_iff in Eg as [Eg|Eg]; [left; apply exceeds_gap; exact Eg|now right].
    + intros te0 st ch [= <- <- <-]. repeat split. exists all, best, others. repeat split; auto.
      rewrite <- (map_length (fun d => Active (leaf_new d) : enode) (sg_dists best)). generalize (map (fun d => Active (leaf_new d) : enode) (sg_dists best)). intros l0. clear. generalize 0%nat. induction l0 as [|a l0 IH]; intros n; [reflexivity|]. cbn [length seq map combine snd]. now rewrite IH.
  - apply KL; auto. intros (_ & all' & b & o & te' & Of' & B' & _ & W). rewrite (U _ _ _ Of' B') in W. apply orb_false_iff in Eg as [E1 E2]. destruct W as [W|W]; [apply exceeds_gap in W|]; unfold no_split in *; fold (null_merit cfg (lf_stats l)) in *; congruence.
Qed.

(** A split node that is re-evaluated is replaced by a leaf exactly if it has seen two classes and not splitting exceeds the best
    suggestion by more than the bound; the leaf has the statistics and observers of the node. *)
Theorem efdt_kill_rule : forall g te st ch x y w t' d e stats obs, ordered T -> NoDup (dkeys stats) ->
  stats = update_stats (es_stats st) y w -> update_observers key (h_nominal cfg) (es_obs st) 0 x y w = Ok obs ->
  (min_re <=? vsum stats - es_seen st)%num = true ->
  process k phi key cfg min_re g (Split te st ch) x y w = Ok (t', d, e) ->
  (is_split t' = false <-> mixed stats /\ exists bs best others, offers stats obs bs /\ best_is bs best others /\ exceeds_by (bound stats) (no_split stats) (sg_merit best))
  /\ (forall l, t' = Active l -> lf_stats l = stats /\ lf_obs l = obs).
Proof.
  intros g te st ch x y w t' d e stats obs Hord ND -> Eo Due H. rewrite process_split in H. rewrite Eo in H. cbn [bind] in H. cbv zeta in H. rewrite Due in H. apply bind_Ok in H as (v & V & H).
  set (stats := update_stats (es_stats st) y w) in *.
  assert (KS : forall X : Prop, v <> Kill -> (X -> False) -> (is_split t' = false <-> X) /\ (forall l, t' = Active l -> lf_stats l = stats /\ lf_obs l = obs)).
  { intros X Nk NX. assert (Sp : is_split t' = true).
    { assert (D : forall te', go_down k phi key cfg min_re g te' (mk_es stats obs (es_seen st)) ch x y w = Ok (t', d, e) -> is_split t' = true).
      { intros te' D. unfold go_down in D. apply bind_Ok in D as (b & _ & D). destruct (0 <=? b); [|injection D as <- _ _; reflexivity]. destruct (dget ch b); [|injection D as <- _ _; reflexivity].
        apply bind_Ok in D as ([[n' d'] e'] & _ & D). injection D as <- _ _. reflexivity. }
      destruct v; [eapply D; eauto|congruence|injection H as <- _ _; reflexivity|eapply D; eauto]. }
    split; [rewrite Sp; split; [discriminate|intros C; destruct (NX C)]|]. intros l ->. discriminate. }
  unfold reconsider in V. destruct (Efdt.pure stats) eqn:Ep.
  { injection V as <-. apply KS; [discriminate|]. intros [C _]. apply pure_iff in C; auto. congruence. }
  apply pure_iff in Ep; auto. apply bind_Ok in V as (bs & Eb & V). destruct (rev bs) as [|best rest] eqn:Er.
  { injection V as <-. apply KS; [discriminate|]. intros (_ & all & b & o & Of & (pre & post & Ea & _) & _). unfold candidates in Eb. apply bind_Ok in Eb as (per & E & Eb). injection Eb as <-.
    apply (f_equal (@rev _)) in Er. rewrite rev_involutive in Er. cbn in Er. pose proof (sort_stable_perm (fun a b => negb (mgt (sg_merit a) (sg_merit b))) (flat_map (fun b => match b with Some s => [s] | None => [] end) per)) as P.
    rewrite Er in P. apply Permutation_sym, Permutation_nil in P. destruct Of as (per' & E' & ->). rewrite E in E'. injection E' as <-. rewrite P in Ea. now destruct pre. }
  destruct (candidates_best _ _ _ _ _ Hord Eb Er) as (all & others & Of & B & P).
  apply bind_Ok in V as (bd & Ebd & V). apply bound_is in Ebd. subst bd.
  assert (U : forall b o all', offers stats obs all' -> best_is all' b o -> b = best).
  { intros b o all' Of' B'. rewrite (offers_unique _ _ _ _ Of' Of) in B'. now destruct (best_is_unique _ _ _ _ _ Hord B B') as [-> _]. }
  destruct (gap_gt _ _ _) eqn:Eg.
  - injection V as <-. injection H as <- _ _. split; [|intros l [= <-]; split; reflexivity]. split; [intros _|reflexivity]. split; auto. exists all, best, others. repeat split; auto. apply exceeds_gap. exact Eg.
  - apply KS.
    + destruct (find _ _); [|discriminate]. destruct (sg_test best); [|discriminate]. injection V as <-. destruct (_ || _); [destruct (_ =? _)|]; discriminate.
    + intros (_ & all' & b & o & Of' & B' & W). rewrite (U _ _ _ Of' B') in W. apply exceeds_gap in W. unfold no_split in W. fold (null_merit cfg stats) in W. congruence.
Qed.

(** C275: the classes given to the first call that gives any stay those of the model. *)
Theorem efdt_classes_fixed : forall es s s' cl, ef_classes s = Some cl -> run s es = Ok s' -> ef_classes s' = Some cl.
Proof.
  induction es as [|e es IH]; intros s s' cl Ec H; cbn [efdt_run] in H; [injection H as <-; auto|]. apply bind_Ok in H as (s1 & H1 & H). apply (IH _ _ _) with (2 := H). destruct e as [rows c ws|]; cbn [efdt_do] in H1.
  - unfold efdt_fit in H1. rewrite Ec in H1. apply bind_Ok in H1 as (u & _ & H1). apply bind_Ok in H1 as (t & _ & H1). now injection H1 as <-.
  - now injection H1 as <-.
Qed.
End General.

(** C268: in every history of partial_fit and reset calls, the root (leaf or split node, whatever was split, replaced, killed or switched
    off meanwhile) keeps for every class the weight of its samples since the last reset. *)
Theorem efdt_root_statistics : forall k phi key (cfg : ht_config R) min_re sz es s, efdt_run k phi key cfg min_re sz efdt_new es = Ok s ->
  match t_root (ef_tree s) with
  | None => since_clear es = []
  | Some r => forall c, match dget (kept r) c with
                        | Some v => v = class_total c (since_clear es) /\ In c (map fst (since_clear es))
                        | None => ~ In c (map fst (since_clear es))
                        end
  end.
Proof.
  intros k phi key cfg min_re sz es s H. apply (run_root k phi key cfg min_re sz es efdt_new [] s eq_refl) in H. fold (since_clear es) in H. unfold root_holds in H. destruct (t_root (ef_tree s)) as [r|]; auto. destruct H as [_ ->].
  assert (G : forall l, NoDup (dkeys (sums l)) /\ forall c, match dget (sums l) c with Some v => v = class_total c l /\ In c (map fst l) | None => ~ In c (map fst l) end).
  { intros l. induction l as [|[y w] l [ND IH]] using rev_ind; [split; [constructor|intros c []]|]. unfold sums in *. rewrite fold_left_app. cbn [fold_left fst snd]. split; [now apply update_stats_ndk|]. intros c.
    assert (CT : class_total c (l ++ [(y, w)]) = (class_total c l + (if y =? c then w else 0))%R) by (clear; induction l as [|[a v] l IHl]; cbn [app class_total]; [lra|rewrite IHl; lra]).
    assert (NC : ~ In c (map fst l) -> class_total c l = 0%R) by (clear; induction l as [|[a v] l IHl]; cbn [map fst class_total]; intros Nc; [reflexivity|destruct (Z.eqb_spec a c) as [->|]; [exfalso; apply Nc; now left|rewrite IHl; [lra|intros C; apply Nc; now right]]]).
    rewrite map_app, CT. cbn [map fst]. rewrite update_stats_dget by auto. specialize (IH c). destruct (Z.eqb_spec y c) as [->|Ny].
    - split; [|apply in_or_app; right; now left]. destruct (dget _ c) as [v|]; [destruct IH as [-> _]; reflexivity|rewrite (NC IH); cbn; lra].
    - destruct (dget _ c) as [v|]; [destruct IH as [-> A]; split; [lra|apply in_or_app; now left]|]. intros C. apply in_app_or in C as [C|[C|[]]]; auto. }
  apply (proj2 (G (since_clear es))).
Qed.

(** C273, refuted: min_samples_reevaluate is not the number of samples between two re-evaluations.  Once a split node is due and is
    not replaced, it is due again after every further sample: the weight seen at the last re-evaluation is never brought up to date. *)
Lemma weight_update_stats (d : list (Z * R)) y w : weight (update_stats d y w) = (weight d + w)%R.
Proof.
  unfold weight. change (map snd (update_stats d y w)) with (dvals (update_stats d y w)). change (map snd d) with (dvals d). unfold update_stats. destruct (dget d y) as [v|] eqn:E.
  - rewrite (Rsum_dset_old _ _ _ _ E). cbn. lra.
  - rewrite <- (Rsum_dset_new _ _ w E). unfold dvals. symmetry. apply Rsum_perm. apply Permutation_map, dsort_perm.
Qed.
Theorem efdt_stays_due_refuted : forall k phi key (cfg : ht_config R) min_re g te st ch x y w t' d e,
  (0 <= w)%R -> (min_re <= weight (es_stats st) - es_seen st)%R ->
  process k phi key cfg min_re g (Split te st ch) x y w = Ok (t', d, e) ->
  (exists te' st' ch', t' = Split te' st' ch' /\ es_seen st' = es_seen st /\ (min_re <= weight (es_stats st') - es_seen st')%R)
  \/ (exists obs v, update_observers key (h_nominal cfg) (es_obs st) 0 x y w = Ok obs /\ reconsider k phi cfg te (update_stats (es_stats st) y w) obs = Ok v
        /\ match v with Kill | Resplit _ _ => True | _ => False end).
Proof.
  intros k phi key cfg min_re g te st ch x y w t' d e Hw Due H. rewrite process_split in H. apply bind_Ok in H as (obs & Eo & H). cbv zeta in H.
  assert (Due' : (min_re <= weight (update_stats (es_stats st) y w) - es_seen st)%R) by (rewrite weight_update_stats; lra).
  rewrite vsum_weight in H. cbn [nleb nsub NumR] in H. replace (Rleb min_re (weight (update_stats (es_stats st) y w) - es_seen st)) with true in H by (symmetry; now apply Rleb_true).
  apply bind_Ok in H as (v & V & H).
  assert (D : forall te', go_down k phi key cfg min_re g te' (mk_es (update_stats (es_stats st) y w) obs (es_seen st)) ch x y w = Ok (t', d, e) ->
    exists te' st' ch', t' = Split te' st' ch' /\ es_seen st' = es_seen st /\ (min_re <= weight (es_stats st') - es_seen st')%R).
  { intros te' D. unfold go_down in D. apply bind_Ok in D as (b & _ & D). destruct (0 <=? b); [|injection D as <- _ _; eauto 8]. destruct (dget ch b); [|injection D as <- _ _; eauto 8].
    apply bind_Ok in D as ([[n' d'] e'] & _ & D). injection D as <- _ _. eauto 8. }
  destruct v; [left; eapply D; eauto|right; exists obs, Kill; auto|right; exists obs, (Resplit te0 ds); auto|left; eapply D; eauto].
Qed.

(** C276: the rows of predict_proba, as for the Hoeffding tree. *)
Theorem efdt_proba_rows : forall k key (cfg : ht_config R) s xs P, efdt_proba k key cfg s xs = Ok P ->
  (forall x v, In x xs -> efdt_votes k key cfg s x = Ok v -> NoDup (map fst v) /\ Forall (fun kv => (0 <= fst kv)%Z) v) ->
  Forall2 (fun x row => exists v, efdt_votes k key cfg s x = Ok v /\ forall c, nth c row 0%R = share v c) xs P
  /\ (ef_classes s = None -> forall a b, In a P -> In b P -> length a = length b).
Proof.
  intros k key cfg s xs P H HV. unfold efdt_proba in H. apply bind_Ok in H as (rows & E & H). apply mapM_F2 in E.
  assert (F : Forall2 (fun x row => exists v, efdt_votes k key cfg s x = Ok v /\ forall c, nth c row 0%R = share v c) xs rows).
  { clear H. revert HV. induction E as [|x row xs rows E0 E IH]; intros HV; constructor.
    - apply bind_Ok in E0 as (v & Ev & Er). exists v. split; auto. destruct (HV x v (or_introl eq_refl) Ev) as [A B]. intros c. now apply (row_shares (ef_classes s) v row).
    - apply IH. intros x' v Hx. apply HV. now right. }
  destruct (ef_classes s) as [c|]; injection H as <-; [split; [exact F|discriminate]|]. split.
  - unfold pad_rows. generalize (fold_left Nat.max (map (length (A:=R)) rows) 0%nat). intros w. clear - F. induction F as [|x row xs rows (v & Ev & Q) F IH]; cbn [map]; constructor; auto. exists v. split; auto. intros c. rewrite <- Q.
    destruct (Nat.lt_ge_cases c (length row)) as [L|L]; [now rewrite app_nth1|]. rewrite app_nth2, (nth_overflow row) by auto. unfold n0. cbn [nofZ NumR]. apply nth_repeat0.
  - intros _. assert (M : forall l a, (a <= fold_left Nat.max (map (@length R) l) a)%nat /\ forall r : list R, In r l -> (length r <= fold_left Nat.max (map (@length R) l) a)%nat).
    { clear. induction l as [|r l IH]; intros a; cbn [map fold_left]; [split; [lia|intros r []]|]. destruct (IH (Nat.max a (length r))) as [A B]. split; [lia|]. intros r' [<-|Hr]; [lia|auto]. }
    destruct (M rows 0%nat) as [_ M0]. intros a b Ha Hb. unfold pad_rows in *. apply in_map_iff in Ha as (a0 & <- & Ha). apply in_map_iff in Hb as (b0 & <- & Hb). rewrite !app_length, !repeat_length.
    specialize (M0 _ Ha) as Ma. specialize (M0 _ Hb). lia.
Qed.

(** ** Runs with 64-bit floats and the default settings *)
Definition e_key (v : float) : Z :=
  match Prim2SF v with S754_finite s m e => (if s then -1 else 1) * Zpos m * (match e with Zpos _ | Z0 => 2 ^ e | Zneg _ => 1 end) / (match e with Zneg p => 2 ^ Zpos p | _ => 1 end) | _ => 0 end.
Definition e_sizes : sizes float (leaf float) (list (Z * float)) (esplit float) (htest float) := mk_sizes (fun _ => 1000%float) (fun _ => 100%float) (fun _ => 1000%float).
(** grace_period 200, information gain, split_confidence 1e-7 and tie_threshold 0.05 (as the nearest floats), every attribute nominal, majority class leaves *)
Definition e_cfg (binary : bool) (bytes : float) (due : float -> bool) : ht_config float :=
  @mk_ht float 200%float (@info_gain float NumF) 0x1.ad7f29abcaf48p-24%float 0x1.999999999999ap-5%float binary false false MC 0%float (fun _ => true) (@mk_cfg float bytes false due).
Definition never (_ : float) : bool := false.
Definition e_run (binary : bool) (bytes : float) (due : float -> bool) (rows : list (list float * Z * float)) : res (efdt float) :=
  @efdt_run float NumF 1%float (fun x => x) e_key (e_cfg binary bytes due) 20%float e_sizes (@efdt_new float NumF) (map (fun r => EFit [fst r] None (Some [snd r])) rows).
Definition e_votes (s : efdt float) (x : list float) : res (list (Z * float)) := @efdt_votes float NumF 1%float e_key (e_cfg false 1e9%float never) s x.
Definition e_counts (r : res (efdt float)) : option (Z * Z * Z) := match r with Ok s => Some (t_decision (ef_tree s), t_active (ef_tree s), t_inactive (ef_tree s)) | Raise _ => None end.
Local Open Scope float_scope.

(** C269: two rows of different classes with weights 1 and 3: the second counts 1. *)
Theorem efdt_sample_weights_run_refuted : exists s, @efdt_fit float NumF 1 (fun x => x) e_key (e_cfg false 33554432 never) 20 e_sizes (@efdt_new float NumF) [([0], 0%Z); ([0], 1%Z)] None (Some [1; 3]) = Ok s
  /\ e_votes s [0] = Ok [(0%Z, 1); (1%Z, 1)].
Proof. eexists. split; vm_compute; reflexivity. Qed.

(** C270, refuted in general: a leaf that was switched off is not counted as inactive when the split node above it is replaced.  The
    tree is one inactive leaf and reports -1 active leaves and 2 inactive ones. *)
Theorem efdt_counters_refuted : exists s d, e_run false 500 (fun w => PrimFloat.eqb w 4001) [([0], 0%Z, 2000); ([0], 1%Z, 2000); ([0], 0%Z, 1); ([0], 1%Z, 200)] = Ok s
  /\ t_root (ef_tree s) = Some (Inactive d) /\ t_decision (ef_tree s) = 0%Z /\ t_active (ef_tree s) = (-1)%Z /\ t_inactive (ef_tree s) = 2%Z.
Proof. eexists. eexists. repeat (split; [vm_compute; reflexivity|]). vm_compute. reflexivity. Qed.

(** C272, refuted: every sample has the same attribute value, so no split separates anything (its merit is -inf), yet the leaf is split
    because the bound is below the tie threshold.  The re-evaluation kills the split, and the leaf is split again at once: split and leaf alternate. *)
Definition same_value (n : nat) : list (list float * Z * float) := firstn n ([([0], 0%Z, 2000); ([0], 1%Z, 2000); ([0], 0%Z, 20); ([0], 1%Z, 20); ([0], 0%Z, 20); ([0], 1%Z, 20); ([0], 0%Z, 20)]).
Theorem efdt_useless_splits_refuted : map (fun n => e_counts (e_run false 33554432 never (same_value n))) [1; 2; 3; 4; 5; 6; 7]%nat
  = [Some (0, 1, 0); Some (1, 1, 0); Some (0, 1, 0); Some (1, 1, 0); Some (0, 1, 0); Some (1, 1, 0); Some (0, 1, 0)]%Z.
Proof. vm_compute. reflexivity. Qed.

(** C273: a node re-evaluated once 20 samples are in gets a new test again at each of the next samples, of weight 1. *)
Definition root_branches (r : res (efdt float)) : option (list (Z * Z)) :=
  match r with Ok s => match t_root (ef_tree s) with Some (Split (TMulti t) _ _) => Some (SplitTests.mw_map t) | _ => None end | Raise _ => None end.
Definition new_values (n : nat) : list (list float * Z * float) := firstn n [([1], 0%Z, 2000); ([3], 1%Z, 2000); ([4], 1%Z, 19); ([4], 1%Z, 1); ([5], 1%Z, 1); ([6], 1%Z, 1)].
Theorem efdt_reevaluation_run_refuted : map (fun n => root_branches (e_run false 33554432 never (new_values n))) [2; 3; 4; 5; 6]%nat
  = [Some [(1, 0); (3, 1)]; Some [(1, 0); (3, 1)]; Some [(1, 0); (3, 1); (4, 2)]; Some [(1, 0); (3, 1); (4, 2); (5, 3)]; Some [(1, 0); (3, 1); (4, 2); (5, 3); (6, 4)]]%Z.
Proof. vm_compute. reflexivity. Qed.

(** C274, refuted: updating the test of a node keeps its children at their branch numbers, which now belong to other values.  All
    2000 samples with value 1 are of class 0 and the tree says so; 20 samples with value 0, of class 1, move value 1 to the leaf of
    value 3, and the tree answers class 1. *)
Theorem efdt_retest_refuted : exists s s',
  e_run false 33554432 never [([1], 0%Z, 2000); ([3], 1%Z, 2000)] = Ok s /\ e_votes s [1] = Ok [(0%Z, 2000)] /\
  e_run false 33554432 never [([1], 0%Z, 2000); ([3], 1%Z, 2000); ([0], 1%Z, 20)] = Ok s' /\ e_votes s' [1] = Ok [(1%Z, 2000)].
Proof. eexists. eexists. repeat (split; [vm_compute; reflexivity|]). vm_compute. reflexivity. Qed.

(** The hypotheses of the counters theorem and of the statistics theorem are met by a tree that splits: binary splits, two attributes. *)
Example efdt_counters_example : exists s r, e_run true 33554432 never [([1; 2], 0%Z, 2000); ([3; 2], 1%Z, 2000); ([1; 5], 0%Z, 20); ([3; 2], 1%Z, 300)] = Ok s
  /\ @two_branches float (e_cfg true 33554432 never) /\ t_root (ef_tree s) = Some r /\ is_split r = true /\ e_counts (Ok s) = Some (1, 2, 0)%Z
  /\ @since_clear float NumF (map (fun r => EFit [fst r] None (Some [snd r])) [([1; 2], 0%Z, 2000); ([3; 2], 1%Z, 2000); ([1; 5], 0%Z, 20); ([3; 2], 1%Z, 300)]) = [(0%Z, 2000); (1%Z, 2000); (0%Z, 20); (1%Z, 300)]
  /\ kept r = [(0%Z, 2020); (1%Z, 2300)].
Proof. eexists. eexists. split; [vm_compute; reflexivity|]. split; [now left|]. repeat (split; [vm_compute; reflexivity|]). vm_compute. reflexivity. Qed.
(** The kill rule and the split rule are met: the third and the fourth sample of [same_value]. *)
Example efdt_rules_example : e_counts (e_run false 33554432 never (same_value 3)) = Some (0, 1, 0)%Z /\ e_counts (e_run false 33554432 never (same_value 4)) = Some (1, 1, 0)%Z.
Proof. split; vm_compute; reflexivity. Qed.
Example efdt_room_example : enough_memory (mk_cfg 33554432%R false (fun _ : R => false)) (ef_tree (efdt_new (T := R))).
Proof. split; [reflexivity|]. intros n m. cbn [efdt_new ef_tree tree_new t_active_size t_inactive_size t_overhead c_max_bytes]. cbn. apply Rltb_false. lra. Qed.

Print Assumptions efdt_sample_weights_refuted.
Print Assumptions efdt_one_by_one.
Print Assumptions efdt_counters_partial.
Print Assumptions efdt_leaf_split_rule.
Print Assumptions efdt_kill_rule.
Print Assumptions efdt_classes_fixed.
Print Assumptions efdt_root_statistics.
Print Assumptions efdt_stays_due_refuted.
Print Assumptions efdt_proba_rows.
Print Assumptions efdt_counters_refuted.
Print Assumptions efdt_useless_splits_refuted.
Print Assumptions efdt_reevaluation_run_refuted.
Print Assumptions efdt_retest_refuted.
