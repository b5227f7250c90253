(** The trees of the adaptive random forests: what their leaves watch, and when they are Hoeffding trees. *)
From Coq Require Import List ZArith QArith Floats Bool Lia.
From Verif Require Import Base.Py Base.Num Base.NumFloat Base.Dict Model.Adwin Model.SplitTests Model.Knn Model.NaiveBayes Model.TargetStats Model.TreeSkeleton Model.HoeffdingTree Model.ArfTree Spec.TreeSpec Spec.TreeRelSpec Spec.ArfTreeSpec Spec.HoeffdingSpec
  Proofs.TreeProofs Proofs.TreeRelProofs Proofs.TreeEveryProofs Proofs.HoeffdingProofs Proofs.ArfTreeProofs Props.HoeffdingProps.
Import ListNotations.
Local Open Scope Z_scope.

Lemma nrel_place {L L' I I' S S' E E'} (RL : L -> L' -> Prop) (RI : I -> I' -> Prop) (RS : S -> S' -> Prop) (RE : E -> E' -> Prop) p : forall t t' a, nrel RL RI RS RE t t' -> node_at t p = Some a -> exists a', node_at t' p = Some a' /\ nrel RL RI RS RE a a'.
Proof.
  induction p as [|b p IH]; intros t t' a H E0; cbn [node_at] in *; [injection E0 as <-; eauto|]. destruct H as [| |te te' st st' ch ch' He Hs Hc]; try discriminate.
  destruct (dget ch b) as [c|] eqn:Ec; [|discriminate]. assert (D : exists c', dget ch' b = Some c' /\ nrel RL RI RS RE c c').
  { clear - Hc Ec. induction Hc as [|[k c0] [k' c0'] ch ch' [Hk Hn] _ IHc]; [discriminate|]. cbn in Hk, Hn. subst k'. cbn [dget] in *. destruct (Z.eqb k b); [injection Ec as <-; eauto|auto]. }
  destruct D as (c' & -> & Hn). eauto.
Qed.

Section Any.
Context {T : Type} {N : Num T} (k : T) (phi : T -> T) (key : T -> Z) (cfg : ht_config T) (m : Z) (n : nat) (sz : sizes T (arf_leaf T) (list (Z * T)) (list (Z * T)) (htest T)).
Local Notation run := (arf_run k phi key cfg m sz).
Local Notation O := (arf_ops k phi key cfg m).
Definition sound (i : arf_inst T) : Prop := length (ai_x i) = n /\ right_pick m n (ai_pick i).

Lemma self_events A es : arf_each (fun i => sound i /\ Forall A (ai_pick i)) es -> forall es', Forall2 (arf_agree A) es es' -> Forall2 (event_rel m A n) es es'.
Proof.
  intros H es' F. revert H. induction F as [|e e' es es' He F IH]; intros H; inversion H as [|? ? H1 H2]; subst; constructor; [|now apply IH].
  destruct e as [rows c ws|], e' as [rows' c' ws'|]; cbn in He |- *; auto. destruct He as (He & Hc & Hw). split; auto. clear - He H1.
  induction He as [|[i y] [i' y'] rows rows' (Ha & Hp & Hy) _ IH]; inversion H1 as [|? ? [[Ln Rp] Fa] H3]; subst; constructor; auto. cbn [fst snd] in *. repeat split; auto; try apply Ha; apply Rp.
Qed.
Lemma agree_refl A (x : list T) : agree A x x. Proof. split; auto. Qed.
Lemma agree_events A es : Forall2 (arf_agree (T := T) A) es es.
Proof. induction es as [|[rows c ws|] es IH]; constructor; auto; cbn; auto. repeat split; auto. clear. induction rows; constructor; auto. repeat split; auto. Qed.
Lemma reached_rel A es s : arf_each (fun i => sound i /\ Forall A (ai_pick i)) es -> run arf_new es = Ok s -> state_rel m A n s s.
Proof.
  intros H E. pose proof (arf_run_rel k phi key cfg m A n sz true es es (self_events A es H es (agree_events A es)) arf_new arf_new ltac:(split; [apply rel_new|reflexivity])) as R. rewrite E in R. exact R.
Qed.
Lemma each_mono (P Q : arf_inst T -> Prop) es : (forall i, P i -> Q i) -> arf_each P es -> arf_each Q es.
Proof. intros H F. induction F as [|e es He F IH]; constructor; auto. destruct e; auto. eapply Forall_impl; [|exact He]. auto. Qed.

(** C310: after training with instances of n attributes, every leaf that can grow has observers exactly for the max_features distinct
    attributes it chose at its first sample (none before it), and every split tests one of the n attributes. *)
Theorem arf_leaf_watches : forall es s r p, arf_each sound es -> run arf_new es = Ok s -> t_root (ar_tree s) = Some r ->
  (forall l, node_at r p = Some (Active l) -> dkeys (lf_obs (al_leaf l)) = al_features l /\ (al_features l = [] \/ right_pick m n (al_features l))) /\
  (forall te st ch, node_at r p = Some (Split te st ch) -> 0 <= ht_att te < Z.of_nat n).
Proof.
  intros es s r p H E Er. destruct (reached_rel (fun _ => True) es s) as [[R] _]; auto. { eapply each_mono; [|exact H]. intros i Hi. split; auto. apply Forall_forall. auto. }
  rewrite Er in R. split.
  - intros l Hn. destruct (nrel_place _ _ _ _ _ _ _ _ R Hn) as (a' & _ & Ha). inversion Ha as [? ? [_ (W1 & W2 & _)]| |]; subst. auto.
  - intros te st ch Hn. destruct (nrel_place _ _ _ _ _ _ _ _ R Hn) as (a' & _ & Ha). inversion Ha as [| |? ? ? ? ? ? [_ [_ W]]]; subst. auto.
Qed.
(** ... a leaf never changes its choice while it learns, and takes the generator's when it has none. *)
Theorem arf_leaf_keeps : forall l i y w l', o_learn O l i y w = Ok l' -> al_features l' = match al_features l with [] => ai_pick i | f => f end.
Proof.
  intros l i y w l' H. cbn [o_learn arf_ops] in H. unfold al_learn in H. cbv zeta in H. apply bind_Ok in H as ([mc nb] & _ & H). apply bind_Ok in H as (fs & Ef & H). apply bind_Ok in H as (obs & _ & H). injection H as <-. cbn [al_features].
  unfold a_features, a_sample in Ef. destruct (al_features l); [destruct (_ || _); [discriminate|]|]; now injection Ef as <-.
Qed.
(** C311: when a sample makes the tree split, the new split tests an attribute the leaf had chosen. *)
Theorem arf_splits_on_watched : forall es s x y w c s', arf_each sound es -> sound x -> run arf_new es = Ok s -> arf_fit k phi key cfg m sz s [(x, y)] c (Some [w]) = Ok s' ->
  t_decision (ar_tree s') = t_decision (ar_tree s) + 1 ->
  exists p l te st ch r', reaches O (match t_root (ar_tree s) with Some r => r | None => Active (al_new []) end) x p (Active l) /\ t_root (ar_tree s') = Some r' /\ node_at r' p = Some (Split te st ch)
    /\ In (ht_att te) (match al_features l with [] => ai_pick x | f => f end).
Proof.
  intros es s x y w c s' H Hx E F D. assert (G : arf_good (ar_tree s)). { refine (arf_run_good k phi key cfg m sz es _ arf_new s (good_new test_ok akeys_ok ndk) E). eapply each_mono; [|exact H]. intros i [_ (_ & _ & Hp)]. eapply Forall_impl; [|exact Hp]. intros a Ha. cbn in Ha. lia. }
  unfold arf_fit in F. cbn [length Nat.eqb] in F. cbn [arf_rows] in F. apply bind_Ok in F as (t & F & Et). injection Et as <-. apply bind_Ok in F as (t1 & F & Et). injection Et as <-. cbn [ar_tree] in *.
  assert (Hp : apick_ok x y w) by (destruct Hx as [_ (_ & _ & Hp)]; eapply Forall_impl; [|exact Hp]; intros a Ha; cbn in Ha; lia).
  unfold fit_weighted in F. destruct (w =? n0)%num; [injection F as <-; lia|]. set (t0 := mk_tree _ _ _ _ _ _ _ _ _) in F.
  assert (G0 : arf_good t0) by (destruct G as [G1 G2]; split; auto).
  destruct (arf_split_cause k phi key cfg m sz _ _ _ _ _ Hp G0 F) as [C1 C2]. apply C1 in D as (p & l & l' & l2 & te & ds & R & L & Gr & Du & De). destruct (C2 _ _ _ _ _ _ R L Gr Du De) as (r' & ch & Er & Hn & _).
  exists p, l, te, (o_stats O l'), ch, r'. apply route_reaches in R. split; [exact R|]. split; auto. split; auto. pose proof (arf_leaf_keeps _ _ _ _ _ L) as Kp. rewrite <- Kp.
  cbn [o_decide arf_ops] in De. apply adecide_inv in De as ([lf|lf|lf te0 ds0] & Ed & De); try discriminate. injection De as -> -> ->. apply decide_watches in Ed as [_ Ed].
  assert (W : watches m (fun _ => True) n l').
  { destruct (reached_rel (fun _ => True) es s) as [[Rr] _]; auto. { eapply each_mono; [|exact H]. intros i Hi. split; auto. apply Forall_forall. auto. }
    assert (Wl : watches m (fun _ => True) n l).
    { apply route_reaches, route_found in R. destruct R as [R _]. unfold root_or_new in R. cbn [t_root t0] in R. destruct (t_root (ar_tree s)) as [r|] eqn:Err; [|destruct p; cbn in R; [injection R as <-; apply watches_new|discriminate]].
      destruct (nrel_place _ _ _ _ _ _ _ _ Rr R) as (a' & _ & Ha). inversion Ha as [? ? [_ W]| |]; subst. exact W. }
    assert (Fi : fitting m (fun _ => True) n x x) by (destruct Hx as [Hx1 Hx2]; split; [auto|split; [apply agree_refl|split; [auto|split; [auto|apply Forall_forall; auto]]]]).
    pose proof (al_learn_rel k key cfg m (fun _ => True) n true l x x y w Wl Fi) as Rl. cbn [o_learn arf_ops] in L. rewrite L in Rl. apply Rl. }
  destruct W as (W & _). rewrite <- W. exact Ed.
Qed.

(** C312: attributes that no leaf chooses do not matter.  Two histories with the same labels, weights and choices whose instances
    agree on a set of attributes that contains all choices give the same tree, or raise alike; the tree tests only those attributes,
    and answers alike to instances that agree on them. *)
Theorem arf_unwatched_irrelevant : forall A es es', arf_each (fun i => sound i /\ Forall A (ai_pick i)) es -> Forall2 (arf_agree A) es es' ->
  run arf_new es = run arf_new es' /\
  forall s, run arf_new es = Ok s -> (forall r p te st ch, t_root (ar_tree s) = Some r -> node_at r p = Some (Split te st ch) -> A (ht_att te)) /\
    forall x x', agree A x x' -> arf_votes k phi key cfg m s x = arf_votes k phi key cfg m s x'.
Proof.
  intros A es es' H F. split.
  - pose proof (arf_run_rel k phi key cfg m A n sz true es es' (self_events A es H es' F) arf_new arf_new ltac:(split; [apply rel_new|reflexivity])) as R.
    destruct (run arf_new es) as [s|e], (run arf_new es') as [s'|e']; cbn in R; try discriminate; [|now rewrite R]. destruct R as [R1 R2]. apply trel_diag in R1. destruct s, s'. cbn in *. congruence.
  - intros s E. destruct (reached_rel A es s H E) as [[R] _]. split.
    { intros r p te st ch Er Hn. rewrite Er in R. destruct (nrel_place _ _ _ _ _ _ _ _ R Hn) as (a' & _ & Ha). inversion Ha as [| |? ? ? ? ? ? [_ [W _]]]; subst. auto. }
    intros x x' Ag. destruct (t_root (ar_tree s)) as [r|] eqn:Hr; [|unfold arf_votes, answering; now rewrite Hr].
    assert (Er : route O r (mk_ai x []) = route O r (mk_ai x' [])).
    { clear E Hr. revert R. generalize r at 2. induction r as [l|i|te st ch IH] using node_rect'; intros r' R; cbn [route]; auto. inversion R as [| |? ? ? ? ? ch' [_ [W1 W2]] _ Hc]; subst. cbn [o_branch arf_ops ai_x]. rewrite (branch_agree key A te x x' Ag); [|lia|auto].
      destruct (ht_branch key te x') as [c|]; cbn [bind]; auto. destruct (0 <=? c)%Z; auto. clear - IH Hc. revert ch' Hc. induction IH as [|[kk c0] ch Hc0 _ IHc]; intros ch' Hc; auto. inversion Hc as [|? [k' c1] ? ch1 [Hk Hn] Hc']; subst. cbn in Hc0, Hn. destruct (Z.eqb kk c); [now rewrite (Hc0 _ Hn)|eapply IHc; eauto]. }
    assert (Ea : answering O (ar_tree s) (mk_ai x []) = answering O (ar_tree s) (mk_ai x' [])) by (unfold answering; destruct (t_root (ar_tree s)); auto; injection Hr as ->; now rewrite Er).
    unfold arf_votes. rewrite Ea. destruct (answering O (ar_tree s) (mk_ai x' [])) as [[[l|i|te st ch]|]|e] eqn:Ean; cbn [bind]; auto.
    assert (Ev : root_every (watches m A n) (fun _ => True) (fun _ => True) (ar_tree s)).
    { intros r0 E0. rewrite Hr in E0. injection E0 as <-. clear - R. revert R. generalize r at 2. induction r as [l|i|te st ch IH] using node_rect'; intros r' R; inversion R as [? ? [_ W]| |? ? ? ? ? ch' _ _ Hc]; subst; constructor; auto.
      clear - IH Hc. revert ch' Hc. induction IH as [|[kk c0] ch Hc0 _ IHc]; intros ch' Hc; constructor; inversion Hc as [|? [k' c1] ? ch1 [Hk Hn] Hc']; subst; eauto. }
    pose proof (every_answering O _ _ _ _ _ _ Ev Ean) as W. inversion W as [? (W1 & _ & W2)| |]; subst.
    unfold leaf_votes. rewrite Forall_forall in W2. rewrite <- W1 in W2. rewrite (nb_votes_agree key k A (lf_obs (al_leaf l)) _ x x' Ag W2). reflexivity.
Qed.
End Any.

Section More.
Context {T : Type} {N : Num T}.
(** C313: with max_features equal to the number n of attributes, and a generator that lists them in order, the tree is the Hoeffding
    tree: it raises in the same cases, has the same tests, statistics, observers and counters, and gives the same votes.
    remove_poor_atts must be off or the leaves answer with the majority class; no memory estimate falls due. *)
Theorem arf_full_is_hoeffding : forall k phi key (cfg : ht_config T) n sz sz' es, h_poor cfg = false \/ h_kind cfg = MC -> (forall w, c_period_due (h_memory cfg) w = false) ->
  arf_each (fun i => length (ai_x i) = n /\ ai_pick i = all_features n) es ->
  match arf_run k phi key cfg (Z.of_nat n) sz arf_new es, ht_run k phi key cfg sz' ht_new (map (fun e => match e with AFit rows c ws => HFit (map (fun r => (ai_x (fst r), snd r)) rows) c ws | AReset => HReset end) es) with
  | Ok s, Ok s' => trel (fun a l => al_leaf a = l) eq eq eq (ar_tree s) (ht_tree s') /\ ar_classes s = ht_classes s' /\ forall x, length x = n -> arf_votes k phi key cfg (Z.of_nat n) s x = ht_votes k phi key cfg s' x
  | Raise e, Raise e' => e = e'
  | _, _ => False
  end.
Proof.
  intros k phi key cfg n sz sz' es P Q H. pose proof (full_run k phi key cfg n sz sz' P Q true es H arf_new ht_new ltac:(split; [apply rel_new|reflexivity])) as R.
  fold (@full_event T). change (map (fun e : arf_event T => match e with AFit rows c ws => HFit (map (fun r => (ai_x (fst r), snd r)) rows) c ws | AReset => HReset end) es) with (map (@full_event T) es).
  destruct (arf_run k phi key cfg (Z.of_nat n) sz arf_new es) as [s|e], (ht_run k phi key cfg sz' ht_new (map full_event es)) as [s'|e']; cbn in R; try discriminate; auto.
  split; [|split; [apply R|intros x Lx; exact (full_votes k phi key cfg n sz sz' P Q s s' x R Lx)]]. destruct R as [R _]. destruct R. constructor; auto.
  destruct (t_root (ar_tree s)) as [r|], (t_root (ht_tree s')) as [r'|]; auto. revert r r' tr_root. apply nrel_ind'; [intros l l' [Hl _]; now constructor|intros i i' Hi; now constructor|].
  intros te te' st st' ch ch' He Hs _ Hc. now constructor.
Qed.
(** C314: a tree asked to watch more attributes than there are (or fewer than none) refuses its first sample. *)
Theorem arf_too_many : forall k phi key (cfg : ht_config T) m sz i y w c, (w =? n0)%num = false -> m < 0 \/ Z.of_nat (length (ai_x i)) < m ->
  arf_fit k phi key cfg m sz arf_new [(i, y)] c (Some [w]) = Raise ValueError.
Proof.
  intros k phi key cfg m sz i y w c Hw Hm. unfold arf_fit. cbn [length Nat.eqb arf_rows ar_tree arf_new]. unfold fit_weighted. rewrite Hw. unfold fit_one. cbn [t_root tree_new route bind learn_found o_new arf_ops o_learn]. unfold al_learn. cbv zeta.
  assert (E : a_features m (al_features (al_new (T := T) [])) (length (ai_x i)) (ai_pick i) = Raise ValueError).
  { cbn. unfold a_sample. destruct (Z.ltb_spec (Z.of_nat (length (ai_x i))) m); [reflexivity|]. destruct (Z.ltb_spec m 0); [reflexivity|lia]. }
  rewrite E. destruct (h_kind cfg); cbn [bind]; auto.
Qed.
(** C315: get_model_measurements of such a tree: the counters are the numbers of nodes, and training never takes splits away. *)
Theorem arf_measurements : forall k phi key (cfg : ht_config T) m sz es s, arf_each (fun i => Forall (fun a => 0 <= a) (ai_pick i)) es -> arf_run k phi key cfg m sz arf_new es = Ok s -> counters_right (ar_tree s).
Proof. intros k phi key cfg m sz es s H E. apply (arf_run_good k phi key cfg m sz es H arf_new s (good_new test_ok akeys_ok ndk) E). Qed.
Theorem arf_only_grows : forall k phi key (cfg : ht_config T) m sz es s rows c ws s', arf_each (fun i => Forall (fun a => 0 <= a) (ai_pick i)) (es ++ [AFit rows c ws]) ->
  arf_run k phi key cfg m sz arf_new es = Ok s -> arf_fit k phi key cfg m sz s rows c ws = Ok s' ->
  t_decision (ar_tree s) <= t_decision (ar_tree s') /\ (t_growth (ar_tree s) = false -> t_decision (ar_tree s') = t_decision (ar_tree s) /\ t_growth (ar_tree s') = false).
Proof.
  intros k phi key cfg m sz es s rows c ws s' H E F. apply Forall_app in H as [H1 H2]. inversion H2 as [|? ? H3 _]; subst. pose proof (arf_run_good k phi key cfg m sz es H1 arf_new s (good_new test_ok akeys_ok ndk) E) as G.
  unfold arf_fit in F. cbv zeta in F. destruct (Nat.eqb _ _); [|discriminate]. apply bind_Ok in F as (t & F & Et). injection Et as <-. apply (arf_rows_good k phi key cfg m sz rows H3 _ _ _ G F).
Qed.
End More.

(** Examples.  Two attributes, of which the leaves watch one: the label is the first attribute, the second is noise. *)
Definition arf_sizes : sizes float (arf_leaf float) (list (Z * float)) (list (Z * float)) (htest float) := mk_sizes (fun _ => 1%float) (fun _ => 1%float) (fun _ => 1%float).
Local Notation frun cfg m := (@arf_run float NumF 1%float (fun x => x) ex_key cfg m arf_sizes (@arf_new float NumF)).
Definition arf_rows_ex (noise : float) : list (arf_event float) :=
  [AFit [(mk_ai [0%float; noise] [0], 0); (mk_ai [1%float; noise] [0], 1); (mk_ai [0%float; noise] [0], 0); (mk_ai [1%float; noise] [0], 1); (mk_ai [1%float; noise] [0], 1)] None None].
Example arf_example : arf_each (fun i => @sound float 1 2 i /\ Forall (fun a => a = 0) (ai_pick i)) (arf_rows_ex 0%float) /\ Forall2 (arf_agree (fun a => a = 0)) (arf_rows_ex 0%float) (arf_rows_ex 1%float)
  /\ exists s, frun ex_cfg 1 (arf_rows_ex 0%float) = Ok s /\ t_decision (ar_tree s) = 1 /\ @arf_votes float NumF 1%float (fun x => x) ex_key ex_cfg 1 s [1%float; 7%float] = Ok [(1, 3%float)].
Proof.
  split; [|split].
  - repeat constructor; cbn; auto; try lia.
  - constructor; [|constructor]. cbn. split; [|auto]. repeat (constructor; [split; [split; [reflexivity|]|auto]; intros [|[|a]] Ha; auto; lia|]). constructor.
  - eexists. repeat (split; [vm_compute; reflexivity|]). vm_compute. reflexivity.
Qed.
Definition arf_full_rows : list (arf_event float) := [AFit (map (fun r => (mk_ai (fst r) [0], snd r)) ex_rows) None None].
Example arf_full_example : arf_each (fun i => length (ai_x i) = 1%nat /\ ai_pick i = all_features 1) arf_full_rows /\ exists s, frun ex_cfg 1 arf_full_rows = Ok s /\ t_decision (ar_tree s) = 1.
Proof. split; [repeat constructor|]. eexists. split; vm_compute; reflexivity. Qed.

(** C316, refuted: the tree sets remove_poor_attributes = False and Hoeffding trees with Naive Bayes leaves never disable an attribute,
    because its observer is part of the prediction.  The leaves of these trees do: once remove_poor_atts has disabled one attribute,
    all votes of the leaf are 0, and predict answers 0 for samples of class 1 that a Hoeffding tree classifies. *)
Definition poor_cfg : ht_config float := @mk_ht float 4%float (@gini float NumF) 0.5%float 0%float false true true NB 0%float (fun _ => true) (@mk_cfg float 1000000%float false (fun _ => false)).
Definition poor_rows : list (arf_event float) :=
  [AFit (map (fun r => (mk_ai (fst r) [0; 1; 2], snd r)) [([0; 0; 0]%float, 0); ([0; 0; 1]%float, 0); ([1; 1; 0]%float, 1); ([1; 1; 1]%float, 1)]) None None].
Theorem arf_poor_refuted : exists s s', frun poor_cfg 3 poor_rows = Ok s
  /\ @ht_run float NumF 1%float (fun x => x) ex_key poor_cfg ex_sizes (@ht_new float NumF) (map full_event poor_rows) = Ok s'
  /\ @arf_votes float NumF 1%float (fun x => x) ex_key poor_cfg 3 s [1; 1; 1]%float = Ok [(0, 0%float); (1, 0%float)]
  /\ @arf_predict float NumF 1%float (fun x => x) ex_key poor_cfg 3 s [[1; 1; 1]%float] = Ok [0%nat]
  /\ @ht_predict float NumF 1%float (fun x => x) ex_key poor_cfg s' [[1; 1; 1]%float] = Ok [1%nat].
Proof. do 2 eexists. repeat (split; [vm_compute; reflexivity|]). vm_compute. reflexivity. Qed.
Print Assumptions arf_leaf_watches. Print Assumptions arf_leaf_keeps. Print Assumptions arf_splits_on_watched. Print Assumptions arf_unwatched_irrelevant. Print Assumptions arf_full_is_hoeffding. Print Assumptions arf_too_many.
Print Assumptions arf_measurements. Print Assumptions arf_only_grows. Print Assumptions arf_poor_refuted.
