(** Hoeffding tree classifier: the tree and its counters, one sample at a time. *)
From Coq Require Import List ZArith Bool Lia Floats.
From Verif Require Import Base.Py Base.Num Base.NumFloat Base.Dict Model.TreeSkeleton Model.HoeffdingTree Spec.TreeSpec Spec.HoeffdingSpec
  Proofs.TreeProofs Proofs.HoeffdingProofs.
Import ListNotations.
Local Open Scope Z_scope.

Section Props.
Context {T : Type} {N : Num T}.
(** External functions, constructor arguments, object sizes: all arbitrary *)
Variables (k : T) (phi : T -> T) (key : T -> Z) (cfg : ht_config T) (sz : sizes T (leaf T) (list (Z * T)) (list (Z * T)) (htest T)).
Local Notation O := (ht_ops k phi key cfg).
Local Notation reached := (ht_reached k phi key cfg sz).
Local Notation fit := (ht_fit k phi key cfg sz).

(** C121: after any sequence of partial_fit and reset calls the numbers of model_measurements (decision nodes, active and
    inactive leaves, tree size, depth) are those of the tree. *)
Theorem ht_measurements : forall s, reached s -> counters_right (ht_tree s)
  /\ match t_root (ht_tree s) with
     | None => ht_depth s = 0%nat
     | Some r => t_decision (ht_tree s) + t_active (ht_tree s) + t_inactive (ht_tree s) = Z.of_nat (length (nodes r)) /\ has_depth r (ht_depth s)
     end.
Proof.
  intros s H. destruct (reached_good _ _ _ _ _ _ H) as [C _]. split; auto. unfold counters_right, ht_depth in *. destruct (t_root (ht_tree s)) as [r|]; auto.
  destruct C as (-> & -> & ->). split; [apply count_sum|apply depth_ok].
Qed.

(** C122: a sample changes the tree only where it arrives.  Every instance that reaches another node keeps its path, and the
    node there keeps its statistics; an active leaf stays the same, object for object, when the memory limit does not bind
    and no size estimate is due. *)
Lemma fit_single s x y w c s' : reached s -> fit s [(x, y)] c (Some [w]) = Ok s' ->
  ht_good (ht_tree s) /\ (ht_tree s' = ht_tree s /\ (w =? n0)%num = true \/ (w =? n0)%num = false /\ fit_one O (h_memory cfg) sz (add_weight (ht_tree s) w) x y w = Ok (ht_tree s')).
Proof.
  intros R H. split; [eapply reached_good; eauto|]. unfold ht_fit in H. cbn [length Nat.eqb ht_rows] in H. apply bind_Ok in H as (t & E & H). injection H as <-. cbn [ht_tree].
  apply bind_Ok in E as (t1 & E & Et). injection Et as <-. unfold fit_weighted in E. destruct (w =? n0)%num; [injection E as <-; auto|]. right. split; auto.
Qed.
Theorem ht_sample_is_local : forall s x y w c s' r p n x2 q m, reached s -> fit s [(x, y)] c (Some [w]) = Ok s' -> t_root (ht_tree s) = Some r ->
  reaches O r x p n -> reaches O r x2 q m -> q <> p ->
  exists r' m', t_root (ht_tree s') = Some r' /\ reaches O r' x2 q m' /\ stats_of O m' = stats_of O m
    /\ (enough_memory (h_memory cfg) (ht_tree s) -> c_period_due (h_memory cfg) (t_weight (ht_tree s) + w)%num = false -> is_active m = true -> m' = m).
Proof.
  intros s x y w c s' r p n x2 q m R H Er R1 R2 Ne. destruct (fit_single _ _ _ _ _ _ R H) as [G [[-> _]|[_ F]]]; [exists r, m; repeat split; auto|].
  apply route_reaches in R1, R2. pose proof (good_add _ w G) as G'.
  assert (E : root_or_new O (add_weight (ht_tree s) w) = r) by (unfold root_or_new, add_weight; cbn [t_root]; now rewrite Er).
  rewrite <- E in R1, R2. destruct (ht_frame _ _ _ _ _ _ _ _ _ _ _ _ _ _ _ G' F R1 R2 Ne) as (m' & r' & A & B & C & D).
  exists r', m'. split; auto. split; [now apply route_reaches|]. split; auto.
Qed.
(** With leaf_prediction='mc', nothing an instance elsewhere is answered changes, memory management included. *)
Theorem ht_mc_votes_local : forall s x y w c s' r p n x2 q m, h_kind cfg = MC -> reached s -> fit s [(x, y)] c (Some [w]) = Ok s' -> t_root (ht_tree s) = Some r ->
  reaches O r x p n -> reaches O r x2 q m -> q <> p -> ht_votes k phi key cfg s' x2 = ht_votes k phi key cfg s x2.
Proof.
  intros s x y w c s' r p n x2 q m K R H Er R1 R2 Ne. destruct (ht_sample_is_local _ _ _ _ _ _ _ _ _ _ _ _ R H Er R1 R2 Ne) as (r' & m' & Er' & R' & Es & _).
  apply route_reaches in R2, R'. unfold ht_votes, answering. rewrite Er, Er', R2, R'. cbn [bind]. unfold leaf_votes. rewrite K.
  destruct m, m'; cbn in Es |- *; congruence.
Qed.

(** C123: where it arrives, a sample adds its weight to its label in the statistics of the leaf, and those statistics stay
    at that place whether the leaf splits, is switched off or is kept. *)
Lemma update_stats_dget d y w c : NoDup (dkeys d) -> dget (update_stats d y w) c = if (y =? c)%Z then Some (match dget d y with Some v => v + w | None => w end)%num else dget d c.
Proof.
  intros ND. unfold update_stats. destruct (dget d y) as [v|] eqn:E; [apply dget_dset|]. rewrite dget_dsort by (now apply NoDup_dset). apply dget_dset.
Qed.
Theorem ht_sample_is_counted : forall s x y w c s' r p n, reached s -> fit s [(x, y)] c (Some [w]) = Ok s' -> (w =? n0)%num = false -> t_root (ht_tree s) = Some r ->
  reaches O r x p n -> is_split n = false ->
  exists r' n', t_root (ht_tree s') = Some r' /\ node_at r' p = Some n'
    /\ forall label, dget (stats_of O n') label = if (y =? label)%Z then Some (match dget (stats_of O n) y with Some v => v + w | None => w end)%num else dget (stats_of O n) label.
Proof.
  intros s x y w c s' r p n R H Hw Er R1 Hn. destruct (fit_single _ _ _ _ _ _ R H) as [G [[_ C]|[_ F]]]; [congruence|]. apply route_reaches in R1.
  destruct (ht_fit_one _ _ _ _ _ _ _ _ _ _ (good_add _ w G) F) as (_ & _ & _ & _ & p0 & n0' & n' & r1 & r' & R0 & U & Er' & SS & _ & Le).
  assert (E : root_or_new O (add_weight (ht_tree s) w) = r) by (unfold root_or_new, add_weight; cbn [t_root]; now rewrite Er).
  rewrite E in R0, U. rewrite R1 in R0. injection R0 as <- <-.
  assert (Q : stats_of O n' = update_stats (stats_of O n) y w).
  { destruct n as [l|i|te st ch]; [| |discriminate]; cbn [learned] in Le.
    - destruct Le as (l' & EL & ->). cbn [o_learn ht_ops stats_of o_stats] in EL |- *. unfold leaf_learn in EL. apply bind_Ok in EL as ([mc nb] & _ & EL). apply bind_Ok in EL as (obs & _ & EL). injection EL as <-. reflexivity.
    - destruct Le as (i' & EL & ->). cbn [o_learn_inactive ht_ops] in EL. injection EL as <-. reflexivity. }
  destruct (update_at_inv _ _ _ _ U) as (n1 & n2 & _ & E2 & N2 & _). injection E2 as <-.
  assert (A : exists m', node_at r' p = Some m' /\ stats_of O n' = stats_of O m').
  { clear - SS N2. revert r1 r' SS N2. induction p as [|b p IH]; intros r1 r' SS N2; cbn [node_at] in *; [injection N2 as <-; exists r'; split; auto; now apply same_stats_eq|].
    destruct r1 as [l|i|te st ch]; try discriminate. destruct (dget ch b) as [c1|] eqn:Ec; [|discriminate]. inversion SS as [|? ? ? ch' F2]; subst; [discriminate|].
    assert (exists c', dget ch' b = Some c' /\ same_stats O c1 c') as (c' & Ec' & Sc).
    { clear - F2 Ec. induction F2 as [|[k1 a] [k2 a'] l l' [E1 E2] F2 IH]; [discriminate|]. cbn in E1, E2. subst k2. cbn [dget] in *. destruct (k1 =? b)%Z; [injection Ec as <-; eauto|auto]. }
    rewrite Ec'. eapply IH; eauto. }
  destruct A as (m' & A1 & A2). exists r', m'. split; auto. split; auto. intros label. rewrite <- A2, Q. apply update_stats_dget.
  destruct (reached_good _ _ _ _ _ _ R) as [_ W]. rewrite Er in W. destruct (route_found _ _ _ _ _ R1) as [Hat _]. pose proof (wf_node_at _ _ _ _ _ _ W Hat) as Wn.
  destruct Wn as [l0 [_ K]|i0 K|]; auto. discriminate.
Qed.

(** C124: between resets the tree only grows: a call never removes a split node; one sample makes at most one split; and once
    growth has stopped there are no further splits. *)
Theorem ht_only_grows : forall s rows c ws s', reached s -> fit s rows c ws = Ok s' ->
  t_decision (ht_tree s) <= t_decision (ht_tree s') <= t_decision (ht_tree s) + Z.of_nat (length rows)
  /\ (t_growth (ht_tree s) = false -> t_decision (ht_tree s') = t_decision (ht_tree s) /\ t_growth (ht_tree s') = false).
Proof.
  intros s rows c ws s' R H. pose proof (reached_good _ _ _ _ _ _ R) as G. destruct (fit_good _ _ _ _ _ _ _ _ _ _ G H) as (_ & D & F). split; [split; auto|auto].
  unfold ht_fit in H. cbv zeta in H. destruct (Nat.eqb _ _); [|discriminate]. apply bind_Ok in H as (t & E & H). injection H as <-. cbn [ht_tree].
  revert E G. clear. generalize (ht_tree s) as t0. generalize (match ws with Some ws => ws | None => repeat n1 (length rows) end) as ws'.
  induction rows as [|[x y] rows IH]; intros ws' t0 E G; cbn [ht_rows] in E; [destruct ws'; injection E as <-; cbn; lia|].
  destruct ws' as [|w ws']; [injection E as <-; lia|]. apply bind_Ok in E as (t1 & E1 & E). destruct (fit_weighted_good _ _ _ _ _ _ _ _ _ _ G E1) as (G1 & D1 & _).
  specialize (IH _ _ E G1). cbn [length]. destruct D1 as [D1|[D1 _]]; lia.
Qed.
(** A path once built is never revised: it can only become longer. *)
Theorem ht_paths_extend : forall s x y w c s' r r' x2 q m q' m', reached s -> fit s [(x, y)] c (Some [w]) = Ok s' -> t_root (ht_tree s) = Some r ->
  t_root (ht_tree s') = Some r' -> reaches O r x2 q m -> reaches O r' x2 q' m' -> exists e, q' = q ++ e.
Proof.
  intros s x y w c s' r r' x2 q m q' m' R H Er Er' R2 R2'. apply route_reaches in R2, R2'.
  destruct (fit_single _ _ _ _ _ _ R H) as [G [[E _]|[_ F]]]; [rewrite E, Er in Er'; injection Er' as <-; rewrite R2 in R2'; injection R2' as <- <-; exists []; now rewrite app_nil_r|].
  pose proof (good_add _ w G) as G'.
  assert (E : root_or_new O (add_weight (ht_tree s) w) = r) by (unfold root_or_new, add_weight; cbn [t_root]; now rewrite Er).
  destruct (ht_fit_one _ _ _ _ _ _ _ _ _ _ G' F) as (_ & _ & _ & _ & p & n & n' & r1 & r2 & R0 & U & Er2 & SS & _ & _).
  rewrite Er' in Er2. injection Er2 as <-. rewrite E in R0, U. destruct (list_eq_dec Z.eq_dec q p) as [->|Ne].
  - apply same_stats_sym in SS. destruct (same_stats_route _ x2 _ _ _ _ SS R2') as (m1 & R1 & _). exact (route_prefix _ x2 p _ _ _ _ _ _ U R2 R1).
  - rewrite <- E in R0, R2. destruct (ht_frame _ _ _ _ _ _ _ _ _ _ _ _ _ _ _ G' F R0 R2 Ne) as (m1 & r3 & A & B & _). rewrite A in Er'. injection Er' as ->.
    rewrite B in R2'. injection R2' as <- <-. exists []. now rewrite app_nil_r.
Qed.
End Props.

(** A concrete tree: one nominal attribute equal to the label, Gini criterion; the fourth sample splits the root, a later
    sample with a new value opens a third branch. *)
Definition ex_key (v : float) : Z := if (v =? 0)%float then 0 else if (v =? 1)%float then 1 else 2.
Definition ex_cfg : ht_config float :=
  @mk_ht float 4%float (@gini float NumF) 0.5%float 0.5%float false false false MC 0%float (fun _ => true) (@mk_cfg float 1000000%float false (fun _ => false)).
Definition ex_sizes : sizes float (leaf float) (list (Z * float)) (list (Z * float)) (htest float) :=
  mk_sizes (fun _ => 1%float) (fun _ => 1%float) (fun _ => 1%float).
Local Notation ex_run := (@ht_run float NumF 1%float (fun x => x) ex_key ex_cfg ex_sizes (@ht_new float NumF)).
Local Notation ex_ops := (@ht_ops float NumF 1%float (fun x => x) ex_key ex_cfg).
Definition ex_rows : list (list float * Z) := [([0%float], 0); ([1%float], 1); ([0%float], 0); ([1%float], 1)].
Definition ex_tree : res (ht float) := ex_run [HFit ex_rows None None; HFit [([2%float], 0)] None None].
Example ht_example : exists s r m m',
  @ht_reached float NumF 1%float (fun x => x) ex_key ex_cfg ex_sizes s
  /\ t_root (ht_tree s) = Some r /\ t_decision (ht_tree s) = 1 /\ t_active (ht_tree s) = 3 /\ ht_depth s = 1%nat
  /\ reaches ex_ops r [0%float] [0] m /\ reaches ex_ops r [2%float] [2] m' /\ is_active m = true
  /\ dget (stats_of ex_ops m) 0 = Some 2%float
  /\ (exists s', @ht_fit float NumF 1%float (fun x => x) ex_key ex_cfg ex_sizes s [([0%float], 1)] None (Some [3%float]) = Ok s').
Proof.
  destruct ex_tree as [s|e] eqn:E; [|vm_compute in E; discriminate]. exists s. assert (R : @ht_reached float NumF 1%float (fun x => x) ex_key ex_cfg ex_sizes s) by (eexists; exact E).
  vm_compute in E. injection E as <-. do 3 eexists. split; [exact R|]. clear R. split; [reflexivity|]. repeat (split; [reflexivity|]).
  split; [apply route_reaches; vm_compute; reflexivity|]. split; [apply route_reaches; vm_compute; reflexivity|]. repeat (split; [reflexivity|]).
  eexists. vm_compute. reflexivity.
Qed.

Print Assumptions ht_measurements.
Print Assumptions ht_sample_is_local.
Print Assumptions ht_mc_votes_local.
Print Assumptions ht_sample_is_counted.
Print Assumptions ht_only_grows.
Print Assumptions ht_paths_extend.
