(** Hoeffding tree classifier: memory management. *)
From Coq Require Import List ZArith QArith Reals Bool Lia Lra Floats.
From Verif Require Import Base.Py Base.Num Base.NumFloat Base.Dict Spec.Lists Spec.CriteriaSpec Model.SplitCriteria Model.TreeSkeleton Model.HoeffdingTree Spec.TreeSpec Spec.HoeffdingSpec Spec.SplitRuleSpec
  Proofs.CriteriaProofs Proofs.TreeProofs Proofs.HoeffdingProofs Props.HoeffdingProps.
Import ListNotations.
Local Open Scope Z_scope.

Lemma ordered_R : @ordered R NumR.
Proof. split; cbn; intros; unfold Rltb in *; repeat match goal with H : context [Rlt_dec ?a ?b] |- _ => destruct (Rlt_dec a b) | |- context [Rlt_dec ?a ?b] => destruct (Rlt_dec a b) end; auto; try discriminate; lra. Qed.
Lemma ordered_Q : @ordered Q NumQ.
Proof.
  split; cbn [nltb NumQ].
  - intros a b H. apply negb_true_iff in H. apply negb_false_iff, Qle_bool_iff, Qlt_le_weak, Qnot_le_lt. intros C. apply Qle_bool_iff in C. congruence.
  - intros a b c H1 H2. apply negb_false_iff in H1, H2. apply negb_false_iff. rewrite Qle_bool_iff in *. eapply Qle_trans; eauto.
Qed.

Section Props.
Context {T : Type} {N : Num T}.
Variables (k : T) (phi : T -> T) (key : T -> Z) (cfg : ht_config T) (sz : sizes T (leaf T) (list (Z * T)) (list (Z * T)) (htest T)).
Local Notation O := (ht_ops k phi key cfg).
Local Notation reached := (ht_reached k phi key cfg sz).
Local Notation fit := (ht_fit k phi key cfg sz).

(** C125: after a sample that makes a split (stop_mem_management=False, no size estimate due at that sample), the active
    leaves are as many as fit the memory limit by the size estimates, and no inactive leaf has a greater promise than an
    active one. *)
Theorem ht_memory_limit : forall s x y w c s' r', @ordered T N -> reached s -> fit s [(x, y)] c (Some [w]) = Ok s' -> t_root (ht_tree s') = Some r' ->
  c_stop (h_memory cfg) = false -> c_period_due (h_memory cfg) (t_weight (ht_tree s) + w)%num = false -> t_decision (ht_tree s') = t_decision (ht_tree s) + 1 ->
  let leaves := Z.to_nat (t_active (ht_tree s') + t_inactive (ht_tree s')) in
  let active := Z.to_nat (t_active (ht_tree s')) in
  let bytes j := ((nofZ (Z.of_nat j) * t_active_size (ht_tree s) + nofZ (Z.of_nat (leaves - j)) * t_inactive_size (ht_tree s)) * t_overhead (ht_tree s))%num in
  (forall j, (1 <= j <= active)%nat -> (c_max_bytes (h_memory cfg) <? bytes j)%num = false)
  /\ ((active < leaves)%nat -> (c_max_bytes (h_memory cfg) <? bytes (active + 1)%nat)%num = true)
  /\ forall p n q m, node_at r' p = Some n -> is_inactive n = true -> node_at r' q = Some m -> is_active m = true ->
      (promise (stats_of O m) <? promise (stats_of O n))%num = false.
Proof.
  intros s x y w c s' r' Hord R H Er' Hs Nd D. destruct (fit_single _ _ _ _ _ _ _ _ _ _ _ R H) as [G [[E _]|[_ F]]]; [rewrite E in D; lia|].
  pose proof (good_add _ w G) as G'.
  assert (Q : exists s1 r1, ht_good s1 /\ t_root s1 = Some r1 /\ t_active_size s1 = t_active_size (ht_tree s) /\ t_inactive_size s1 = t_inactive_size (ht_tree s) /\ t_overhead s1 = t_overhead (ht_tree s) /\ enforce O (h_memory cfg) s1 = Ok (ht_tree s')).
  { exact (ht_split_enforced k phi key cfg sz (add_weight (ht_tree s) w) x y w (ht_tree s') G' F Nd D). }
  destruct Q as (s1 & r1 & G1 & Er1 & A1 & A2 & A3 & En).
  pose proof (ht_enforce k phi key cfg s1 r1 (ht_tree s') r' Hord G1 Er1 Hs En Er') as (B1 & B2 & B3).
  destruct (max_active_spec (h_memory cfg) s1 (length (learning_nodes r1)) (length (learning_nodes r1)) 0) as (C1 & C2 & C3).
  fold (budget (h_memory cfg) s1 r1) in C1, C2, C3. cbv zeta. rewrite B2, B1, !Nat2Z.id. unfold active_bytes in C2, C3. rewrite A1, A2, A3 in C2, C3. rewrite Nat.add_1_r.
  split; [intros j Hj; apply C2; lia|]. split; [intros Hl; apply C3; lia|]. exact B3.
Qed.

End Props.

(** The promise of a leaf: the weight of its samples that are not of the most frequent label. *)
Theorem ht_promise : forall d : list (Z * R), (0 < weight d)%R -> exists m, In m (map snd d) /\ (forall v, In v (map snd d) -> v <= m)%R /\ promise d = (weight d - m)%R.
Proof.
  intros d Hd. unfold promise. rewrite vsum_weight. cbn [nltb NumR n0 nofZ]. replace (Rltb 0 (weight d)) with true by (symmetry; now apply Rltb_true).
  unfold dvals. destruct (map snd d) as [|v r] eqn:E; [unfold weight in Hd; rewrite E in Hd; cbn in Hd; lra|].
  assert (Q : forall r v, let m := fold_left (fun m v => if Rltb m v then v else m) r v in In m (v :: r) /\ (forall u, In u (v :: r) -> u <= m)%R).
  { clear. induction r as [|u r IH]; intros v; cbn [fold_left]; [split; [now left|]; intros u [->|[]]; lra|]. destruct (IH (if Rltb v u then u else v)) as [A B]. cbv zeta. split.
    - destruct A as [A|A]; [rewrite <- A; destruct (Rltb v u); [right; now left|now left]|right; now right].
    - intros z Hz. assert (C := B (if Rltb v u then u else v) (or_introl eq_refl)). unfold Rltb in *. destruct (Rlt_dec v u); destruct Hz as [->|[->|Hz]]; try lra; apply B; now right. }
  destruct (Q r v) as [A B]. eexists. split; [exact A|]. split; [exact B|]. reflexivity.
Qed.

(** A tree over a budget of two leaves: the split into three leaves leaves the purest one inactive. *)
Definition q_crit : criterion Q := mk_crit (fun pre post => Some (Z.of_nat (length post) # 1)%Q) (fun _ => 0%Q).
Definition q_cfg : ht_config Q := mk_ht 6%Q q_crit 1%Q 1%Q false false false MC 0%Q (fun _ => true) (mk_cfg 2%Q false (fun w => Qeq_bool w 1)).
Definition q_key (v : Q) : Z := Qnum v.
Definition q_sizes : sizes Q (leaf Q) (list (Z * Q)) (list (Z * Q)) (htest Q) := mk_sizes (fun _ => 1%Q) (fun _ => 0%Q) (fun t => inject_Z (t_active t)).
Definition q_rows : list (list Q * Z) := [([0%Q], 0); ([0%Q], 1); ([1%Q], 0); ([1%Q], 1); ([2%Q], 1)].
Example ht_memory_example : exists s s' r', ht_reached 1%Q (fun x => x) q_key q_cfg q_sizes s /\ ht_fit 1%Q (fun x => x) q_key q_cfg q_sizes s [([2%Q], 1)] None (Some [1%Q]) = Ok s'
  /\ t_root (ht_tree s') = Some r' /\ t_decision (ht_tree s') = t_decision (ht_tree s) + 1 /\ t_active (ht_tree s') = 2 /\ t_inactive (ht_tree s') = 1 /\ node_at r' [2] = Some (Inactive [(1, 2%Q)]).
Proof.
  destruct (ht_run 1%Q (fun x => x) q_key q_cfg q_sizes ht_new [HFit q_rows None None]) as [s|e] eqn:E; [|vm_compute in E; discriminate].
  exists s. assert (R : ht_reached 1%Q (fun x => x) q_key q_cfg q_sizes s) by (eexists; exact E). vm_compute in E. injection E as <-. do 2 eexists. split; [exact R|]. clear R.
  split; [vm_compute; reflexivity|]. repeat split; reflexivity.
Qed.

(** C126, refuted: "stop_mem_management: stop growing as soon as the memory limit is hit".  A leaf without candidate splits
    (here one constant numeric attribute) is pre-pruned, and with stop_mem_management=True that stops the growth of the whole
    tree for good, although the tree never holds more than one byte of the million allowed. *)
Definition stop_cfg (stop : bool) : ht_config float :=
  @mk_ht float 2%float (@gini float NumF) 0.5%float 0.5%float false false false MC 0%float (fun _ => false) (@mk_cfg float 1000000%float stop (fun _ => true)).
Definition stop_sizes : sizes float (leaf float) (list (Z * float)) (list (Z * float)) (htest float) := mk_sizes (fun _ => 1%float) (fun _ => 1%float) (fun _ => 1%float).
Local Notation stop_fit := (fun stop => @ht_fit float NumF 1%float (fun x => x) ex_key (stop_cfg stop) stop_sizes).
Definition stop_rows : list (list float * Z) := [([5%float], 0); ([5%float], 1)].
Theorem ht_stop_mem_management_refuted : exists s, @ht_fit float NumF 1%float (fun x => x) ex_key (stop_cfg true) stop_sizes (@ht_new float NumF) stop_rows None None = Ok s
  /\ forall rows c ws s', @ht_fit float NumF 1%float (fun x => x) ex_key (stop_cfg true) stop_sizes s rows c ws = Ok s' -> t_decision (ht_tree s') = 0.
Proof.
  destruct (@ht_run float NumF 1%float (fun x => x) ex_key (stop_cfg true) stop_sizes (@ht_new float NumF) [HFit stop_rows None None]) as [s|e] eqn:E; [|vm_compute in E; discriminate].
  assert (R : @ht_reached float NumF 1%float (fun x => x) ex_key (stop_cfg true) stop_sizes s) by (eexists; exact E).
  exists s. split; [cbn [ht_run ht_step] in E; apply bind_Ok in E as (s1 & E & E1); injection E1 as <-; exact E|]. intros rows c ws s' H.
  destruct (@ht_only_grows float NumF _ _ _ _ _ _ _ _ _ _ R H) as [_ Q]. vm_compute in E. injection E as <-. destruct (Q eq_refl) as [Q1 _]. rewrite Q1. reflexivity.
Qed.
(** The same tree without stop_mem_management splits on the samples that follow. *)
Example ht_stop_contrast : exists s s', @ht_fit float NumF 1%float (fun x => x) ex_key (stop_cfg false) stop_sizes (@ht_new float NumF) stop_rows None None = Ok s
  /\ @ht_fit float NumF 1%float (fun x => x) ex_key (stop_cfg false) stop_sizes s [([0%float], 0); ([10%float], 1); ([0%float], 0); ([10%float], 1)] None None = Ok s' /\ t_decision (ht_tree s') = 1.
Proof. do 2 eexists. split; [vm_compute; reflexivity|]. split; [vm_compute; reflexivity|]. reflexivity. Qed.

(** And when the limit is hit the tree goes on growing: the check counts one active leaf instead of all of them.  Here the
    tree takes 3 bytes of 2, and growth is still allowed. *)
Definition late_cfg : ht_config float :=
  @mk_ht float 4%float (@gini float NumF) 0.5%float 0.5%float false false false MC 0%float (fun _ => true) (@mk_cfg float 2%float true (fun _ => true)).
Definition late_sizes : sizes float (leaf float) (list (Z * float)) (list (Z * float)) (htest float) := mk_sizes (fun _ => 1%float) (fun _ => 0%float) (fun t => float_of_Z (t_active t + t_inactive t)).
Theorem ht_stop_mem_late_refuted : exists s, @ht_fit float NumF 1%float (fun x => x) ex_key late_cfg late_sizes (@ht_new float NumF) (ex_rows ++ [([2%float], 0)]) None None = Ok s
  /\ z_tree late_sizes (ht_tree s) = 3%float /\ c_max_bytes (h_memory late_cfg) = 2%float /\ c_stop (h_memory late_cfg) = true /\ t_growth (ht_tree s) = true.
Proof. eexists. split; [vm_compute; reflexivity|]. repeat split; reflexivity. Qed.

Print Assumptions ht_memory_limit.
Print Assumptions ht_promise.
Print Assumptions ht_stop_mem_management_refuted.
Print Assumptions ht_stop_mem_late_refuted.
