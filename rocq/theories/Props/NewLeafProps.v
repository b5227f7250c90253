(** New leaves of Hoeffding trees wait for a grace period of their own. *)
From Coq Require Import List ZArith QArith Floats Bool Lia.
From Verif Require Import Base.Py Base.Num Base.NumFloat Base.Dict Model.Suggestion Model.Adwin Model.SplitTests Model.Knn Model.SplitCriteria Model.NaiveBayes Model.TargetStats Model.TreeSkeleton Model.HoeffdingTree Model.HoeffdingRegressor Spec.TreeSpec Spec.TreeRelSpec Spec.HoeffdingSpec Spec.HoeffdingRegressorSpec
  Proofs.TreeProofs Proofs.TreeRelProofs Proofs.HoeffdingProofs Proofs.HoeffdingRegressorProofs Proofs.ArfTreeProofs Proofs.ArfRegProofs Props.HoeffdingProps Props.HoeffdingRegressorProps Props.ArfTreeProps.
Import ListNotations.
Local Open Scope Z_scope.

Lemma dset_nonempty {A} (d : list (Z * A)) i a : dset d i a <> [].
Proof. destruct d as [|[j b] d]; cbn; [discriminate|]. destruct (Z.eqb j i); discriminate. Qed.
Lemma keys_nil {A} (d d' : list (Z * A)) : dkeys d' = dkeys d -> d' = [] -> d = [].
Proof. intros E ->. destruct d; [reflexivity|discriminate]. Qed.
Lemma nrel_same {L I S E} (P : L -> Prop) (t t' : node L I S E) : nrel (fun a c => a = c /\ P a) eq eq eq t t' -> t = t'.
Proof.
  revert t t'. apply nrel_ind'; [intros l l' [-> _]|intros i i' ->|intros te te' u u' ch ch' -> -> _ H]; auto. f_equal. induction H as [|[a c] [a' c'] ch ch' [E1 E2] _ IH]; auto. cbn in E1, E2. congruence.
Qed.

Section Class.
Context {T : Type} {N : Num T} (k : T) (phi : T -> T) (key : T -> Z) (cfg : ht_config T) (sz : sizes T (leaf T) (list (Z * T)) (list (Z * T)) (htest T)).
Local Notation O := (ht_ops k phi key cfg).
Local Notation run := (ht_run k phi key cfg sz).
Definition fresh_ok (l : leaf T) : Prop := lf_obs l = [] -> lf_last l = vsum (lf_stats l).
Definition ht_instances (P : list T -> Prop) (es : list (ht_event T)) : Prop :=
  Forall (fun e => match e with HFit rows _ _ => Forall (fun r => P (fst r)) rows | HReset => True end) es.
Local Notation RX := (fun x x' : list T => x = x' /\ x <> []).
Local Notation RL := (fun a c : leaf T => a = c /\ fresh_ok a).
Lemma observers_nonempty f y w : forall x obs i obs', obs <> [] -> update_observers key f obs i x y w = Ok obs' -> obs' <> [].
Proof.
  induction x as [|v x IH]; intros obs i obs' H E; cbn [update_observers] in E; [injection E as <-; auto|]. apply bind_Ok in E as (o & _ & E). eapply IH; [|exact E]. apply dset_nonempty.
Qed.
Lemma learn_observes l x y w l' : x <> [] -> leaf_learn k key cfg l x y w = Ok l' -> lf_obs l' <> [].
Proof.
  intros Hx E. unfold leaf_learn in E. apply bind_Ok in E as ([mc nb] & _ & E). apply bind_Ok in E as (obs & E1 & E). injection E as <-. cbn [lf_obs]. destruct x as [|v x]; [congruence|]. cbn [update_observers] in E1. apply bind_Ok in E1 as (o & _ & E1). eapply observers_nonempty; [|exact E1]. apply dset_nonempty.
Qed.
Lemma learn_last l x y w l' : leaf_learn k key cfg l x y w = Ok l' -> lf_last l' = lf_last l.
Proof. intros E. unfold leaf_learn in E. apply bind_Ok in E as ([mc nb] & _ & E). apply bind_Ok in E as (obs & _ & E). now injection E as <-. Qed.
Lemma disable_last p : forall l : leaf T, lf_last (fold_left (disable cfg) p l) = lf_last l /\ lf_stats (fold_left (disable cfg) p l) = lf_stats l.
Proof.
  induction p as [|i p IH]; intros l; cbn [fold_left]; auto. destruct (IH (disable cfg l i)) as [-> ->]. unfold disable. destruct (h_kind cfg); auto. destruct (dmem _ _); auto.
Qed.
Lemma decide_fresh l d : fresh_ok l -> decide k phi cfg l = Ok d -> match d with Keep l' | NullWins l' => fresh_ok l' | SplitOn l' _ _ => fresh_ok l' end.
Proof.
  intros W H. pose proof (decide_watches k phi cfg l d H) as [K _]. unfold decide in H. cbv zeta in H.
  assert (Tt : forall l0 : leaf T, fresh_ok (mk_leaf (lf_stats l0) (lf_obs l0) (lf_mc l0) (lf_nb l0) (leaf_weight l0))) by (intros l0 _; reflexivity).
  destruct (leaf_pure l); [injection H as <-; apply Tt|]. apply bind_Ok in H as (bs & _ & H). destruct (rev _) as [|best [|second rest]].
  - injection H as <-. apply Tt.
  - injection H as <-. destruct (sg_test best); exact W.
  - apply bind_Ok in H as (bound & _ & H). apply bind_Ok in H as (poor & _ & H). injection H as <-. destruct (disable_last poor l) as [D1 D2].
    assert (W' : dkeys (lf_obs (fold_left (disable cfg) poor l)) = dkeys (lf_obs l) -> fresh_ok (fold_left (disable cfg) poor l)) by (intros Kd E0; rewrite D1, D2; apply W; eapply keys_nil; eauto).
    destruct (_ || _); [destruct (sg_test best); apply W'; exact K|]. apply Tt.
Qed.
Lemma ht_fresh_alike : alike O O (h_memory cfg) sz sz true RX eq RL eq eq eq.
Proof.
  constructor; cbn [o_new o_child o_stop o_start o_learn o_learn_inactive o_due o_decide o_stats o_branch o_multiway o_add o_max o_before ht_ops].
  - split; auto. intros _. reflexivity.
  - intros l l' d ? _ <-. split; auto. intros _. reflexivity.
  - now intros l l' [-> _].
  - intros i ? <-. split; auto. intros _. reflexivity.
  - intros l ? x ? y ? w [<- W] [<- Hx] <-. apply rrel_diag. intros l' E Hn. now apply learn_observes in E.
  - intros i ? x ? y ? w <- [<- _] <-. apply rrel_eq.
  - now intros l l' [-> _].
  - intros l ? [<- W]. destruct (decide k phi cfg l) as [d|e] eqn:Ed; cbn; auto. apply (decide_fresh _ _ W) in Ed. destruct d as [lf|lf|lf te ds]; cbn; auto. split; [auto|]. split; auto. clear. induction ds; constructor; auto.
  - now intros l l' [-> _].
  - intros t ? x ? <- [<- _]. apply rrel_eq.
  - now intros t ? <-.
  - intros t ? x ? <- [<- _]. destruct (ht_add key t x) as [[t' c]|e]; cbn; auto.
  - now intros t ? <-.
  - intros d e a a' b b' H H0. apply nrel_same in H. apply nrel_same in H0. now subst.
  - right. split; [now intros l l' [-> _]|]. split; [now intros i ? <-|]. intros t t' H. assert (E : t = t'); [|now subst].
    destruct H as [R]. destruct t, t'. cbn in *. subst. f_equal. destruct t_root as [r|], t_root0 as [r'|]; try contradiction; auto. f_equal. now apply nrel_same in R.
Qed.
Lemma ht_fresh_run es : ht_instances (fun x => x <> []) es -> forall s s', trel RL eq eq eq (ht_tree s) (ht_tree s) -> run s es = Ok s' -> trel RL eq eq eq (ht_tree s') (ht_tree s').
Proof.
  induction 1 as [|e es He F IH]; intros s s' H E; cbn [ht_run] in E; [injection E as <-; auto|]. apply bind_Ok in E as (s1 & E1 & E). apply (IH s1 s'); auto. destruct e as [rows c ws|]; cbn [ht_step] in E1; [|injection E1 as <-; apply rel_new].
  unfold ht_fit in E1. cbv zeta in E1. destruct (Nat.eqb _ _); [|discriminate]. apply bind_Ok in E1 as (t & E1 & Et). injection Et as <-. cbn [ht_tree]. revert E1. generalize (match ws with Some ws0 => ws0 | None => repeat n1 (length rows) end) as wl. revert H. generalize (ht_tree s). clear - He.
  induction He as [|[x y] rows Hx _ IH]; intros t0 H wl E1; cbn [ht_rows] in E1; [injection E1 as <-; auto|]. destruct wl as [|w wl]; [injection E1 as <-; auto|]. apply bind_Ok in E1 as (t1 & E0 & E1). eapply IH; [|exact E1].
  pose proof (rel_fit _ _ _ _ _ _ _ _ _ _ _ _ ht_fresh_alike t0 t0 x x y y w H (conj eq_refl Hx) eq_refl) as R. rewrite E0 in R. exact R.
Qed.
(** C319: a leaf that has seen nothing yet - a new root, a child of a split, a leaf that was activated again - and then learns any samples
    is tried for a split exactly when the weight it gained since reaches the grace period; the weight it was created with does not count.
    (Instances have at least one attribute.) *)
Theorem ht_new_leaf_waits : forall es s r p l rows l', ht_instances (fun x => x <> []) es -> run ht_new es = Ok s -> t_root (ht_tree s) = Some r -> node_at r p = Some (Active l) -> lf_obs l = [] ->
  foldM (fun l (xyw : list T * Z * T) => let '(x, y, w) := xyw in o_learn O l x y w) rows l = Ok l' ->
  o_due O l' = (h_grace cfg <=? vsum (lf_stats l') - vsum (lf_stats l))%num.
Proof.
  intros es s r p l rows l' H E Er Hn Ho F. destruct (ht_fresh_run es H ht_new s ltac:(apply rel_new) E) as [R]. rewrite Er in R. destruct (nrel_place _ _ _ _ _ _ _ _ R Hn) as (a' & _ & Ha). inversion Ha as [? ? [_ W]| |]; subst. specialize (W Ho).
  cbn [o_due ht_ops]. unfold leaf_weight. rewrite <- W. f_equal. f_equal. clear - F. revert l F. induction rows as [|[[x y] w] rows IH]; intros l F; cbn [foldM] in F; [now injection F as <-|]. apply bind_Ok in F as (l1 & E1 & F). rewrite (IH _ F). eapply learn_last; exact E1.
Qed.
End Class.

Section Reg.
Context {T : Type} {N : Num T} (key int_of : T -> Z) (cfg : htr_config T) (sz : sizes T (rleaf T) (rinactive T) (option (stat T unit)) (htest T)).
Local Notation O := (htr_ops key int_of cfg).
Local Notation run := (htr_run key int_of cfg sz).
Definition rfresh_ok (l : rleaf T) : Prop := rl_obs l = [] -> rl_last l = weight_of (rl_stats l).
Definition htr_instances (P : list T -> Prop) (es : list (htr_event T)) : Prop :=
  Forall (fun e => match e with RFit rows _ => Forall (fun r : sample T => P (fst (fst r))) rows | RReset => True end) es.
Local Notation RX := (fun x x' : inst T => x = x' /\ i_x x <> []).
Local Notation RL := (fun a c : rleaf T => a = c /\ rfresh_ok a).
Lemma robs_nonempty y w : forall x obs i, obs <> [] -> update_robs key cfg obs i x y w <> [].
Proof. induction x as [|v x IH]; intros obs i H; cbn [update_robs]; auto. cbv zeta. apply IH. apply dset_nonempty. Qed.
Lemma rlearn_observes l i y w l' : i_x i <> [] -> rleaf_learn key int_of cfg l i y w = Ok l' -> rl_obs l' <> [].
Proof.
  intros Hx E. unfold rleaf_learn in E. cbv zeta in E. apply bind_Ok in E as (q & _ & E). injection E as <-. cbn [rl_obs]. destruct (i_x i) as [|v x]; [congruence|]. cbn [update_robs]. cbv zeta. apply robs_nonempty. apply dset_nonempty.
Qed.
Lemma rlearn_last l i y w l' : rleaf_learn key int_of cfg l i y w = Ok l' -> rl_last l' = rl_last l.
Proof. intros E. unfold rleaf_learn in E. cbv zeta in E. apply bind_Ok in E as (q & _ & E). now injection E as <-. Qed.
Lemma rdisable_last p : forall l : rleaf T, rl_last (fold_left rdisable p l) = rl_last l /\ rl_stats (fold_left rdisable p l) = rl_stats l.
Proof. induction p as [|i p IH]; intros l; cbn [fold_left]; auto. destruct (IH (rdisable l i)) as [-> ->]. unfold rdisable. destruct (dmem _ _); auto. Qed.
Lemma rdecide_fresh l d : rfresh_ok l -> rdecide int_of cfg l = Ok d -> match d with Keep l' | NullWins l' => rfresh_ok l' | SplitOn l' _ _ => rfresh_ok l' end.
Proof.
  intros W H. pose proof (rdecide_watches int_of cfg l d H) as [K _]. apply rdecide_cases in H as (pre & bs & _ & _ & H).
  assert (D : forall p, rfresh_ok (fold_left rdisable p l)) by (intros p E0; destruct (rdisable_last p l) as [-> ->]; apply W; eapply keys_nil; [apply rdisable_obs_keys|exact E0]).
  destruct d as [l'|l'|l' te ds]; [destruct H as (l1 & _ & ->); intros _; reflexivity|destruct H as (p & ->); apply D|destruct H as [(p & ->) _]; apply D].
Qed.
Lemma htr_fresh_alike : alike O O (r_memory cfg) sz sz true RX eq RL eq eq eq.
Proof.
  constructor; cbn [o_new o_child o_stop o_start o_learn o_learn_inactive o_due o_decide o_stats o_branch o_multiway o_add o_max o_before htr_ops].
  - split; auto. intros _. reflexivity.
  - intros l ? d ? [<- _] <-. split; auto. intros _. reflexivity.
  - now intros l l' [-> _].
  - intros i ? <-. split; auto. intros _. reflexivity.
  - intros l ? x ? y ? w [<- W] [<- Hx] <-. apply rrel_diag. intros l' E Hn. now apply rlearn_observes in E.
  - intros i ? x ? y ? w <- [<- _] <-. apply rrel_eq.
  - now intros l l' [-> _].
  - intros l ? [<- W]. destruct (rdecide int_of cfg l) as [d|e] eqn:Ed; cbn; auto. apply (rdecide_fresh _ _ W) in Ed. destruct d as [lf|lf|lf te ds]; cbn; auto. split; [auto|]. split; auto. clear. induction ds; constructor; auto.
  - now intros l l' [-> _].
  - intros t ? x ? <- [<- _]. apply rrel_eq.
  - now intros t ? <-.
  - intros t ? x ? <- [<- _]. destruct (ht_add key t (i_x x)) as [[t' c]|e]; cbn; auto.
  - now intros t ? <-.
  - reflexivity.
  - right. split; [now intros l l' [-> _]|]. split; [now intros i ? <-|]. intros t t' H. assert (E : t = t'); [|now subst].
    destruct H as [R]. destruct t, t'. cbn in *. subst. f_equal. destruct t_root as [r|], t_root0 as [r'|]; try contradiction; auto. f_equal. now apply nrel_same in R.
Qed.
Lemma htr_fresh_run es : htr_instances (fun x => x <> []) es -> forall s s', trel RL eq eq eq (hr_tree s) (hr_tree s) -> run s es = Ok s' -> trel RL eq eq eq (hr_tree s') (hr_tree s').
Proof.
  induction 1 as [|e es He F IH]; intros s s' H E; cbn [htr_run] in E; [injection E as <-; auto|]. apply bind_Ok in E as (s1 & E1 & E). apply (IH s1 s'); auto. destruct e as [rows ws|]; cbn [htr_step] in E1; [|injection E1 as <-; apply rel_new].
  unfold htr_fit in E1. cbv zeta in E1. destruct (Nat.eqb _ _); [|discriminate]. revert E1. generalize (match ws with Some ws0 => ws0 | None => repeat n1 (length rows) end) as wl. revert s H. clear - He.
  induction He as [|[[x y] d] rows Hx _ IH]; intros s H wl E1; cbn [htr_rows] in E1; [injection E1 as <-; auto|]. destruct wl as [|w wl]; [injection E1 as <-; auto|]. apply bind_Ok in E1 as (s2 & E0 & E1). eapply IH; [|exact E1].
  unfold htr_one in E0. destruct (w =? n0)%num; [injection E0 as <-; auto|]. cbv zeta in E0. apply bind_Ok in E0 as (t & E0 & Et). injection Et as <-. cbn [hr_tree fst] in *.
  match type of E0 with fit_weighted _ _ _ _ ?i _ _ = _ => pose proof (rel_fit _ _ _ _ _ _ _ _ _ _ _ _ htr_fresh_alike (hr_tree s) (hr_tree s) i i y y w H (conj eq_refl Hx) eq_refl) as R end. rewrite E0 in R. exact R.
Qed.
Theorem htr_new_leaf_waits : forall es s r p l rows l', htr_instances (fun x => x <> []) es -> run htr_new es = Ok s -> t_root (hr_tree s) = Some r -> node_at r p = Some (Active l) -> rl_obs l = [] ->
  foldM (fun l (xyw : inst T * T * T) => let '(x, y, w) := xyw in o_learn O l x y w) rows l = Ok l' ->
  o_due O l' = (r_grace cfg <=? weight_of (rl_stats l') - weight_of (rl_stats l))%num.
Proof.
  intros es s r p l rows l' H E Er Hn Ho F. destruct (htr_fresh_run es H htr_new s ltac:(apply rel_new) E) as [R]. rewrite Er in R. destruct (nrel_place _ _ _ _ _ _ _ _ R Hn) as (a' & _ & Ha). inversion Ha as [? ? [_ W]| |]; subst. specialize (W Ho).
  cbn [o_due htr_ops]. rewrite <- W. f_equal. f_equal. clear - F. revert l F. induction rows as [|[[x y] w] rows IH]; intros l F; cbn [foldM] in F; [now injection F as <-|]. apply bind_Ok in F as (l1 & E1 & F). rewrite (IH _ F). eapply rlearn_last; exact E1.
Qed.
End Reg.

(** After the tenth sample splits the root of the regression tree, both children hold the weight of five samples and have seen nothing. *)
Example new_leaf_example : htr_instances (fun x => x <> []) [RFit (map rq_row (seq 0 10)) None] /\
  exists s r l, htr_run rq_key rq_int rq_cfg rq_sizes htr_new [RFit (map rq_row (seq 0 10)) None] = Ok s /\ t_root (hr_tree s) = Some r /\ node_at r [0] = Some (Active l) /\ rl_obs l = [] /\ weight_of (rl_stats l) = 5%Q
    /\ exists l', foldM (fun l (xyw : inst Q * Q * Q) => let '(x, y, w) := xyw in o_learn (htr_ops rq_key rq_int rq_cfg) l x y w) [(mk_inst [2%Q] sums_new (fun _ => 0%Q), 1%Q, 5%Q)] l = Ok l' /\ o_due (htr_ops rq_key rq_int rq_cfg) l' = false.
Proof.
  split; [repeat constructor; discriminate|]. do 3 eexists. repeat (split; [vm_compute; reflexivity|]). eexists. split; vm_compute; reflexivity.
Qed.
Print Assumptions ht_new_leaf_waits.
Print Assumptions htr_new_leaf_waits.
