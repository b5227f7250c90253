(** The Gaussian estimator and observer over the reals. *)
From Coq Require Import List ZArith Bool Lia Reals Lra.
From Verif Require Import Base.Py Base.Num Base.Dict Spec.Lists Spec.ObserverSpec Model.Suggestion Model.GaussianObs Proofs.ListFacts.
Import ListNotations.
Local Open Scope R_scope.

(** ** Weighted sums *)
Notation wx obs := (Rsum (map (fun p : R * R => snd p * fst p) obs)).
Notation wxx obs := (Rsum (map (fun p : R * R => snd p * fst p * fst p) obs)).
Lemma wtotal_snoc obs v w : wtotal (obs ++ [(v, w)]) = wtotal obs + w.
Proof. unfold wtotal. rewrite map_app, Rsum_app. simpl. lra. Qed.
Lemma wx_snoc obs v w : wx (obs ++ [(v, w)]) = wx obs + w * v.
Proof. rewrite map_app, Rsum_app. simpl. lra. Qed.
Lemma wxx_snoc obs v w : wxx (obs ++ [(v, w)]) = wxx obs + w * v * v.
Proof. rewrite map_app, Rsum_app. simpl. lra. Qed.
Lemma wsq_expand obs m : Rsum (map (fun p : R * R => snd p * (fst p - m) * (fst p - m)) obs) = wxx obs - 2 * m * wx obs + m * m * wtotal obs.
Proof. unfold wtotal. induction obs as [|[v w] obs IH]; simpl; [lra|]. simpl in IH. rewrite IH. ring. Qed.
Lemma wsqdev_eq obs : wtotal obs <> 0 -> wsqdev obs = wxx obs - wx obs * wx obs / wtotal obs.
Proof. intros H. unfold wsqdev. rewrite wsq_expand. unfold wmean. field. exact H. Qed.

Definition nonneg (obs : list (R * R)) : Prop := forall p, In p obs -> 0 <= snd p.
Lemma nonneg_snoc obs v w : nonneg obs -> 0 <= w -> nonneg (obs ++ [(v, w)]).
Proof. intros H Hw p Hp. apply in_app_or in Hp. destruct Hp as [Hp|[<-|[]]]; auto. Qed.
Lemma wtotal_nonneg obs : nonneg obs -> 0 <= wtotal obs.
Proof.
  intros H. unfold wtotal. induction obs as [|p obs IH]; simpl; [lra|].
  pose proof (H p (or_introl eq_refl)). specialize (IH (fun q Hq => H q (or_intror Hq))). lra.
Qed.
Lemma wsqdev_nonneg obs : nonneg obs -> 0 <= wsqdev obs.
Proof.
  intros H. unfold wsqdev. generalize (wmean obs) as m. intros m. induction obs as [|p obs IH]; simpl; [lra|].
  pose proof (H p (or_introl eq_refl)). specialize (IH (fun q Hq => H q (or_intror Hq))).
  assert (0 <= (fst p - m) * (fst p - m)) by apply Rle_0_sqr. rewrite Rmult_assoc.
  assert (0 <= snd p * ((fst p - m) * (fst p - m))) by (apply Rmult_le_pos; auto). lra.
Qed.
Lemma wtotal0 obs : nonneg obs -> wtotal obs = 0 -> wx obs = 0 /\ wxx obs = 0.
Proof.
  intros H E. unfold wtotal in E. induction obs as [|p obs IH]; simpl in *; [lra|].
  pose proof (H p (or_introl eq_refl)). pose proof (wtotal_nonneg obs (fun q Hq => H q (or_intror Hq))) as P. unfold wtotal in P.
  assert (snd p = 0) by lra. destruct IH as [I1 I2]; [intros q Hq; apply H; now right|lra|]. rewrite I1, I2, H1. lra.
Qed.

(** ** The estimator *)
Definition ginv (obs : list (R * R)) (g : gauss R) : Prop :=
  nonneg obs /\ g_w g = wtotal obs /\ (0 < wtotal obs -> g_mean g = wmean obs /\ g_vs g = wsqdev obs) /\ (wtotal obs = 0 -> g_vs g = 0).

Lemma ginv_new : ginv [] g_new.
Proof.
  unfold ginv, g_new, n0. cbn. unfold wtotal. simpl. split; [intros ? []|]. split; [reflexivity|]. split; [lra|auto].
Qed.
Lemma g_add_ok obs g v w : ginv obs g -> 0 <= w -> exists g', g_add g (Some v) w = Ok g' /\ ginv (obs ++ [(v, w)]) g'.
Proof.
  intros (NN & EW & EM & EZ) Hw. pose proof (wtotal_nonneg obs NN) as Wp. unfold g_add, n0. cbn [nltb nadd nsub nmul ndiv NumR nofZ].
  rewrite EW. destruct (Rltb 0 (wtotal obs)) eqn:E; rcase.
  - destruct (EM E) as [Em Ev]. unfold pydiv, n0. cbn [neqb nofZ NumR ndiv]. destruct (Reqb (wtotal obs + w) 0) eqn:E0; rcase; [lra|].
    cbn [bind]. eexists. split; [reflexivity|]. unfold ginv. cbn [g_w g_mean g_vs]. rewrite wtotal_snoc.
    split; [apply nonneg_snoc; auto|]. split; auto. split; [|lra]. intros _.
    assert (M : g_mean g + w * (v - g_mean g) / (wtotal obs + w) = wmean (obs ++ [(v, w)])).
    { rewrite Em. unfold wmean. rewrite wx_snoc, wtotal_snoc. field. lra. }
    split; auto. rewrite M, Ev, Em. rewrite !wsqdev_eq by (rewrite ?wtotal_snoc; lra). unfold wmean. rewrite wxx_snoc, wx_snoc, wtotal_snoc.
    field. lra.
  - assert (Z0 : wtotal obs = 0) by lra. eexists. split; [reflexivity|]. unfold ginv. cbn [g_w g_mean g_vs]. rewrite wtotal_snoc, Z0, Rplus_0_l.
    split; [apply nonneg_snoc; auto|]. split; auto. destruct (wtotal0 obs NN Z0) as [X XX]. rewrite (EZ Z0). split; [|auto].
    intros Hp. split.
    + unfold wmean. rewrite wx_snoc, wtotal_snoc, X, Z0. field. lra.
    + rewrite wsqdev_eq by (rewrite wtotal_snoc; lra). rewrite wxx_snoc, wx_snoc, wtotal_snoc, X, XX, Z0. field. lra.
Qed.

Lemma observed_app {A} (h1 h2 : list (option A * R)) : observed (h1 ++ h2) = observed h1 ++ observed h2.
Proof. apply flat_map_app. Qed.
Lemma g_run_ok h : (forall p, In p h -> 0 <= snd p) -> forall obs g, ginv obs g -> exists g', g_run g h = Ok g' /\ ginv (obs ++ observed h) g'.
Proof.
  induction h as [|[[v|] w] h IH]; intros Hh obs g I; simpl.
  - rewrite app_nil_r. eauto.
  - destruct (g_add_ok obs g v w I) as (g1 & E1 & I1); [apply (Hh _ (or_introl eq_refl))|]. simpl in E1. rewrite E1. cbn [bind].
    destruct (IH (fun p Hp => Hh p (or_intror Hp)) _ _ I1) as (g2 & E2 & I2). rewrite <- app_assoc in I2. eauto.
  - apply IH; auto. intros p Hp. apply Hh. now right.
Qed.

Lemma g_variance_R obs g : ginv obs g -> g_variance g = wvariance obs.
Proof.
  intros (NN & EW & EM & EZ). unfold g_variance, wvariance, n1, n0. cbn [nltb ndiv nsub nofZ NumR]. rewrite EW.
  unfold Rltb. destruct (Rlt_dec 1 (wtotal obs)); auto. rewrite (proj2 (EM ltac:(lra))). reflexivity.
Qed.
Lemma wvariance_nonneg obs : nonneg obs -> 0 <= wvariance obs.
Proof.
  intros NN. unfold wvariance. destruct (Rlt_dec 1 (wtotal obs)); [|lra]. apply Rmult_le_pos; [now apply wsqdev_nonneg|].
  left. apply Rinv_0_lt_compat. lra.
Qed.
Lemma g_std_R obs g : ginv obs g -> g_std g = Ok (sqrt (wvariance obs)).
Proof.
  intros I. unfold g_std, py_sqrt, n0. rewrite (g_variance_R _ _ I). cbn [nltb nsqrt nofZ NumR].
  pose proof (wvariance_nonneg obs (proj1 I)). destruct (Rltb (wvariance obs) 0) eqn:E; [rcase; lra|reflexivity].
Qed.

Lemma g_density_R k obs g a : k > 0 -> ginv obs g -> g_density k g a = Ok (normal_density k obs a).
Proof.
  intros Hk I. unfold g_density, normal_density, n0, n1. rewrite (g_std_R _ _ I). destruct I as (NN & EW & EM & EZ). rewrite EW.
  cbn [nltb nofZ NumR bind neqb nsub nmul ndiv nexp]. unfold Rltb at 1. destruct (Rlt_dec 0 (wtotal obs)) as [Hw|Hw]; auto.
  destruct (EM Hw) as [Em _]. rewrite Em. unfold Rltb. pose proof (wvariance_nonneg obs NN) as Vp.
  destruct (Rlt_dec 0 (wvariance obs)) as [Hv|Hv].
  - assert (S : 0 < sqrt (wvariance obs)) by now apply sqrt_lt_R0. destruct (Rlt_dec 0 (sqrt (wvariance obs))); [|contradiction].
    unfold pydiv, n0. cbn [neqb nofZ NumR ndiv]. destruct (Reqb (k * sqrt (wvariance obs)) 0) eqn:E1; rcase; [pose proof (Rmult_lt_0_compat k _ Hk S); lra|].
    cbn [bind]. replace (2 * sqrt (wvariance obs) * sqrt (wvariance obs)) with (2 * wvariance obs) by (rewrite Rmult_assoc, sqrt_sqrt; lra).
    destruct (Reqb (2 * wvariance obs) 0) eqn:E2; rcase; [lra|]. cbn [bind]. f_equal. f_equal. f_equal. lra.
  - assert (wvariance obs = 0) by lra. rewrite H, sqrt_0. destruct (Rlt_dec 0 0); [lra|]. unfold Reqb. destruct (Req_EM_T a (wmean obs)); reflexivity.
Qed.
Lemma normal_density_nonneg k obs a : k > 0 -> nonneg obs -> 0 <= normal_density k obs a.
Proof.
  intros Hk NN. unfold normal_density. destruct (Rlt_dec _ _); [|lra]. destruct (Rlt_dec 0 (wvariance obs)) as [Hv|]; [|destruct (Req_EM_T _ _); lra].
  apply Rmult_le_pos; [|left; apply exp_pos]. apply Rmult_le_pos; [lra|]. left. apply Rinv_0_lt_compat. apply Rmult_lt_0_compat; auto. now apply sqrt_lt_R0.
Qed.

(** The three estimated weights add up to the total, and the two sides of a split are not negative. *)
Lemma g_estimate_R k phi obs g v : k > 0 -> (forall z, 0 <= phi z <= 1) -> ginv obs g -> 0 < wtotal obs ->
  exists lt eq gt, g_estimate k phi g v = Ok (lt, eq, gt) /\ lt + eq + gt = wtotal obs /\ 0 <= lt + eq /\ 0 <= gt
    /\ (0 < wvariance obs -> lt + eq = phi ((v - wmean obs) / sqrt (wvariance obs)) * wtotal obs).
Proof.
  intros Hk Hphi I Hw. unfold g_estimate. rewrite (g_density_R k obs g v Hk I), (g_std_R obs g I). cbn [bind].
  pose proof I as (NN & EW & EM & EZ). destruct (EM Hw) as [Em _]. rewrite EW, Em. unfold n0. cbn [nltb nmul nsub nofZ NumR].
  pose proof (wvariance_nonneg obs NN) as Vp. pose proof (normal_density_nonneg k obs v Hk NN) as Dp.
  set (d := normal_density k obs v) in *.
  unfold Rltb at 1. destruct (Rlt_dec 0 (sqrt (wvariance obs))) as [S|S].
  - assert (Hv : 0 < wvariance obs).
    { destruct (Req_EM_T (wvariance obs) 0) as [E|]; [rewrite E, sqrt_0 in S; lra|lra]. }
    unfold pydiv, n0. cbn [neqb nofZ NumR ndiv]. destruct (Reqb (sqrt (wvariance obs)) 0) eqn:E1; rcase; [lra|]. cbn [bind].
    set (p := phi _). pose proof (Hphi ((v - wmean obs) / sqrt (wvariance obs))) as P. fold p in P.
    assert (0 <= p * wtotal obs) by (apply Rmult_le_pos; lra).
    assert (p * wtotal obs <= wtotal obs) by (rewrite <- (Rmult_1_l (wtotal obs)) at 2; apply Rmult_le_compat_r; lra).
    do 3 eexists. split; [reflexivity|]. destruct (Rltb _ 0) eqn:E2; rcase; repeat split; lra.
  - assert (Hv : wvariance obs = 0).
    { destruct (Req_EM_T (wvariance obs) 0); auto. exfalso. apply S. apply sqrt_lt_R0. lra. }
    assert (D : d = if Req_EM_T v (wmean obs) then 1 else 0).
    { unfold d, normal_density. destruct (Rlt_dec 0 (wtotal obs)); [|lra]. rewrite Hv. destruct (Rlt_dec 0 0); [lra|]. reflexivity. }
    assert (Dw : d * wtotal obs = if Req_EM_T v (wmean obs) then wtotal obs else 0) by (rewrite D; destruct (Req_EM_T _ _); lra).
    rewrite Dw. destruct (Rltb v (wmean obs)) eqn:E1; rcase; cbn [bind]; (do 3 eexists; split; [reflexivity|]);
      destruct (Req_EM_T v (wmean obs)); destruct (Rltb _ 0) eqn:E2; rcase; repeat split; lra.
Qed.

(** ** The observer *)
Record goinv (h : list (option R * Z * R)) (o : gobs R) : Prop := {
  gi_dist : NoDup (dkeys (go_dist o)); gi_min : NoDup (dkeys (go_min o)); gi_max : NoDup (dkeys (go_max o));
  gi_none : forall c, of_class c h = [] -> dget (go_dist o) c = None /\ dget (go_min o) c = None /\ dget (go_max o) c = None;
  gi_some : forall c, of_class c h <> [] -> exists g mn mx, dget (go_dist o) c = Some g /\ dget (go_min o) c = Some mn /\ dget (go_max o) c = Some mx
    /\ ginv (of_class c h) g /\ is_min (map fst (of_class c h)) mn /\ is_max (map fst (of_class c h)) mx
}.
Lemma of_class_app {A} c (h1 h2 : list (option A * Z * R)) : of_class c (h1 ++ h2) = of_class c h1 ++ of_class c h2.
Proof. apply flat_map_app. Qed.
Lemma goinv_new : goinv [] (go_new (T:=R)).
Proof. split; cbn; try constructor; auto. intros c H. now contradiction H. Qed.

Lemma go_update_ok h o a c w : goinv h o -> 0 <= w -> exists o', go_update o a c w = Ok o' /\ goinv (h ++ [(a, c, w)]) o'.
Proof.
  intros I Hw. destruct a as [a|].
  2: { exists o. split; auto. destruct I as [I1 I2 I3 I4 I5]. split; auto; intros c0; rewrite of_class_app; simpl; rewrite app_nil_r; auto. }
  assert (OC : forall c0, of_class c0 (h ++ [(Some a, c, w)]) = of_class c0 h ++ (if Z.eqb c c0 then [(a, w)] else [])).
  { intros c0. rewrite of_class_app. simpl. destruct (Z.eqb c c0); reflexivity. }
  unfold go_update. destruct I as [N1 N2 N3 HN HS].
  destruct (of_class c h) as [|p l] eqn:Ec.
  - destruct (HN c Ec) as (E1 & E2 & E3). rewrite E1.
    destruct (g_add_ok [] g_new a w ginv_new Hw) as (g' & Eg & Ig). rewrite Eg. cbn [bind]. eexists. split; [reflexivity|].
    assert (M1 : NoDup (dkeys (dset (go_dist o) c g_new))) by now apply NoDup_dset.
    assert (M2 : NoDup (dkeys (dset (go_min o) c a))) by now apply NoDup_dset.
    assert (M3 : NoDup (dkeys (dset (go_max o) c a))) by now apply NoDup_dset.
    split; cbn [go_dist go_min go_max]; [apply NoDup_dset, NoDup_dsort; auto|apply NoDup_dsort; auto|apply NoDup_dsort; auto| |];
      intros c0 H0; rewrite OC in H0; rewrite ?OC; rewrite !dget_dset, !dget_dsort, !dget_dset by auto; destruct (Z.eqb_spec c c0) as [Hc|Hc].
    + exfalso. apply app_eq_nil in H0. now destruct H0.
    + rewrite app_nil_r in H0. now apply HN.
    + subst c0. rewrite Ec. exists g', a, a. split; [auto|]. split; [auto|]. split; [auto|]. split; [exact Ig|]. split; split; simpl; auto; intros x [<-|[]]; lra.
    + rewrite app_nil_r in *. destruct (HS c0 H0) as (g & mn & mx & R1 & R2 & R3 & R4). exists g, mn, mx. auto.
  - destruct (HS c ltac:(congruence)) as (g & mn & mx & E1 & E2 & E3 & Ig & Imn & Imx). rewrite E1, E2, E3.
    destruct (g_add_ok _ g a w Ig Hw) as (g' & Eg & Ig'). rewrite Eg. cbn [bind]. eexists. split; [reflexivity|].
    cbn [nltb NumR].
    assert (MN : exists mn', dget (if Rltb a mn then dset (go_min o) c a else go_min o) c = Some mn' /\ is_min (map fst (of_class c h ++ [(a, w)])) mn').
    { destruct Imn as [J1 J2]. destruct (Rltb a mn) eqn:E; rcase.
      - exists a. rewrite dget_dset, Z.eqb_refl. split; auto. split; [rewrite map_app; apply in_or_app; simpl; auto|].
        rewrite map_app. intros x Hx. apply in_app_or in Hx. destruct Hx as [Hx|[<-|[]]]; [specialize (J2 x Hx); lra|simpl; lra].
      - exists mn. split; auto. split; [rewrite map_app; apply in_or_app; auto|].
        rewrite map_app. intros x Hx. apply in_app_or in Hx. destruct Hx as [Hx|[<-|[]]]; [auto|simpl; lra]. }
    assert (MX : exists mx', dget (if Rltb mx a then dset (go_max o) c a else go_max o) c = Some mx' /\ is_max (map fst (of_class c h ++ [(a, w)])) mx').
    { destruct Imx as [J1 J2]. destruct (Rltb mx a) eqn:E; rcase.
      - exists a. rewrite dget_dset, Z.eqb_refl. split; auto. split; [rewrite map_app; apply in_or_app; simpl; auto|].
        rewrite map_app. intros x Hx. apply in_app_or in Hx. destruct Hx as [Hx|[<-|[]]]; [specialize (J2 x Hx); lra|simpl; lra].
      - exists mx. split; auto. split; [rewrite map_app; apply in_or_app; auto|].
        rewrite map_app. intros x Hx. apply in_app_or in Hx. destruct Hx as [Hx|[<-|[]]]; [auto|simpl; lra]. }
    split; cbn [go_dist go_min go_max].
    + now apply NoDup_dset.
    + destruct (Rltb a mn); auto. now apply NoDup_dset.
    + destruct (Rltb mx a); auto. now apply NoDup_dset.
    + intros c0 H0. rewrite OC in H0. apply app_eq_nil in H0. destruct H0 as [H0 H1]. destruct (Z.eqb_spec c c0) as [|Hc]; [discriminate|].
      destruct (HN c0 H0) as (F1 & F2 & F3). rewrite dget_dset. destruct (Z.eqb_spec c c0); [contradiction|]. split; auto.
      split; [destruct (Rltb a mn)|destruct (Rltb mx a)]; auto; rewrite dget_dset; destruct (Z.eqb_spec c c0); auto; contradiction.
    + intros c0 H0. rewrite OC in *. destruct (Z.eqb_spec c c0) as [Hc|Hc].
      * subst c0. destruct MN as (mn' & G1 & G2). destruct MX as (mx' & G3 & G4). exists g', mn', mx'. rewrite dget_dset, Z.eqb_refl.
        split; [auto|]. split; [exact G1|]. split; [exact G3|]. split; [exact Ig'|]. split; assumption.
      * rewrite app_nil_r in *. destruct (HS c0 H0) as (g0 & mn0 & mx0 & R1 & R2 & R3 & R4). exists g0, mn0, mx0. rewrite dget_dset.
        destruct (Z.eqb_spec c c0); [contradiction|]. split; auto.
        split; [destruct (Rltb a mn)|split; [destruct (Rltb mx a)|auto]]; auto; rewrite dget_dset; destruct (Z.eqb_spec c c0); auto; contradiction.
Qed.
Lemma go_run_ok : forall h h0 o, goinv h0 o -> (forall p, In p h -> 0 <= snd p) -> exists o', go_run o h = Ok o' /\ goinv (h0 ++ h) o'.
Proof.
  induction h as [|[[a c] w] h IH]; intros h0 o I Hh; simpl.
  - rewrite app_nil_r. eauto.
  - destruct (go_update_ok h0 o a c w I) as (o1 & E1 & I1); [apply (Hh _ (or_introl eq_refl))|]. rewrite E1. cbn [bind].
    destruct (IH _ _ I1 (fun p Hp => Hh p (or_intror Hp))) as (o2 & E2 & I2). rewrite <- app_assoc in I2. eauto.
Qed.

(** ** Split points *)
Definition values (h : list (option R * Z * R)) : list R := flat_map (fun p => match p with (Some v, _, _) => [v] | _ => [] end) h.
Lemma of_class_values c h x : In x (map fst (of_class c h)) -> In x (values h).
Proof.
  unfold of_class, values. intros H. apply in_map_iff in H. destruct H as ([v w] & <- & H). apply in_flat_map in H.
  destruct H as ([[[v'|] c'] w'] & H1 & H2); [|destruct H2]. destruct (Z.eqb c' c); [|destruct H2]. destruct H2 as [[= -> ->]|[]].
  apply in_flat_map. eexists. split; [exact H1|]. simpl. auto.
Qed.
Lemma values_of_class h x : In x (values h) -> exists c, In x (map fst (of_class c h)).
Proof.
  unfold values. intros H. apply in_flat_map in H. destruct H as ([[[v|] c] w] & H1 & H2); [|destruct H2]. destruct H2 as [<-|[]].
  exists c. apply in_map_iff. exists (v, w). split; auto. unfold of_class. apply in_flat_map. eexists. split; [exact H1|]. simpl. rewrite Z.eqb_refl. simpl. auto.
Qed.

Definition range_of (seen : list R) (mn mx : option R) : Prop :=
  match mn, mx with Some a, Some b => is_min seen a /\ is_max seen b | None, None => seen = [] | _, _ => False end.
Lemma is_min_app a b m n : is_min a m -> is_min b n -> is_min (a ++ b) (if Rltb n m then n else m).
Proof.
  intros [A1 A2] [B1 B2]. destruct (Rltb n m) eqn:E; rcase; (split; [apply in_or_app; auto|]); intros x Hx; apply in_app_or in Hx; destruct Hx as [Hx|Hx];
    try (specialize (A2 x Hx)); try (specialize (B2 x Hx)); lra.
Qed.
Lemma is_max_app a b m n : is_max a m -> is_max b n -> is_max (a ++ b) (if Rltb m n then n else m).
Proof.
  intros [A1 A2] [B1 B2]. destruct (Rltb m n) eqn:E; rcase; (split; [apply in_or_app; auto|]); intros x Hx; apply in_app_or in Hx; destruct Hx as [Hx|Hx];
    try (specialize (A2 x Hx)); try (specialize (B2 x Hx)); lra.
Qed.
Lemma go_range_ok h o : goinv h o -> forall ks seen mn mx, (forall k, In k ks -> of_class k h <> []) -> range_of seen mn mx ->
  exists mn' mx', go_range ks o mn mx = Ok (mn', mx') /\ range_of (seen ++ flat_map (fun k => map fst (of_class k h)) ks) mn' mx'.
Proof.
  intros I. induction ks as [|k ks IH]; intros seen mn mx Hk Hr; simpl.
  - rewrite app_nil_r. eauto.
  - destruct (gi_some _ _ I k (Hk k (or_introl eq_refl))) as (g & a & b & E1 & E2 & E3 & Ig & Ia & Ib). rewrite E2, E3.
    rewrite app_assoc. apply IH; [intros; apply Hk; now right|]. cbn [nltb NumR].
    destruct mn as [m|], mx as [M|]; simpl in Hr; try contradiction.
    + destruct Hr as [H1 H2]. pose proof (is_min_app _ _ _ _ H1 Ia) as J1. pose proof (is_max_app _ _ _ _ H2 Ib) as J2.
      destruct (Rltb a m), (Rltb M b); simpl; split; auto.
    + subst seen. simpl. auto.
Qed.
Lemma goinv_keys h o k : goinv h o -> (In k (dkeys (go_dist o)) <-> of_class k h <> []).
Proof.
  intros I. split.
  - intros H C. destruct (gi_none _ _ I k C) as (E & _). apply dget_None in E. contradiction.
  - intros H. destruct (gi_some _ _ I k H) as (g & mn & mx & E & _). apply dget_Some. eauto.
Qed.
Lemma go_range_all h o : goinv h o -> exists mn mx, go_range (dkeys (go_dist o)) o None None = Ok (mn, mx) /\ range_of (values h) mn mx.
Proof.
  intros I. destruct (go_range_ok h o I (dkeys (go_dist o)) [] None None) as (mn & mx & E & R).
  - intros k Hk. now apply (goinv_keys h o k I).
  - reflexivity.
  - exists mn, mx. split; auto. cbn [app] in R.
    assert (Q : forall x, In x (flat_map (fun k => map fst (of_class k h)) (dkeys (go_dist o))) <-> In x (values h)).
    { intros x. rewrite in_flat_map. split.
      - intros (k & Hk & Hx). eapply of_class_values; eauto.
      - intros Hx. destruct (values_of_class h x Hx) as (c & Hc). exists c. split; auto. apply (goinv_keys h o c I). intros C. rewrite C in Hc. destruct Hc. }
    destruct mn as [a|], mx as [b|]; simpl in *; auto.
    + destruct R as [[A1 A2] [B1 B2]]. split; split; try (now apply Q); intros x Hx; apply Q in Hx; auto.
    + destruct (values h) as [|x l]; auto. exfalso. rewrite R in Q. apply (proj2 (Q x)). now left.
Qed.

Lemma sorted_add_last (x : R) l : (forall y, In y l -> y <= x) -> sorted_add x l = l ++ [x].
Proof.
  induction l as [|y l IH]; intros H; simpl; auto. destruct (Rltb x y) eqn:E; rcase.
  - specialize (H y (or_introl eq_refl)). lra.
  - f_equal. apply IH. intros; apply H; now right.
Qed.
Lemma points_fold lo hi (nb : nat) bin : bin = (hi - lo) / (INR nb + 1) ->
  forall k, (k <= nb)%nat ->
  fold_left (fun acc i => let v := lo + bin * IZR (Z.of_nat i + 1) in if Rltb lo v && Rltb v hi then sorted_add v acc else acc) (seq 0 k) []
  = if Rlt_dec lo hi then map (fun i => lo + (hi - lo) / (INR nb + 1) * INR i) (seq 1 k) else [].
Proof.
  intros Eb. induction k as [|k IH]; intros Hk.
  - simpl. destruct (Rlt_dec lo hi); reflexivity.
  - rewrite seq_S, fold_left_app, IH by lia. cbn [fold_left Nat.add]. cbv zeta.
    assert (Ei : IZR (Z.of_nat k + 1) = INR (S k)) by (rewrite INR_IZR_INZ; f_equal; lia). rewrite Ei, <- Eb.
    assert (P : 0 < INR nb + 1) by (pose proof (pos_INR nb); lra).
    assert (Q : INR (S k) < INR nb + 1) by (rewrite <- S_INR; apply lt_INR; lia).
    assert (P1 : 0 < INR (S k)) by (apply lt_0_INR; lia).
    destruct (Rlt_dec lo hi) as [L|L].
    + assert (Bp : 0 < bin) by (rewrite Eb; apply Rmult_lt_0_compat; [lra|now apply Rinv_0_lt_compat]).
      assert (V1 : lo < lo + bin * INR (S k)) by (assert (0 < bin * INR (S k)) by (apply Rmult_lt_0_compat; auto); lra).
      assert (V2 : lo + bin * INR (S k) < hi).
      { assert (bin * INR (S k) < bin * (INR nb + 1)) by (apply Rmult_lt_compat_l; auto).
        assert (bin * (INR nb + 1) = hi - lo) by (rewrite Eb; field; lra). lra. }
      rewrite (proj2 (Rltb_true _ _) V1), (proj2 (Rltb_true _ _) V2). cbn [andb].
      rewrite sorted_add_last.
      * rewrite (seq_S k 1), map_app. cbn [map]. reflexivity.
      * intros y Hy. apply in_map_iff in Hy. destruct Hy as (i & <- & Hi). apply in_seq in Hi.
        assert (INR i <= INR (S k)) by (apply le_INR; lia). assert (bin * INR i <= bin * INR (S k)) by (apply Rmult_le_compat_l; lra). lra.
    + destruct (Rltb lo (lo + bin * INR (S k)) && Rltb (lo + bin * INR (S k)) hi) eqn:E; auto.
      apply andb_true_iff in E. destruct E as [E1 E2]. repeat rcase. lra.
Qed.
Lemma go_points_ok nb h o : goinv h o -> exists pts, go_points nb o = Ok pts
  /\ (values h = [] -> pts = [])
  /\ (forall lo hi, is_min (values h) lo -> is_max (values h) hi ->
        pts = if Rlt_dec lo hi then map (fun i => lo + (hi - lo) / (INR nb + 1) * INR i) (seq 1 nb) else []).
Proof.
  intros I. unfold go_points. destruct (go_range_all h o I) as (mn & mx & E & Hr). rewrite E. cbn [bind].
  destruct mn as [a|], mx as [b|]; simpl in Hr; try contradiction.
  - unfold pydiv, n0, n1. cbn [neqb nadd nsub ndiv nofZ NumR]. rewrite <- INR_IZR_INZ.
    destruct (Reqb (INR nb + 1) 0) eqn:E0; rcase; [pose proof (pos_INR nb); lra|]. cbn [bind nltb nadd nmul nofZ NumR].
    eexists. split; [reflexivity|]. destruct Hr as [[A1 A2] [B1 B2]]. split; [intros C; rewrite C in A1; destruct A1|].
    intros lo hi [C1 C2] [D1 D2]. assert (a = lo) by (pose proof (A2 _ C1); pose proof (C2 _ A1); lra).
    assert (b = hi) by (pose proof (B2 _ D1); pose proof (D2 _ B1); lra). subst a b. now apply points_fold.
  - exists []. rewrite Hr. split; auto. split; auto. intros lo hi [[] _].
Qed.

(** ** The two sides of a split *)
Definition side (d : list (Z * R)) (c : Z) : R := match dget d c with Some w => w | None => 0 end.
Definition balanced (k : R) (phi : R -> R) (obs : list (R * R)) (v : R) (lhs rhs : list (Z * R)) (c : Z) : Prop :=
  side lhs c + side rhs c = wtotal obs /\ 0 <= side lhs c /\ 0 <= side rhs c
  /\ ((forall x, In x (map fst obs) -> v < x) -> side lhs c = 0)
  /\ ((forall x, In x (map fst obs) -> x <= v) -> side rhs c = 0)
  /\ ((exists x y, In x (map fst obs) /\ In y (map fst obs) /\ x <= v < y) -> 0 < wvariance obs ->
      side lhs c = phi ((v - wmean obs) / sqrt (wvariance obs)) * wtotal obs).

Lemma go_sides_ok k phi h o v : k > 0 -> (forall z, 0 <= phi z <= 1) -> goinv h o -> forall items, NoDup (dkeys items) ->
  (forall c g, In (c, g) items -> dget (go_dist o) c = Some g) -> forall lhs rhs, (forall c, In c (dkeys items) -> dget lhs c = None /\ dget rhs c = None) ->
  (forall c, In c (dkeys items) -> 0 < wtotal (of_class c h)) ->
  exists lhs' rhs', go_sides k phi o items v lhs rhs = Ok (lhs', rhs')
    /\ (forall c, ~ In c (dkeys items) -> dget lhs' c = dget lhs c /\ dget rhs' c = dget rhs c)
    /\ (forall c, In c (dkeys items) -> balanced k phi (of_class c h) v lhs' rhs' c).
Proof.
  intros Hk Hphi I. induction items as [|[c g] items IH]; intros ND Hd lhs rhs Hn Hw; cbn [go_sides].
  - exists lhs, rhs. split; auto. split; auto. intros c [].
  - cbn [dkeys map fst] in *. fold (dkeys items) in *. inversion ND as [|? ? N1 N2]; subst.
    pose proof (Hd c g (or_introl eq_refl)) as Dg. assert (Oc : of_class c h <> []).
    { apply (goinv_keys h o c I). apply dget_Some. eauto. }
    destruct (gi_some _ _ I c Oc) as (g0 & mn & mx & E1 & E2 & E3 & Ig & [M1 M2] & [M3 M4]). rewrite Dg in E1. injection E1 as <-. rewrite E2, E3.
    destruct (Hn c (or_introl eq_refl)) as [Nl Nr]. pose proof (Hw c (or_introl eq_refl)) as Wc.
    assert (EW : g_total g = wtotal (of_class c h)) by apply Ig.
    assert (STEP : forall l1 r1, (forall c', c' <> c -> dget l1 c' = dget lhs c' /\ dget r1 c' = dget rhs c') -> balanced k phi (of_class c h) v l1 r1 c ->
      exists lhs' rhs', go_sides k phi o items v l1 r1 = Ok (lhs', rhs')
        /\ (forall c0, ~ (c = c0 \/ In c0 (dkeys items)) -> dget lhs' c0 = dget lhs c0 /\ dget rhs' c0 = dget rhs c0)
        /\ (forall c0, c = c0 \/ In c0 (dkeys items) -> balanced k phi (of_class c0 h) v lhs' rhs' c0)).
    { intros l1 r1 Hsame Hb. destruct (IH N2 (fun c0 g0 H0 => Hd c0 g0 (or_intror H0)) l1 r1) as (l' & r' & E & O1 & O2).
      - intros c0 H0. assert (c0 <> c) by (intros ->; contradiction). destruct (Hsame c0 H) as [-> ->]. apply Hn. now right.
      - intros c0 H0. apply Hw. now right.
      - exists l', r'. split; auto. split.
        + intros c0 H0. destruct (O1 c0 ltac:(tauto)) as [-> ->]. apply Hsame. intros ->. tauto.
        + intros c0 [<-|H0]; [|auto]. destruct (O1 c N1) as [X Y]. unfold balanced, side in *. rewrite X, Y. exact Hb. }
    cbn [nltb nleb nadd NumR]. destruct (Rltb v mn) eqn:L1; [|destruct (Rleb mx v) eqn:L2]; repeat rcase.
    + apply STEP.
      * intros c' Hc. rewrite dget_dset. destruct (Z.eqb_spec c c'); [congruence|]. auto.
      * unfold balanced, side. rewrite dget_dset, Z.eqb_refl, Nl, EW. split; [lra|]. split; [lra|]. split; [lra|]. split; [auto|].
        split; [intros H; specialize (H _ M1); lra|]. intros (x & y & X1 & _ & X2). specialize (M2 _ X1). lra.
    + apply STEP.
      * intros c' Hc. rewrite dget_dset. destruct (Z.eqb_spec c c'); [congruence|]. auto.
      * unfold balanced, side. rewrite dget_dset, Z.eqb_refl, Nr, EW. split; [lra|]. split; [lra|]. split; [lra|]. split; [intros H; specialize (H _ M1); lra|].
        split; [auto|]. intros (x & y & _ & X1 & X2). specialize (M4 _ X1). lra.
    + destruct (g_estimate_R k phi (of_class c h) g v Hk Hphi Ig Wc) as (lt & eq & gt & -> & S1 & S2 & S3 & S4). cbn [bind]. apply STEP.
      * intros c' Hc. rewrite !dget_dset. destruct (Z.eqb_spec c c'); [congruence|]. auto.
      * unfold balanced, side. rewrite !dget_dset, Z.eqb_refl. split; [lra|]. split; [lra|]. split; [lra|]. split; [|split].
        -- intros H. specialize (H _ M1). lra.
        -- intros H. specialize (H _ M3). lra.
        -- auto.
Qed.
Lemma go_split_ok k phi h o v : k > 0 -> (forall z, 0 <= phi z <= 1) -> goinv h o -> (forall c, of_class c h <> [] -> 0 < wtotal (of_class c h)) ->
  exists lhs rhs, go_split k phi o v = Ok (lhs, rhs)
    /\ (forall c, of_class c h = [] -> dget lhs c = None /\ dget rhs c = None)
    /\ (forall c, of_class c h <> [] -> balanced k phi (of_class c h) v lhs rhs c).
Proof.
  intros Hk Hphi I Hw. destruct (go_sides_ok k phi h o v Hk Hphi I (go_dist o) (gi_dist _ _ I)) with (lhs := @nil (Z*R)) (rhs := @nil (Z*R)) as (l & r & E & O1 & O2).
  - intros c g H. apply In_dget; auto. apply I.
  - auto.
  - intros c Hc. apply Hw. now apply (goinv_keys h o c I).
  - exists l, r. split; auto. split.
    + intros c Hc. apply O1. intros C. apply (goinv_keys h o c I) in C. contradiction.
    + intros c Hc. apply O2. now apply (goinv_keys h o c I).
Qed.

Lemma go_best_loop_ok k phi merit (o : gobs R) : forall vs, (forall v, In v vs -> exists l r, go_split k phi o v = Ok (l, r)) ->
  forall best, exists sugs, go_best_loop k phi merit o vs best = Ok (fold_left keep_best sugs best) /\ map sg_test sugs = vs
    /\ (forall s, In s sugs -> exists l r, go_split k phi o (sg_test s) = Ok (l, r) /\ sg_dists s = (l, r) /\ sg_merit s = merit l r).
Proof.
  induction vs as [|v vs IH]; intros H best; cbn [go_best_loop].
  - exists []. cbn. split; auto. split; auto. intros ? [].
  - destruct (H v (or_introl eq_refl)) as (l & r & E). rewrite E. cbn [bind].
    destruct (IH (fun v' Hv => H v' (or_intror Hv)) (keep_best best (mkSug v (l, r) (merit l r)))) as (sugs & E2 & M & P).
    exists (mkSug v (l, r) (merit l r) :: sugs). cbn [fold_left map sg_test]. split; auto. split; [now f_equal|].
    intros s [<-|Hs]; [|auto]. cbn [sg_test sg_dists sg_merit]. eauto.
Qed.
