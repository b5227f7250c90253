(** Robust soft learning vector quantization: predictions, where prototypes start, how they move; labels, batches and initial prototypes. *)
From Coq Require Import List ZArith QArith Bool Reals Lia Lra.
From Verif Require Import Base.Py Base.Num Spec.Lists Model.Adwin Model.DataStream Model.Knn Model.Rslvq Spec.RslvqSpec Proofs.ListFacts Proofs.KnnProofs Proofs.BaggingProofs Proofs.StreamProofs Proofs.RslvqProofs Proofs.RslvqStateProofs.
Import ListNotations.

(** C250: predict answers the class of the nearest prototype (of the first one if several are at the least distance). *)
Theorem rs_predict_nearest : forall cfg (s : rs R) ws xs out, (0 < c_sigma cfg)%R -> r_w s = Some ws -> rs_predict cfg s xs = Ok out ->
  Forall2 (fun x c => exists j w, nearest_of (fun _ => True) x ws j /\ nth_error ws j = Some (w, c)) xs out.
Proof.
  intros cfg s ws xs out Hs Hw. unfold rs_predict. rewrite Hw. revert out. induction xs as [|x xs IH]; intros out H; cbn [mapM] in H; [injection H as <-; constructor|].
  destruct (forallb _ ws); [|discriminate]. apply bind_Ok in H as (c & E & H). apply bind_Ok in H as (r & Er & H). injection H as <-. constructor; auto.
  apply bind_Ok in E as (j & Ej & E). destruct (nth_error ws j) as [[w c0]|] eqn:En; [|discriminate]. injection E as <-. exists j, w. split; auto.
  destruct ws as [|p ws']; [destruct j; discriminate|]. set (l := p :: ws') in *. destruct (np_argmax_ok (map (fun p => costf cfg x (fst p)) l)) as (c & Ec & Lc & M1 & M2); [discriminate|]. rewrite Ec in Ej. injection Ej as ->.
  assert (G : forall i w' c', nth_error l i = Some (w', c') -> nth i (map (fun p => costf cfg x (fst p)) l) 0%R = (- dist2 x w' / (2 * c_sigma cfg))%R).
  { intros i w' c' Hi. erewrite nth_error_nth; [|rewrite nth_error_map, Hi; reflexivity]. cbn [fst]. apply costf_R. }
  exists w, c0. split; auto. split; auto. intros i w' c' Hi _. assert (Li : (i < length (map (fun p => costf cfg x (fst p)) l))%nat) by (rewrite map_length; apply nth_error_Some; congruence).
  assert (D : forall a b, (- a / (2 * c_sigma cfg) <= - b / (2 * c_sigma cfg))%R -> (b <= a)%R).
  { intros a b Hab. apply Rmult_le_reg_r in Hab; [lra|]. apply Rinv_0_lt_compat. lra. }
  assert (D' : forall a b, (- a / (2 * c_sigma cfg) < - b / (2 * c_sigma cfg))%R -> (b < a)%R).
  { intros a b Hab. apply Rmult_lt_reg_r in Hab; [lra|]. apply Rinv_0_lt_compat. lra. }
  specialize (M1 i Li). rewrite (G _ _ _ Hi), (G _ _ _ En) in M1. split; [auto|]. intros Hlt. specialize (M2 i Hlt). rewrite (G _ _ _ Hi), (G _ _ _ En) in M2. auto.
Qed.

Section Any.
Context {T : Type} {N : Num T} (cfg : rs_config T).
(** C251: without initial prototypes the classes are 0, ..., n-1, and predict answers one of them once every class has been seen. *)
Theorem rs_predict_declared : forall l s xs out, (0 < c_ppc cfg)%nat -> rs_run cfg rs_new l = Ok s -> r_initial s = false -> (forall c, In c (r_classes s) -> In c (labels_seen l)) ->
  rs_predict cfg s xs = Ok out -> length out = length xs /\ (forall z, In z out -> In z (r_classes s)) /\ forall i, (i < length (r_classes s))%nat -> In (Z.of_nat i) (r_classes s).
Proof.
  intros l s xs out Hp H Hi Hc HO. apply run_tracks in H as (_ & _ & Tr). destruct (Tr Hi) as (L & Z & w & Ew & Lw & Q). split; [symmetry; eapply mapM_len; exact HO|]. split; auto.
  intros z Hz. unfold rs_predict in HO. rewrite Ew in HO. revert out HO Hz. induction xs as [|x xs IH]; intros out HO Hz; cbn [mapM] in HO; [injection HO as <-; destruct Hz|].
  apply bind_Ok in HO as (c & E & HO). apply bind_Ok in HO as (r & Er & HO). injection HO as <-. destruct Hz as [<-|Hz]; [|eauto]. destruct (forallb _ w); [|discriminate]. apply bind_Ok in E as (j & _ & E).
  destruct (nth_error w j) as [[v c0]|] eqn:En; [|discriminate]. injection E as <-. assert (Lj : (j < length w)%nat) by (apply nth_error_Some; congruence). rewrite Lw in Lj.
  assert (Lq : (j / c_ppc cfg < length (r_classes s))%nat) by (apply Nat.div_lt_upper_bound; lia). destruct (nth_error (r_classes s) (j / c_ppc cfg)) as [c1|] eqn:E1; [|apply nth_error_None in E1; lia].
  destruct (Q _ _ E1) as (b & _ & Hb & Hw). pose proof (nth_error_In _ _ E1) as In1. assert (Bt : b = true) by (apply Hb; auto). destruct (Hw Bt (j mod c_ppc cfg)) as (v' & Hv); [apply Nat.mod_upper_bound; lia|].
  rewrite (Nat.mul_comm (j / c_ppc cfg)), <- Nat.div_mod in Hv by lia. rewrite Hv in En. injection En as <- <-. exact In1.
Qed.

(** C255: after the first call a label outside the classes raises ValueError. *)
Theorem rs_unknown_label : forall s k y, r_initial s = false -> In y (k_ys k) -> ~ In y (r_classes s) -> rs_do cfg s k = Raise ValueError.
Proof.
  intros s k y Hi Hy Hn. unfold rs_do, rs_fit. rewrite Hi, orb_false_r. destruct (forallb _ (k_ys k)) eqn:E; [|reflexivity]. apply forallb_mem in E. elim Hn. auto.
Qed.
(** The first call accepts its classes (the ones given in a list, or else its labels) only if they are 0, ..., n-1. *)
Theorem rs_labels_from_zero : forall k s, rs_do cfg rs_new k = Ok s -> (match k_classes k with CNone => forall z, In z (r_classes s) <-> In z (k_ys k) | CList (c :: r) => r_classes s = c :: r | _ => True end)
  /\ forall i, (i < length (r_classes s))%nat -> In (Z.of_nat i) (r_classes s).
Proof.
  intros k s H. destruct (fit_inv cfg [] rs_new k s (tracks_new cfg) H) as (rows & w0 & acc0 & w' & acc' & cl & ready & ready0 & _ & Ey & _ & _ & Es & _ & _ & _ & _ & _ & ->). cbn [r_classes].
  unfold set_classes in Es. cbn [r_initial rs_new] in Es. apply bind_Ok in Es as (g & Eg & Es). destruct (forallb _ _) eqn:F; [|discriminate]. injection Es as Ec _. rewrite forallb_forall in F. split.
  - destruct (k_classes k) as [|[|c r]|r]; cbn in Eg; auto; injection Eg as <-; [|now symmetry]. intros z. rewrite <- Ec, <- Ey. apply np_unique_spec.
  - rewrite Ec in F. intros i Hi. apply mem_In. apply F. apply in_seq. lia.
Qed.

(** C258: once every class has been seen, training in one call or in several makes no difference. *)
Lemma nearest_some good x : forall (ws : list (list T * Z)) j best, (best <> None \/ exists w c, In (w, c) ws /\ good c = true) -> nearest good x j ws best <> None.
Proof.
  induction ws as [|[w c] r IH]; intros j best H; cbn [nearest]; [destruct H as [H|(? & ? & [] & _)]; auto|]. apply IH. destruct H as [H|(w0 & c0 & [E|H] & Hg)].
  - left. destruct best as [[d i]|]; [|contradiction]. destruct (good c); [destruct (_ <? _)%num|]; discriminate.
  - injection E as <- <-. left. rewrite Hg. destruct best as [[d i]|]; [destruct (_ <? _)%num|]; discriminate.
  - right. eauto.
Qed.
Lemma sample_vars st v1 v2 x y : In y (map snd (fst st)) -> match rs_sample cfg st v1 x y with Ok (st', _) => exists v', rs_sample cfg st v2 x y = Ok (st', v') | Raise e => rs_sample cfg st v2 x y = Raise e end.
Proof.
  intros Hy. unfold rs_sample. cbv zeta. assert (NC : nearest (fun c => Z.eqb c y) x 0 (fst st) None <> None).
  { apply nearest_some. right. apply in_map_iff in Hy as ([w c] & E & Hin). cbn in E. subst c. exists w, y. split; auto. apply Z.eqb_refl. }
  destruct (nearest (fun c => Z.eqb c y) x 0 (fst st) None) as [[dc jc]|]; [|contradiction]. destruct (nearest _ x 0 (fst st) None) as [[di ji]|]; [|eauto]. destruct (_ <? _)%num; [|eauto].
  destruct (update_proto cfg st jc x y) as [s1|e]; cbn [bind]; [|reflexivity]. destruct (update_proto cfg s1 ji x y) as [s2|e]; cbn [bind]; eauto.
Qed.
Lemma optimize_vars rows : forall st v1 v2, incl (map snd rows) (map snd (fst st)) -> rs_optimize cfg st v1 rows = rs_optimize cfg st v2 rows.
Proof.
  induction rows as [|[x y] r IH]; intros st v1 v2 H; cbn [rs_optimize]; [reflexivity|]. assert (Hy : In y (map snd (fst st))) by (apply H; now left). pose proof (sample_vars st v1 v2 x y Hy) as S.
  destruct (rs_sample cfg st v1 x y) as [[st1 w1]|e] eqn:E1.
  - destruct S as (w2 & E2). rewrite E2. cbn [bind]. apply IH. apply sample_keeps in E1 as [K _]. rewrite K. intros z Hz. apply H. now right.
  - rewrite S. reflexivity.
Qed.
Lemma optimize_app r1 r2 : forall st v, incl (map snd (r1 ++ r2)) (map snd (fst st)) -> rs_optimize cfg st v (r1 ++ r2) = (st' <- rs_optimize cfg st v r1 ;; rs_optimize cfg st' (None, None) r2).
Proof.
  induction r1 as [|[x y] r IH]; intros st v H; cbn [rs_optimize app].
  - cbn [bind]. apply optimize_vars. exact H.
  - destruct (rs_sample cfg st v x y) as [[st1 v1]|e] eqn:E1; cbn [bind]; [|reflexivity]. apply IH. apply sample_keeps in E1 as [K _]. rewrite K. intros z Hz. apply H. now right.
Qed.
Lemma init_ready rows noise : forall cs i bs w, length bs = length cs -> (forall b, In b bs -> b = true) -> init_classes cfg rows noise i cs bs w = (bs, w).
Proof.
  induction cs as [|c cs IH]; intros i [|b bs] w L Hb; try discriminate; cbn [init_classes]; [reflexivity|]. rewrite (Hb b (or_introl eq_refl)). cbn [negb andb]. injection L as L. rewrite IH; auto. intros b' H'. apply Hb. now right.
Qed.
Lemma combine_app {A B} (a a' : list A) (b b' : list B) : length a = length b -> combine (a ++ a') (b ++ b') = combine a b ++ combine a' b'.
Proof. revert b. induction a as [|x a IH]; intros [|y b] L; try discriminate; [reflexivity|]. cbn. f_equal. apply IH. now injection L. Qed.
Theorem rs_batches : forall l s k1 s1 k2 s2 classes junk noise d, (0 < c_ppc cfg)%nat -> rs_run cfg rs_new l = Ok s -> r_initial s = false -> (forall c, In c (r_classes s) -> In c (labels_seen l)) ->
  (forall x, In x (k_xs k1 ++ k_xs k2) -> length x = d) -> rs_do cfg s k1 = Ok s1 -> rs_do cfg s1 k2 = Ok s2 ->
  rs_do cfg s (mk_call (k_xs k1 ++ k_xs k2) (k_ys k1 ++ k_ys k2) classes junk noise) = Ok s2.
Proof.
  intros l s k1 s1 k2 s2 classes junk noise d Hp H Hi Hc Hd E1 E2. pose proof (run_tracks cfg l s H) as Tr. pose proof (tracks_fit cfg l s k1 s1 Tr E1) as Tr1.
  pose proof Tr as (P & _ & To). destruct (To Hi) as (Lr & _ & w & Ew & Lw & Q).
  assert (Rd : forall b, In b (r_ready s) -> b = true).
  { intros b Hb. apply In_nth_error in Hb as (i & Hb). assert (i < length (r_classes s))%nat by (rewrite <- Lr; apply nth_error_Some; congruence). destruct (nth_error (r_classes s) i) as [c|] eqn:E; [|apply nth_error_None in E; lia].
    destruct (Q i c E) as (b' & Hb' & Hl & _). rewrite Hb' in Hb. injection Hb as <-. apply Hl, Hc. eapply nth_error_In; eauto. }
  assert (Cl : incl (r_classes s) (map snd w)).
  { intros c Hin. apply In_nth_error in Hin as (i & Hin). destruct (Q i c Hin) as (b & Hb & _ & Hw). destruct (Hw (Rd b (nth_error_In _ _ Hb)) 0%nat Hp) as (v & Hv). apply nth_error_In in Hv. apply in_map_iff. exists (v, c). auto. }
  unfold rs_do, rs_fit in E1. rewrite Hi, orb_false_r in E1. destruct (forallb (fun y => mem y (r_classes s)) (k_ys k1)) eqn:M1; [|discriminate]. apply bind_Ok in E1 as (rows1 & C1 & E1). apply bind_Ok in E1 as (sa & V1 & E1).
  unfold rs_validate, set_classes in V1. rewrite Hi, P, Ew in V1. cbn [bind] in V1. destruct (forallb _ w) eqn:W1 in V1; [|discriminate]. rewrite (init_ready rows1 _ _ _ _ _ Lr Rd) in V1. injection V1 as <-. cbn [r_w r_acc r_protos r_classes r_ready] in E1.
  rewrite W1 in E1. apply bind_Ok in E1 as ([w1 acc1] & O1 & E1). injection E1 as <-. pose proof (optimize_keeps cfg _ _ _ _ O1) as [K1 _]. cbn [fst] in K1.
  unfold rs_do, rs_fit in E2. cbn [r_initial r_classes] in E2. rewrite orb_false_r in E2. destruct (forallb (fun y => mem y (r_classes s)) (k_ys k2)) eqn:M2; [|discriminate]. apply bind_Ok in E2 as (rows2 & C2 & E2). apply bind_Ok in E2 as (sb & V2 & E2).
  unfold rs_validate, set_classes in V2. cbn [r_initial r_classes r_ready r_protos r_w r_acc] in V2. cbn [bind] in V2. destruct (forallb _ w1) eqn:W2 in V2; [|discriminate]. rewrite (init_ready rows2 _ _ _ _ _ Lr Rd) in V2. injection V2 as <-. cbn [r_w r_acc r_protos r_classes r_ready] in E2.
  rewrite W2 in E2. apply bind_Ok in E2 as ([w2 acc2] & O2 & E2). injection E2 as <-.
  assert (C12 : checked (k_xs k1 ++ k_xs k2) (k_ys k1 ++ k_ys k2) = Ok (rows1 ++ rows2) /\ width (rows1 ++ rows2) = width rows1).
  { clear - C1 C2 Hd. unfold checked in *. destruct (k_xs k1) as [|a xs1] eqn:E1; [discriminate|]. destruct (k_xs k2) as [|b xs2] eqn:E2; [discriminate|].
    destruct (Nat.eqb (length (a :: xs1)) (length (k_ys k1)) && _ && _)%bool eqn:F1; [|discriminate]. apply andb_true_iff in F1 as [F1 _]. apply andb_true_iff in F1 as [L1 Z1]. apply Nat.eqb_eq in L1. injection C1 as <-.
    destruct (Nat.eqb (length (b :: xs2)) (length (k_ys k2)) && _ && _)%bool eqn:F2; [|discriminate]. apply andb_true_iff in F2 as [F2 _]. apply andb_true_iff in F2 as [L2 _]. apply Nat.eqb_eq in L2. injection C2 as <-.
    cbn [app]. rewrite Z1. change (a :: xs1 ++ b :: xs2) with ((a :: xs1) ++ b :: xs2) at 1. rewrite !app_length, L1, L2, Nat.eqb_refl. cbn [andb].
    assert (F : forallb (fun r => Nat.eqb (length r) (length a)) (a :: xs1 ++ b :: xs2) = true).
    { apply forallb_forall. intros r Hr. apply Nat.eqb_eq. rewrite (Hd a) by now left. apply Hd. exact Hr. }
    rewrite F. split.
    - f_equal. exact (combine_app (a :: xs1) (b :: xs2) (k_ys k1) (k_ys k2) L1).
    - destruct (k_ys k1) as [|y0 y1]; [discriminate|]. reflexivity. }
  destruct C12 as [C12 W12]. unfold rs_do, rs_fit. cbn [k_xs k_ys k_classes k_junk k_noise]. rewrite Hi, orb_false_r, forallb_app, M1, M2. cbn [andb]. rewrite C12. cbn [bind].
  unfold rs_validate, set_classes. rewrite Hi, P, Ew. cbn [bind]. rewrite W12, W1, (init_ready _ _ _ _ _ _ Lr Rd). cbn [bind r_w r_acc r_protos r_classes r_ready]. rewrite W1. rewrite optimize_app.
  - rewrite O1. cbn [bind]. rewrite O2. reflexivity.
  - cbn [fst]. rewrite map_app. destruct (checked_rows _ _ _ C1) as (_ & Y1 & _). destruct (checked_rows _ _ _ C2) as (_ & Y2 & _). rewrite Y1, Y2. apply forallb_mem in M1. apply forallb_mem in M2. intros z Hz. apply Cl. apply in_app_iff in Hz as [Hz|Hz]; auto.
Qed.

(** C256, refuted: "initial_prototypes: Prototypes to start with".  Given as a list, every call of partial_fit starts from them again:
    what a call leaves does not depend on anything learned before. *)
Theorem rs_list_protos_forget_refuted : forall p s s2 k s', c_adadelta cfg = false -> r_protos s = AsList p -> r_protos s2 = AsList p -> r_initial s = false -> r_initial s2 = false -> r_classes s2 = r_classes s ->
  rs_do cfg s k = Ok s' -> exists s2', rs_do cfg s2 k = Ok s2' /\ r_w s2' = r_w s'.
Proof.
  intros p s s2 k s' Ha P P2 I I2 C H. unfold rs_do, rs_fit in *. rewrite C, I2. rewrite I in H. destruct (_ || false)%bool; [|discriminate]. apply bind_Ok in H as (rows & E & H). rewrite E. cbn [bind].
  apply bind_Ok in H as (s1 & V & H). unfold rs_validate, set_classes in *. rewrite P, I in V. rewrite P2, I2, C. cbn [bind] in *. destruct (_ && _)%bool; [|discriminate]. destruct (_ && _)%bool; [|discriminate]. injection V as <-. cbn [bind r_w r_acc r_protos r_classes r_ready] in *.
  destruct (forallb _ p); [|discriminate]. apply bind_Ok in H as ([w acc] & O & H). injection H as <-.
  assert (G : forall a1 a2, match rs_optimize cfg (p, a1) (None, None) rows with Ok (w, _) => exists a, rs_optimize cfg (p, a2) (None, None) rows = Ok (w, a) | Raise _ => True end).
  { generalize p as ws, (@None nat, @None nat) as vars. clear - Ha. induction rows as [|[x y] r IH]; intros ws vars a1 a2; cbn [rs_optimize]; [eauto|].
    assert (U : forall ws' j, match update_proto cfg (ws', a1) j x y with Ok (w, b) => b = a1 /\ update_proto cfg (ws', a2) j x y = Ok (w, a2) | Raise e => update_proto cfg (ws', a2) j x y = Raise e end).
    { intros ws' j. unfold update_proto. destruct (nth_error ws' j) as [[w c]|]; [|reflexivity]. rewrite Ha. auto. }
    unfold rs_sample. cbv zeta. cbn [fst].
    set (b := match nearest _ x 0 ws None with Some _ => _ | None => false end). set (ci := match nearest _ x 0 ws None with Some (_, j) => Some j | None => fst vars end). set (ii := match nearest _ x 0 ws None with Some (_, j) => Some j | None => snd vars end).
    clearbody b ci ii. destruct b; [|cbn [bind]; apply IH]. destruct ci as [c|]; [|exact I]. destruct ii as [i|]; [|exact I].
    pose proof (U ws c) as U1. destruct (update_proto cfg (ws, a1) c x y) as [[w1 b1]|e]; cbn [bind]; [|exact I]. destruct U1 as [-> U1]. rewrite U1. cbn [bind].
    pose proof (U w1 i) as U2. destruct (update_proto cfg (w1, a1) i x y) as [[w2 b2]|e]; cbn [bind]; [|exact I]. destruct U2 as [-> U2]. rewrite U2. cbn [bind]. apply IH. }
  specialize (G (r_acc s) (r_acc s2)). rewrite O in G. destruct G as (a & G). rewrite G. cbn [bind]. eexists. split; reflexivity.
Qed.
(** Given as an array they are trained in place: after a call the array of the user holds the trained prototypes. *)
Theorem rs_array_protos_trained_in_place : forall p s k s', r_protos s = AsArray p -> rs_do cfg s k = Ok s' -> exists w, r_w s' = Some w /\ r_protos s' = AsArray w.
Proof.
  intros p s k s' P H. unfold rs_do, rs_fit in H. destruct (_ || _)%bool; [|discriminate]. apply bind_Ok in H as (rows & E & H). apply bind_Ok in H as (s1 & V & H). unfold rs_validate in V. apply bind_Ok in V as ([cl rd] & _ & V). rewrite P in V.
  destruct (_ && _)%bool; [|discriminate]. destruct (_ && _)%bool; [|discriminate]. injection V as <-. cbn [r_w r_acc r_protos] in H. destruct (forallb _ p); [|discriminate]. apply bind_Ok in H as ([w acc] & O & H). injection H as <-. exists w. rewrite ?P. split; reflexivity.
Qed.
(** C257, refuted: a list of numbers of prototypes per class, which partial_fit has code for, is a TypeError in the constructor; and
    sigma = 0 is a ZeroDivisionError, not the ValueError of the check that follows. *)
Theorem rs_prototypes_list_refuted : forall eps l protos sigma gamma ad r, @rs_make T N eps (PList l) protos sigma gamma ad <> Ok r.
Proof. intros eps l protos sigma gamma ad r. unfold rs_make, pydiv. destruct (sigma =? n0)%num; cbn [bind]; [discriminate|]. destruct (_ <=? _)%num; discriminate. Qed.
Theorem rs_sigma_zero_refuted : forall eps ppc protos sigma gamma ad, (sigma =? n0)%num = true -> @rs_make T N eps ppc protos sigma gamma ad = Raise ZeroDivisionError.
Proof. intros eps ppc protos sigma gamma ad H. unfold rs_make, pydiv. now rewrite H. Qed.
End Any.

(** *** Over the reals *)
Section Real.
Local Open Scope R_scope.
Variable cfg : rs_config R.
Local Notation sigma := (c_sigma cfg).

(** C252: where a prototype starts, in the call whose labels contain its class for the first time: at the mean of the rows of that
    class in that call; with more than one prototype per class at the mean plus 2 r - 1 in each coordinate, r drawn from [0, 1). *)
Definition class_means (rows : list (list R * Z)) (c : Z) (d : nat) : list R := map (fun t => Rmean (map (fun r => nth t (fst r) 0) (filter (fun r => Z.eqb (snd r) c) rows))) (seq 0 d).
Definition starts_at (rows : list (list R * Z)) (c : Z) (d : nat) (noise : list R) (v : list R) : Prop :=
  if Nat.eqb (c_ppc cfg) 1 then v = class_means rows c d else v = map (fun p => fst p + (2 * snd p - 1)) (combine (class_means rows c d) noise).
(** The prototypes with which a call begins to train *)
Definition start (l : list (rs_call R)) (s : rs R) (k : rs_call R) (classes : list Z) (w0 : list (list R * Z)) : Prop :=
  length w0 = (length classes * c_ppc cfg)%nat
  /\ forall i c j, nth_error classes i = Some c -> (j < c_ppc cfg)%nat ->
     let m := (i * c_ppc cfg + j)%nat in
     let before := match r_w s with Some w => nth_error w m | None => Some (k_junk k m) end in
     (In c (labels_seen l) -> nth_error w0 m = before)
     /\ (~ In c (labels_seen l) -> In c (k_ys k) -> exists v, nth_error w0 m = Some (v, c) /\ starts_at (combine (k_xs k) (k_ys k)) c (width (combine (k_xs k) (k_ys k))) (k_noise k i j) v)
     /\ (~ In c (labels_seen l) -> ~ In c (k_ys k) -> nth_error w0 m = before).
Lemma col_mean_R rows c d : map snd rows <> [] -> col_mean (map fst (filter (fun r => Z.eqb (snd r) c) rows)) d = class_means rows c d.
Proof.
  intros _. unfold col_mean, class_means. apply map_ext. intros t. rewrite vsum_Rsum, map_map. unfold Rmean. rewrite !map_length. cbn [ndiv nofZ NumR]. now rewrite <- INR_IZR_INZ.
Qed.
Lemma start_ok l s k rows w0 cl ready ready0 : tracks cfg l s -> rows = combine (k_xs k) (k_ys k) -> map snd rows = k_ys k -> rows <> [] -> set_classes s rows (k_classes k) = Ok (cl, ready0) ->
  init_classes cfg rows (k_noise k) 0 cl ready0 (match (if r_initial s then None else r_w s) with Some w => w | None => map (k_junk k) (seq 0 (length cl * c_ppc cfg)) end) = (ready, w0) -> start l s k cl w0.
Proof.
  intros (P & Tn & To) Er Ey Ne Es Ei. unfold set_classes in Es.
  assert (G : forall w, length w = (length cl * c_ppc cfg)%nat -> length ready0 = length cl -> init_classes cfg rows (k_noise k) 0 cl ready0 w = (ready, w0) ->
    (forall i c, nth_error cl i = Some c -> exists b, nth_error ready0 i = Some b /\ (b = true <-> In c (labels_seen l))) ->
    (forall m, (m < length cl * c_ppc cfg)%nat -> nth_error w m = match r_w s with Some w => nth_error w m | None => Some (k_junk k m) end) -> start l s k cl w0).
  { intros w Lw Lr E Hb Hw. destruct (init_spec cfg rows (k_noise k) cl 0 ready0 w ready w0 Lr) as (A & B & C & D); [rewrite Lw; apply Nat.le_refl|exact E|]. split; [congruence|]. intros i c j Hc Hj m before. cbn [Nat.add] in D.
    destruct (Hb i c Hc) as (b & Hbi & Hs). destruct (D i c b Hc Hbi) as [_ D2]. specialize (D2 j Hj). fold m in D2.
    assert (Lm : (m < length cl * c_ppc cfg)%nat). { assert (i < length cl)%nat by (apply nth_error_Some; congruence). unfold m. nia. } specialize (Hw m Lm). fold before in Hw.
    assert (Hm : mem c (map snd rows) = true <-> In c (k_ys k)) by (rewrite mem_In, Ey; tauto). split; [|split].
    - intros Hin. apply Hs in Hin. subst b. cbn [negb andb] in D2. congruence.
    - intros Hn Hin. apply Hm in Hin. assert (b = false) by (destruct b; auto; elim Hn; now apply Hs). subst b. rewrite Hin in D2. cbn [negb andb] in D2. rewrite D2. unfold fresh_protos. rewrite nth_error_map.
      assert (Ej : nth_error (seq 0 (c_ppc cfg)) j = Some j). { rewrite (nth_error_nth' _ 0%nat) by now rewrite seq_length. now rewrite seq_nth. } rewrite Ej. cbn [option_map]. rewrite <- Er. eexists. split; [reflexivity|].
      unfold starts_at. rewrite col_mean_R by (rewrite Ey; intros E0; apply Ne; destruct rows; [reflexivity|rewrite <- Ey in E0; discriminate]). destruct (Nat.eqb (c_ppc cfg) 1); [reflexivity|]. unfold map2. apply map_ext. intros p. cbn. ring.
    - intros Hn Hy. destruct (mem c (map snd rows)) eqn:Em; [elim Hy; now apply Hm|]. rewrite andb_false_r in D2. congruence. }
  destruct (r_initial s) eqn:Ein.
  - destruct (Tn eq_refl) as [-> ->]. apply bind_Ok in Es as (g & _ & Es). destruct (forallb _ _); [|discriminate]. injection Es as Ec <-. rewrite <- Ec in *. eapply G; [|apply map_length|exact Ei| |].
    + now rewrite map_length, seq_length.
    + intros i c Hc. exists false. rewrite nth_error_map, Hc. split; auto. split; [discriminate|intros []].
    + intros m Hm. cbn [r_w rs_new]. rewrite nth_error_map. rewrite (nth_error_nth' _ 0%nat) by now rewrite seq_length. now rewrite seq_nth.
  - injection Es as <- <-. destruct (To eq_refl) as (L & _ & w & Ew & Lw & Q). rewrite Ew in Ei. eapply G; eauto. + intros i c Hc. destruct (Q i c Hc) as (b & A & B & _). eauto. + intros m _. now rewrite Ew.
Qed.

(** C253: what a call does (vanilla gradient descent): from those prototypes, the learning vector quantization step of every sample in order. *)
Lemma seen_in l s cl w0 k (rows : list (list R * Z)) : (0 < c_ppc cfg)%nat -> tracks cfg l s -> (r_initial s = false -> cl = r_classes s) -> start l s k cl w0 -> map snd rows = k_ys k -> incl (k_ys k) cl -> incl (map snd rows) (map snd w0).
Proof.
  intros Hp (_ & Tn & To) Hcl (Lw & St) Ey Hincl y Hy. rewrite Ey in Hy. pose proof (Hincl _ Hy) as Hc. apply In_nth_error in Hc as (i & Hi). destruct (St i y 0%nat Hi Hp) as (A & B & _). cbv zeta in A, B.
  destruct (in_dec Z.eq_dec y (labels_seen l)) as [Hs|Hs].
  - specialize (A Hs). destruct (r_initial s) eqn:Ein; [destruct (Tn eq_refl) as [-> ->]; destruct Hs|]. destruct (To eq_refl) as (_ & _ & w & Ew & _ & Q). rewrite (Hcl eq_refl) in Hi. destruct (Q i y Hi) as (b & _ & Hb & Hw). destruct (Hw (proj2 Hb Hs) 0%nat Hp) as (v & Hv).
    rewrite Ew, Hv in A. apply nth_error_In in A. apply in_map_iff. exists (v, y). auto.
  - destruct (B Hs Hy) as (v & Hv & _). apply nth_error_In in Hv. apply in_map_iff. exists (v, y). auto.
Qed.
Theorem rs_training : forall l s k s', c_adadelta cfg = false -> (0 < c_ppc cfg)%nat -> rs_run cfg rs_new l = Ok s -> rs_do cfg s k = Ok s' -> incl (k_ys k) (r_classes s') ->
  exists w0 w', start l s k (r_classes s') w0 /\ r_w s' = Some w' /\ lvq_steps sigma (combine (k_xs k) (k_ys k)) w0 w'.
Proof.
  intros l s k s' Ha Hp H E Hincl. apply run_tracks in H. destruct (fit_inv cfg l s k s' H E) as (rows & w0 & acc0 & w' & acc' & cl & ready & ready0 & Er & Ey & Ne & Wd & Es & Ei & _ & Ea & Ww & Eo & ->). cbn [r_classes r_w] in *.
  pose proof (start_ok l s k rows w0 cl ready ready0 H Er Ey Ne Es Ei) as St. exists w0, w'. split; auto. split; auto.
  assert (Hcl : r_initial s = false -> cl = r_classes s) by (intros Hf; unfold set_classes in Es; rewrite Hf in Es; now injection Es as <- _).
  pose proof (seen_in l s cl w0 k rows Hp H Hcl St Ey Hincl) as In0.
  destruct (optimize_steps cfg (width rows) rows Ha w0 acc0 (None, None)) as (w2 & E2 & S2 & _).
  - intros w c Hin. apply (Ww (w, c) Hin).
  - intros x y Hin. split; [eauto|]. apply In0. apply in_map_iff. exists (x, y). auto.
  - rewrite E2 in Eo. injection Eo as <- _. now rewrite <- Er.
Qed.
(** A call after the first one never fails when its labels are among the classes and its rows as wide as the prototypes. *)
Theorem rs_never_fails : forall l s k w d, c_adadelta cfg = false -> (0 < c_ppc cfg)%nat -> rs_run cfg rs_new l = Ok s -> r_initial s = false -> r_w s = Some w -> all_width d w -> (0 < d)%nat ->
  k_xs k <> [] -> length (k_xs k) = length (k_ys k) -> (forall x, In x (k_xs k) -> length x = d) -> incl (k_ys k) (r_classes s) -> (c_ppc cfg = 1%nat \/ forall i j, length (k_noise k i j) = d) ->
  exists s', rs_do cfg s k = Ok s'.
Proof.
  intros l s k w d Ha Hp H Hi Ew Wd Hd Ne Lk Hx Hy Hn. pose proof (run_tracks cfg l s H) as Tr. pose proof Tr as (P & _ & To). destruct (To Hi) as (Lr & _ & w1 & Ew1 & Lw & Q). rewrite Ew in Ew1. injection Ew1 as <-.
  unfold rs_do, rs_fit. apply forallb_mem in Hy as Hy'. rewrite Hi, orb_false_r, Hy'.
  assert (C : checked (k_xs k) (k_ys k) = Ok (combine (k_xs k) (k_ys k))).
  { unfold checked. destruct (k_xs k) as [|a xs] eqn:E; [contradiction|]. rewrite Lk, Nat.eqb_refl. rewrite (Hx a) by now left. replace (Nat.eqb d 0) with false by (symmetry; apply Nat.eqb_neq; lia). cbn [negb andb].
    replace (forallb _ _) with true; [reflexivity|]. symmetry. apply forallb_forall. intros r Hr. apply Nat.eqb_eq. auto. }
  rewrite C. cbn [bind]. destruct (checked_rows _ _ _ C) as (_ & Ey & NeR & Wr). set (rows := combine (k_xs k) (k_ys k)) in *.
  assert (Wrows : width rows = d). { unfold rows. destruct (k_xs k) as [|a xs]; [contradiction|]. destruct (k_ys k) as [|y ys]; [discriminate|]. cbn. apply Hx. now left. }
  unfold rs_validate, set_classes. rewrite Hi, P, Ew. cbn [bind]. replace (forallb (fun p => Nat.eqb (length (fst p)) (width rows)) w) with true by (symmetry; apply forallb_forall; intros [v c] Hin; apply Nat.eqb_eq; rewrite Wrows; eauto). destruct (init_classes _ _ _ _ _ _ _) as [ready w0] eqn:Ei. cbn [bind r_w r_acc r_protos r_classes r_ready].
  assert (Es : set_classes s rows (k_classes k) = Ok (r_classes s, r_ready s)) by (unfold set_classes; now rewrite Hi).
  assert (St : start l s k (r_classes s) w0) by (apply (start_ok l s k rows w0 (r_classes s) ready (r_ready s)); auto; rewrite Hi, Ew; exact Ei).
  assert (W0 : all_width d w0).
  { intros v c Hin. apply In_nth_error in Hin as (m & Hm). destruct St as (Lw0 & St). assert (Lm : (m < length w0)%nat) by (apply nth_error_Some; congruence). rewrite Lw0 in Lm.
    assert (Lq : (m / c_ppc cfg < length (r_classes s))%nat) by (apply Nat.div_lt_upper_bound; lia). destruct (nth_error (r_classes s) (m / c_ppc cfg)) as [c1|] eqn:E1; [|apply nth_error_None in E1; lia].
    destruct (St _ c1 (m mod c_ppc cfg)%nat E1) as (A & B & D); [apply Nat.mod_upper_bound; lia|]. cbv zeta in A, B, D. rewrite (Nat.mul_comm (m / c_ppc cfg)), <- Nat.div_mod in A, B, D by lia. rewrite Ew in A, D. rewrite Hm in A, B, D.
    destruct (in_dec Z.eq_dec c1 (labels_seen l)) as [Hs|Hs]; [specialize (A Hs); symmetry in A; apply nth_error_In in A; eauto|]. destruct (in_dec Z.eq_dec c1 (k_ys k)) as [Hk|Hk]; [|specialize (D Hs Hk); symmetry in D; apply nth_error_In in D; eauto].
    destruct (B Hs Hk) as (v' & [= -> ->] & Sv). unfold starts_at in Sv. fold rows in Sv. rewrite Wrows in Sv. assert (Lc : forall c, length (class_means rows c d) = d) by (intros; unfold class_means; now rewrite map_length, seq_length).
    destruct (Nat.eqb (c_ppc cfg) 1) eqn:E1p; subst v'; [auto|]. rewrite map_length, combine_length, Lc. destruct Hn as [Hn|Hn]; [apply Nat.eqb_neq in E1p; contradiction|]. rewrite Hn. apply Nat.min_id. }
  replace (forallb (fun p => Nat.eqb (length (fst p)) (width rows)) w0) with true by (symmetry; apply forallb_forall; intros [v c] Hin; apply Nat.eqb_eq; rewrite Wrows; eauto).
  pose proof (seen_in l s (r_classes s) w0 k rows Hp Tr (fun _ => eq_refl) St Ey Hy) as In0.
  destruct (optimize_steps cfg d rows Ha w0 (r_acc s) (None, None) W0) as (w2 & E2 & _); [|rewrite E2; cbn [bind]; eauto].
  intros x y Hin. split; [rewrite <- Wrows; eauto|]. apply In0. apply in_map_iff. exists (x, y). auto.
Qed.

(** The first call does not fail either when the labels it has are 0, ..., n-1. *)
Theorem rs_first_call : forall k d, c_adadelta cfg = false -> (0 < c_ppc cfg)%nat -> (0 < d)%nat -> k_classes k = CNone -> k_xs k <> [] -> length (k_xs k) = length (k_ys k) -> (forall x, In x (k_xs k) -> length x = d) ->
  (forall i, (i < length (np_unique (k_ys k)))%nat -> In (Z.of_nat i) (k_ys k)) -> (c_ppc cfg = 1%nat \/ forall i j, length (k_noise k i j) = d) ->
  (forall m, length (fst (k_junk k m)) = d) ->
  exists s w, rs_do cfg rs_new k = Ok s /\ r_w s = Some w /\ all_width d w /\ r_initial s = false.
Proof.
  intros k d Ha Hp Hd Hcn Ne Lk Hx Hy Hn Hjk. unfold rs_do, rs_fit. cbn [r_initial rs_new r_classes]. rewrite orb_true_r.
  assert (C : checked (k_xs k) (k_ys k) = Ok (combine (k_xs k) (k_ys k))).
  { unfold checked. destruct (k_xs k) as [|a xs] eqn:E; [contradiction|]. rewrite Lk, Nat.eqb_refl. rewrite (Hx a) by now left. replace (Nat.eqb d 0) with false by (symmetry; apply Nat.eqb_neq; lia). cbn [negb andb].
    replace (forallb _ _) with true; [reflexivity|]. symmetry. apply forallb_forall. intros r Hr. apply Nat.eqb_eq. auto. }
  rewrite C. cbn [bind]. destruct (checked_rows _ _ _ C) as (_ & Ey & NeR & Wr). set (rows := combine (k_xs k) (k_ys k)) in *.
  assert (Wrows : width rows = d). { unfold rows. destruct (k_xs k) as [|a xs]; [contradiction|]. destruct (k_ys k) as [|y ys]; [discriminate|]. cbn. apply Hx. now left. }
  set (cl := np_unique (k_ys k)) in *.
  assert (Es : set_classes rs_new rows (k_classes k) = Ok (cl, map (fun _ => false) cl)).
  { unfold set_classes. cbn [r_initial rs_new]. rewrite Hcn. cbn [given_classes bind]. rewrite Ey. fold cl. replace (forallb _ _) with true; [reflexivity|]. symmetry. apply forallb_forall. intros i Hi. apply in_seq in Hi. apply mem_In. apply np_unique_spec. apply Hy. lia. }
  unfold rs_validate. rewrite Es. cbn [bind r_protos rs_new r_initial]. replace (forallb _ (map (k_junk k) _)) with true by (symmetry; apply forallb_forall; intros p Hin; apply in_map_iff in Hin as (m & <- & _); apply Nat.eqb_eq; rewrite Wrows; auto). destruct (init_classes _ _ _ _ _ _ _) as [ready w0] eqn:Ei. cbn [bind r_w r_acc r_protos r_classes r_ready].
  assert (St : start [] rs_new k cl w0) by (apply (start_ok [] rs_new k rows w0 cl ready (map (fun _ => false) cl)); auto; apply tracks_new).
  assert (W0 : all_width d w0).
  { intros v c Hin. apply In_nth_error in Hin as (m & Hm). destruct St as (Lw0 & St). assert (Lm : (m < length w0)%nat) by (apply nth_error_Some; congruence). rewrite Lw0 in Lm.
    assert (Lq : (m / c_ppc cfg < length cl)%nat) by (apply Nat.div_lt_upper_bound; lia). destruct (nth_error cl (m / c_ppc cfg)) as [c1|] eqn:E1; [|apply nth_error_None in E1; lia].
    destruct (St _ c1 (m mod c_ppc cfg)%nat E1) as (_ & B & _); [apply Nat.mod_upper_bound; lia|]. cbv zeta in B. rewrite (Nat.mul_comm (m / c_ppc cfg)), <- Nat.div_mod in B by lia. rewrite Hm in B.
    destruct B as (v' & [= -> ->] & Sv); [intros []|apply np_unique_spec; eapply nth_error_In; exact E1|]. unfold starts_at in Sv. fold rows in Sv. rewrite Wrows in Sv. assert (Lc : forall c, length (class_means rows c d) = d) by (intros; unfold class_means; now rewrite map_length, seq_length).
    destruct (Nat.eqb (c_ppc cfg) 1) eqn:E1p; subst v'; [auto|]. rewrite map_length, combine_length, Lc. destruct Hn as [Hn|Hn]; [apply Nat.eqb_neq in E1p; contradiction|]. rewrite Hn. apply Nat.min_id. }
  replace (forallb (fun p => Nat.eqb (length (fst p)) (width rows)) w0) with true by (symmetry; apply forallb_forall; intros [v c] Hin; apply Nat.eqb_eq; rewrite Wrows; eauto).
  assert (Hin0 : incl (k_ys k) cl) by (intros z Hz; now apply np_unique_spec).
  pose proof (seen_in [] rs_new cl w0 k rows Hp (tracks_new cfg) ltac:(discriminate) St Ey Hin0) as In0.
  destruct (optimize_steps cfg d rows Ha w0 (if c_adadelta cfg then zeros w0 else []) (None, None) W0) as (w2 & E2 & _ & W2 & _); [|rewrite E2; cbn [bind]; do 2 eexists; split; [reflexivity|]; split; [reflexivity|]; split; [exact W2|reflexivity]].
  intros x y Hin. split; [rewrite <- Wrows; eauto|]. apply In0. apply in_map_iff. exists (x, y). auto.
Qed.

(** What a step does to the distances: with sigma >= 1/2 no prototype of the class of the sample gets farther from it and no other
    one gets closer; if a wrong prototype was the nearest, the nearest right one gets closer and the wrong one farther (unless the
    sample is exactly there). *)
Theorem rs_step_distances : forall d x y ws ws', 1 / 2 <= sigma -> all_width d ws -> length x = d -> lvq_step sigma x y ws ws' ->
  forall j w c, nth_error ws j = Some (w, c) -> exists w', nth_error ws' j = Some (w', c) /\ (c = y -> dist2 x w' <= dist2 x w) /\ (c <> y -> dist2 x w <= dist2 x w')
   /\ ((exists v e, In (v, e) ws /\ e <> y /\ forall u, In (u, y) ws -> dist2 x v < dist2 x u) ->
       (nearest_of (fun c => c = y) x ws j -> dist2 x w' < dist2 x w) /\ (nearest_of (fun c => c <> y) x ws j -> 0 < dist2 x w -> dist2 x w < dist2 x w')).
Proof.
  intros d x y ws ws' Hs Wd Lx Hst j w c Hj. assert (UN : forall P a b, nearest_of P x ws a -> nearest_of P x ws b -> a = b).
  { intros P a b (wa & ca & Ha & Pa & Ma) (wb & cb & Hb & Pb & Mb). destruct (Ma b wb cb Hb Pb) as [M1 M2]. destruct (Mb a wa ca Ha Pa) as [M3 M4].
    destruct (Nat.lt_trichotomy a b) as [L|[L|L]]; auto; [specialize (M4 L)|specialize (M2 L)]; lra. }
  destruct Hst as [(jc & wc & c0 & Nc & Hc & Mx & ->)|(jc & ji & wc & wi & ci & mid & Nc & Ni & Hc & Hi & Lt & Rm & Rm')].
  - exists w. split; auto. split; [lra|]. split; [lra|]. intros (v & e & Hv & He & Hu). exfalso. specialize (Mx v e Hv He). destruct Nc as (w1 & c1 & A & -> & _). rewrite A in Hc. injection Hc as -> ->. apply nth_error_In in A. specialize (Hu _ A). lra.
  - assert (Eci : ci <> y) by (destruct Ni as (w1 & c1 & A & B & _); rewrite A in Hi; injection Hi as <- <-; exact B). assert (Jne : jc <> ji) by (intros ->; rewrite Hc in Hi; injection Hi as _ <-; congruence).
    pose proof (nth_error_In _ _ Hc) as Inc. pose proof (nth_error_In _ _ Hi) as Ini.
    pose proof (pull_bounds sigma ws y x wc wi ci Inc Ini Eci) as PB. set (a := (posterior_in sigma ws y x wc - posterior sigma ws x wc) / sigma) in *.
    assert (Ab : 0 < a < 2). { unfold a. split; [apply Rdiv_lt_0_compat; lra|]. apply Rmult_lt_reg_r with sigma; [lra|]. unfold Rdiv. rewrite Rmult_assoc, Rinv_l by lra. nra. }
    destruct Rm as (Lm & (w1 & c1 & A1 & A2) & A3). rewrite Hc in A1. injection A1 as <- <-. destruct Rm' as (Lm' & (w2 & c2 & B1 & B2) & B3). rewrite A3 in B1 by auto. rewrite Hi in B1. injection B1 as <- <-.
    assert (Ini' : In (wi, ci) mid) by (apply nth_error_In with ji; rewrite A3; auto). pose proof (posterior_bounds sigma mid x wi ci Ini') as QB. set (b := posterior sigma mid x wi / sigma) in *.
    assert (Bb : 0 < b) by (apply Rdiv_lt_0_compat; lra).
    assert (Dc : dist2 x (toward a x wc) = (1 - a) * (1 - a) * dist2 x wc) by (apply dist2_toward; rewrite Lx; symmetry; eapply Wd; eauto). assert (Di : dist2 x (toward (- b) x wi) = (1 + b) * (1 + b) * dist2 x wi) by (rewrite dist2_toward; [ring|rewrite Lx; symmetry; eapply Wd; eauto]).
    pose proof (dist2_nonneg x wi) as Pi. pose proof (dist2_nonneg x wc) as Pc. destruct (Nat.eq_dec j jc) as [->|Nj].
    + rewrite Hc in Hj. injection Hj as <- <-. exists (toward a x wc). rewrite B3 by auto. split; auto. rewrite Dc. assert (Q : (1 - a) * (1 - a) < 1) by nra. split; [intros _; nra|]. split; [congruence|]. intros _. split; [intros _; nra|].
      intros (w3 & c3 & C1 & C2 & _). rewrite Hc in C1. injection C1 as <- <-. congruence.
    + destruct (Nat.eq_dec j ji) as [->|Nji].
      * rewrite Hi in Hj. injection Hj as <- <-. exists (toward (- b) x wi). split; auto. rewrite Di. assert (Q : 1 < (1 + b) * (1 + b)) by nra. split; [congruence|]. split; [intros _; nra|]. intros _. split; [|intros _ Hpos; nra].
        intros (w3 & c3 & C1 & C2 & _). rewrite Hi in C1. injection C1 as <- <-. congruence.
      * exists w. rewrite B3, A3 by auto. split; auto. split; [lra|]. split; [lra|]. intros _. split; intros Nr; exfalso; [apply Nj|apply Nji]; eapply UN; eauto.
Qed.
(** Refuted for small sigma: with sigma <= 1/4 and one prototype per class, "attract prototype to data point" moves it away, in every
    step that moves anything: the learning rate 1 / sigma overshoots. *)
Lemma only_one (ws : list (list R * Z)) y : forall j w, nth_error ws j = Some (w, y) -> (forall i v, nth_error ws i = Some (v, y) -> i = j) -> filter (fun p => Z.eqb (snd p) y) ws = [(w, y)].
Proof.
  induction ws as [|[v c] r IH]; intros [|j] w Hj Hu; try discriminate; cbn [filter snd].
  - injection Hj as -> ->. rewrite Z.eqb_refl. f_equal. clear IH. assert (G : forall p, In p r -> snd p <> y). { intros [u e] Hin Ee. cbn in Ee. subst e. apply In_nth_error in Hin as (k & Hk). specialize (Hu (S k) u Hk). discriminate. }
    clear Hu. induction r as [|p r IH]; [reflexivity|]. cbn [filter]. assert (E : Z.eqb (snd p) y = false) by (apply Z.eqb_neq, G; now left). rewrite E. apply IH. intros q Hq. apply G. now right.
  - assert (c <> y) by (intros ->; specialize (Hu 0%nat v eq_refl); discriminate). apply Z.eqb_neq in H. rewrite H. apply (IH j); auto. intros i u Hi. specialize (Hu (S i) u Hi). lia.
Qed.
Theorem rs_small_sigma_refuted : forall d x y ws ws' j w, 0 < sigma <= 1 / 4 -> all_width d ws -> length x = d -> nth_error ws j = Some (w, y) -> (forall i v, nth_error ws i = Some (v, y) -> i = j) ->
  (exists v e, In (v, e) ws /\ e <> y /\ dist2 x v < dist2 x w) -> lvq_step sigma x y ws ws' -> exists w', nth_error ws' j = Some (w', y) /\ dist2 x w < dist2 x w'.
Proof.
  intros d x y ws ws' j w Hs Wd Lx Hj Hu (v & e & Hv & He & Hd) [(jc & wc & c0 & Nc & Hc & Mx & ->)|(jc & ji & wc & wi & ci & mid & Nc & Ni & Hc & Hi & Lt & Rm & Rm')].
  - exfalso. assert (c0 = y) by (destruct Nc as (w1 & c1 & A & B & _); rewrite A in Hc; injection Hc as <- <-; exact B). subst c0. assert (jc = j) by eauto. subst jc. rewrite Hj in Hc. injection Hc as <-. specialize (Mx v e Hv He). lra.
  - assert (jc = j) by eauto. subst jc. rewrite Hj in Hc. injection Hc as <-. assert (Eci : ci <> y) by (destruct Ni as (w1 & c1 & A & B & _); rewrite A in Hi; injection Hi as <- <-; exact B). assert (Jne : j <> ji) by (intros ->; rewrite Hj in Hi; injection Hi as _ <-; congruence).
    destruct Rm as (Lm & (w1 & c1 & A1 & A2) & A3). rewrite Hj in A1. injection A1 as <- <-. destruct Rm' as (_ & _ & B3). exists (toward ((posterior_in sigma ws y x w - posterior sigma ws x w) / sigma) x w). rewrite B3 by auto. split; auto.
    assert (P1 : posterior_in sigma ws y x w = 1). { unfold posterior_in, total. rewrite (only_one ws y j w Hj Hu). cbn [map Rsum fst]. pose proof (exp_pos (- dist2 x w / (2 * sigma))) as Q. fold (density sigma x w) in Q. field. lra. }
    assert (P2 : posterior sigma ws x w < 1 / 2) by (apply (posterior_half sigma ws x w y v e); auto; [lra|eapply nth_error_In; eauto]).
    assert (Wl : length x = length w) by (rewrite Lx; symmetry; eapply Wd; eapply nth_error_In; eauto). rewrite dist2_toward by auto. rewrite P1. set (p := posterior sigma ws x w) in *.
    assert (A : 2 < (1 - p) / sigma). { apply Rmult_lt_reg_r with sigma; [lra|]. unfold Rdiv. rewrite Rmult_assoc, Rinv_l by lra. nra. }
    pose proof (dist2_nonneg x v). set (a := (1 - p) / sigma) in *. assert (1 < (1 - a) * (1 - a)) by nra. nra.
Qed.

(** C254: adadelta.  Every coordinate of a prototype moves towards the sample if the class is right and away from it otherwise, and
    the running means stay non-negative, so no square root of a negative number is taken. *)
Definition nonneg_acc (a : list R * list R) : Prop := (forall v, In v (fst a) -> 0 <= v) /\ (forall v, In v (snd a) -> 0 <= v).
Lemma map2_nth {A B C} (f : A -> B -> C) da db dc : forall a b t, (t < length a)%nat -> (t < length b)%nat -> nth t (map2 f a b) dc = f (nth t a da) (nth t b db).
Proof. unfold map2. induction a as [|x a IH]; intros [|y b] [|t] H1 H2; cbn in *; try lia; auto. apply IH; lia. Qed.
Lemma map2_len {A B C} (f : A -> B -> C) a b : length (map2 f a b) = Nat.min (length a) (length b).
Proof. unfold map2. now rewrite map_length, combine_length. Qed.
Lemma map2_in {A B C} (f : A -> B -> C) a b z : In z (map2 f a b) -> exists u v, In u a /\ In v b /\ z = f u v.
Proof. unfold map2. intros H. apply in_map_iff in H as ([u v] & <- & H). exists u, v. split; [eapply in_combine_l; eauto|]. split; [eapply in_combine_r; eauto|reflexivity]. Qed.
Theorem rs_adadelta_direction : forall ws w c acc x y w' acc', 0 <= c_gamma cfg < 1 -> 0 < c_eps cfg -> In (w, c) ws -> length x = length w -> length (fst acc) = length w -> length (snd acc) = length w -> nonneg_acc acc ->
  adadelta cfg ws w c acc x y = (w', acc') ->
  nonneg_acc acc' /\ length w' = length w /\ length (fst acc') = length w /\ length (snd acc') = length w
  /\ forall t, (t < length w)%nat -> if Z.eqb c y then 0 <= (nth t w' 0 - nth t w 0) * (nth t x 0 - nth t w 0) else (nth t w' 0 - nth t w 0) * (nth t x 0 - nth t w 0) <= 0.
Proof.
  intros ws w c acc x y w' acc' Hg He Hin Lx La Ls [Ga Gs] E. unfold adadelta in E. cbv zeta in E. injection E as <- <-.
  set (gr := gradient cfg ws w c x y). assert (Lg : length gr = length w) by (unfold gr, gradient; cbv zeta; destruct (Z.eqb c y); rewrite map_length; unfold vsub; rewrite map2_len, Lx; apply Nat.min_id).
  set (g := map2 _ (fst acc) gr). assert (Lgg : length g = length w) by (unfold g; rewrite map2_len, La, Lg; apply Nat.min_id).
  assert (Gg : forall v, In v g -> 0 <= v). { intros v Hv. apply map2_in in Hv as (u & q & Hu & _ & ->). specialize (Ga u Hu). cbn. assert (0 <= q * q) by (pose proof (Rle_0_sqr q); unfold Rsqr in *; lra). rewrite Rmult_assoc. assert (0 <= (1 - c_gamma cfg) * (q * q)) by (apply Rmult_le_pos; lra). assert (0 <= c_gamma cfg * u) by (apply Rmult_le_pos; lra). lra. }
  set (q := map2 (fun s g => _) (snd acc) g). assert (Lq : length q = length w) by (unfold q; rewrite map2_len, Ls, Lgg; apply Nat.min_id).
  set (step := map2 _ q gr). assert (Lst : length step = length w) by (unfold step; rewrite map2_len, Lq, Lg; apply Nat.min_id).
  split; [split; cbn [fst snd]; auto|].
  - intros v Hv. apply map2_in in Hv as (u & z & Hu & _ & ->). specialize (Gs u Hu). cbn. assert (0 <= z * z) by (pose proof (Rle_0_sqr z); unfold Rsqr in *; lra). rewrite Rmult_assoc. assert (0 <= (1 - c_gamma cfg) * (z * z)) by (apply Rmult_le_pos; lra). assert (0 <= c_gamma cfg * u) by (apply Rmult_le_pos; lra). lra.
  - split; [rewrite map2_len, Lst; apply Nat.min_id|]. cbn [fst snd]. split; auto. split; [rewrite map2_len, Ls, Lst; apply Nat.min_id|].
    intros t Ht. rewrite (map2_nth (@nadd R NumR) 0 0 0) by (rewrite ?Lst; auto). cbn [nadd NumR]. replace (nth t w 0 + nth t step 0 - nth t w 0) with (nth t step 0) by ring.
    unfold step. rewrite (map2_nth _ 0 0 0) by (rewrite ?Lq, ?Lg; auto). cbn [nmul nsqrt NumR]. pose proof (sqrt_pos (nth t q 0)) as Q. set (k := sqrt (nth t q 0)) in *. clearbody k.
    assert (Gt : nth t gr 0 = (if Z.eqb c y then posterior_in sigma ws y x w - posterior sigma ws x w else - posterior sigma ws x w) * (nth t x 0 - nth t w 0)).
    { unfold gr, gradient. cbv zeta. assert (Ne : ws <> []) by (intros ->; destruct Hin). assert (Dn : nth t (vsub x w) 0 = nth t x 0 - nth t w 0) by (unfold vsub; rewrite (map2_nth _ 0 0 0) by (rewrite ?Lx; auto); reflexivity).
      assert (Lv : length (vsub x w) = length w) by (unfold vsub; rewrite map2_len, Lx; apply Nat.min_id). destruct (Z.eqb c y) eqn:E.
      - rewrite (nth_indep _ 0 ((fun v => ((soft cfg ws (Some y) x w - soft cfg ws None x w) * v)%num) 0)) by (rewrite map_length, Lv; auto). rewrite (map_nth (fun v => ((soft cfg ws (Some y) x w - soft cfg ws None x w) * v)%num)). rewrite Dn.
        apply Z.eqb_eq in E. subst c. rewrite (soft_R cfg ws (Some y)), (soft_R cfg ws None); auto. intros F. assert (In (w, y) []) as []. rewrite <- F. apply filter_In. split; auto. apply Z.eqb_refl.
      - rewrite (nth_indep _ 0 ((fun v => ((n0 - soft cfg ws None x w) * v)%num) 0)) by (rewrite map_length, Lv; auto). rewrite (map_nth (fun v => ((n0 - soft cfg ws None x w) * v)%num)). rewrite Dn. rewrite (soft_R cfg ws None); auto. unfold posterior. cbn. ring. }
    rewrite Gt. set (dx := nth t x 0 - nth t w 0). assert (Sq : 0 <= dx * dx) by (pose proof (Rle_0_sqr dx); unfold Rsqr in *; lra). destruct (posterior_bounds sigma ws x w c Hin) as [P1 P2]. destruct (Z.eqb c y) eqn:E.
    + apply Z.eqb_eq in E. subst c. assert (PI : posterior sigma ws x w <= posterior_in sigma ws y x w).
      { assert (Hf : In (w, y) (filter (fun p => Z.eqb (snd p) y) ws)) by (apply filter_In; split; auto; apply Z.eqb_refl). unfold posterior, posterior_in. set (F := filter _ ws) in *. assert (TF : 0 < total sigma x F) by (apply total_pos; intros E0; rewrite E0 in Hf; destruct Hf).
        rewrite (total_filter sigma x (fun p => Z.eqb (snd p) y) ws). fold F. set (G := filter (fun p => negb _) ws). assert (0 <= total sigma x G) by (apply Rsum_nonneg; intros v Hv; apply in_map_iff in Hv as (p & <- & _); left; apply exp_pos).
        pose proof (exp_pos (- dist2 x w / (2 * sigma))) as P. fold (density sigma x w) in P. apply Rmult_le_compat_l; [lra|]. apply Rinv_le_contravar; lra. }
      set (D := posterior_in sigma ws y x w - posterior sigma ws x w). assert (0 <= D) by (unfold D; lra). replace (k * (D * dx) * dx) with (k * D * (dx * dx)) by ring. apply Rmult_le_pos; auto. apply Rmult_le_pos; auto.
    + set (D := posterior sigma ws x w) in *. replace (k * (- D * dx) * dx) with (- (k * D * (dx * dx))) by ring. assert (0 <= k * D * (dx * dx)); [|lra]. apply Rmult_le_pos; auto. apply Rmult_le_pos; lra.
Qed.
(** Along every run: one pair of running means per prototype, of its width and non-negative *)
Definition acc_ok (d : nat) (st : list (list R * Z) * list (list R * list R)) : Prop :=
  all_width d (fst st) /\ length (snd st) = length (fst st) /\ forall a, In a (snd st) -> nonneg_acc a /\ length (fst a) = d /\ length (snd a) = d.
Lemma in_set_nth {A} (l : list A) : forall j v z, In z (set_nth l j v) -> z = v \/ In z l.
Proof.
  induction l as [|a l IH]; intros [|j] v z H; cbn [set_nth] in H; auto; destruct H as [H|H]; auto; [right; now right|right; now left|]. apply IH in H as [H|H]; auto. right. now right.
Qed.
Lemma update_acc d st j x y st' : c_adadelta cfg = true -> 0 <= c_gamma cfg < 1 -> 0 < c_eps cfg -> length x = d -> acc_ok d st -> update_proto cfg st j x y = Ok st' -> acc_ok d st'.
Proof.
  intros Ha Hg He Lx (Wd & La & Na) H. unfold update_proto in H. destruct st as [ws acc]. cbn [fst snd] in *. destruct (nth_error ws j) as [[w c]|] eqn:Ew; [|discriminate]. rewrite Ha in H. destruct (nth_error acc j) as [a|] eqn:Ea; [|discriminate].
  destruct (adadelta cfg ws w c a x y) as [w' a'] eqn:E. injection H as <-. pose proof (nth_error_In _ _ Ew) as Iw. pose proof (nth_error_In _ _ Ea) as Ia. pose proof (Wd _ _ Iw) as Lw. destruct (Na _ Ia) as (N1 & N2 & N3).
  destruct (rs_adadelta_direction ws w c a x y w' a' Hg He Iw ltac:(congruence) ltac:(congruence) ltac:(congruence) N1 E) as (M1 & M2 & M3 & M4 & _). split; [|split]; cbn [fst snd].
  - apply set_nth_width; [exact Wd|congruence].
  - rewrite !set_nth_len. exact La.
  - intros b Hb. apply in_set_nth in Hb as [->|Hb]; auto. split; auto. split; congruence.
Qed.
Lemma optimize_acc d rows : c_adadelta cfg = true -> 0 <= c_gamma cfg < 1 -> 0 < c_eps cfg -> (forall x y, In (x, y) rows -> length x = d) -> forall st vars st', acc_ok d st -> rs_optimize cfg st vars rows = Ok st' -> acc_ok d st'.
Proof.
  intros Ha Hg He. induction rows as [|[x y] r IH]; intros Hr st vars st' Hi H; cbn [rs_optimize] in H; [now injection H as <-|]. apply bind_Ok in H as ([st1 v1] & E1 & H). apply (IH ltac:(intros u v Hu; eapply Hr; right; exact Hu) st1 v1); auto. clear H IH.
  assert (Lx : length x = d) by (eapply Hr; now left). unfold rs_sample in E1. cbv zeta in E1. destruct (match nearest _ x 0 (fst st) None with Some _ => _ | None => false end); [|injection E1 as <- _; auto].
  destruct (match nearest (fun c => Z.eqb c y) x 0 (fst st) None with Some (_, j) => Some j | None => fst vars end) as [c|]; [|discriminate]. destruct (match nearest _ x 0 (fst st) None with Some (_, j) => Some j | None => snd vars end) as [i|]; [|discriminate].
  apply bind_Ok in E1 as (s1 & U1 & E1). apply bind_Ok in E1 as (s2 & U2 & E1). injection E1 as <- _. eapply update_acc; [..|exact U2]; auto. eapply update_acc; [..|exact U1]; auto.
Qed.
Theorem rs_adadelta_run : forall l s, c_adadelta cfg = true -> 0 <= c_gamma cfg < 1 -> 0 < c_eps cfg -> (0 < c_ppc cfg)%nat -> rs_run cfg rs_new l = Ok s -> r_initial s = false -> exists d w, r_w s = Some w /\ acc_ok d (w, r_acc s).
Proof.
  intros l s Ha Hg He Hp. assert (G : forall l pre s0 s, tracks cfg pre s0 -> (r_initial s0 = false -> exists d w, r_w s0 = Some w /\ acc_ok d (w, r_acc s0)) -> rs_run cfg s0 l = Ok s -> r_initial s = false -> exists d w, r_w s = Some w /\ acc_ok d (w, r_acc s)); [|intros H Hi; apply (G l [] rs_new s); auto; [apply tracks_new|discriminate]].
  clear l s. induction l as [|k l IH]; intros pre s0 s Tr Hs0 H Hi; cbn [rs_run] in H; [injection H as <-; auto|]. apply bind_Ok in H as (s1 & E & H). apply (IH (pre ++ [k]) s1 s); auto; [now apply tracks_fit with s0|]. clear H Hi IH. intros _.
  destruct (fit_inv cfg pre s0 k s1 Tr E) as (rows & w0 & acc0 & w' & acc' & cl & ready & ready0 & Er & Ey & Ne & Wd & Es & Ei & Wp & Ea & Ww & Eo & ->). cbn [r_w r_acc]. exists (width rows), w'. split; auto.
  apply (optimize_acc (width rows) rows Ha Hg He) with (st := (w0, acc0)) (vars := (None, None)); auto. split; [intros v c Hin; apply (Ww (v, c) Hin)|]. cbn [fst snd].
  destruct (r_initial s0) eqn:Ein.
  - rewrite Ha in Ea. subst acc0. unfold zeros. split; [apply map_length|]. intros a Hin. apply in_map_iff in Hin as ([v c] & <- & Hin). cbn [fst snd]. rewrite !map_length. specialize (Ww (v, c) Hin). cbn [fst] in Ww. split; auto. split; cbn [fst snd]; intros z Hz; apply in_map_iff in Hz as (q & <- & _); cbn; lra.
  - subst acc0. destruct (Hs0 eq_refl) as (d & w & Ew & (W1 & W2 & W3)). cbn [fst snd] in *. pose proof Tr as (_ & _ & To). destruct (To Ein) as (Lr & _ & w1 & Ew1 & Lw & Q). rewrite Ew in Ew1. injection Ew1 as <-.
    unfold set_classes in Es. rewrite Ein in Es. injection Es as <- <-. rewrite Ew in Ei. destruct (init_spec cfg rows (k_noise k) (r_classes s0) 0 (r_ready s0) w ready w0 Lr) as (A & B & C & D); [rewrite Lw; apply Nat.le_refl|exact Ei|].
    split; [congruence|]. intros a Hin. destruct (W3 a Hin) as (N1 & N2 & N3). split; auto. enough (d = width rows) by (split; congruence).
    destruct w as [|[v0 c0] w]; [destruct (r_acc s0); [destruct Hin|discriminate]|]. rewrite <- (W1 v0 c0 (or_introl eq_refl)). apply (Wp _ eq_refl Ew (v0, c0)). now left.
Qed.
End Real.

(** *** Wrong behaviour *)
Section Wrong.
Context {T : Type} {N : Num T} (cfg : rs_config T).
(** C255, refuted: "classes : ndarray".  An array of two or more classes is refused by the truth test of line 184. *)
Theorem rs_classes_array_refuted : forall k a b r s, k_classes k = CArray (a :: b :: r) -> rs_do cfg rs_new k <> Ok s.
Proof.
  intros k a b r s Hk H. destruct (fit_inv cfg [] rs_new k s (tracks_new cfg) H) as (rows & w0 & acc0 & w' & acc' & cl & ready & ready0 & _ & _ & _ & _ & Es & _). unfold set_classes in Es. cbn [r_initial rs_new] in Es. rewrite Hk in Es. discriminate.
Qed.
(** C255, refuted: in the first call a label outside the given classes is not refused: one sample of such a label is an
    UnboundLocalError. *)
Theorem rs_first_unknown_refuted : forall x y junk noise, c_ppc cfg = 1%nat -> y <> 0%Z -> y <> 1%Z -> x <> [] -> (forall m, length (fst (junk m)) = length x /\ snd (junk m) <> y) ->
  rs_do cfg rs_new (mk_call [x] [y] (CList [0; 1]%Z) junk noise) = Raise RuntimeError.
Proof.
  intros x y junk noise Hp Y0 Y1 Hx Hj. unfold rs_do, rs_fit. cbn [r_initial rs_new r_classes k_xs k_ys k_classes k_junk k_noise]. rewrite orb_true_r. unfold checked. cbn [forallb length combine]. rewrite !Nat.eqb_refl. cbn [andb].
  destruct x as [|x0 x]; [contradiction|]. cbn [length Nat.eqb negb andb bind].
  unfold rs_validate, set_classes. cbn [r_initial rs_new given_classes bind length seq map r_protos width snd]. replace (forallb _ (seq 0 2)) with true by reflexivity. cbn [bind]. rewrite Hp. replace (forallb _ (map junk _)) with true by (symmetry; apply forallb_forall; intros p Hin; apply in_map_iff in Hin as (m & <- & _); apply Nat.eqb_eq; apply Hj). cbn [Nat.mul Nat.add seq map init_classes filter snd].
  apply Z.eqb_neq in Y0 as E0. apply Z.eqb_neq in Y1 as E1. rewrite E0, E1. cbn [length Nat.eqb negb andb bind r_w r_acc r_protos r_classes r_ready forallb].
  change (map junk (seq 0 (2 * 1))) with [junk 0%nat; junk 1%nat]. cbn [forallb]. destruct (Hj 0%nat) as [L0 N0]. destruct (Hj 1%nat) as [L1 N1]. destruct (junk 0%nat) as [w0 c0]. destruct (junk 1%nat) as [w1 c1]. cbn [fst snd] in *. cbn [width]. rewrite L0, L1. cbn [length]. rewrite Nat.eqb_refl. cbn [andb rs_optimize].
  unfold rs_sample. cbn [fst nearest]. apply Z.eqb_neq in N0. apply Z.eqb_neq in N1. rewrite N0, N1. cbn [negb]. destruct (_ <? _)%num; reflexivity.
Qed.
End Wrong.
(** C251, refuted: a class given in the first call and not seen yet has prototypes that are whatever was in memory, and predict answers
    whatever label was: here any integer. *)
Theorem rs_unseen_class_refuted : forall z : Z, exists junk s, rs_do (mk_rsc 1%Q 1 (9#10)%Q false (1#100)%Q) rs_new (mk_call [[0%Q]] [0%Z] (CList [0; 1]%Z) junk (fun _ _ => [])) = Ok s
  /\ rs_predict (mk_rsc 1%Q 1 (9#10)%Q false (1#100)%Q) s [[5%Q]] = Ok [z].
Proof.
  intros z. exists (fun _ => ([5%Q], z)). destruct (Z.eq_dec z 0) as [->|Hz]; [eexists; split; vm_compute; reflexivity|]. exists (mk_rs false [0; 1]%Z [true; false] (Some [([0%Q], 0%Z); ([5%Q], z)]) [] NoProtos). split; [|vm_compute; reflexivity].
  unfold rs_do, rs_fit. cbn [r_initial rs_new r_classes k_xs k_ys k_classes k_junk k_noise]. rewrite orb_true_r. unfold checked. cbn [forallb length combine Nat.eqb andb negb bind].
  unfold rs_validate, set_classes. cbn [r_initial rs_new given_classes bind length seq map r_protos]. replace (forallb _ _) with true by reflexivity. cbn [bind c_ppc Nat.mul Nat.add seq map].
  match goal with |- context [forallb ?f (map ?g ?l)] => change (forallb f (map g l)) with true end. set (i := init_classes _ _ _ _ _ _ _). assert (E : i = ([true; false], [([0%Q], 0%Z); ([5%Q], z)])) by (vm_compute; reflexivity). rewrite E. clear E i. cbn [bind r_w r_acc r_protos r_classes r_ready forallb fst length Nat.eqb andb width rs_optimize c_adadelta].
  unfold rs_sample. cbn [fst nearest]. apply Z.eqb_neq in Hz. rewrite Hz. vm_compute. reflexivity.
Qed.

(** Adadelta: a first call of two classes leaves two prototypes with running means *)
Definition cfga : rs_config Q := mk_rsc 1%Q 1 (9#10)%Q true (1#100)%Q.
Example rs_adadelta_example : exists s, rs_run cfga rs_new [mk_call [[0%Q]; [1%Q]] [0; 1]%Z CNone (fun _ => ([0%Q], 0%Z)) (fun _ _ => [])] = Ok s
  /\ r_initial s = false /\ r_w s = Some [([0%Q], 0%Z); ([1%Q], 1%Z)] /\ r_acc s = [([0%Q], [0%Q]); ([0%Q], [0%Q])].
Proof. eexists. split; [vm_compute; reflexivity|]. split; [reflexivity|]. split; vm_compute; reflexivity. Qed.
Section Concrete.
Local Open Scope R_scope.
Definition cfg1 : rs_config R := mk_rsc 1 1 (9 / 10) false (1 / 100).
Definition two : list (list R * Z) := [([0], 0%Z); ([1], 1%Z)].
(** The hypotheses of the theorems about training are met: a first call, then one that moves prototypes *)
Definition call0 : rs_call R := mk_call [[0]; [1]] [0; 1]%Z CNone (fun _ => ([0], 0%Z)) (fun _ _ => []).
Definition call1 : rs_call R := mk_call [[0]; [3]] [1; 1]%Z CNone (fun _ => ([0], 0%Z)) (fun _ _ => []).
Example rs_example : exists s w0 w1 s' w w', rs_run cfg1 rs_new [call0] = Ok s /\ rs_do cfg1 s call1 = Ok s' /\ r_w s = Some w /\ r_w s' = Some w'
  /\ start cfg1 [] rs_new call0 (r_classes s) w0 /\ start cfg1 [call0] s call1 (r_classes s') w1 /\ lvq_steps 1 (combine [[0]; [1]] [0; 1]%Z) w0 w /\ lvq_steps 1 (combine [[0]; [3]] [1; 1]%Z) w1 w'.
Proof.
  destruct (rs_first_call cfg1 call0 1) as (s & w & E & Ew & W & I); auto; try discriminate; try (cbn; lia).
  - intros x [<-|[<-|[]]]; reflexivity.
  - assert (R0 : rs_run cfg1 rs_new [call0] = Ok s) by (cbn [rs_run]; rewrite E; reflexivity).
    pose proof (rs_labels_from_zero cfg1 call0 s E) as [Hl _]. cbn [k_classes call0 k_ys] in Hl.
    destruct (rs_never_fails cfg1 [call0] s call1 w 1) as (s' & E'); cbn; auto; try discriminate.
    + intros x [<-|[<-|[]]]; reflexivity.
    + intros z [<-|[<-|[]]]; apply Hl; cbn; auto.
    + assert (C : r_classes s' = r_classes s). { destruct (fit_inv cfg1 [call0] s call1 s' (run_tracks cfg1 _ _ R0) E') as (rows & w0 & acc0 & w2 & acc' & cl & ready & ready0 & _ & _ & _ & _ & Es & _ & _ & _ & _ & _ & ->). unfold set_classes in Es. rewrite I in Es. now injection Es as <- _. }
      destruct (rs_training cfg1 [] rs_new call0 s) as (w0 & wa & S0 & A0 & B0); cbn; auto; [intros z Hz; apply Hl; exact Hz|].
      destruct (rs_training cfg1 [call0] s call1 s') as (w1 & wb & S1 & A1 & B1); auto; cbn; auto; [rewrite C; intros z [<-|[<-|[]]]; apply Hl; cbn; auto|].
      exists s, w0, w1, s', wa, wb. cbn [c_sigma cfg1] in B0, B1. auto 10.
Qed.
Lemma near2 (good : Z -> Prop) x j : (forall i, nth_error two i <> None -> i <> j -> forall w c, nth_error two i = Some (w, c) -> ~ good c) -> (exists w c, nth_error two j = Some (w, c) /\ good c) -> nearest_of good x two j.
Proof.
  intros H (w & c & A & B). exists w, c. split; auto. split; auto. intros i w' c' Hi Hg. destruct (Nat.eq_dec i j) as [->|Hne]; [rewrite A in Hi; injection Hi as <- <-; split; [lra|lia]|]. exfalso. eapply H; eauto. congruence.
Qed.
(** A step that moves both prototypes: the sample 0 of class 1 *)
Example rs_step_example : exists ws', lvq_step 1 [0] 1 two ws' /\ all_width 1 two /\ (exists v e, In (v, e) two /\ e <> 1%Z /\ forall u, In (u, 1%Z) two -> dist2 [0] v < dist2 [0] u).
Proof.
  destruct (sample_step cfg1 two [] (None, None) [0] 1%Z) as (ws' & vars' & _ & S & _); cbn; auto; [intros w c [[= <- <-]|[[= <- <-]|[]]]; reflexivity|].
  exists ws'. split; [exact S|]. split; [intros w c [[= <- <-]|[[= <- <-]|[]]]; reflexivity|]. exists [0], 0%Z. split; [now left|]. split; [lia|]. intros u [[= <-]|[[= <-]|[]]]. unfold dist2. cbn. lra.
Qed.
(** C256: a call that changes the array of the user *)
Theorem rs_array_protos_changed_refuted : exists s', rs_do cfg1 (mk_rs true [] [] None [] (AsArray two)) (mk_call [[0]; [0]] [0; 1]%Z CNone (fun _ => ([0], 0%Z)) (fun _ _ => [])) = Ok s' /\ exists w, r_protos s' = AsArray w /\ w <> two.
Proof.
  unfold rs_do, rs_fit. cbn [r_initial r_classes k_xs k_ys k_classes k_junk k_noise]. rewrite orb_true_r. unfold checked. cbn [forallb length combine Nat.eqb andb negb bind].
  unfold rs_validate, set_classes. cbn [r_initial given_classes bind length seq map r_protos snd]. assert (U : np_unique [0; 1]%Z = [0; 1]%Z) by (vm_compute; reflexivity). rewrite U. cbn [length seq forallb]. replace (forallb _ _) with true by reflexivity.
  cbn [mem existsb Z.of_nat Z.eqb orb andb bind c_ppc cfg1 Nat.mul Nat.add two length Nat.eqb forallb fst width snd map Pos.eqb r_w r_acc r_protos r_classes r_ready c_adadelta]. cbn -[rs_optimize]. fold two.
  assert (W : all_width 1 two) by (intros w c [[= <- <-]|[[= <- <-]|[]]]; reflexivity).
  destruct (optimize_steps cfg1 1 [([0], 0%Z); ([0], 1%Z)] eq_refl two [] (None, None) W) as (w2 & E2 & S2 & _). { intros x y [[= <- <-]|[[= <- <-]|[]]]; cbn; auto. }
  rewrite E2. cbn [bind]. eexists. split; [reflexivity|]. exists w2. split; [reflexivity|]. intros ->. inversion S2 as [|x y r a b c Sa Sb]; subst. inversion Sb as [|x y r a b' c Sc Sd]; subst. inversion Sd; subst. change (c_sigma cfg1) with 1 in *.
  assert (b = two). { destruct Sa as [(jc & wc & c & Nc & Hc & Mx & ->)|(jc & ji & wc & wi & ci & mid & Nc & Ni & Hc & Hi & Lt & _)]; auto. exfalso. destruct jc as [|[|[|]]]; try discriminate. injection Hc as <-. destruct ji as [|[|[|]]]; try discriminate; injection Hi as <- <-; unfold dist2 in Lt; cbn in Lt; lra. } subst b.
  destruct (rs_step_distances cfg1 1 [0] 1%Z two two) with (j := 1%nat) (w := [1]) (c := 1%Z) as (w' & E & _ & _ & Q); auto; [cbn; lra|]. injection E as <-. destruct Q as [Q _]; [exists [0], 0%Z; split; [now left|]; split; [lia|]; intros u [[= <-]|[[= <-]|[]]]; unfold dist2; cbn; lra|].
  enough (dist2 [0] [1] < dist2 [0] [1]) by lra. apply Q. apply near2; [|exists [1], 1%Z; auto]. intros [|[|[|i]]] Hi Hne w c Hw; try discriminate; try congruence; cbn in Hw. injection Hw as <- <-. lia.
Qed.
Example rs_small_sigma_example : let cfg := mk_rsc (1 / 4) 1 (9 / 10) false (1 / 100) in exists ws' w', lvq_step (c_sigma cfg) [0] 1 two ws' /\ nth_error ws' 1 = Some (w', 1%Z) /\ dist2 [0] [1] < dist2 [0] w'.
Proof.
  intros cfg. destruct (sample_step cfg two [] (None, None) [0] 1%Z) as (ws' & vars' & _ & S & _); cbn; auto; [intros w c [[= <- <-]|[[= <- <-]|[]]]; reflexivity|].
  destruct (rs_small_sigma_refuted cfg 1 [0] 1%Z two ws' 1 [1]) as (w' & A & B); auto; [cbn; lra|intros w c [[= <- <-]|[[= <- <-]|[]]]; reflexivity| | |exists ws', w'; auto].
  - intros [|[|[|i]]] v Hv; try discriminate; auto.
  - exists [0], 0%Z. split; [now left|]. split; [lia|]. unfold dist2. cbn. lra.
Qed.
End Concrete.
Print Assumptions rs_predict_nearest.
Print Assumptions rs_predict_declared.
Print Assumptions rs_unseen_class_refuted.
Print Assumptions rs_training.
Print Assumptions rs_never_fails.
Print Assumptions rs_step_distances.
Print Assumptions rs_small_sigma_refuted.
Print Assumptions rs_adadelta_direction.
Print Assumptions rs_adadelta_run.
Print Assumptions rs_batches.
Print Assumptions rs_array_protos_changed_refuted.
