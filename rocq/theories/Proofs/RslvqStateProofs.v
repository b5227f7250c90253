(** Robust soft learning vector quantization: what the state holds after any sequence of calls. *)
From Coq Require Import List ZArith Bool Lia.
From Verif Require Import Base.Py Base.Num Model.Adwin Model.DataStream Model.Knn Model.Rslvq Spec.RslvqSpec Proofs.ListFacts Proofs.KnnProofs Proofs.BaggingProofs Proofs.StreamProofs Proofs.WindowedProofs.
Import ListNotations.
Local Open Scope nat_scope.

Section Any.
Context {T : Type} {N : Num T} (cfg : rs_config T).
Local Notation proto := (list T * Z)%type.
Local Notation ppc := (c_ppc cfg).

Lemma mem_In z l : mem z l = true <-> In z l.
Proof. unfold mem. rewrite existsb_exists. split; [intros (u & H & E); apply Z.eqb_eq in E; now subst|intros H; exists z; split; auto; apply Z.eqb_refl]. Qed.
Lemma forallb_mem l m : forallb (fun y => mem y m) l = true <-> incl l m.
Proof. rewrite forallb_forall. split; intros H y Hy; apply mem_In; auto. Qed.

(** *** Training keeps the classes of the prototypes *)
Lemma set_nth_snd (ws : list proto) : forall j w c w', nth_error ws j = Some (w, c) -> map snd (set_nth ws j (w', c)) = map snd ws.
Proof.
  induction ws as [|[v d] r IH]; intros [|j] w c w' H; try discriminate; cbn [set_nth map snd].
  - injection H as -> ->. reflexivity.
  - f_equal. eapply IH. exact H.
Qed.
Lemma update_keeps st j x y st' : update_proto cfg st j x y = Ok st' -> map snd (fst st') = map snd (fst st) /\ length (snd st') = length (snd st).
Proof.
  destruct st as [ws acc]. unfold update_proto. destruct (nth_error ws j) as [[w c]|] eqn:E; [|discriminate]. destruct (c_adadelta cfg).
  - destruct (nth_error acc j) as [a|]; [|discriminate]. destruct (adadelta cfg ws w c a x y) as [w' a']. intros [= <-]. cbn [fst snd]. split; [eapply set_nth_snd; exact E|apply set_nth_len].
  - intros [= <-]. cbn [fst snd]. split; auto. eapply set_nth_snd. exact E.
Qed.
Lemma sample_keeps st vars x y st' vars' : rs_sample cfg st vars x y = Ok (st', vars') -> map snd (fst st') = map snd (fst st) /\ length (snd st') = length (snd st).
Proof.
  unfold rs_sample. cbv zeta. set (b := match nearest _ x 0 (fst st) None with Some _ => _ | None => false end). clearbody b. destruct b; [|intros [= <- <-]; auto].
  set (ci := match nearest _ x 0 (fst st) None with Some (_, j) => Some j | None => fst vars end). set (ii := match nearest _ x 0 (fst st) None with Some (_, j) => Some j | None => snd vars end).
  clearbody ci ii. destruct ci as [c|]; [|discriminate]. destruct ii as [i|]; [|discriminate]. intros H. apply bind_Ok in H as (s1 & E1 & H). apply bind_Ok in H as (s2 & E2 & H). injection H as <- <-.
  apply update_keeps in E1. apply update_keeps in E2. intuition congruence.
Qed.
Lemma optimize_keeps rows : forall st vars st', rs_optimize cfg st vars rows = Ok st' -> map snd (fst st') = map snd (fst st) /\ length (snd st') = length (snd st).
Proof.
  induction rows as [|[x y] r IH]; intros st vars st' H; cbn [rs_optimize] in H; [injection H as <-; auto|]. apply bind_Ok in H as ([s1 v1] & E & H). apply sample_keeps in E. apply IH in H. intuition congruence.
Qed.

(** *** The initialisation of classes *)
Lemma here_In (rows : list proto) c : negb (Nat.eqb (length (filter (fun r => Z.eqb (snd r) c) rows)) 0) = mem c (map snd rows).
Proof.
  induction rows as [|[x y] r IH]; [reflexivity|]. cbn [filter map snd mem existsb]. rewrite (Z.eqb_sym c y). destruct (Z.eqb y c); [reflexivity|]. cbn [orb]. exact IH.
Qed.
Lemma fresh_len rows d noise c : length (fresh_protos cfg rows d noise c) = ppc.
Proof. unfold fresh_protos. now rewrite map_length, seq_length. Qed.
Lemma splice_in {A} (w f : list A) pos m : pos + length f <= length w -> nth_error (firstn pos w ++ f ++ skipn (pos + length f) w) m
  = if Nat.ltb m pos then nth_error w m else if Nat.ltb m (pos + length f) then nth_error f (m - pos) else nth_error w m.
Proof.
  intros L. assert (Lf : length (firstn pos w) = pos) by (rewrite firstn_length; lia). destruct (Nat.ltb_spec m pos).
  - rewrite nth_error_app1 by lia. rewrite <- (firstn_skipn pos w) at 2. rewrite nth_error_app1 by lia. reflexivity.
  - rewrite nth_error_app2 by lia. rewrite Lf. destruct (Nat.ltb_spec m (pos + length f)).
    + rewrite nth_error_app1 by lia. reflexivity.
    + rewrite nth_error_app2 by lia. rewrite <- (firstn_skipn (pos + length f) w) at 2. rewrite (nth_error_app2 (firstn (pos + length f) w)) by (rewrite firstn_length; lia). f_equal. rewrite firstn_length. lia.
Qed.
Lemma init_spec rows noise : forall cs i bs w bs' w', length bs = length cs -> (i + length cs) * ppc <= length w -> init_classes cfg rows noise i cs bs w = (bs', w') ->
  length bs' = length bs /\ length w' = length w
  /\ (forall m, m < i * ppc \/ (i + length cs) * ppc <= m -> nth_error w' m = nth_error w m)
  /\ forall j c b, nth_error cs j = Some c -> nth_error bs j = Some b ->
       nth_error bs' j = Some (b || mem c (map snd rows))
       /\ forall k, k < ppc -> nth_error w' ((i + j) * ppc + k)
            = if negb b && mem c (map snd rows) then nth_error (fresh_protos cfg (map fst (filter (fun r => Z.eqb (snd r) c) rows)) (width rows) (noise (i + j)) c) k else nth_error w ((i + j) * ppc + k).
Proof.
  induction cs as [|c cs IH]; intros i [|b bs] w bs' w' L Lw E; try discriminate; cbn [init_classes] in E.
  - injection E as <- <-. repeat split; auto. destruct j; discriminate. destruct j; discriminate.
  - rewrite here_In in E. cbn [length] in L, Lw. injection L as L. set (go := negb b && mem c (map snd rows)) in *. set (F := fresh_protos cfg _ (width rows) (noise i) c) in *.
    assert (LF : length F = ppc) by apply fresh_len.
    set (w1 := if go then _ else w) in *. destruct (init_classes cfg rows noise (S i) cs bs w1) as [bs2 w2] eqn:E2. injection E as <- <-.
    assert (L1 : length w1 = length w). { unfold w1. destruct go; auto. rewrite !app_length, firstn_length, skipn_length, LF. nia. }
    assert (N1 : forall m, nth_error w1 m = if go && negb (Nat.ltb m (i * ppc)) && Nat.ltb m (i * ppc + ppc) then nth_error F (m - i * ppc) else nth_error w m).
    { intros m. unfold w1. destruct go; [|reflexivity]. replace (skipn (i * ppc + ppc) w) with (skipn (i * ppc + length F) w) by now rewrite LF. rewrite splice_in by (rewrite LF; nia). rewrite LF. cbn [andb]. destruct (Nat.ltb m (i * ppc)); cbn [negb andb]; reflexivity. }
    destruct (IH (S i) bs w1 bs2 w2) as (A & B & C & D); auto; [rewrite L1; nia|]. cbn [length]. split; [lia|]. split; [lia|]. split.
    + intros m Hm. rewrite C by nia. rewrite N1. destruct Hm as [Hm|Hm].
      * apply Nat.ltb_lt in Hm. rewrite Hm. cbn [negb]. rewrite andb_false_r. reflexivity.
      * assert (Hf : Nat.ltb m (i * ppc + ppc) = false) by (apply Nat.ltb_ge; nia). rewrite Hf, andb_false_r. reflexivity.
    + intros [|j] c0 b0 Hc Hb; cbn [nth_error] in Hc, Hb.
      * injection Hc as <-. injection Hb as <-. cbn [nth_error]. split; [unfold go; destruct b, (mem c (map snd rows)); reflexivity|]. intros k Hk. rewrite Nat.add_0_r. rewrite C by nia. rewrite N1.
        assert (H1 : Nat.ltb (i * ppc + k) (i * ppc) = false) by (apply Nat.ltb_ge; lia). assert (H2 : Nat.ltb (i * ppc + k) (i * ppc + ppc) = true) by (apply Nat.ltb_lt; lia). rewrite H1, H2. cbn [negb]. rewrite !andb_true_r.
        fold go. replace (i * ppc + k - i * ppc) with k by lia. reflexivity.
      * cbn [nth_error]. destruct (D j c0 b0 Hc Hb) as [D1 D2]. split; auto. intros k Hk. replace (i + S j) with (S i + j) by lia. rewrite D2 by auto. destruct (negb b0 && mem c0 (map snd rows)); auto. rewrite N1.
        assert (H2 : Nat.ltb ((S i + j) * ppc + k) (i * ppc + ppc) = false) by (apply Nat.ltb_ge; nia). rewrite H2, andb_false_r. reflexivity.
Qed.

(** *** The invariant *)
Definition tracks (l : list (rs_call T)) (s : rs T) : Prop :=
  r_protos s = NoProtos /\ (r_initial s = true -> s = rs_new /\ l = []) /\ (r_initial s = false ->
    length (r_ready s) = length (r_classes s) /\ (forall i, i < length (r_classes s) -> In (Z.of_nat i) (r_classes s))
    /\ exists w, r_w s = Some w /\ length w = length (r_classes s) * ppc
       /\ forall i c, nth_error (r_classes s) i = Some c ->
            exists b, nth_error (r_ready s) i = Some b /\ (b = true <-> In c (labels_seen l)) /\ (b = true -> forall k, k < ppc -> exists v, nth_error w (i * ppc + k) = Some (v, c))).
Lemma tracks_new : tracks [] rs_new.
Proof. split; [reflexivity|]. split; [auto|discriminate]. Qed.
Lemma fresh_nth rows d noise c k : k < ppc -> exists v, nth_error (fresh_protos cfg rows d noise c) k = Some (v, c).
Proof.
  intros Hk. unfold fresh_protos. rewrite nth_error_map. assert (E : nth_error (seq 0 ppc) k = Some k). { rewrite (nth_error_nth' _ 0) by now rewrite seq_length. now rewrite seq_nth. } rewrite E. eexists. reflexivity.
Qed.
Lemma snd_combine {A B} (xl : list A) : forall yl : list B, length xl = length yl -> map snd (combine xl yl) = yl.
Proof. induction xl as [|a xl IH]; intros [|b yl] L; try discriminate; [reflexivity|]. injection L as L. cbn. now rewrite IH. Qed.
Lemma checked_rows (xs : list (list T)) ys rows : checked xs ys = Ok rows -> rows = combine xs ys /\ map snd rows = ys /\ rows <> [] /\ forall x y, In (x, y) rows -> length x = width rows.
Proof.
  unfold checked. destruct xs as [|x0 xs]; [discriminate|]. destruct (Nat.eqb (length (x0 :: xs)) (length ys) && _ && _) eqn:E; [|discriminate]. apply andb_true_iff in E as [E F]. apply andb_true_iff in E as [L _]. apply Nat.eqb_eq in L. intros [= <-].
  destruct ys as [|y0 ys]; [discriminate|]. split; auto. split; [|split; [discriminate|]].
  - exact (snd_combine (x0 :: xs) (y0 :: ys) L).
  - intros x y Hin. cbn [combine width]. change (In (x, y) (combine (x0 :: xs) (y0 :: ys))) in Hin. apply in_combine_l in Hin. rewrite forallb_forall in F. specialize (F _ Hin). now apply Nat.eqb_eq in F.
Qed.
(** Everything a successful call did *)
Lemma fit_inv l s k s' : tracks l s -> rs_do cfg s k = Ok s' ->
  exists rows w0 acc0 w' acc' cl ready ready0, rows = combine (k_xs k) (k_ys k) /\ map snd rows = k_ys k /\ rows <> [] /\ (forall x y, In (x, y) rows -> length x = width rows)
    /\ set_classes s rows (k_classes k) = Ok (cl, ready0)
    /\ init_classes cfg rows (k_noise k) 0 cl ready0 (match (if r_initial s then None else r_w s) with Some w => w | None => map (k_junk k) (seq 0 (length cl * ppc)) end) = (ready, w0)
    /\ (forall w, r_initial s = false -> r_w s = Some w -> forall p, In p w -> length (fst p) = width rows)
    /\ acc0 = (if r_initial s then (if c_adadelta cfg then zeros w0 else []) else r_acc s)
    /\ (forall p, In p w0 -> length (fst p) = width rows)
    /\ rs_optimize cfg (w0, acc0) (None, None) rows = Ok (w', acc') /\ s' = mk_rs false cl ready (Some w') acc' NoProtos.
Proof.
  intros (P & _ & _) H. unfold rs_do, rs_fit in H. destruct (_ || _)%bool; [|discriminate]. apply bind_Ok in H as (rows & Ec & H). apply checked_rows in Ec as (A & B & C & D).
  apply bind_Ok in H as (s1 & E1 & H). unfold rs_validate in E1. apply bind_Ok in E1 as ([cl ready0] & Es & E1). rewrite P in E1. cbv zeta in E1.
  destruct (forallb _ _) eqn:Ew0 in E1; [|discriminate]. destruct (init_classes _ _ _ _ _ _ _) as [ready w0] eqn:Ei. injection E1 as <-. cbn [r_w r_acc r_protos r_classes r_ready] in H.
  destruct (forallb _ w0) eqn:Ew; [|discriminate]. apply bind_Ok in H as ([w' acc'] & Eo & H). injection H as <-.
  exists rows, w0, (if r_initial s then (if c_adadelta cfg then zeros w0 else []) else r_acc s), w', acc', cl, ready, ready0. do 6 (split; [assumption || reflexivity|]). split; [intros w Hi Hw p Hp; rewrite Hi, Hw, forallb_forall in Ew0; apply Nat.eqb_eq; auto|]. split; [reflexivity|].
  split. - intros p Hp. rewrite forallb_forall in Ew. specialize (Ew _ Hp). now apply Nat.eqb_eq in Ew. - split; auto.
Qed.
Lemma nth_snd (w w' : list proto) i v c : map snd w' = map snd w -> nth_error w i = Some (v, c) -> exists v', nth_error w' i = Some (v', c).
Proof.
  intros E H. assert (H2 : nth_error (map snd w') i = Some c) by (rewrite E, nth_error_map, H; reflexivity). rewrite nth_error_map in H2. destruct (nth_error w' i) as [[v' c']|]; [|discriminate]. injection H2 as ->. eauto.
Qed.
Lemma tracks_fit l s k s' : tracks l s -> rs_do cfg s k = Ok s' -> tracks (l ++ [k]) s'.
Proof.
  intros Tr H. destruct (fit_inv l s k s' Tr H) as (rows & w0 & acc0 & w' & acc' & cl & ready & ready0 & Er & Ey & Ne & Wd & Es & Ei & _ & Ea & Ww & Eo & ->).
  split; [reflexivity|]. split; [discriminate|]. intros _. cbn [r_ready r_classes r_w].
  apply optimize_keeps in Eo as [Ks _]. cbn [fst] in Ks. unfold labels_seen. rewrite flat_map_app. cbn [flat_map]. rewrite app_nil_r. fold (labels_seen l).
  destruct Tr as (P & Tn & To). unfold set_classes in Es. destruct (r_initial s) eqn:Ein.
  - destruct (Tn eq_refl) as [-> ->]. apply bind_Ok in Es as (g & Eg & Es). set (cl0 := match g with Some l => l | None => np_unique (map snd rows) end) in *. clearbody cl0. destruct (forallb _ (seq 0 (length cl0))) eqn:Ef; [|discriminate]. injection Es as <- <-.
    destruct (init_spec rows (k_noise k) cl0 0 (map (fun _ => false) cl0) _ ready w0 (map_length _ _) ltac:(rewrite map_length, seq_length; apply Nat.le_refl) Ei) as (A & B & C & D). rewrite map_length in A. rewrite map_length, seq_length in B.
    split; auto. split; [intros i Hi; rewrite forallb_forall in Ef; apply mem_In, Ef, in_seq; lia|]. exists w'. split; auto.
    assert (Lw : length w' = length w0) by (rewrite <- (map_length snd w'), Ks, map_length; reflexivity). split; [rewrite Lw, B; reflexivity|].
    intros i c Hc. destruct (D i c false Hc) as [D1 D2]; [rewrite nth_error_map, Hc; reflexivity|]. cbn [Nat.add orb negb andb] in D1, D2. exists (mem c (map snd rows)). split; auto. rewrite mem_In, Ey.
    cbn [labels_seen flat_map app]. split; [reflexivity|].
    intros Hin k0 Hk. rewrite <- Ey in Hin. apply mem_In in Hin. specialize (D2 k0 Hk). rewrite Hin in D2. destruct (fresh_nth (map fst (filter (fun r => Z.eqb (snd r) c) rows)) (width rows) (k_noise k i) c k0 Hk) as (v & Hv). rewrite Hv in D2. eapply nth_snd; eauto.
  - injection Es as <- <-. destruct (To eq_refl) as (L & Z & w & Ew & Lw & Q). rewrite Ew in Ei.
    destruct (init_spec rows (k_noise k) (r_classes s) 0 (r_ready s) w ready w0 L ltac:(rewrite Lw; apply Nat.le_refl) Ei) as (A & B & C & D). cbn [Nat.add] in D.
    split; [congruence|]. split; auto. exists w'. split; auto. assert (Lw' : length w' = length w0) by (rewrite <- (map_length snd w'), Ks, map_length; reflexivity). split; [congruence|].
    intros i c Hc. destruct (Q i c Hc) as (b & Hb & Hbl & Hbw). destruct (D i c b Hc Hb) as [D1 D2]. exists (b || mem c (map snd rows)). split; auto. rewrite orb_true_iff, mem_In, Ey, in_app_iff. split; [tauto|].
    intros Hor k0 Hk. specialize (D2 k0 Hk). destruct b; cbn [negb andb] in D2.
    + destruct (Hbw eq_refl k0 Hk) as (v & Hv). rewrite Hv in D2. eapply nth_snd; eauto.
    + destruct Hor as [Hor|Hor]; [discriminate|]. rewrite <- Ey in Hor. apply mem_In in Hor. rewrite Hor in D2. destruct (fresh_nth (map fst (filter (fun r => Z.eqb (snd r) c) rows)) (width rows) (k_noise k i) c k0 Hk) as (v & Hv). rewrite Hv in D2. eapply nth_snd; eauto.
Qed.
Lemma tracks_run l : forall l0 s s', tracks l0 s -> rs_run cfg s l = Ok s' -> tracks (l0 ++ l) s'.
Proof.
  induction l as [|k r IH]; intros l0 s s' H E; cbn [rs_run] in E; [injection E as <-; now rewrite app_nil_r|]. apply bind_Ok in E as (s1 & E1 & E). eapply tracks_fit in E1; eauto. specialize (IH _ _ _ E1 E). now rewrite <- app_assoc in IH.
Qed.
Lemma run_tracks l s : rs_run cfg rs_new l = Ok s -> tracks l s.
Proof. intros H. exact (tracks_run l [] rs_new s tracks_new H). Qed.
End Any.
