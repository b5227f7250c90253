From Coq Require Import List ZArith Lia Bool Reals Lra.
From Verif Require Import Base.Py Base.Num Spec.Lists Spec.DetectorSpec Spec.DdmSpec Spec.HddmASpec Model.HddmA
  Proofs.ListFacts Proofs.StatFacts Proofs.DdmProofs.
Import ListNotations.
Local Open Scope R_scope.

Lemma ln_nonneg x : 1 <= x -> 0 <= ln x.
Proof.
  intros H. destruct (Req_dec x 1) as [->|Hn]; [rewrite ln_1; lra|].
  left. rewrite <- ln_1. apply ln_increasing; lra.
Qed.

Lemma div_ge_1 a c : 0 < c <= 1 -> 1 <= a -> 1 <= a / c.
Proof.
  intros (H1 & H2) Ha. apply Rmult_le_reg_r with c; auto. unfold Rdiv. rewrite Rmult_assoc, Rinv_l by lra. nra.
Qed.

Lemma py_log_R x : 0 < x -> py_log x = Ok (ln x).
Proof. intros H. unfold py_log. simpl. unfold n0; simpl. destruct (Rleb x 0) eqn:E; auto. rcase. lra. Qed.

Lemma py_sqrt_R x : 0 <= x -> py_sqrt x = Ok (sqrt x).
Proof. intros H. unfold py_sqrt. simpl. unfold n0; simpl. destruct (Rltb x 0) eqn:E; auto. rcase. lra. Qed.

Lemma IZR_nat n : IZR (Z.of_nat n) = INR n.
Proof. symmetry. apply INR_IZR_INZ. Qed.

Lemma ha_cota_R conf n : 0 < conf <= 1 -> n <> 0%nat -> ha_cota conf (Z.of_nat n) = Ok (radius conf n).
Proof.
  intros Hc Hn. unfold ha_cota, radius, n1. cbn [nofZ NumR].
  rewrite mult_IZR, IZR_nat. assert (0 < INR n) by (apply lt_0_INR; lia).
  rewrite pydiv_R by nra. cbn [bind]. rewrite pydiv_R by lra. cbn [bind].
  pose proof (div_ge_1 1 conf Hc ltac:(lra)). rewrite py_log_R by lra. cbn [bind nmul NumR].
  apply py_sqrt_R. apply Rmult_le_pos; [|apply ln_nonneg; auto].
  apply Rlt_le, Rdiv_lt_0_compat; lra.
Qed.

Lemma ha_bound_R conf (p seg : list R) : 0 < conf <= 1 -> p <> [] -> prefix_of p seg ->
  ha_bound (Z.of_nat (length p)) (Z.of_nat (length seg)) conf = Ok (diff_radius conf p seg).
Proof.
  intros Hc Hn Hp. pose proof (INR_pos_len p Hn) as P1. pose proof (prefix_len _ _ Hp) as Hl.
  assert (P2 : 0 < INR (length seg)) by (apply le_INR in Hl; lra).
  assert (P3 : 0 <= INR (length seg) - INR (length p)) by (apply le_INR in Hl; lra).
  unfold ha_bound, diff_radius, n1. cbn [nofZ NumR]. rewrite minus_IZR, !IZR_nat.
  rewrite !pydiv_R by lra. cbn [bind].
  pose proof (div_ge_1 2 conf Hc ltac:(lra)). rewrite py_log_R by lra. cbn [bind nmul ndiv NumR].
  apply py_sqrt_R. apply Rmult_le_pos; [|apply ln_nonneg; auto].
  unfold Rdiv. apply Rmult_le_pos; [|lra]. apply Rmult_le_pos.
  - apply Rmult_le_pos; [lra|]. apply Rlt_le, Rinv_0_lt_compat. lra.
  - apply Rlt_le. rewrite Rmult_1_l. apply Rinv_0_lt_compat. lra.
Qed.

Lemma mean_div p : p <> [] -> pydiv (Rsum p) (IZR (Z.of_nat (length p))) = Ok (Rmean p).
Proof. intros H. rewrite IZR_nat. pose proof (INR_pos_len p H). rewrite pydiv_R by lra. reflexivity. Qed.

Lemma eqb_len (p seg : list R) : (Z.of_nat (length p) =? Z.of_nat (length seg))%Z = true <-> length p = length seg.
Proof. rewrite Z.eqb_eq. lia. Qed.

Lemma ha_incr_R conf p seg : 0 < conf <= 1 -> p <> [] -> prefix_of p seg ->
  exists b, ha_mean_incr (Rsum p) (Z.of_nat (length p)) (Rsum seg) (Z.of_nat (length seg)) conf = Ok b
    /\ (b = true <-> increase conf p seg).
Proof.
  intros Hc Hn Hp. assert (Hs : seg <> []).
  { intros ->. apply prefix_len in Hp. destruct p; simpl in Hp; [congruence|lia]. }
  unfold ha_mean_incr, increase.
  destruct (Z.of_nat (length p) =? Z.of_nat (length seg))%Z eqn:E.
  - apply eqb_len in E. eexists. split; [reflexivity|]. split; [discriminate|intros (H & _); congruence].
  - rewrite ha_bound_R by auto. cbn [bind nofZ NumR]. rewrite (mean_div seg Hs). cbn [bind].
    rewrite (mean_div p Hn). cbn [bind]. eexists. split; [reflexivity|]. cbn [nleb nsub NumR].
    assert (length p <> length seg) by (intros H; apply eqb_len in H; congruence).
    destruct (Rleb _ _) eqn:El; rcase; split; auto; try discriminate; intros (_ & H1); lra.
Qed.

Lemma ha_decr_R conf p seg : 0 < conf <= 1 -> p <> [] -> prefix_of p seg ->
  exists b, ha_mean_decr (Rsum p) (Z.of_nat (length p)) (Rsum seg) (Z.of_nat (length seg)) conf = Ok b
    /\ (b = true <-> decrease conf p seg).
Proof.
  intros Hc Hn Hp. assert (Hs : seg <> []).
  { intros ->. apply prefix_len in Hp. destruct p; simpl in Hp; [congruence|lia]. }
  unfold ha_mean_decr, decrease.
  destruct (Z.of_nat (length p) =? Z.of_nat (length seg))%Z eqn:E.
  - apply eqb_len in E. eexists. split; [reflexivity|]. split; [discriminate|intros (H & _); congruence].
  - rewrite ha_bound_R by auto. cbn [bind nofZ NumR]. rewrite (mean_div p Hn). cbn [bind].
    rewrite (mean_div seg Hs). cbn [bind]. eexists. split; [reflexivity|]. cbn [nleb nsub NumR].
    assert (length p <> length seg) by (intros H; apply eqb_len in H; congruence).
    destruct (Rleb _ _) eqn:El; rcase; split; auto; try discriminate; intros (_ & H1); lra.
Qed.

Lemma prefix_rest (p l rest : list R) : l = p ++ rest ->
  Rsum l - Rsum p = Rsum rest /\ (Z.of_nat (length l) - Z.of_nat (length p))%Z = Z.of_nat (length rest).
Proof. intros ->. rewrite Rsum_app, app_length. split; [lra|lia]. Qed.

Section HddmA.
Variable par : ha_par R.
Hypothesis Hdrift : 0 < hp_drift par <= 1.
Hypothesis Hwarn : 0 < hp_warn par <= 1.
Let dc := hp_drift par.

Definition cuts (s : hddm_a R) (seg : list R) : Prop :=
  if (length seg =? 0)%nat then ha_n_min s = 0%Z /\ ha_n_max s = 0%Z
  else (exists p, low_cut dc p seg /\ ha_n_min s = Z.of_nat (length p) /\ ha_c_min s = Rsum p)
    /\ (exists q, high_cut dc q seg /\ ha_n_max s = Z.of_nat (length q) /\ ha_c_max s = Rsum q).

Definition est (s : hddm_a R) (blk seg : list R) : Prop :=
  ((length seg < length blk)%nat /\ ha_n_est s = Z.of_nat (length blk) /\ ha_c_est s = Rsum blk
   /\ ha_estimation s = Rmean blk /\ ha_delay s = Z.of_nat (length blk))
  \/ ((length blk <= length seg)%nat /\ ha_n_est s = 0%Z /\ ha_c_est s = 0
   /\ ha_estimation s = Rmean seg /\ ha_delay s = Z.of_nat (length seg)).

Definition HInv (blk seg : list R) (s : hddm_a R) : Prop :=
  ha_total_n s = Z.of_nat (length seg) /\ ha_total_c s = Rsum seg /\ cuts s seg /\ est s blk seg.

Lemma HInv_init : HInv [] [] hddm_a_init.
Proof.
  unfold HInv, hddm_a_init, cuts, est; simpl. unfold n0; simpl. repeat split; auto.
  right. repeat split; auto. unfold Rmean; simpl. unfold Rdiv. ring.
Qed.

Lemma snoc_ne {A} (l : list A) x : l ++ [x] <> [].
Proof. intros E. apply app_eq_nil in E. destruct E; discriminate. Qed.

(** updating the low cut with one more value *)
Lemma low_cut_step seg x n c :
  (if (length seg =? 0)%nat then n = 0%Z else exists p, low_cut dc p seg /\ n = Z.of_nat (length p) /\ c = Rsum p) ->
  let seg' := seg ++ [x] in
  let '(n1, c1) := if (n =? 0)%Z then (Z.of_nat (length seg'), Rsum seg') else (n, c) in
  exists p1, p1 <> [] /\ n1 = Z.of_nat (length p1) /\ c1 = Rsum p1 /\ prefix_of p1 seg'
   /\ let '(n2, c2) := if Rleb (Rmean seg' + radius dc (length seg')) (Rmean p1 + radius dc (length p1))
                      then (Z.of_nat (length seg'), Rsum seg') else (n1, c1) in
      exists p, low_cut dc p seg' /\ n2 = Z.of_nat (length p) /\ c2 = Rsum p.
Proof.
  intros H seg'. pose proof (snoc_ne seg x) as Hne. fold seg' in Hne.
  destruct (length seg =? 0)%nat eqn:E0.
  - apply Nat.eqb_eq, length_zero_iff_nil in E0. subst seg n. simpl (0 =? 0)%Z. cbv iota.
    exists seg'. repeat split; auto; [apply prefix_refl|].
    assert (L : low_cut dc seg' seg').
    { split; auto. split; [apply prefix_refl|]. intros q Hq Hp.
      apply prefix_snoc in Hp. destruct Hp as [->|Hp].
      - fold seg'. split; [lra|lia].
      - apply prefix_len in Hp. destruct q; [congruence|simpl in Hp; lia]. }
    destruct (Rleb _ _); exists seg'; auto.
  - destruct H as (p & (Hp1 & Hp2 & Hp3) & -> & ->).
    assert (Ez : (Z.of_nat (length p) =? 0)%Z = false).
    { apply Z.eqb_neq. destruct p; simpl; [congruence|lia]. }
    rewrite Ez. exists p. repeat split; auto; [apply prefix_app; auto|].
    fold (upper dc seg'). fold (upper dc p).
    pose proof (prefix_len _ _ Hp2) as Hl.
    assert (Hl' : length seg' = S (length seg)) by (unfold seg'; rewrite app_length; simpl; lia).
    destruct (Rleb (upper dc seg') (upper dc p)) eqn:El; rcase.
    + exists seg'. split; auto. split; auto. split; [apply prefix_refl|]. intros q Hq Hpq.
      pose proof (prefix_len _ _ Hpq) as Hlq.
      apply prefix_snoc in Hpq. destruct Hpq as [->|Hpq]; [fold seg'; split; [lra|lia]|].
      destruct (Hp3 q Hq Hpq) as (A1 & A2). split; [lra|]. lia.
    + exists p. split; auto. split; auto. split; [apply prefix_app; auto|]. intros q Hq Hpq.
      apply prefix_snoc in Hpq. destruct Hpq as [->|Hpq]; [fold seg'; split; [lra|intros; lra]|].
      apply Hp3; auto.
Qed.

Lemma high_cut_step seg x n c :
  (if (length seg =? 0)%nat then n = 0%Z else exists p, high_cut dc p seg /\ n = Z.of_nat (length p) /\ c = Rsum p) ->
  let seg' := seg ++ [x] in
  let '(n1, c1) := if (n =? 0)%Z then (Z.of_nat (length seg'), Rsum seg') else (n, c) in
  exists p1, p1 <> [] /\ n1 = Z.of_nat (length p1) /\ c1 = Rsum p1 /\ prefix_of p1 seg'
   /\ let '(n2, c2) := if Rleb (Rmean p1 - radius dc (length p1)) (Rmean seg' - radius dc (length seg'))
                      then (Z.of_nat (length seg'), Rsum seg') else (n1, c1) in
      exists p, high_cut dc p seg' /\ n2 = Z.of_nat (length p) /\ c2 = Rsum p.
Proof.
  intros H seg'. pose proof (snoc_ne seg x) as Hne. fold seg' in Hne.
  destruct (length seg =? 0)%nat eqn:E0.
  - apply Nat.eqb_eq, length_zero_iff_nil in E0. subst seg n. simpl (0 =? 0)%Z. cbv iota.
    exists seg'. repeat split; auto; [apply prefix_refl|].
    assert (L : high_cut dc seg' seg').
    { split; auto. split; [apply prefix_refl|]. intros q Hq Hp.
      apply prefix_snoc in Hp. destruct Hp as [->|Hp].
      - fold seg'. split; [lra|lia].
      - apply prefix_len in Hp. destruct q; [congruence|simpl in Hp; lia]. }
    destruct (Rleb _ _); exists seg'; auto.
  - destruct H as (p & (Hp1 & Hp2 & Hp3) & -> & ->).
    assert (Ez : (Z.of_nat (length p) =? 0)%Z = false).
    { apply Z.eqb_neq. destruct p; simpl; [congruence|lia]. }
    rewrite Ez. exists p. repeat split; auto; [apply prefix_app; auto|].
    fold (lower dc seg'). fold (lower dc p).
    pose proof (prefix_len _ _ Hp2) as Hl.
    assert (Hl' : length seg' = S (length seg)) by (unfold seg'; rewrite app_length; simpl; lia).
    destruct (Rleb (lower dc p) (lower dc seg')) eqn:El; rcase.
    + exists seg'. split; auto. split; auto. split; [apply prefix_refl|]. intros q Hq Hpq.
      pose proof (prefix_len _ _ Hpq) as Hlq.
      apply prefix_snoc in Hpq. destruct Hpq as [->|Hpq]; [fold seg'; split; [lra|lia]|].
      destruct (Hp3 q Hq Hpq) as (A1 & A2). split; [lra|]. lia.
    + exists p. split; auto. split; auto. split; [apply prefix_app; auto|]. intros q Hq Hpq.
      apply prefix_snoc in Hpq. destruct Hpq as [->|Hpq]; [fold seg'; split; [lra|intros; lra]|].
      apply Hp3; auto.
Qed.

(** the estimation step *)
Lemma ha_update_R s blk seg :
  ha_total_n s = Z.of_nat (length seg) -> ha_total_c s = Rsum seg ->
  (blk <> [] \/ seg <> []) ->
  ((length seg <= length blk)%nat /\ ha_n_est s = Z.of_nat (length blk) /\ ha_c_est s = Rsum blk
   \/ (length blk < length seg)%nat /\ ha_n_est s = 0%Z) ->
  cuts s seg ->
  exists s', ha_update s = Ok s' /\ HInv blk seg s' /\ ha_change s' = ha_change s /\ ha_warning s' = ha_warning s.
Proof.
  intros Ht Hc Hne He Hcut. unfold ha_update. rewrite Ht, Hc.
  destruct (ha_n_est s <=? Z.of_nat (length seg))%Z eqn:El.
  - apply Z.leb_le in El. assert (Hs : seg <> []).
    { intros ->. simpl in *. destruct He as [(A & B & _)|(A & _)]; [|lia].
      destruct blk; [destruct Hne; congruence|simpl in *; lia]. }
    cbn [nofZ NumR]. rewrite (mean_div seg Hs). cbn [bind]. eexists. split; [reflexivity|].
    split; [|simpl; auto]. unfold HInv, cuts, est; simpl. repeat split; auto.
    right. repeat split; auto. destruct He as [(A & B & _)|(A & _)]; lia.
  - apply Z.leb_gt in El. destruct He as [(A & B & C)|(A & B)]; [|lia].
    assert (Hb : blk <> []). { intros ->. simpl in *. lia. }
    rewrite B, C. cbn [nofZ NumR]. rewrite (mean_div blk Hb). cbn [bind]. eexists. split; [reflexivity|].
    split; [|simpl; auto]. unfold HInv, cuts, est; simpl. repeat split; auto.
    left. repeat split; auto. lia.
Qed.

Lemma est_step blk seg x s : est s blk seg ->
  (length (seg ++ [x]) <= length blk)%nat /\ ha_n_est s = Z.of_nat (length blk) /\ ha_c_est s = Rsum blk
   \/ (length blk < length (seg ++ [x]))%nat /\ ha_n_est s = 0%Z.
Proof.
  rewrite app_length. simpl. intros [(A & B & C & _)|(A & B & _)]; [left|right]; repeat split; auto; lia.
Qed.

Lemma hddm_a_step hist blk seg s x :
  textbook (hp_drift par) (hp_warn par) (hp_two_side par) hist blk seg (ha_change s) (ha_warning s) ->
  HInv blk seg s ->
  exists s' blk' seg', hddm_a_add par s x = Ok s' /\ HInv blk' seg' s'
    /\ textbook (hp_drift par) (hp_warn par) (hp_two_side par) (hist ++ [x]) blk' seg' (ha_change s') (ha_warning s').
Proof.
  intros HT (H1 & H2 & H3 & H4). set (seg1 := seg ++ [x]).
  assert (Hne : seg1 <> []) by apply snoc_ne.
  unfold hddm_a_add. rewrite H1, H2.
  replace (Z.of_nat (length seg) + 1)%Z with (Z.of_nat (length seg1)) by (unfold seg1; rewrite app_length; simpl; lia).
  cbn [nadd NumR]. replace (Rsum seg + x) with (Rsum seg1) by (unfold seg1; rewrite Rsum_app; simpl; ring).
  cbv zeta.
  assert (HL : exists p1 p2, p1 <> [] /\ low_cut dc p2 seg1 /\ prefix_of p1 seg1 /\
    (if (ha_n_min s =? 0)%Z then (Z.of_nat (length seg1), Rsum seg1) else (ha_n_min s, ha_c_min s))
      = (Z.of_nat (length p1), Rsum p1) /\
    (if Rleb (Rmean seg1 + radius dc (length seg1)) (Rmean p1 + radius dc (length p1))
       then (Z.of_nat (length seg1), Rsum seg1) else (Z.of_nat (length p1), Rsum p1)) = (Z.of_nat (length p2), Rsum p2)).
  { pose proof (low_cut_step seg x (ha_n_min s) (ha_c_min s)) as L.
    fold seg1 in L.
    assert (P : if (length seg =? 0)%nat then ha_n_min s = 0%Z
       else exists p, low_cut dc p seg /\ ha_n_min s = Z.of_nat (length p) /\ ha_c_min s = Rsum p).
    { unfold cuts in H3. destruct (length seg =? 0)%nat; tauto. }
    specialize (L P). cbv zeta in L.
    destruct (ha_n_min s =? 0)%Z.
    - destruct L as (p1 & A & B & C & D & L). exists p1.
      destruct (Rleb _ _); destruct L as (p2 & L1 & L2 & L3); exists p2; do 4 (split; [solve [auto|congruence]|]); congruence.
    - destruct L as (p1 & A & B & C & D & L). exists p1.
      destruct (Rleb _ _); destruct L as (p2 & L1 & L2 & L3); exists p2; do 4 (split; [solve [auto|congruence]|]); congruence. }
  assert (HH : exists p1 p2, p1 <> [] /\ high_cut dc p2 seg1 /\ prefix_of p1 seg1 /\
    (if (ha_n_max s =? 0)%Z then (Z.of_nat (length seg1), Rsum seg1) else (ha_n_max s, ha_c_max s))
      = (Z.of_nat (length p1), Rsum p1) /\
    (if Rleb (Rmean p1 - radius dc (length p1)) (Rmean seg1 - radius dc (length seg1))
       then (Z.of_nat (length seg1), Rsum seg1) else (Z.of_nat (length p1), Rsum p1)) = (Z.of_nat (length p2), Rsum p2)).
  { pose proof (high_cut_step seg x (ha_n_max s) (ha_c_max s)) as L.
    fold seg1 in L.
    assert (P : if (length seg =? 0)%nat then ha_n_max s = 0%Z
       else exists p, high_cut dc p seg /\ ha_n_max s = Z.of_nat (length p) /\ ha_c_max s = Rsum p).
    { unfold cuts in H3. destruct (length seg =? 0)%nat; tauto. }
    specialize (L P). cbv zeta in L.
    destruct (ha_n_max s =? 0)%Z.
    - destruct L as (p1 & A & B & C & D & L). exists p1.
      destruct (Rleb _ _); destruct L as (p2 & L1 & L2 & L3); exists p2; do 4 (split; [solve [auto|congruence]|]); congruence.
    - destruct L as (p1 & A & B & C & D & L). exists p1.
      destruct (Rleb _ _); destruct L as (p2 & L1 & L2 & L3); exists p2; do 4 (split; [solve [auto|congruence]|]); congruence. }
  destruct HL as (p1 & p & Hp1 & Hlow & Hpp1 & E1 & E2).
  destruct HH as (q1 & q & Hq1 & Hhigh & Hpq1 & F1 & F2).
  rewrite E1, F1.
  assert (len_ne : forall l : list R, l <> [] -> length l <> 0%nat) by (intros [|? ?]; simpl; congruence).
  rewrite (ha_cota_R (hp_drift par) (length p1)) by auto. cbn [bind].
  rewrite (ha_cota_R (hp_drift par) (length seg1)) by auto. cbn [bind nofZ NumR].
  rewrite (mean_div p1 Hp1), (mean_div seg1 Hne). cbn [bind nleb nadd nsub NumR].
  fold dc. rewrite E2.
  unfold dc at 1. rewrite (ha_cota_R (hp_drift par) (length q1)) by auto. cbn [bind].
  rewrite (mean_div q1 Hq1). cbn [bind]. fold dc. rewrite F2.
  pose proof Hlow as (Hp & Hpp & _). pose proof Hhigh as (Hq & Hpq & _).
  destruct (ha_incr_R dc p seg1 Hdrift Hp Hpp) as (b & Eb & Bb). rewrite Eb. cbn [bind].
  destruct b.
  - (* drift *)
    cbn [bind]. cbn [ha_c_max ha_n_max ha_total_c ha_total_n].
    assert (Edecr : (if hp_two_side par then ha_mean_decr n0 0 n0 0 dc else Ok false) = Ok false)
      by (destruct (hp_two_side par); reflexivity).
    unfold n0 in *. cbn [nofZ NumR] in *. rewrite Edecr. cbn [bind].
    destruct Hpp as (rest & Er).
    destruct (prefix_rest p seg1 rest Er) as (R1 & R2).
    assert (Hi : increase dc p seg1) by (apply Bb; auto).
    assert (Hrest : rest <> []).
    { intros ->. rewrite app_nil_r in Er. destruct Hi as (Hi & _). congruence. }
    edestruct (ha_update_R (mkHa true false (ha_estimation s) (ha_delay s) 0 0 0 0 0 0
                  (Z.of_nat (length seg1) - Z.of_nat (length p)) (Rsum seg1 - Rsum p)) rest [])
      as (s' & Es & Is & Ec & Ew); simpl; auto.
    { left. repeat split; auto. lia. }
    { unfold cuts; simpl; auto. }
    exists s', rest, []. split; [exact Es|]. split; auto. rewrite Ec, Ew. simpl.
    eapply tb_increase; eauto.
  - (* no drift *)
    assert (Hni : ~ increase dc p seg1) by (intros H; apply Bb in H; discriminate).
    destruct (ha_incr_R (hp_warn par) p seg1 Hwarn Hp Hpp) as (w & Ew & Bw). rewrite Ew. cbn [bind].
    cbn [ha_c_max ha_n_max ha_total_c ha_total_n ha_change ha_warning ha_estimation ha_delay].
    destruct (ha_decr_R dc q seg1 Hdrift Hq Hpq) as (d & Ed & Bd).
    assert (Edecr : (if hp_two_side par
       then ha_mean_decr (Rsum q) (Z.of_nat (length q)) (Rsum seg1) (Z.of_nat (length seg1)) dc else Ok false)
       = Ok (hp_two_side par && d)) by (destruct (hp_two_side par); auto).
    rewrite Edecr. cbn [bind].
    destruct (hp_two_side par && d) eqn:Etd.
    + apply andb_true_iff in Etd. destruct Etd as (Et & ->).
      destruct Hpq as (rest & Er).
      destruct (prefix_rest q seg1 rest Er) as (R1 & R2).
      assert (Hi : decrease dc q seg1) by (apply Bd; auto).
      assert (Hrest : rest <> []).
      { intros ->. rewrite app_nil_r in Er. destruct Hi as (Hi & _). congruence. }
      unfold n0. cbn [nofZ NumR].
      edestruct (ha_update_R (mkHa false w (ha_estimation s) (ha_delay s) 0 0 0 0 0 0
                  (Z.of_nat (length seg1) - Z.of_nat (length q)) (Rsum seg1 - Rsum q)) rest [])
        as (s' & Es & Is & Ec & Ew'); simpl; auto.
      { left. repeat split; auto. lia. }
      { unfold cuts; simpl; auto. }
      exists s', rest, []. split; [exact Es|]. split; auto. rewrite Ec, Ew'. simpl.
      eapply tb_decrease; eauto.
    + edestruct (ha_update_R (mkHa false w (ha_estimation s) (ha_delay s) (Z.of_nat (length p)) (Rsum p)
           (Z.of_nat (length seg1)) (Rsum seg1) (Z.of_nat (length q)) (Rsum q) (ha_n_est s) (ha_c_est s)) blk seg1)
        as (s' & Es & Is & Ec & Ew'); simpl; auto.
      { apply (est_step blk seg x s H4). }
      { unfold cuts; simpl. destruct (length seg1 =? 0)%nat eqn:E0.
        - apply Nat.eqb_eq in E0. apply len_ne in Hne. congruence.
        - split; eexists; eauto. }
      exists s', blk, seg1. split; [exact Es|]. split; auto. rewrite Ec, Ew'. simpl.
      eapply tb_continue; eauto.
      intros Et. exists q. split; auto. intros Hd. apply Bd in Hd. rewrite Et, Hd in Etd. discriminate.
Qed.

Lemma hddm_a_inv hist s : after hddm_a_init (hddm_a_add par) hist s ->
  exists blk seg, HInv blk seg s /\
    textbook (hp_drift par) (hp_warn par) (hp_two_side par) hist blk seg (ha_change s) (ha_warning s).
Proof.
  induction 1 as [|hist s x s' H (blk & seg & I & T) E].
  - exists [], []. split; [apply HInv_init|constructor].
  - destruct (hddm_a_step _ _ _ _ x T I) as (s2 & blk' & seg' & E2 & I2 & T2).
    assert (s2 = s') by congruence. subst. eauto.
Qed.

Lemma hddm_a_never_raises_proof hist s x : after hddm_a_init (hddm_a_add par) hist s ->
  exists s', hddm_a_add par s x = Ok s'.
Proof.
  intros H. destruct (hddm_a_inv _ _ H) as (blk & seg & I & T).
  destruct (hddm_a_step _ _ _ _ x T I) as (s2 & blk' & seg' & E2 & _). eauto.
Qed.

Lemma hddm_a_refines_proof hist s : after hddm_a_init (hddm_a_add par) hist s ->
  exists blk seg,
    textbook (hp_drift par) (hp_warn par) (hp_two_side par) hist blk seg (ha_change s) (ha_warning s)
    /\ ha_total_n s = Z.of_nat (length seg) /\ ha_total_c s = Rsum seg
    /\ ha_estimation s = (if (length seg <? length blk)%nat then Rmean blk else Rmean seg)
    /\ ha_delay s = Z.of_nat (Nat.max (length blk) (length seg)).
Proof.
  intros H. destruct (hddm_a_inv _ _ H) as (blk & seg & (I1 & I2 & _ & I4) & T).
  exists blk, seg. repeat split; auto; destruct I4 as [(A & _ & _ & B & C)|(A & _ & _ & B & C)].
  - assert (E : (length seg <? length blk)%nat = true) by (apply Nat.ltb_lt; auto). rewrite E. auto.
  - assert (E : (length seg <? length blk)%nat = false) by (apply Nat.ltb_ge; auto). rewrite E. auto.
  - rewrite C. f_equal. lia.
  - rewrite C. f_equal. lia.
Qed.

End HddmA.

Lemma textbook_blocks d w t hist blk seg c wn : textbook d w t hist blk seg c wn ->
  (exists pre, hist = pre ++ blk ++ seg) /\ ~ (c = true /\ wn = true).
Proof.
  assert (CW : forall b : bool, ~ (false = true /\ b = true)) by (intros b (H & _); discriminate).
  induction 1 as [|h b s c w0 x p rest H IH L E|h b s c w0 x p q rest w' H IH L N W T HC E D|h b s c w0 x p w' H IH L N W D].
  - split; auto. exists []; auto.
  - destruct IH as ((pre & ->) & _). split; [|intros (_ & ?); discriminate].
    exists (pre ++ b ++ p). rewrite <- !app_assoc, app_nil_r. do 2 f_equal. auto.
  - destruct IH as ((pre & ->) & _). split; auto.
    exists (pre ++ b ++ q). rewrite <- !app_assoc, app_nil_r. do 2 f_equal. auto.
  - destruct IH as ((pre & ->) & _). split; auto.
    exists pre. rewrite <- !app_assoc. reflexivity.
Qed.
