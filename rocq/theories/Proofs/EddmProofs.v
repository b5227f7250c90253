From Coq Require Import List ZArith Lia Bool Reals Lra.
From Verif Require Import Base.Py Base.Num Spec.Lists Spec.DetectorSpec Spec.EddmSpec Model.Eddm
  Proofs.ListFacts Proofs.StatFacts Proofs.DdmProofs.
Import ListNotations.

(** *** specification facts *)
Lemma error_positions_app a : forall k b,
  error_positions k (a ++ b) = error_positions k a ++ error_positions (k + length a) b.
Proof.
  induction a as [|x a IH]; intros k b; simpl; [rewrite Nat.add_0_r; auto|].
  rewrite IH, <- app_assoc. replace (S k + length a) with (k + S (length a)) by lia. reflexivity.
Qed.

Lemma gaps_app ps qs : forall f, gaps f (ps ++ qs) = gaps f ps ++ gaps (last ps f) qs.
Proof.
  induction ps as [|p ps IH]; intros f; simpl; auto. rewrite IH. f_equal. f_equal.
  destruct ps; [reflexivity|]. f_equal. simpl. 
  assert (G : forall l (d d' : nat), l <> [] -> last l d = last l d').
  { induction l as [|a l IHl]; [congruence|]. destruct l; simpl; auto. intros. apply IHl. discriminate. }
  destruct ps; auto. apply G. discriminate.
Qed.

Lemma gaps_length ps : forall f, length (gaps f ps) = length ps.
Proof. induction ps; simpl; auto. Qed.

Lemma error_positions_bounds l : forall k p, In p (error_positions k l) -> (k < p <= k + length l)%nat.
Proof.
  induction l as [|x l IH]; intros k p H; simpl in H; [tauto|].
  apply in_app_or in H. destruct H as [H|H].
  - destruct (is_error x); simpl in H; [|tauto]. destruct H as [<-|[]]. simpl. lia.
  - apply IH in H. simpl. lia.
Qed.

Definition last_pos (l : list R) : nat := last (error_positions 0 l) 0%nat.

Lemma last_In {A} (l : list A) d : l <> [] -> In (last l d) l.
Proof. induction l as [|a l IH]; [congruence|]. destruct l; simpl; auto. intros _. right. apply IH. discriminate. Qed.

Lemma last_pos_le l : (last_pos l <= length l)%nat.
Proof.
  unfold last_pos. destruct (error_positions 0 l) eqn:E; [simpl; lia|].
  assert (H : In (last (error_positions 0 l) 0%nat) (error_positions 0 l)) by (apply last_In; congruence).
  apply error_positions_bounds in H. rewrite E in H. simpl in *. lia.
Qed.

Lemma distances_snoc_error l x : is_error x = true ->
  distances (l ++ [x]) = distances l ++ [INR (S (length l) - last_pos l)].
Proof.
  intros H. unfold distances. rewrite error_positions_app. simpl. rewrite H. simpl.
  rewrite gaps_app. reflexivity.
Qed.

Lemma distances_snoc_ok l x : is_error x = false -> distances (l ++ [x]) = distances l.
Proof.
  intros H. unfold distances. rewrite error_positions_app. simpl. rewrite H. simpl. rewrite app_nil_r. reflexivity.
Qed.

Lemma n_errors_distances l : n_errors l = length (distances l).
Proof. unfold n_errors, distances. rewrite gaps_length. reflexivity. Qed.

Lemma last_pos_snoc_error l x : is_error x = true -> last_pos (l ++ [x]) = S (length l).
Proof.
  intros H. unfold last_pos. rewrite error_positions_app. simpl. rewrite H. simpl.
  rewrite last_last. reflexivity.
Qed.

Lemma last_pos_snoc_ok l x : is_error x = false -> last_pos (l ++ [x]) = last_pos l.
Proof.
  intros H. unfold last_pos. rewrite error_positions_app. simpl. rewrite H. simpl. rewrite app_nil_r. reflexivity.
Qed.

(** the distances sum up to the position of the last error *)
Lemma distances_sum l : Rsum (distances l) = INR (last_pos l).
Proof.
  induction l as [|x l IH] using rev_ind; [reflexivity|].
  destruct (is_error x) eqn:E.
  - rewrite distances_snoc_error, last_pos_snoc_error, Rsum_app, IH by auto.
    assert (R1 : forall a, Rsum [a] = a) by (intros; unfold Rsum; simpl; ring). rewrite R1.
    pose proof (last_pos_le l). rewrite minus_INR by lia. lra.
  - rewrite distances_snoc_ok, last_pos_snoc_ok by auto. auto.
Qed.

Lemma n_errors_le_pos l : (n_errors l <= last_pos l)%nat.
Proof.
  induction l as [|x l IH] using rev_ind; [simpl; unfold n_errors; simpl; lia|].
  destruct (is_error x) eqn:E.
  - rewrite n_errors_distances in *. rewrite distances_snoc_error, last_pos_snoc_error by auto.
    rewrite app_length. simpl. pose proof (last_pos_le l). lia.
  - rewrite n_errors_distances in *. rewrite distances_snoc_ok, last_pos_snoc_ok by auto. auto.
Qed.

Lemma Rmean_distances_ge1 l : n_errors l <> 0%nat -> (1 <= Rmean (distances l))%R.
Proof.
  intros H. unfold Rmean. rewrite distances_sum, <- n_errors_distances.
  assert (Hp : (0 < INR (n_errors l))%R) by (apply lt_0_INR; lia).
  apply Rmult_le_reg_r with (INR (n_errors l)); auto. unfold Rdiv. rewrite Rmult_assoc, Rinv_l by lra.
  pose proof (n_errors_le_pos l). apply le_INR in H0. lra.
Qed.

Lemma m2s_pos l : n_errors l <> 0%nat -> (1 <= m2s l)%R.
Proof.
  intros H. unfold m2s. pose proof (Rmean_distances_ge1 l H). pose proof (sqrt_pos (Rvariance (distances l))). lra.
Qed.

Lemma ends_snoc l x : ends_in_error (l ++ [x]) = is_error x.
Proof. unfold ends_in_error. rewrite rev_app_distr. reflexivity. Qed.

Lemma prefixes_snoc l x : prefixes (l ++ [x]) = prefixes l ++ [l ++ [x]].
Proof.
  unfold prefixes. rewrite app_length. simpl length. rewrite Nat.add_1_r, seq_S, map_app. cbn [map].
  f_equal.
  - apply map_ext_in. intros k Hk. apply in_seq in Hk. rewrite firstn_app.
    replace (k - length l) with 0 by lia. simpl. rewrite app_nil_r. reflexivity.
  - f_equal. rewrite firstn_all2; auto. rewrite app_length. simpl. lia.
Qed.

Lemma fold_Rmax_app a b : fold_right Rmax 0%R (a ++ [b]) = Rmax (fold_right Rmax 0%R a) (Rmax b 0).
Proof.
  induction a as [|y a IH]; simpl.
  - rewrite (Rmax_right 0 (Rmax b 0)); auto. apply Rmax_r.
  - rewrite IH, Rmax_assoc. reflexivity.
Qed.

Lemma m2s_max_snoc l x :
  m2s_max (l ++ [x]) = if evaluated (l ++ [x]) then Rmax (m2s_max l) (Rmax (m2s (l ++ [x])) 0) else m2s_max l.
Proof.
  unfold m2s_max. rewrite prefixes_snoc, filter_app. simpl filter at 2.
  destruct (evaluated (l ++ [x])).
  - rewrite map_app. simpl map at 2. rewrite fold_Rmax_app. reflexivity.
  - rewrite app_nil_r. reflexivity.
Qed.

Lemma upto_snoc_error l x : is_error x = true -> upto_last_error (l ++ [x]) = l ++ [x].
Proof.
  intros H. unfold upto_last_error. rewrite rev_app_distr. simpl. rewrite H. simpl.
  rewrite rev_involutive. reflexivity.
Qed.
Lemma upto_snoc_ok l x : is_error x = false -> upto_last_error (l ++ [x]) = upto_last_error l.
Proof. intros H. unfold upto_last_error. rewrite rev_app_distr. simpl. rewrite H. reflexivity. Qed.

Lemma Rsqdev_snoc l x : l <> [] ->
  Rsqdev (l ++ [x]) = (Rsqdev l + (x - Rmean (l ++ [x])) * (x - Rmean l))%R.
Proof.
  intros H. rewrite (Rsqdev_app l [x] H) by discriminate. rewrite Rsqdev_single.
  rewrite <- (Rmean_incr l x H). unfold Rmean. simpl length. simpl (Rsum [x]). simpl (INR 1).
  pose proof (INR_pos_len l H). field. lra.
Qed.

(** *** the detector *)
Local Notation sinceE := (since (eddm_init (T := R)) eddm_add eddm_reset ed_change).

(** decision at an evaluated prefix *)
Definition at_change (l : list R) : Prop :=
  evaluated l = true /\ (30 < n_errors l)%nat /\ (m2s l < 9 / 10 * m2s_max l)%R.
Definition at_warning (l : list R) : Prop :=
  evaluated l = true /\ (30 < n_errors l)%nat /\ (9 / 10 * m2s_max l <= m2s l < 95 / 100 * m2s_max l)%R.

Definition EInv (seg : list R) (s : eddm R) : Prop :=
  ed_n s = (Z.of_nat (length seg) + 1)%Z
  /\ ed_errors s = Z.of_nat (n_errors seg)
  /\ ed_d s = Z.of_nat (last_pos seg)
  /\ ed_mean s = (if Nat.eqb (n_errors seg) 0 then 0%R else Rmean (distances seg))
  /\ ed_estimation s = ed_mean s
  /\ ed_std s = Rsqdev (distances seg)
  /\ ed_max s = m2s_max seg
  /\ (ed_change s = true <-> at_change seg)
  /\ (ed_warning s = true <-> at_warning (upto_last_error seg)).

Lemma EInv_init : EInv [] eddm_init.
Proof.
  unfold EInv, eddm_init; simpl. repeat split; auto; try discriminate.
  - intros (H & _). discriminate.
  - intros (H & _). discriminate.
Qed.

Lemma eddm_add_fresh s x : ed_change s = true -> eddm_add s x = eddm_add (eddm_init (T := R)) x.
Proof. intros H. unfold eddm_add. rewrite H. reflexivity. Qed.

Lemma IZR_pos_ne n : IZR (Z.of_nat (S n)) <> 0%R.
Proof. apply not_0_IZR. lia. Qed.

Lemma m2s_max_nonneg l : (0 <= m2s_max l)%R.
Proof.
  unfold m2s_max. induction (map m2s (filter evaluated (prefixes l))); simpl; [lra|].
  eapply Rle_trans; [apply IHl0|apply Rmax_r].
Qed.

Lemma eddm_step seg s x : EInv seg s -> ed_change s = false ->
  exists s', eddm_add s x = Ok s' /\ EInv (seg ++ [x]) s'.
Proof.
  intros (H1 & H2 & H3 & H4 & H5 & H6 & H7 & H8 & H9) Hc.
  unfold eddm_add. rewrite Hc. simpl (neqb _ _). unfold n1; simpl (nofZ 1). fold (is_error x).
  assert (Hlen : Z.of_nat (length (seg ++ [x])) = (Z.of_nat (length seg) + 1)%Z) by (rewrite app_length; simpl; lia).
  destruct (is_error x) eqn:Ex.
  - rewrite H1, H2, H3.
    replace (Z.of_nat (length seg) + 1 + 1 - 1)%Z with (Z.of_nat (S (length seg))) by lia.
    pose proof (last_pos_le seg) as Hle.
    assert (Hdist : nofZ (Num := NumR) (Z.of_nat (S (length seg)) - Z.of_nat (last_pos seg))
                    = INR (S (length seg) - last_pos seg)).
    { change (IZR (Z.of_nat (S (length seg)) - Z.of_nat (last_pos seg)) = INR (S (length seg) - last_pos seg)).
      rewrite <- Nat2Z.inj_sub by lia. rewrite <- INR_IZR_INZ. reflexivity. }
    rewrite Hdist. set (dist := INR (S (length seg) - last_pos seg)).
    replace (Z.of_nat (n_errors seg) + 1)%Z with (Z.of_nat (S (n_errors seg))) by lia.
    set (zN := Z.of_nat (S (n_errors seg))).
    assert (HzI : IZR zN = INR (S (n_errors seg))) by (unfold zN; rewrite <- INR_IZR_INZ; reflexivity).
    assert (HzN : zN = Z.of_nat (S (n_errors seg))) by reflexivity.
    pose proof (distances_snoc_error seg x Ex) as HD. fold dist in HD.
    clear Hdist. clearbody zN dist.
    assert (Hz0 : IZR zN <> 0%R) by (rewrite HzN; exact (IZR_pos_ne _)).
    cbn [nofZ NumR]. rewrite !pydiv_R by exact Hz0. cbn [bind].
    assert (HN : n_errors (seg ++ [x]) = S (n_errors seg)).
    { rewrite !n_errors_distances, HD, app_length. simpl. lia. }
    assert (Hmean : (ed_mean s + (dist - ed_mean s) / IZR zN)%R
                    = Rmean (distances (seg ++ [x]))).
    { rewrite HD, H4, HzI. destruct (n_errors seg) eqn:En.
      - simpl. assert (Ed : distances seg = []) by (apply length_zero_iff_nil; rewrite <- n_errors_distances; auto).
        rewrite Ed. simpl. rewrite Rmean_single. field.
      - simpl Nat.eqb. cbv iota.
        assert (Ed : distances seg <> []).
        { intros E. rewrite n_errors_distances, E in En. discriminate. }
        rewrite <- (Rmean_incr _ dist Ed). rewrite <- n_errors_distances, En, <- S_INR. reflexivity. }
    cbn [nadd nsub nmul ndiv nltb nsqrt NumR]. rewrite Hmean.
    assert (Hstd : (ed_std s + (dist - Rmean (distances (seg ++ [x]))) * (dist - ed_mean s))%R
                   = Rsqdev (distances (seg ++ [x]))).
    { rewrite HD, H6, H4. destruct (n_errors seg) eqn:En.
      - simpl Nat.eqb. cbv iota.
        assert (Ed : distances seg = []) by (apply length_zero_iff_nil; rewrite <- n_errors_distances; auto).
        rewrite Ed. simpl app. rewrite Rmean_single, Rsqdev_single, Rsqdev_nil. ring.
      - simpl Nat.eqb. cbv iota.
        assert (Ed : distances seg <> []).
        { intros E. rewrite n_errors_distances, E in En. discriminate. }
        rewrite (Rsqdev_snoc _ dist Ed). reflexivity. }
    rewrite Hstd. rewrite pydiv_R by exact Hz0. cbn [bind].
    assert (Hm2s : (Rmean (distances (seg ++ [x])) + 2 * sqrt (Rsqdev (distances (seg ++ [x])) / IZR zN))%R
                   = m2s (seg ++ [x])).
    { unfold m2s, Rvariance. rewrite <- n_errors_distances, HN, HzI. reflexivity. }
    rewrite Hm2s.
    assert (HP : last_pos (seg ++ [x]) = S (length seg)) by (apply last_pos_snoc_error; auto).
    assert (HE : Nat.eqb (n_errors (seg ++ [x])) 0 = false) by (rewrite HN; reflexivity).
    assert (Hupto : upto_last_error (seg ++ [x]) = seg ++ [x]) by (apply upto_snoc_error; auto).
    assert (Hm1 : (1 <= m2s (seg ++ [x]))%R) by (apply m2s_pos; lia).
    assert (Hev : evaluated (seg ++ [x]) = negb (Z.of_nat (length seg) + 1 + 1 <? FDDM_MIN)%Z).
    { unfold evaluated. rewrite ends_snoc, Ex, andb_true_l. unfold FDDM_MIN.
      destruct (Z.of_nat (length seg) + 1 + 1 <? 30)%Z eqn:E.
      - apply Z.ltb_lt in E. cbn [negb]. apply Nat.leb_gt. lia.
      - apply Z.ltb_ge in E. cbn [negb]. apply Nat.leb_le. lia. }
    pose proof (m2s_max_snoc seg x) as HM. rewrite Hev in HM.
    unfold EInv.
    destruct (Z.of_nat (length seg) + 1 + 1 <? FDDM_MIN)%Z eqn:En; simpl negb in *; cbv iota in HM.
    + eexists. split; [reflexivity|]. simpl.
      rewrite HE, HP, Hupto, HM. repeat split; auto; try lia; try discriminate.
      * intros (E & _). congruence.
      * intros (E & _). congruence.
    + rewrite (Rmax_left (m2s (seg ++ [x])) 0) in HM by lra.
      destruct (Rltb (ed_max s) (m2s (seg ++ [x]))) eqn:El; rcase.
      * rewrite H7 in El. rewrite Rmax_right in HM by lra.
        eexists. split; [reflexivity|]. simpl.
        rewrite HE, HP, Hupto, HM. repeat split; auto; try lia; try discriminate.
        -- unfold at_change. rewrite HM. intros (_ & _ & E). lra.
        -- unfold at_warning. rewrite HM. intros (_ & _ & E). lra.
      * rewrite H7 in *. rewrite Rmax_left in HM by lra.
        assert (Hmp : (0 < m2s_max seg)%R) by lra.
        assert (Hdiv : forall c, (m2s (seg ++ [x]) / m2s_max seg < c <-> m2s (seg ++ [x]) < c * m2s_max seg)%R).
        { intros c. split; intros H.
          - apply Rmult_lt_compat_r with (r := m2s_max seg) in H; auto.
            unfold Rdiv in H. rewrite Rmult_assoc, Rinv_l in H by lra. lra.
          - apply Rmult_lt_reg_r with (m2s_max seg); auto. unfold Rdiv. rewrite Rmult_assoc, Rinv_l by lra. lra. }
        unfold FDDM_OUT, FDDM_WARN. cbn [nofZ ndiv NumR]. unfold MIN_ERRORS.
        destruct (30 <? zN)%Z eqn:E30.
        -- apply Z.ltb_lt in E30. simpl andb.
           destruct (Rltb (m2s (seg ++ [x]) / m2s_max seg) (9 / 10)) eqn:Eo; rcase.
           ++ apply Hdiv in Eo. eexists. split; [reflexivity|]. simpl.
              rewrite HE, HP, Hupto, HM. repeat split; auto; try lia; try discriminate.
              ** rewrite HM; auto.
              ** unfold at_warning. rewrite HM. intros (_ & _ & E). lra.
           ++ assert (Eo' : (9 / 10 * m2s_max seg <= m2s (seg ++ [x]))%R).
              { apply Rnot_lt_le. intros H. apply Hdiv in H. lra. }
              destruct (Rltb (m2s (seg ++ [x]) / m2s_max seg) (95 / 100)) eqn:Ew; rcase.
              ** apply Hdiv in Ew. eexists. split; [reflexivity|]. simpl.
                 rewrite HE, HP, Hupto, HM. repeat split; auto; try lia; try discriminate; try (rewrite HM; auto).
                 unfold at_change. rewrite HM. intros (_ & _ & E). lra.
              ** assert (Ew' : (95 / 100 * m2s_max seg <= m2s (seg ++ [x]))%R).
                 { apply Rnot_lt_le. intros H. apply Hdiv in H. lra. }
                 eexists. split; [reflexivity|]. simpl.
                 rewrite HE, HP, Hupto, HM. repeat split; auto; try lia; try discriminate.
                 --- unfold at_change. rewrite HM. intros (_ & _ & E). lra.
                 --- unfold at_warning. rewrite HM. intros (_ & _ & E). lra.
        -- apply Z.ltb_ge in E30. simpl andb.
           eexists. split; [reflexivity|]. simpl.
           rewrite HE, HP, Hupto, HM. repeat split; auto; try lia; try discriminate.
           ++ intros (_ & E & _). lia.
           ++ intros (_ & E & _). lia.
  - eexists. split; [reflexivity|]. unfold EInv. simpl.
    assert (HD := distances_snoc_ok seg x Ex).
    assert (HN : n_errors (seg ++ [x]) = n_errors seg) by (rewrite !n_errors_distances, HD; auto).
    rewrite HN, HD, (last_pos_snoc_ok seg x Ex), (upto_snoc_ok seg x Ex), m2s_max_snoc.
    assert (Hev : evaluated (seg ++ [x]) = false).
    { unfold evaluated. rewrite ends_snoc, Ex. reflexivity. }
    rewrite Hev. repeat split; auto; try lia; try discriminate; try apply H9; auto.
    intros (E & _). congruence.
Qed.

Lemma eddm_inv seg s : sinceE seg s -> EInv seg s.
Proof.
  induction 1 as [|seg s x s' H IH E|seg s H IH].
  - apply EInv_init.
  - destruct (ed_change s) eqn:Ec.
    + rewrite (eddm_add_fresh s x Ec) in E.
      destruct (eddm_step [] eddm_init x) as (s2 & E2 & I2); [apply EInv_init|reflexivity|].
      assert (s2 = s') by congruence. subst. exact I2.
    + destruct (eddm_step seg s x IH Ec) as (s2 & E2 & I2).
      assert (s2 = s') by congruence. subst. exact I2.
  - apply EInv_init.
Qed.

Lemma eddm_never_raises_proof seg s x : sinceE seg s -> exists s', eddm_add s x = Ok s'.
Proof.
  intros H. apply eddm_inv in H. destruct (ed_change s) eqn:Ec.
  - rewrite (eddm_add_fresh s x Ec).
    destruct (eddm_step [] eddm_init x) as (s2 & E2 & I2); [apply EInv_init|reflexivity|]. eauto.
  - destruct (eddm_step seg s x H Ec) as (s2 & E2 & I2). eauto.
Qed.

Lemma eddm_stats_proof seg s :
  sinceE seg s -> n_errors seg <> 0%nat ->
  ed_mean s = (INR (last (error_positions 0 seg) 0%nat) / INR (n_errors seg))%R
  /\ ed_estimation s = ed_mean s
  /\ ed_mean s = Rmean (distances seg)
  /\ ed_std s = Rsqdev (distances seg).
Proof.
  intros H Hn. apply eddm_inv in H. destruct H as (H1 & H2 & H3 & H4 & H5 & H6 & _).
  assert (E : Nat.eqb (n_errors seg) 0 = false) by (apply Nat.eqb_neq; auto).
  rewrite E in H4. repeat split; auto. rewrite H4. unfold Rmean. rewrite distances_sum, <- n_errors_distances.
  reflexivity.
Qed.

Lemma eddm_rule_proof seg s :
  sinceE seg s ->
  (ed_change s = true <-> at_change seg) /\ (ed_warning s = true <-> at_warning (upto_last_error seg)).
Proof. intros H. apply eddm_inv in H. destruct H as (_ & _ & _ & _ & _ & _ & _ & H8 & H9). auto. Qed.

(** any arithmetic *)
Section AnyNum.
Context {T : Type} {N : Num T}.
Local Notation sinceT := (since (eddm_init (T := T)) eddm_add eddm_reset ed_change).

Definition errors_in (seg : list T) : nat := length (filter (fun x => neqb x n1) seg).

Lemma errors_in_snoc seg x : errors_in (seg ++ [x]) = errors_in seg + (if neqb x n1 then 1 else 0).
Proof. unfold errors_in. rewrite filter_app, app_length. simpl. destruct (neqb x n1); reflexivity. Qed.

Lemma errors_in_le seg : errors_in seg <= length seg.
Proof. unfold errors_in. induction seg as [|x l IH]; simpl; auto. destruct (neqb x n1); simpl; lia. Qed.

Lemma eddm_add_count s x s' : eddm_add s x = Ok s' ->
  ed_errors s' = ((if ed_change s then 0 else ed_errors s) + (if neqb x n1 then 1 else 0))%Z.
Proof.
  unfold eddm_add. intros E.
  set (s1 := if ed_change s then eddm_reset s else s) in *.
  replace (if ed_change s then 0 else ed_errors s)%Z with (ed_errors s1) by (unfold s1; destruct (ed_change s); auto).
  destruct (neqb x n1) eqn:Ex.
  - apply bind_Ok in E. destruct E as (q & _ & E). apply bind_Ok in E. destruct E as (v & _ & E).
    repeat (match type of E with (if ?b then _ else _) = _ => destruct b end); inversion E; subst; reflexivity.
  - inversion E; subst; simpl. lia.
Qed.

Lemma eddm_count seg s : sinceT seg s -> ed_errors s = Z.of_nat (errors_in seg).
Proof.
  induction 1 as [|seg s x s' H IH E|]; try reflexivity.
  rewrite (eddm_add_count _ _ _ E), IH. destruct (ed_change s).
  - unfold errors_in. simpl. destruct (neqb x n1); reflexivity.
  - rewrite errors_in_snoc. destruct (neqb x n1); lia.
Qed.

Lemma eddm_flags_step s x s' : eddm_add s x = Ok s' ->
  ed_change s' && ed_warning s' = false
  /\ (ed_change s' = true -> neqb x n1 = true /\ (30 < ed_errors s')%Z)
  /\ (ed_warning s' = true -> ed_warning s = false -> neqb x n1 = true /\ (30 < ed_errors s')%Z).
Proof.
  intros E. unfold eddm_add in E. set (s1 := if ed_change s then eddm_reset s else s) in *.
  assert (Hw1 : ed_warning s = false -> ed_warning s1 = false).
  { unfold s1. destruct (ed_change s); auto. }
  destruct (neqb x n1) eqn:Ex.
  - apply bind_Ok in E. destruct E as (q & _ & E). apply bind_Ok in E. destruct E as (v & _ & E).
    destruct (_ <? FDDM_MIN)%Z eqn:En in E.
    + inversion E; subst; simpl. repeat split; auto; discriminate.
    + apply Z.ltb_ge in En. unfold FDDM_MIN in En.
      destruct (nltb (ed_max s1) _) in E; [inversion E; subst; simpl; repeat split; auto; discriminate|].
      destruct (MIN_ERRORS <? ed_errors s1 + 1)%Z eqn:Em.
      * apply Z.ltb_lt in Em. unfold MIN_ERRORS in Em. simpl andb in E.
        destruct (nltb _ FDDM_OUT) in E; [inversion E; subst; simpl; repeat split; auto; try discriminate; lia|].
        destruct (nltb _ FDDM_WARN) in E; inversion E; subst; simpl; repeat split; auto; try discriminate; lia.
      * simpl andb in E. inversion E; subst; simpl; repeat split; auto; discriminate.
  - inversion E; subst; simpl. split; [reflexivity|]. split; [discriminate|].
    intros Hx Hs. rewrite (Hw1 Hs) in Hx. discriminate.
Qed.

Lemma eddm_flags_proof seg s x s' :
  sinceT seg s -> eddm_add s x = Ok s' ->
  let seg' := if ed_change s then [x] else seg ++ [x] in
  (ed_change s' = true \/ (ed_warning s' = true /\ ed_warning s = false) ->
     neqb x n1 = true /\ 30 < errors_in seg' /\ 30 < length seg')
  /\ ~ (ed_change s' = true /\ ed_warning s' = true).
Proof.
  intros H E seg'. pose proof (eddm_flags_step _ _ _ E) as (H1 & H2 & H3).
  pose proof (since_add _ _ _ _ seg s x s' H E) as H'. apply eddm_count in H'. fold seg' in H'.
  pose proof (errors_in_le seg').
  split.
  - intros [Hc|(Hw & Hs)].
    + apply H2 in Hc. destruct Hc. split; auto. lia.
    + destruct (H3 Hw Hs). split; auto. lia.
  - intros (Hc & Hw). rewrite Hc, Hw in H1. discriminate.
Qed.

End AnyNum.
