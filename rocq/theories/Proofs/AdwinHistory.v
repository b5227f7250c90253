From Coq Require Import List ZArith Lia Bool Reals Lra.
From Verif Require Import Base.Py Base.Num Spec.Lists Spec.AdwinSpec Model.Adwin
  Proofs.ListFacts Proofs.StatFacts Proofs.AdwinProofs.
Import ListNotations.
Open Scope Z_scope.

Section History.
Context {T : Type} {N : Num T}.
Variable P : nat -> T -> T -> list T -> Prop.
Variable Tot : T -> T -> list T -> Prop.
Hypothesis Pleaf : forall v, P 0 v n0 [v].
Hypothesis Pnode : forall i t0 v0 b0 t1 v1 b1,
  P i t0 v0 b0 -> P i t1 v1 b1 ->
  P (S i) (t0 + t1)%num (v1 + incr_of i t0 t1)%num (b0 ++ b1).
Hypothesis Plen : forall i t v b, P i t v b -> length b = (2 ^ i)%nat.
Hypothesis Tot0 : Tot n0 n0 [].
Hypothesis TotAdd : forall t v L x,
  Tot t v L -> Tot (t + x)%num (v + add_incr (Z.of_nat (length L)) t x)%num (L ++ [x]).
Hypothesis TotDel : forall i t0 v0 b0 t v L,
  P i t0 v0 b0 -> L <> [] -> Tot t v (b0 ++ L) ->
  Tot (t - t0)%num (v - del_incr t0 v0 (t - t0)%num (2 ^ Z.of_nat i) (Z.of_nat (length L)))%num L.

Lemma seen_snoc (ops : list (adwin_op T)) o :
  seen (ops ++ [o]) = match o with AAdd v => seen ops ++ [v] | AReset => [] | _ => seen ops end.
Proof. unfold seen. rewrite fold_left_app1. reflexivity. Qed.

Definition HInv (d : T) (s : adwin T) (L : list T) : Prop :=
  Inv P Tot s L /\ ad_delta s = d /\ ad_clock s <> 0 /\ ad_bln_bucket_deleted s = false.

Lemma step_ok d s L o :
  HInv d s L -> allowed s o ->
  exists s' L', adwin_step s o = Ok (Some s') /\ HInv d s' L' /\
    match o with
    | AAdd v => L' = L ++ [v]
    | AReset => L' = []
    | _ => suffix_of L' L
    end.
Proof.
  intros (HI & Hd & Hc & Hb) Ha. destruct o; simpl in *.
  - destruct (Inv_add P Tot Pleaf Pnode TotAdd s L v HI)
      as (s' & E & I' & F1 & F2 & F3 & F4 & F5 & _). rewrite E. cbn [bind].
    exists s', (L ++ [v]). split; [reflexivity|]. split; [|reflexivity].
    unfold HInv. rewrite F1, F2, F5. auto.
  - destruct (Inv_detect P Tot Plen TotDel s L HI Hc)
      as (s' & b & L' & E & I' & S' & F1 & F2 & F3 & F4 & F5 & _). rewrite E. cbn [bind option_map fst].
    exists s', L'. split; [reflexivity|]. split; [|auto].
    unfold HInv. rewrite F1, F2, F5. auto.
  - destruct (Inv_delete P Tot Plen TotDel s L HI Ha)
      as (s' & n & L' & b & E & I' & HL & Hn & Hn1 & Hn2 & F1 & F2 & F3 & F4 & F5 & _).
    rewrite E. cbn [bind]. exists s', L'. unfold HInv. rewrite F1, F2, F5.
    repeat split; auto; try apply I'. exists b; auto.
  - exists (adwin_reset s), []. unfold adwin_reset. rewrite Hd. repeat split; simpl; try discriminate; auto;
      try apply (Inv_init P Tot Tot0 d).
  - exists (adwin_set_clock s c), L. repeat split; auto using suffix_refl; try apply HI.
  - exists (adwin_reset_change s), L. repeat split; auto using suffix_refl; try apply HI.
Qed.

Lemma HInv_init d : HInv d (adwin_init d) [].
Proof. split; [apply Inv_init; auto|]. repeat split; simpl; auto; discriminate. Qed.

Lemma reached_inv d ops s :
  reached d ops s -> exists L, HInv d s L /\ suffix_of L (seen ops).
Proof.
  induction 1 as [|ops s o s' H IH Ha E].
  - exists []. split; [apply HInv_init|]. exists []; reflexivity.
  - destruct IH as (L & HI & HS).
    destruct (step_ok d s L o HI Ha) as (s2 & L' & E2 & HI' & HL').
    assert (s2 = s') by congruence. subst s2.
    exists L'. split; auto. rewrite seen_snoc. destruct o; subst; auto using suffix_app;
      try (eapply suffix_trans; eassumption). exists []; reflexivity.
Qed.

End History.

(** Trivial instance: lengths only, any arithmetic. *)
Section Lengths.
Context {T : Type} {N : Num T}.
Definition Plen_only (i : nat) (_ _ : T) (b : list T) : Prop := length b = (2 ^ i)%nat.
Definition Ttriv (_ _ : T) (_ : list T) : Prop := True.

Lemma pow2_double i : (2 ^ i + 2 ^ i = 2 ^ S i)%nat.
Proof. simpl. lia. Qed.

Lemma reached_len d ops s : reached d ops s -> exists L, HInv Plen_only Ttriv d s L /\ suffix_of L (seen ops).
Proof.
  apply reached_inv; unfold Plen_only, Ttriv; auto.
  intros. rewrite app_length, H, H0. apply pow2_double.
Qed.

Lemma step_len d s L o :
  HInv Plen_only Ttriv d s L -> allowed s o ->
  exists s' L', adwin_step s o = Ok (Some s') /\ HInv Plen_only Ttriv d s' L' /\
    match o with AAdd v => L' = L ++ [v] | AReset => L' = [] | _ => suffix_of L' L end.
Proof.
  apply step_ok; unfold Plen_only, Ttriv; auto.
  intros. rewrite app_length, H, H0. apply pow2_double.
Qed.

Lemma detect_len s L :
  Inv Plen_only Ttriv s L -> ad_clock s <> 0 -> 
  exists s' b L', adwin_detect s = Ok (Some (s', b)) /\ Inv Plen_only Ttriv s' L' /\ suffix_of L' L
    /\ ad_delta s' = ad_delta s /\ ad_clock s' = ad_clock s /\ ad_time s' = ad_time s + 1
    /\ ad_n_detections s' = ad_n_detections s + (if b then 1 else 0)
    /\ ad_bln_bucket_deleted s' = ad_bln_bucket_deleted s
    /\ ad_in_change s' = b
    /\ (b = true <-> ad_width s' < ad_width s)
    /\ (b = true -> (ad_time s + 1) mod ad_clock s = 0 /\ 10 < ad_width s)
    /\ (b = false -> ad_rows s' = ad_rows s /\ ad_total s' = ad_total s /\ ad_width s' = ad_width s
         /\ ad_variance s' = ad_variance s).
Proof. intros. eapply Inv_detect; eauto; unfold Plen_only, Ttriv; auto. Qed.

(** Totality *)
Lemma adwin_never_raises_proof d ops s o :
  reached d ops s -> allowed s o -> exists s', adwin_step s o = Ok (Some s').
Proof.
  intros H Ha. destruct (reached_len d ops s H) as (L & HI & _).
  destruct (step_len d s L o HI Ha) as (s' & _ & E & _). eauto.
Qed.

Lemma buckets_from_weight (rows : list (item T)) : forall i,
  Forall wf_item rows -> nsum (map fst (buckets_from i rows)) = rows_weight i rows.
Proof.
  induction rows as [|r rows IH]; intros i H; simpl; auto.
  inversion H; subst. rewrite map_app, nsum_app, IH by auto.
  unfold row_sums. rewrite map_map. simpl.
  destruct H2 as (E1 & E2 & E3).
  assert (E : forall l : list T, nsum (map (fun _ => (2 ^ i)%nat) l) = (length l * 2 ^ i)%nat).
  { induction l; simpl; auto. }
  rewrite E, firstn_length, E1. rewrite Nat.min_l by lia. lia.
Qed.

Lemma shape_nth rows : @shape T rows -> forall i r, nth_error rows i = Some r ->
  1 <= it_size r <= 5 /\ ((S i < length rows)%nat -> 4 <= it_size r).
Proof.
  induction rows as [|x rows IH]; simpl; [tauto|].
  intros H i r Hn. destruct rows as [|y rows].
  - destruct i; simpl in Hn; [inversion Hn; subst; simpl; lia|destruct i; discriminate].
  - destruct i; simpl in Hn.
    + inversion Hn; subst. lia.
    + destruct (IH (proj2 H) i r Hn). split; auto. intros. apply H1. simpl in *. lia.
Qed.

Lemma shape_nonempty rows : @shape0 T rows -> rows <> [].
Proof. intros [(r & -> & _)|H]; [discriminate|]. intros ->. destruct H. Qed.

Lemma adwin_width_proof d ops s :
  reached d ops s ->
  ad_width s = Z.of_nat (nsum (map fst (stored_buckets s)))
  /\ ad_rows s <> []
  /\ (forall i r, nth_error (ad_rows s) i = Some r ->
        0 <= it_size r <= MAX_BUCKETS
        /\ ((S i < length (ad_rows s))%nat -> MAX_BUCKETS - 1 <= it_size r)
        /\ length (it_tot r) = 6%nat)
  /\ ad_width s <= Z.of_nat (length (seen ops)).
Proof.
  intros H. destruct (reached_len d ops s H) as (L & (HI & _) & p & HS).
  destruct HI as (HL & Hsh & Hrep & Hw & _).
  pose proof (rows_rep_wf _ _ _ _ Hrep) as Hwf.
  split; [|split; [|split]].
  - unfold stored_buckets. rewrite buckets_from_weight by auto.
    rewrite Hw. f_equal. eapply rows_rep_weight; [|eassumption]. unfold Plen_only; auto.
  - apply shape_nonempty; auto.
  - intros i r Hn. assert (Hwr : wf_item r) by (eapply Forall_forall; [eassumption|eapply nth_error_In; eauto]).
    destruct Hwr as (E1 & E2 & E3). unfold MAX_BUCKETS.
    destruct Hsh as [(r' & E & E0)|Hsh].
    + rewrite E in Hn |- *. destruct i; [|destruct i; discriminate].
      simpl in Hn. inversion Hn; subst r'. simpl. repeat split; auto; lia.
    + destruct (shape_nth _ Hsh i r Hn). repeat split; auto; lia.
  - rewrite Hw, HS, app_length. lia.
Qed.

(** C09 *)
Lemma shape_weight rows : forall i, @shape T rows -> (2 ^ (i + length rows - 1) <= rows_weight i rows)%nat.
Proof.
  induction rows as [|r rows IH]; intros i H; [destruct H|].
  destruct rows as [|r2 rows].
  - simpl in *. replace (i + 1 - 1)%nat with i by lia.
    assert (1 <= Z.to_nat (it_size r))%nat by lia. nia.
  - destruct H as [H1 H2]. specialize (IH (S i) H2). cbn [rows_weight] in *.
    simpl length in *. replace (i + S (S (length rows)) - 1)%nat with (S i + S (length rows) - 1)%nat by lia.
    lia.
Qed.

Lemma buckets_from_count rows : forall i,
  Forall (fun r : item T => 0 <= it_size r <= 5) rows ->
  (length (buckets_from i rows) <= 5 * length rows)%nat.
Proof.
  induction rows as [|r rows IH]; intros i H; [simpl; lia|].
  inversion H; subst. specialize (IH (S i) H3). simpl.
  rewrite app_length, map_length. unfold row_sums. rewrite firstn_length. lia.
Qed.

Lemma adwin_log_memory_proof d ops s :
  reached d ops s ->
  (length (stored_buckets s) <= 5 * (Nat.log2 (Z.to_nat (ad_width s) + 1) + 1))%nat.
Proof.
  intros H. destruct (adwin_width_proof d ops s H) as (_ & Hne & Hrows & _).
  destruct (reached_len d ops s H) as (L & (HI & _) & _).
  destruct HI as (HL & Hsh & Hrep & Hw & _).
  assert (Hc : (length (stored_buckets s) <= 5 * length (ad_rows s))%nat).
  { apply buckets_from_count. apply Forall_forall. intros r Hr.
    apply In_nth_error in Hr. destruct Hr as (i & Hi). apply (Hrows i r Hi). }
  assert (Hl : (length (ad_rows s) - 1 <= Nat.log2 (Z.to_nat (ad_width s) + 1))%nat).
  { destruct Hsh as [(r & E & _)|Hsh].
    - rewrite E. simpl. lia.
    - pose proof (shape_weight _ 0 Hsh) as Hs.
      rewrite <- (rows_rep_weight Plen_only ltac:(unfold Plen_only; auto) _ _ _ Hrep) in Hs.
      rewrite Hw, Nat2Z.id.
      rewrite <- (Nat.log2_pow2 (length (ad_rows s) - 1)) by lia.
      apply Nat.log2_le_mono. simpl in Hs. lia. }
  destruct (ad_rows s); [congruence|]. simpl length in *. lia.
Qed.

(** C10 *)
Lemma adwin_detect_iff_shrink_proof d ops s :
  reached d ops s ->
  exists s' b, adwin_detect s = Ok (Some (s', b))
    /\ (b = true <-> ad_width s' < ad_width s)
    /\ ad_width s' <= ad_width s
    /\ (b = true -> (ad_time s + 1) mod ad_clock s = 0 /\ 10 < ad_width s)
    /\ (b = false -> stored_buckets s' = stored_buckets s)
    /\ ad_n_detections s' = ad_n_detections s + (if b then 1 else 0)
    /\ ad_in_change s' = b
    /\ ad_time s' = ad_time s + 1.
Proof.
  intros H. destruct (reached_len d ops s H) as (L & (HI & _ & Hc & _) & _).
  destruct (detect_len s L HI Hc) as (s' & b & L' & E & I' & (p & HS) & F1 & F2 & F3 & F4 & F5 & F6 & F7 & F8 & F9).
  exists s', b. split; auto. split; auto. split.
  { destruct HI as (_ & _ & _ & -> & _). destruct I' as (_ & _ & _ & -> & _).
    rewrite HS, app_length. lia. }
  split; auto. split; [|auto]. intros Hb. unfold stored_buckets. destruct (F9 Hb) as (-> & _). reflexivity.
Qed.

(** C13 *)
Lemma adwin_get_change_proof d ops s : reached d ops s -> adwin_get_change s = false.
Proof. intros H. destruct (reached_len d ops s H) as (L & (_ & _ & _ & Hb) & _). exact Hb. Qed.

(** C14 *)
Lemma reached_delta d ops s : reached d ops s -> ad_delta s = d.
Proof. intros H. destruct (reached_len d ops s H) as (L & (_ & Hd & _) & _). exact Hd. Qed.

(** C12: the scan makes at most (#buckets - #rows) comparisons. *)
Lemma scan_bucket_len s i (r : item T) st k x c : scan_bucket s i r st k = Ok (x, c) -> (length c <= 1)%nat.
Proof.
  unfold scan_bucket. destruct (bucket_size i); cbn [bind]; [|discriminate].
  destruct (py_get (it_tot r) k); cbn [bind]; [|discriminate].
  destruct (py_get (it_var r) k); cbn [bind]; [|discriminate].
  destruct (_ && _); [intros E; inversion E; simpl; lia|].
  destruct (_ && _); intros E; inversion E; simpl; lia.
Qed.

Lemma scan_row_len s i (r : item T) ks : forall st x c,
  scan_row s i r st ks = Ok (x, c) -> (length c <= length ks)%nat.
Proof.
  induction ks as [|k ks IH]; intros st x c; simpl.
  - intros E; inversion E; simpl; lia.
  - destruct (scan_bucket s i r st k) as [[y c1]|] eqn:E1; cbn [bind]; [|discriminate].
    apply scan_bucket_len in E1. destruct y as [st'| |].
    + destruct (scan_row s i r st' ks) as [[z c2]|] eqn:E2; cbn [bind]; [|discriminate].
      apply IH in E2. intros E; inversion E; subst. rewrite app_length. lia.
    + intros E; inversion E; subst; lia.
    + intros E; inversion E; subst; lia.
Qed.

Fixpoint rows_count (rs : list (item T)) : nat :=
  match rs with [] => 0 | r :: rest => (Z.to_nat (it_size r - 1) + rows_count rest)%nat end.

Lemma scan_rows_len s rs : forall i st x c,
  scan_rows s i rs st = Ok (x, c) -> (length c <= rows_count rs)%nat.
Proof.
  induction rs as [|r rs IH]; intros i st x c; simpl.
  - intros E; inversion E; simpl; lia.
  - destruct (scan_row s i r st (py_range 0 (it_size r - 1))) as [[y c1]|] eqn:E1; cbn [bind]; [|discriminate].
    apply scan_row_len in E1. unfold py_range in E1. rewrite map_length, seq_length in E1.
    rewrite Z.sub_0_r in E1. destruct y as [st'| |].
    + destruct (scan_rows s (i - 1) rs st') as [[z c2]|] eqn:E2; cbn [bind]; [|discriminate].
      apply IH in E2. intros E; inversion E; subst. rewrite app_length. lia.
    + intros E; inversion E; subst; lia.
    + intros E; inversion E; subst; lia.
Qed.

Lemma rows_count_app a b : rows_count (a ++ b) = (rows_count a + rows_count b)%nat.
Proof. induction a; simpl; auto. rewrite IHa. lia. Qed.

Lemma rows_count_rev a : rows_count (rev a) = rows_count a.
Proof. induction a; simpl; auto. rewrite rows_count_app, IHa. simpl. lia. Qed.

Lemma rows_count_buckets rows : forall i,
  Forall wf_item rows -> Forall (fun r => 1 <= it_size r) rows ->
  (rows_count rows + length rows = length (buckets_from i rows))%nat.
Proof.
  induction rows as [|r rows IH]; intros i H H'; simpl; auto.
  inversion H; inversion H'; subst. rewrite app_length, map_length, <- (IH (S i)) by auto.
  unfold row_sums. destruct H2 as (E1 & E2 & E3). rewrite firstn_length, E1. lia.
Qed.

Lemma adwin_skips_boundaries_proof d ops s x cs :
  reached d ops s -> (2 <= length (ad_rows s))%nat -> adwin_scan s = Ok (x, cs) ->
  (length cs + length (ad_rows s) <= length (stored_buckets s))%nat.
Proof.
  intros H H2 E. destruct (reached_len d ops s H) as (L & (HI & _) & _).
  destruct HI as (HL & Hsh & Hrep & Hw & _).
  assert (Hs : shape (ad_rows s)).
  { destruct Hsh as [(r & Er & _)|Hs]; auto. rewrite Er in H2. simpl in H2. lia. }
  unfold adwin_scan in E. apply scan_rows_len in E. rewrite rows_count_rev in E.
  unfold stored_buckets. rewrite <- (rows_count_buckets (ad_rows s) 0).
  - lia.
  - eapply rows_rep_wf; eauto.
  - apply Forall_forall. intros r Hr. apply In_nth_error in Hr. destruct Hr as (i & Hi).
    destruct (shape_nth _ Hs i r Hi). lia.
Qed.

Lemma run_allowed_reached d ops1 : forall ops0 s s',
  reached d ops0 s -> run_allowed s ops1 = Some s' -> reached d (ops0 ++ ops1) s'.
Proof.
  induction ops1 as [|o ops1 IH]; intros ops0 s s' H; simpl.
  - intros E; inversion E; subst. rewrite app_nil_r. auto.
  - destruct (allowedb s o) eqn:Ea; [|discriminate].
    destruct (adwin_step s o) as [[s2|]|] eqn:E; try discriminate.
    intros E2. replace (ops0 ++ o :: ops1) with ((ops0 ++ [o]) ++ ops1) by (rewrite <- app_assoc; auto).
    eapply IH; [|exact E2]. econstructor; eauto.
    destruct o; simpl in *; auto; try lia.
Qed.

End Lengths.

(** Exact instance over the reals. *)
Section Exact.
Open Scope R_scope.

Definition PR (i : nat) (t v : R) (b : list R) : Prop :=
  length b = (2 ^ i)%nat /\ t = Rsum b /\ v <= Rsqdev b.
Definition TR (t v : R) (L : list R) : Prop := t = Rsum L /\ Rsqdev L <= v.

Lemma pow2_pos i : (0 < 2 ^ i)%nat.
Proof. assert (2 ^ i <> 0)%nat by (apply Nat.pow_nonzero; lia). lia. Qed.

Lemma INR_pow2 i : INR (2 ^ i) = IZR (2 ^ Z.of_nat i).
Proof. rewrite INR_IZR_INZ, Nat2Z.inj_pow. reflexivity. Qed.

Lemma len_ne {A} (b : list A) i : length b = (2 ^ i)%nat -> b <> [].
Proof. intros H E. subst. simpl in H. pose proof (pow2_pos i). lia. Qed.

Lemma PR_leaf v : PR 0 v 0 [v].
Proof. split; [reflexivity|]. split; [simpl; lra|]. rewrite Rsqdev_single. lra. Qed.

Lemma PR_node i t0 v0 b0 t1 v1 b1 :
  PR i t0 v0 b0 -> PR i t1 v1 b1 -> PR (S i) (t0 + t1) (v1 + @incr_of R NumR i t0 t1) (b0 ++ b1).
Proof.
  intros (H0 & -> & H2) (H3 & -> & H5). split; [|split].
  - rewrite app_length, H0, H3. simpl. lia.
  - rewrite Rsum_app. reflexivity.
  - pose proof (len_ne _ _ H0) as Hn0. pose proof (len_ne _ _ H3) as Hn1.
    rewrite (Rsqdev_app b0 b1 Hn0 Hn1). rewrite H0, H3, INR_pow2.
    unfold incr_of. simpl. rewrite mult_IZR, plus_IZR.
    pose proof (Rsqdev_nonneg b0). set (x := IZR (2 ^ Z.of_nat i)).
    apply Rle_trans with (Rsqdev b1 + x * x * (Rsum b0 / x - Rsum b1 / x) * (Rsum b0 / x - Rsum b1 / x) / (x + x)).
    + apply Rplus_le_compat; auto. right. unfold Rdiv. ring.
    + lra.
Qed.

Lemma TR_add t v L x : TR t v L -> TR (t + x) (v + @add_incr R NumR (Z.of_nat (length L)) t x) (L ++ [x]).
Proof.
  intros [-> H]. split; [rewrite Rsum_app; simpl; lra|].
  unfold add_incr. destruct L as [|y L].
  - simpl in *. rewrite Rsqdev_single. rewrite Rsqdev_nil in H. simpl. lra.
  - replace (1 <? Z.of_nat (length (y :: L)) + 1)%Z with true
      by (symmetry; apply Z.ltb_lt; simpl length; lia).
    rewrite (Rsqdev_app (y :: L) [x]) by discriminate.
    rewrite Rsqdev_single.
    pose proof (INR_pos_len (y :: L) ltac:(discriminate)) as Hp.
    rewrite INR_IZR_INZ in *. set (w := Z.of_nat (length (y :: L))) in *. clearbody w.
    replace (w + 1 - 1)%Z with w by lia. simpl. rewrite plus_IZR.
    match goal with |- ?a + 0 + ?b <= v + ?c => assert (b = c) by (simpl; field; lra) end.
    simpl in *. lra.
Qed.

Lemma TR_del i t0 v0 b0 t v L :
  PR i t0 v0 b0 -> L <> [] -> TR t v (b0 ++ L) ->
  TR (t - t0) (v - @del_incr R NumR t0 v0 (t - t0) (2 ^ Z.of_nat i) (Z.of_nat (length L))) L.
Proof.
  intros (H0 & -> & H2) HL [-> H]. split; [rewrite Rsum_app; lra|].
  pose proof (len_ne _ _ H0) as Hn0.
  rewrite (Rsqdev_app b0 L Hn0 HL) in H. rewrite H0, INR_pow2 in H.
  unfold del_incr. simpl. rewrite mult_IZR, plus_IZR, <- (INR_IZR_INZ (length L)).
  replace (Rsum (b0 ++ L) - Rsum b0) with (Rsum L) by (rewrite Rsum_app; lra).
  simpl in H. lra.
Qed.

Lemma reached_R d ops (s : adwin R) :
  reached d ops s -> exists L, HInv PR TR d s L /\ suffix_of L (seen ops).
Proof.
  apply reached_inv.
  - apply PR_leaf.
  - apply PR_node.
  - intros i t v b H. apply H.
  - split; [reflexivity|]. rewrite Rsqdev_nil. simpl. lra.
  - apply TR_add.
  - apply TR_del.
Qed.

Lemma firstn_combine_fst {A B} n (a : list A) : forall b : list B,
  length a = length b -> map fst (firstn n (combine a b)) = firstn n a.
Proof.
  revert n. induction a as [|x a IH]; intros n b H; destruct b; try discriminate; destruct n; simpl; auto.
  f_equal. apply IH. simpl in H. lia.
Qed.

Lemma rows_blocks rows : forall i L,
  rows_rep PR i rows L ->
  exists blocks, concat blocks = L /\
    Forall2 (fun (b : nat * R) blk => length blk = fst b /\ Rsum blk = snd b) (buckets_from i rows) blocks.
Proof.
  induction rows as [|r rows IH]; intros i L; simpl.
  - intros ->. exists []. split; [reflexivity|constructor].
  - intros (bl & Lr & -> & Hwf & Hr & Hrest).
    destruct (IH _ _ Hrest) as (bl2 & <- & HF).
    exists (bl2 ++ bl). rewrite concat_app. split; auto.
    apply Forall2_app; auto. unfold row_sums.
    destruct Hwf as (E1 & E2 & E3).
    rewrite <- (firstn_combine_fst _ (it_tot r) (it_var r)) by lia.
    unfold reps, buckets in Hr. induction Hr as [|p blk ps bs [HA [HB HC]] Hr IHr]; simpl; constructor; auto.
Qed.

Lemma adwin_total_proof d ops (s : adwin R) :
  reached d ops s ->
  let window := lastn (Z.to_nat (ad_width s)) (seen ops) in
  (0 <= ad_width s)%Z
  /\ length window = Z.to_nat (ad_width s)
  /\ ad_total s = Rsum window
  /\ adwin_estimation s = (if Nat.eqb (length window) 0 then 0 else Rmean window)
  /\ (exists blocks, concat blocks = window /\
        Forall2 (fun (b : nat * R) blk => length blk = fst b /\ Rsum blk = snd b) (stored_buckets s) blocks).
Proof.
  intros H window. destruct (reached_R d ops s H) as (L & (HI & _) & HS).
  destruct HI as (HL & Hsh & Hrep & Hw & Ht & _).
  assert (HLw : window = L).
  { unfold window. rewrite Hw, Nat2Z.id. symmetry. apply suffix_lastn; auto. }
  clearbody window. subst window. rewrite Hw, Nat2Z.id.
  split; [lia|]. split; [reflexivity|]. split; [exact Ht|]. split.
  - unfold adwin_estimation. rewrite Hw. destruct L; simpl length; [reflexivity|].
    replace (Z.of_nat (S (length L)) =? 0)%Z with false by (symmetry; apply Z.eqb_neq; lia).
    simpl. rewrite Ht. unfold Rmean. rewrite (INR_IZR_INZ (length (r :: L))). reflexivity.
  - apply rows_blocks in Hrep. exact Hrep.
Qed.

Lemma adwin_variance_upper_proof d ops (s : adwin R) :
  reached d ops s -> (1 <= ad_width s)%Z ->
  Rvariance (lastn (Z.to_nat (ad_width s)) (seen ops)) <= adwin_variance s.
Proof.
  intros H H1. destruct (reached_R d ops s H) as (L & (HI & _) & HS).
  destruct HI as (HL & Hsh & Hrep & Hw & _ & Hv).
  rewrite Hw, Nat2Z.id in *. rewrite <- (suffix_lastn L _ HS).
  unfold Rvariance, adwin_variance. rewrite Hw. simpl. rewrite <- INR_IZR_INZ.
  apply Rmult_le_compat_r; auto. left. apply Rinv_0_lt_compat. apply INR_pos_len.
  intros ->. simpl in H1. lia.
Qed.

(** Without a drop, the variance is exact. *)
Lemma adwin_variance_nodrop_proof d ops (s : adwin R) :
  reached d ops s -> ad_width s = Z.of_nat (length (seen ops)) ->
  ad_total s = Rsum (seen ops) /\ ad_variance s = Rsqdev (seen ops).
Proof.
  induction 1 as [|ops s o s' H IH Ha E]; intros Hw.
  - simpl. split; reflexivity.
  - pose proof (adwin_total_proof d ops s H) as (Hnn & Hlen & Htot & _).
    destruct (reached_R d ops s H) as (L & HI & HS).
    assert (HlenL : (length L <= length (seen ops))%nat) by (destruct HS as (p & ->); rewrite app_length; lia).
    pose proof (proj1 (proj2 (proj2 (proj2 (proj1 HI))))) as HwL.
    rewrite seen_snoc in *. destruct o.
    + destruct (@Inv_add R NumR PR TR PR_leaf PR_node TR_add s L v (proj1 HI))
        as (s2 & E2 & I2 & F1 & F2 & F3 & F4 & F5 & F6 & F7 & F8 & F9).
      simpl in E. rewrite E2 in E. cbn [bind] in E. inversion E; subst s2. clear E.
      rewrite app_length in Hw. simpl in Hw.
      assert (Hws : ad_width s = Z.of_nat (length (seen ops))) by lia.
      destruct (IH Hws) as (IT & IV). rewrite F7, F9, IT, IV, Hws.
      split; [rewrite Rsum_app; simpl; lra|].
      destruct (seen ops) as [|y l] eqn:Es.
      { simpl. rewrite Rsqdev_single, Rsqdev_nil. unfold add_incr; simpl; lra. }
      unfold add_incr.
      replace (1 <? Z.of_nat (length (y :: l)) + 1)%Z with true
        by (symmetry; apply Z.ltb_lt; simpl length; lia).
      rewrite (Rsqdev_app (y :: l) [v]) by discriminate. rewrite Rsqdev_single.
      pose proof (INR_pos_len (y :: l) ltac:(discriminate)) as Hp.
      rewrite INR_IZR_INZ in *. set (w := Z.of_nat (length (y :: l))) in *. clearbody w.
      replace (w + 1 - 1)%Z with w by lia. simpl. rewrite plus_IZR. simpl. field. lra.
    + destruct (@Inv_detect R NumR PR TR ltac:(intros i t vv b HH; apply HH) TR_del s L (proj1 HI)
                  (proj1 (proj2 (proj2 HI))))
        as (s2 & b & L2 & E2 & I2 & S2 & F1 & F2 & F3 & F4 & F5 & F6 & F7 & F8 & F9).
      simpl in E. rewrite E2 in E. cbn [bind option_map fst] in E. inversion E; subst s2. clear E.
      assert (b = false).
      { destruct b; auto. assert (ad_width s' < ad_width s)%Z by (apply F7; auto). lia. }
      destruct (F9 H0) as (_ & -> & Ew & ->). apply IH. lia.
    + destruct (@Inv_delete R NumR PR TR ltac:(intros i t vv b HH; apply HH) TR_del s L (proj1 HI) Ha)
        as (s2 & n & L2 & b & E2 & I2 & HL & Hn & Hn1 & _).
      simpl in E. rewrite E2 in E. cbn [bind] in E. inversion E; subst s2. clear E.
      exfalso. destruct I2 as (_ & _ & _ & Hw2 & _). rewrite HL, app_length in HlenL. lia.
    + simpl in E. inversion E; subst. simpl. split; reflexivity.
    + simpl in E. inversion E; subst. simpl in *. auto.
    + simpl in E. inversion E; subst. simpl in *. auto.
Qed.

End Exact.

Lemma Rsum_bounds lo hi l :
  (forall x, In x l -> lo <= x <= hi)%R ->
  (lo * INR (length l) <= Rsum l <= hi * INR (length l))%R.
Proof.
  induction l as [|x l IH]; intros H; [simpl; lra|].
  cbn [Rsum length]. rewrite S_INR.
  assert (Hx := H x (or_introl eq_refl)).
  assert (Hl : (lo * INR (length l) <= Rsum l <= hi * INR (length l))%R) by (apply IH; intros; apply H; right; auto).
  lra.
Qed.

Lemma Rmean_bounds lo hi l :
  l <> [] -> (forall x, In x l -> lo <= x <= hi)%R -> (lo <= Rmean l <= hi)%R.
Proof.
  intros Hn H. apply Rsum_bounds in H. pose proof (INR_pos_len l Hn).
  unfold Rmean. split.
  - apply Rmult_le_reg_r with (INR (length l)); auto. unfold Rdiv. rewrite Rmult_assoc, Rinv_l by lra. lra.
  - apply Rmult_le_reg_r with (INR (length l)); auto. unfold Rdiv. rewrite Rmult_assoc, Rinv_l by lra. lra.
Qed.

Lemma lastn_In {A} n (l : list A) x : In x (lastn n l) -> In x l.
Proof. intros H. rewrite <- (butlastn_lastn n l). apply in_or_app. right; auto. Qed.

Lemma adwin_estimation_bounds_proof d ops (s : adwin R) lo hi :
  reached d ops s -> (1 <= ad_width s)%Z -> (forall x, In x (seen ops) -> lo <= x <= hi)%R ->
  (lo <= adwin_estimation s <= hi)%R.
Proof.
  intros H Hw Hx. destruct (adwin_total_proof d ops s H) as (_ & Hlen & _ & -> & _).
  rewrite Hlen. replace (Z.to_nat (ad_width s) =? 0)%nat with false by (symmetry; apply Nat.eqb_neq; lia).
  apply Rmean_bounds.
  - intros E. rewrite E in Hlen. simpl in Hlen. lia.
  - intros x Hi. apply Hx. eapply lastn_In; eauto.
Qed.

Lemma adwin_variance_exact_proof d ops (s : adwin R) :
  reached d ops s -> (1 <= ad_width s)%Z -> ad_width s = Z.of_nat (length (seen ops)) ->
  adwin_variance s = Rvariance (seen ops).
Proof.
  intros H H1 Hw. destruct (adwin_variance_nodrop_proof d ops s H Hw) as (_ & Hv).
  unfold adwin_variance, Rvariance. rewrite Hv, Hw. simpl. rewrite <- INR_IZR_INZ. reflexivity.
Qed.

Lemma adwin_reset_fresh_proof {T} {N : Num T} (d : T) ops s later :
  reached d ops s -> adwin_run s (AReset :: later) = adwin_run (adwin_init d) later.
Proof. intros H. simpl. unfold adwin_reset. rewrite (reached_delta d ops s H). reflexivity. Qed.
