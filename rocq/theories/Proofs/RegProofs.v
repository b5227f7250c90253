From Coq Require Import List ZArith Bool Reals Lia Lra.
From Verif Require Import Base.Py Base.Num Model.FastBuffer Model.RegMetrics Spec.Lists Spec.RegSpec Spec.BoundedFifo Spec.FastBufferSpec
  Proofs.ListFacts Proofs.FastBufferProofs Proofs.DdmProofs Proofs.MetricsProofs Proofs.MetricsScores Proofs.MetricsWindow.
Import ListNotations.
Local Open Scope Z_scope.

(** One element added to a bounded buffer. *)
Lemma fb_add1 {A} n (q : list A) s x : (1 <= n)%nat -> rep n q s ->
  exists s', rep n (lastn n (q ++ [x])) s' /\
    fb_add s [x] = (s', match q with
                        | y :: _ => if (length q <? n)%nat then None else Some [Some y]
                        | [] => None end).
Proof.
  intros Hn Hr. pose proof (step_refines n q s (Add [x]) Hn Hr) as Hs.
  cbn [to_op fb_step step] in Hs. destruct (fb_add s [x]) as [s' r]. destruct Hs as [Hr' He]. cbn [to_ret] in He.
  exists s'. split; [exact Hr'|]. injection He as ->. f_equal. rewrite app_length. simpl length.
  destruct Hr as (_ & _ & _ & Hle).
  destruct q as [|y q]; simpl length in *.
  - replace (0 + 1 <=? n)%nat with true by (symmetry; apply Nat.leb_le; lia). reflexivity.
  - destruct (S (length q) <? n)%nat eqn:E.
    + apply Nat.ltb_lt in E. replace (S (length q) + 1 <=? n)%nat with true by (symmetry; apply Nat.leb_le; lia). reflexivity.
    + apply Nat.ltb_ge in E. replace (S (length q) + 1 <=? n)%nat with false by (symmetry; apply Nat.leb_gt; lia). cbn [option_map].
      f_equal. unfold butlastn. rewrite app_length. simpl length. replace (S (length q) + 1 - n)%nat with 1%nat by lia. reflexivity.
Qed.

Lemma lastn_snoc_full {A} n (y x : A) q : length (y :: q) = n -> lastn n ((y :: q) ++ [x]) = q ++ [x].
Proof.
  intros Hl. change ((y :: q) ++ [x]) with ([y] ++ (q ++ [x])). rewrite lastn_app_r; [apply lastn_all|]; rewrite app_length; simpl in *; lia.
Qed.
Lemma lastn_snoc_room {A} n (x : A) q : (length q < n)%nat -> lastn n (q ++ [x]) = q ++ [x].
Proof. intros. apply lastn_all. rewrite app_length. simpl. lia. Qed.

Lemma map_lastn {A B} (f : A -> B) n l : map f (lastn n l) = lastn n (map f l).
Proof. unfold lastn. rewrite map_length. symmetry. apply skipn_map. Qed.

Lemma mean0_nonneg l : Forall (fun x => 0 <= x)%R l -> (0 <= mean0 l)%R.
Proof.
  destruct l as [|a l]; simpl; [lra|]. intros HF. unfold Rmean. apply Rmult_le_pos.
  - apply Rsum_nonneg. intros x Hx. rewrite Forall_forall in HF. apply HF. exact Hx.
  - left. apply Rinv_0_lt_compat. apply lt_0_INR. simpl. lia.
Qed.

Lemma mse_nonneg h : (0 <= mse h)%R.
Proof. apply mean0_nonneg. apply Forall_forall. intros x Hx. apply in_map_iff in Hx as (r & <- & _). apply pow2_ge_0. Qed.
Lemma mae_nonneg h : (0 <= mae h)%R.
Proof. apply mean0_nonneg. apply Forall_forall. intros x Hx. apply in_map_iff in Hx as (r & <- & _). apply Rabs_pos. Qed.

Lemma nabs_R (x : R) : nabs x = Rabs x.
Proof.
  unfold nabs, n0. cbn [nltb nofZ nsub NumR]. destruct (Rltb x 0) eqn:E; rcase.
  - rewrite Rabs_left by lra. lra.
  - rewrite Rabs_right by lra. reflexivity.
Qed.

Definition sqerr (r : R * R) : R := ((fst r - snd r) * (fst r - snd r))%R.
Definition abserr (r : R * R) : R := Rabs (fst r - snd r).

Lemma mse_sqerr h : mse h = mean0 (map sqerr h).
Proof. unfold mse. f_equal. apply map_ext. intros r. unfold sqerr. ring. Qed.

Lemma mean_ok (f : R * R -> R) h (sq : R) (n : Z) : sq = Rsum (map f h) -> n = Z.of_nat (length h) ->
  (if n =? 0 then Ok n0 else pydiv sq (nofZ n)) = Ok (mean0 (map f h)).
Proof.
  intros -> ->. destruct h as [|r h]; [reflexivity|].
  replace (Z.of_nat (length (r :: h)) =? 0) with false by (symmetry; apply Z.eqb_neq; simpl; lia).
  cbn [nofZ NumR]. rewrite IZR_len. rewrite pydiv_R by (apply not_0_INR; simpl; lia).
  unfold mean0, Rmean. cbn [map]. cbn [length]. rewrite map_length. reflexivity.
Qed.

Lemma regm_run_ok l : forall (s : regm R) h,
  rm_sq s = Rsum (map sqerr h) -> rm_abs s = Rsum (map abserr h) -> rm_n s = Z.of_nat (length h) ->
  let s' := regm_run s l in
  rm_sq s' = Rsum (map sqerr (h ++ l)) /\ rm_abs s' = Rsum (map abserr (h ++ l)) /\ rm_n s' = Z.of_nat (length (h ++ l)).
Proof.
  induction l as [|[y p] l IH]; intros s h H1 H2 H3; [rewrite app_nil_r; auto|].
  cbn [regm_run]. rewrite (app_assoc h [(y, p)] l : h ++ (y, p) :: l = (h ++ [(y, p)]) ++ l).
  apply IH; unfold regm_add; cbn [rm_sq rm_abs rm_n nadd nsub nmul NumR].
  - rewrite map_app, Rsum_app, H1. simpl. unfold sqerr; simpl. lra.
  - rewrite map_app, Rsum_app, H2, nabs_R. simpl. unfold abserr; simpl. lra.
  - rewrite app_length, H3. simpl. lia.
Qed.

(** *** the windowed class *)
Record WR (n : nat) (s : wregm R) (q : list (R * R)) : Prop := {
  w_len : (length q <= n)%nat;
  w_sq : wr_sq s = Rsum (map sqerr q);
  w_ab : wr_abs s = Rsum (map abserr q);
  w_bsq : rep n (map (fun r => (-1 * sqerr r)%R) q) (wr_bsq s);
  w_bab : rep n (map (fun r => (-1 * abserr r)%R) q) (wr_babs s)
}.

Lemma wregm_add_ok n s q y p : (1 <= n)%nat -> WR n s q ->
  exists s', wregm_add s y p = Ok s' /\ WR n s' (lastn n (q ++ [(y, p)])) /\ wr_size s' = wr_size s.
Proof.
  intros Hn [Hl H1 H2 H3 H4]. unfold wregm_add. cbn [nofZ nsub nmul nadd NumR]. rewrite nabs_R.
  destruct (fb_add1 n _ _ (-1 * sqerr (y, p))%R Hn H3) as (b1 & Hr1 & He1).
  destruct (fb_add1 n _ _ (-1 * abserr (y, p))%R Hn H4) as (b2 & Hr2 & He2).
  unfold sqerr, abserr in He1, He2. cbn [fst snd] in He1, He2. rewrite He1, He2. clear He1 He2.
  change [(-1 * sqerr (y, p))%R] with (map (fun r => (-1 * sqerr r)%R) [(y, p)]) in Hr1.
  change [(-1 * abserr (y, p))%R] with (map (fun r => (-1 * abserr r)%R) [(y, p)]) in Hr2.
  rewrite <- map_app, <- map_lastn in Hr1, Hr2.
  assert (Hlen : (length (lastn n (q ++ [(y, p)])) <= n)%nat) by (rewrite lastn_length; lia).
  destruct q as [|a q]; cbn [map].
  - eexists; split; [reflexivity|]. split; [|reflexivity]. rewrite lastn_snoc_room in * by (simpl; lia).
    split; auto; cbn [wr_sq wr_abs]; rewrite ?H1, ?H2; simpl; unfold sqerr, abserr; simpl; lra.
  - cbn [length]. rewrite !map_length. simpl in Hl. destruct (S (length q) <? n)%nat eqn:E.
    + apply Nat.ltb_lt in E. eexists; split; [reflexivity|]. split; [|reflexivity]. rewrite lastn_snoc_room in * by (simpl; lia).
      split; auto; cbn [wr_sq wr_abs]; rewrite map_app, Rsum_app, ?H1, ?H2; simpl; unfold sqerr, abserr; simpl; lra.
    + apply Nat.ltb_ge in E. cbn [first_returned bind]. eexists; split; [reflexivity|]. split; [|reflexivity].
      rewrite lastn_snoc_full in * by (simpl; lia).
      split; auto; cbn [wr_sq wr_abs]; rewrite map_app, Rsum_app, ?H1, ?H2; cbn [map Rsum]; unfold sqerr, abserr; cbn [fst snd]; lra.
Qed.

Lemma wregm_run_ok n l : (1 <= n)%nat -> forall s q, WR n s q ->
  exists s', wregm_run s l = Ok s' /\ WR n s' (lastn n (q ++ l)) /\ wr_size s' = wr_size s.
Proof.
  intros Hn. induction l as [|[y p] l IH]; intros s q H.
  - exists s. rewrite app_nil_r, lastn_all by apply H. auto.
  - cbn [wregm_run]. destruct (wregm_add_ok n s q y p Hn H) as (s1 & -> & H1 & Hz1). cbn [bind].
    destruct (IH s1 _ H1) as (s2 & -> & H2 & Hz2). exists s2. split; [reflexivity|]. rewrite Hz2, Hz1. split; [|reflexivity].
    replace (lastn n (q ++ (y, p) :: l)) with (lastn n (lastn n (q ++ [(y, p)]) ++ l)); auto.
    rewrite lastn_lastn_app. rewrite <- app_assoc. reflexivity.
Qed.

Lemma WR_new n : WR n (wregm_new (Z.of_nat n)) [].
Proof. split; simpl; try reflexivity; try lia; apply rep_init. Qed.

(** *** multi-target *)
Lemma zip_map {A} (f : R -> R -> R) (g h : A -> R) ks : zip_with f (map g ks) (map h ks) = Ok (map (fun k => f (g k) (h k)) ks).
Proof. induction ks as [|k ks IH]; simpl; [reflexivity|]. rewrite IH. reflexivity. Qed.

Lemma list_as_map (y : list R) : y = map (fun k => nth k y 0%R) (seq 0 (length y)).
Proof.
  induction y as [|a y IH]; simpl; [reflexivity|]. rewrite <- seq_shift, map_map. f_equal. exact IH.
Qed.

(** per-target sums over a history *)
Definition tsums (f : R * R -> R) (m : nat) (h : list (list R * list R)) : list R :=
  map (fun k => Rsum (map f (target k h))) (seq 0 m).
Definition acc_of (f : R * R -> R) (m : nat) (h : list (list R * list R)) : option (list R) := Some (tsums f m h).

Definition width (m : nat) (h : list (list R * list R)) : Prop := Forall (fun r => length (fst r) = m /\ length (snd r) = m) h.

Lemma diff_map m (y p : list R) : length y = m -> length p = m ->
  zip_with (T := R) nsub y p = Ok (map (fun k => (nth k y 0 - nth k p 0)%R) (seq 0 m)).
Proof.
  intros Hy Hp. rewrite (list_as_map y), (list_as_map p), Hy, Hp at 1. cbn [nsub NumR]. rewrite zip_map. reflexivity.
Qed.

Lemma tsums_snoc f m h r : tsums f m (h ++ [r]) =
  map (fun k => (Rsum (map f (target k h)) + f (nth k (fst r) 0, nth k (snd r) 0))%R) (seq 0 m).
Proof.
  apply map_ext. intros k. unfold target. rewrite map_app, map_app, Rsum_app. simpl. lra.
Qed.

Lemma tsums_nil f m : tsums f m [] = map (fun _ => 0%R) (seq 0 m).
Proof. reflexivity. Qed.

Lemma acc_add_ok f m h t y p v : length y = m -> length p = m ->
  (t = None /\ h = [] \/ t = Some (tsums f m h)) ->
  v = map (fun k => f (nth k y 0%R, nth k p 0%R)) (seq 0 m) ->
  acc_add t v = Ok (tsums f m (h ++ [(y, p)])).
Proof.
  intros Hy Hp Ht ->. rewrite tsums_snoc. cbn [fst snd]. destruct Ht as [[-> ->]| -> ]; unfold acc_add.
  - rewrite map_map. reflexivity.
  - unfold tsums. cbn [nadd NumR]. rewrite zip_map. reflexivity.
Qed.

Definition macc (f : R * R -> R) (m : nat) (t : option (list R)) (h : list (list R * list R)) : Prop :=
  t = None /\ h = [] \/ t = Some (tsums f m h).

Lemma mtr_run_ok m l : forall (s : mtr R) h,
  width m l -> macc sqerr m (mt_sq s) h -> macc abserr m (mt_abs s) h -> mt_n s = Z.of_nat (length h) ->
  (h <> [] -> mt_targets s = Z.of_nat m) ->
  exists s', mtr_run s l = Ok s' /\ macc sqerr m (mt_sq s') (h ++ l) /\ macc abserr m (mt_abs s') (h ++ l)
    /\ mt_n s' = Z.of_nat (length (h ++ l)) /\ (h ++ l <> [] -> mt_targets s' = Z.of_nat m).
Proof.
  induction l as [|[y p] l IH]; intros s h Hw H1 H2 H3 H4.
  - exists s. rewrite app_nil_r. auto 6.
  - inversion Hw as [|? ? [Hy Hp] Hw']; subst. cbn [fst snd] in *. cbn [mtr_run].
    assert (Hadd : exists s1, mtr_add s y p = Ok s1 /\ mt_sq s1 = Some (tsums sqerr (length y) (h ++ [(y, p)]))
                    /\ mt_abs s1 = Some (tsums abserr (length y) (h ++ [(y, p)])) /\ mt_n s1 = mt_n s + 1
                    /\ mt_targets s1 = Z.of_nat (length y)).
    { unfold mtr_add. rewrite (diff_map (length y)) by auto. cbn [bind]. rewrite !map_map. cbn [nmul NumR].
      rewrite (acc_add_ok sqerr (length y) h (mt_sq s) y p) by auto. cbn [bind].
      rewrite (acc_add_ok abserr (length y) h (mt_abs s) y p); auto.
      - cbn [bind]. eexists; split; [reflexivity|]. auto.
      - apply map_ext. intros k. rewrite nabs_R. reflexivity. }
    destruct Hadd as (s1 & -> & E1 & E2 & E3 & E4). cbn [bind].
    destruct (IH s1 (h ++ [(y, p)]) Hw') as (s2 & Hr & G1 & G2 & G3 & G4).
    + right. exact E1.
    + right. exact E2.
    + rewrite E3, H3, app_length. simpl. lia.
    + intros _. exact E4.
    + rewrite <- app_assoc in *. exists s2. auto 6.
Qed.

Lemma vsum_R l : vsum l = Rsum l.
Proof. unfold vsum. rewrite fold_nadd_R. unfold n0. cbn [nofZ NumR]. lra. Qed.

Lemma mean0_cons_len {A} (f : A -> R) a l : mean0 (map f (a :: l)) = (Rsum (map f (a :: l)) / INR (length (a :: l)))%R.
Proof. unfold mean0, Rmean. cbn [map]. simpl length. rewrite map_length. reflexivity. Qed.

Lemma Rsum_div l c : Rsum (map (fun x => x / c)%R l) = (Rsum l / c)%R.
Proof. induction l as [|a l IH]; simpl; [lra|]. rewrite IH. lra. Qed.

(** the average over the targets of [g (mean over samples of f)] *)
Lemma average_gen (g : R -> R) f m h t n (Hm : (1 <= m)%nat) :
  macc f m t h -> n = Z.of_nat (length h) -> h <> [] ->
  (vsum (map g (per_target t n)) / nofZ (Z.of_nat m))%R = mean0 (map (fun k => g (mean0 (map f (target k h)))) (seq 0 m)).
Proof.
  intros Hacc -> Hne. destruct Hacc as [[_ ->]| -> ]; [congruence|].
  rewrite vsum_R. unfold per_target, tsums. rewrite !map_map.
  destruct m as [|m]; [lia|]. change (seq 0 (S m)) with (0%nat :: seq 1 m). rewrite mean0_cons_len.
  cbn [nofZ NumR]. rewrite <- !INR_IZR_INZ. simpl length. rewrite seq_length.
  f_equal. f_equal. apply map_ext. intros k. f_equal. cbn [ndiv nofZ NumR].
  destruct h as [|r h]; [congruence|]. unfold target. rewrite map_map. rewrite mean0_cons_len. reflexivity.
Qed.

Lemma average_ok f m h t n (Hm : (1 <= m)%nat) targets :
  macc f m t h -> n = Z.of_nat (length h) -> (h <> [] -> targets = Z.of_nat m) ->
  average t n targets = mean0 (map (fun k => mean0 (map f (target k h))) (seq 0 m)).
Proof.
  intros Hacc Hn Ht. unfold average. destruct h as [|r h].
  - rewrite Hn. simpl. destruct m; [lia|]. change (seq 0 (S m)) with (0%nat :: seq 1 m). rewrite mean0_cons_len.
    unfold n0. cbn [nofZ NumR]. rewrite Rsum_map_0 by auto. unfold Rdiv. rewrite Rmult_0_l. reflexivity.
  - replace (n =? 0) with false by (symmetry; apply Z.eqb_neq; simpl in *; lia). rewrite Ht by congruence.
    rewrite <- (map_id (per_target t n)). apply (average_gen (fun x => x) f m (r :: h) t n Hm Hacc Hn). congruence.
Qed.

Lemma average_root_ok m h t n (Hm : (1 <= m)%nat) targets :
  macc sqerr m t h -> n = Z.of_nat (length h) -> (h <> [] -> targets = Z.of_nat m) ->
  average_root t n targets = mean0 (map (fun k => sqrt (mse (target k h))) (seq 0 m)).
Proof.
  intros Hacc Hn Ht. unfold average_root. destruct h as [|r h].
  - rewrite Hn. simpl. destruct m; [lia|]. change (seq 0 (S m)) with (0%nat :: seq 1 m). rewrite mean0_cons_len.
    rewrite (map_ext (fun k => sqrt (mse (target k []))) (fun _ => 0%R)) by (intros k; apply sqrt_0).
    unfold n0. cbn [nofZ NumR]. rewrite Rsum_map_0 by auto. unfold Rdiv. rewrite Rmult_0_l. reflexivity.
  - replace (n =? 0) with false by (symmetry; apply Z.eqb_neq; simpl in *; lia). rewrite Ht by congruence.
    etransitivity; [apply (average_gen root sqerr m (r :: h) t n Hm Hacc Hn); congruence|].
    f_equal. apply map_ext. intros k. rewrite mse_sqerr. unfold root, n0. cbn [nleb nofZ nsqrt NumR].
    rewrite <- mse_sqerr. replace (Rleb 0 (mse (target k (r :: h)))) with true; [reflexivity|].
    symmetry. apply Rleb_true. apply mse_nonneg.
Qed.

Lemma amse_sqerr m h : amse m h = mean0 (map (fun k => mean0 (map sqerr (target k h))) (seq 0 m)).
Proof. unfold amse. f_equal. apply map_ext. intros k. apply mse_sqerr. Qed.

(** *** windowed multi-target *)
Definition nrow (f : R * R -> R) (m : nat) (r : list R * list R) : list R :=
  map (fun k => (-1 * f (nth k (fst r) 0, nth k (snd r) 0))%R) (seq 0 m).

Record WT (n m : nat) (s : wmtr R) (q : list (list R * list R)) : Prop := {
  t_len : (length q <= n)%nat;
  t_sq : macc sqerr m (wt_sq s) q;
  t_ab : macc abserr m (wt_abs s) q;
  t_bsq : rep n (map (nrow sqerr m) q) (wt_bsq s);
  t_bab : rep n (map (nrow abserr m) q) (wt_babs s);
  t_tg : q <> [] -> wt_targets s = Z.of_nat m
}.

Lemma tsums_evict f m a q r : zip_with (T := R) nadd (tsums f m ((a :: q) ++ [r])) (nrow f m a) = Ok (tsums f m (q ++ [r])).
Proof.
  unfold tsums, nrow. cbn [nadd NumR]. rewrite zip_map. f_equal. apply map_ext. intros k. unfold target. simpl. lra.
Qed.

Lemma wmtr_add_ok n m s q y p : (1 <= n)%nat -> WT n m s q -> length y = m -> length p = m ->
  exists s', wmtr_add s y p = Ok s' /\ WT n m s' (lastn n (q ++ [(y, p)])) /\ wt_size s' = wt_size s.
Proof.
  intros Hn [Hl H1 H2 H3 H4 H5] Hy Hp. unfold wmtr_add. rewrite (diff_map m) by auto. cbn [bind]. rewrite !map_map. cbn [nmul nofZ NumR].
  rewrite (acc_add_ok sqerr m q (wt_sq s) y p) by auto. cbn [bind].
  rewrite (acc_add_ok abserr m q (wt_abs s) y p);
    [|assumption|assumption|assumption|apply map_ext; intros k; rewrite nabs_R; reflexivity].
  cbn [bind].
  assert (R1 : map (fun x => (-1 * (nth x y 0 - nth x p 0) * (nth x y 0 - nth x p 0))%R) (seq 0 m) = nrow sqerr m (y, p)).
  { apply map_ext. intros k. unfold sqerr. simpl. ring. }
  assert (R2 : map (fun x => (-1 * nabs (nth x y 0 - nth x p 0))%R) (seq 0 m) = nrow abserr m (y, p)).
  { apply map_ext. intros k. rewrite nabs_R. reflexivity. }
  cbn [nsub NumR]. rewrite R1, R2. clear R1 R2.
  destruct (fb_add1 n _ _ (nrow sqerr m (y, p)) Hn H3) as (b1 & Hr1 & He1).
  destruct (fb_add1 n _ _ (nrow abserr m (y, p)) Hn H4) as (b2 & Hr2 & He2).
  rewrite He1, He2. clear He1 He2.
  change [nrow sqerr m (y, p)] with (map (nrow sqerr m) [(y, p)]) in Hr1.
  change [nrow abserr m (y, p)] with (map (nrow abserr m) [(y, p)]) in Hr2.
  rewrite <- map_app, <- map_lastn in Hr1, Hr2.
  assert (Hlen : (length (lastn n (q ++ [(y, p)])) <= n)%nat) by (rewrite lastn_length; lia).
  destruct q as [|a q]; cbn [map].
  - eexists; split; [reflexivity|]. split; [|reflexivity]. rewrite lastn_snoc_room in * by (simpl; lia).
    split; auto; try (right; reflexivity). intros _. cbn [wt_targets]. congruence.
  - cbn [length]. rewrite !map_length. simpl in Hl. destruct (S (length q) <? n)%nat eqn:E.
    + apply Nat.ltb_lt in E. eexists; split; [reflexivity|]. split; [|reflexivity]. rewrite lastn_snoc_room in * by (simpl; lia).
      split; auto; try (right; reflexivity). intros _. cbn [wt_targets]. congruence.
    + apply Nat.ltb_ge in E. cbn [first_row bind]. rewrite !tsums_evict. cbn [bind].
      eexists; split; [reflexivity|]. split; [|reflexivity].
      rewrite lastn_snoc_full in * by (simpl; lia).
      split; auto; try (right; reflexivity). intros _. cbn [wt_targets]. congruence.
Qed.

Lemma wmtr_run_ok n m l : (1 <= n)%nat -> forall s q, WT n m s q -> width m l ->
  exists s', wmtr_run s l = Ok s' /\ WT n m s' (lastn n (q ++ l)) /\ wt_size s' = wt_size s.
Proof.
  intros Hn. induction l as [|[y p] l IH]; intros s q H Hw.
  - exists s. rewrite app_nil_r, lastn_all by apply H. auto.
  - inversion Hw as [|? ? [Hy Hp] Hw']; subst. cbn [fst snd] in *. cbn [wmtr_run].
    destruct (wmtr_add_ok n _ s q y p Hn H eq_refl Hp) as (s1 & -> & H1 & Hz1). cbn [bind].
    destruct (IH s1 _ H1 Hw') as (s2 & -> & H2 & Hz2). exists s2. split; [reflexivity|]. rewrite Hz2, Hz1. split; [|reflexivity].
    replace (lastn n (q ++ (y, p) :: l)) with (lastn n (lastn n (q ++ [(y, p)]) ++ l)); auto.
    rewrite lastn_lastn_app. rewrite <- app_assoc. reflexivity.
Qed.

Lemma WT_new n m : WT n m (wmtr_new (Z.of_nat n)) [].
Proof. split; simpl; try lia; try (left; split; reflexivity); try apply rep_init. congruence. Qed.

Lemma WT_count n m s q : WT n m s q -> wmtr_count s = Z.of_nat (length q).
Proof. intros [_ _ _ (Hb & Hs & _) _ _]. unfold wmtr_count. rewrite Hs, map_length. reflexivity. Qed.

(** *** running time *)
Definition ops_of (a : action) : list (rt_op R) :=
  match a with Train x y => [TrainBegin x; TrainEnd y] | Test x y => [TestBegin x; TestEnd y] | Report n => [Update n] end.

Lemma rtm_run_app (s : rtm R) a b : rtm_run s (a ++ b) = (s' <- rtm_run s a ;; rtm_run s' b).
Proof. revert s. induction a as [|o a IH]; intros s; simpl; [reflexivity|]. destruct (rtm_step s o); simpl; auto. Qed.

Lemma upto_report_snoc l x : upto_report (l ++ [x]) = match x with Report _ => l ++ [x] | _ => upto_report l end.
Proof.
  induction l as [|a l IH].
  - destruct x; reflexivity.
  - simpl. rewrite IH. destruct x; try reflexivity. destruct l; reflexivity.
Qed.

Lemma samples_app a b : samples (a ++ b) = samples a + samples b.
Proof. unfold samples. rewrite map_app. induction (map _ a) as [|x l IH]; simpl; [reflexivity|]. lia. Qed.

Lemma rtm_run_ok l : exists s : rtm R, rtm_run rtm_new (flat_map ops_of l) = Ok s
  /\ rt_tr s = train_time l /\ rt_te s = test_time l /\ rt_n s = samples l
  /\ rt_total s = (train_time (upto_report l) + test_time (upto_report l))%R.
Proof.
  induction l as [|x l IH] using rev_ind.
  - exists rtm_new. repeat split; try reflexivity. unfold train_time, test_time. simpl. unfold n0. simpl. lra.
  - destruct IH as (s & Hs & H1 & H2 & H3 & H4). rewrite flat_map_app, rtm_run_app, Hs. cbn [bind].
    rewrite upto_report_snoc, samples_app. unfold train_time, test_time in *. rewrite !map_app, !Rsum_app.
    destruct x as [a b|a b|n]; simpl; eexists; (split; [reflexivity|]); cbn [rt_tr rt_te rt_n rt_total]; rewrite ?H1, ?H2, ?H3, ?H4;
      cbn [nadd nsub NumR]; repeat split; try lra; try lia.
    + unfold samples. simpl. lia.
    + unfold samples. simpl. lia.
    + unfold samples. simpl. destruct (0 <? n); lia.
    + rewrite !map_app, !Rsum_app. simpl. lra.
Qed.
