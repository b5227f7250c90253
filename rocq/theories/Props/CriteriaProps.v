(** C55, C93, C94: split criteria. *)
From Coq Require Import List ZArith QArith Bool Lia Reals Lra.
From Verif Require Import Base.Py Base.Num Base.Dict Spec.Lists Spec.CriteriaSpec Spec.ObserverSpec Model.TargetStats Model.SplitCriteria
  Proofs.ListFacts Proofs.MetricsProofs Proofs.CriteriaProofs.
Import ListNotations.
Local Open Scope R_scope.

(** C55: the Gini merit is one minus the weighted average impurity of the branches, between 0 and 1, and 1 when every branch is pure. *)
Theorem gini_merit_range : forall post, Forall distribution post -> 0 < Rsum (map weight post) ->
  exists m, gini_merit post = Ok m /\ m = 1 - branch_average gini_impurity post /\ 0 <= m <= 1
    /\ (Forall pure post -> m = 1).
Proof.
  intros post D W. eexists. split; [apply gini_merit_ok; lra|]. split; [reflexivity|]. split.
  - assert (B := branch_average_bounds gini_impurity post 0 1 D W). rewrite Forall_forall in D. specialize (B (fun d Hd Hw => gini_impurity_bounds d (D d Hd) Hw)). lra.
  - intros P. assert (B := branch_average_bounds gini_impurity post 0 0 D W). rewrite Forall_forall in D, P.
    enough (H : 0 <= branch_average gini_impurity post <= 0) by lra. apply B. clear B. intros d Hd Wd. destruct (D d Hd) as [ND Nn]. specialize (P d Hd).
    enough (E : gini_impurity d = 0) by lra. unfold gini_impurity. set (cs := classes [d]).
    assert (I : incl (dkeys d) cs) by (apply classes_incl; now left). assert (NC : NoDup cs) by apply NoDup_nodup.
    rewrite (over_classes (fun v => (v / weight d) ^ 2) d cs); auto; [|unfold Rdiv; ring].
    assert (Ex : exists c, In c cs /\ 0 < class_weight d c).
    { destruct (List.Exists_dec (fun c => 0 < class_weight d c) cs (fun c => Rlt_dec 0 (class_weight d c))) as [Ex|Ne]; [now apply Exists_exists in Ex|]. exfalso.
      rewrite (weight_classes d cs), (Rsum_map_ext_in _ (fun _ => 0)), Rsum_map_0 in Wd; auto; [lra|]. intros c Hc. assert (Q := class_weight_nonneg d c (D d Hd)).
      destruct (Rlt_dec 0 (class_weight d c)); [|lra]. exfalso. apply Ne, Exists_exists. eauto. }
    destruct Ex as (c & Hc & Pc).
    assert (Z : forall c', c' <> c -> class_weight d c' = 0). { intros c' N. assert (Q := class_weight_nonneg d c' (D d Hd)). destruct (Req_dec (class_weight d c') 0); auto. exfalso. apply N, P; [lra|auto]. }
    assert (Ec : class_weight d c = weight d).
    { rewrite (weight_classes d cs) by auto. rewrite (Rsum_map_ext_in _ (fun x => if Z.eqb c x then class_weight d c else 0)); [now rewrite Rsum_indicator|]. intros x _. destruct (Z.eqb_spec c x) as [->|N]; auto. }
    rewrite (Rsum_map_ext_in _ (fun x => if Z.eqb c x then 1 else 0)); [rewrite Rsum_indicator by auto; lra|]. intros x _. destruct (Z.eqb_spec c x) as [<-|N].
    + rewrite Ec. field. lra.
    + rewrite Z by auto. unfold Rdiv. ring.
Qed.
Print Assumptions gini_merit_range.

(** C93: a split never gets a smaller Gini merit than not splitting. *)
Theorem gini_split_never_worse : forall pre post, distribution pre -> Forall distribution post -> split_of pre post -> 0 < weight pre ->
  exists m0 m, gini_merit [pre] = Ok m0 /\ gini_merit post = Ok m /\ m0 <= m.
Proof.
  intros pre post Dp Dq Hs W. do 2 eexists. split; [apply gini_merit_ok; cbn; lra|]. split; [apply gini_merit_ok; rewrite <- (split_weight pre post); auto; lra|]. now apply gini_split.
Qed.
Print Assumptions gini_split_never_worse.

(** C55: information gain.  The criterion never fails.  It answers -inf exactly when fewer than two branches hold more than
    the minimum fraction of the weight, and otherwise the parent's entropy minus the weighted average entropy of the branches,
    which is between 0 and the declared range. *)
Theorem info_gain_range : forall min_frac pre post, distribution pre -> Forall distribution post -> split_of pre post ->
  exists r, ig_merit min_frac pre post = Ok r /\
    let enough := (2 <= length (filter (fun d => if Rlt_dec min_frac (weight d / weight pre) then true else false) post))%nat in
    match r with
    | None => ~ (0 < weight pre /\ enough)
    | Some m => 0 < weight pre /\ enough /\ m = entropy pre - branch_average entropy post /\ 0 <= m <= ig_range pre
    end.
Proof.
  intros mf pre post Dp Dq Hs. assert (EW := split_weight pre post Dp Dq Hs). unfold ig_merit, ig_num_subsets. rewrite vtotal_weight, <- EW. unfold n0. cbn [nltb nofZ NumR ndiv].
  replace (filter (fun d => Rltb mf (vsum d / weight pre)) post) with (filter (fun d => if Rlt_dec mf (weight d / weight pre) then true else false) post) by (apply filter_ext; intros d; now rewrite vsum_weight).
  set (k := length _). unfold Rltb. destruct (Rlt_dec 0 (weight pre)) as [W|W].
  - destruct (Nat.ltb_spec k 2) as [L|L]; [exists None; split; auto; cbn; lia|].
    rewrite entropy_list_ok by (auto; lra). cbn [bind]. rewrite entropy_dict_ok by auto. destruct (Req_EM_T (weight pre) 0); [lra|].
    eexists. split; [reflexivity|]. cbn zeta. split; [auto|]. split; [auto|]. split; [reflexivity|]. cbn [nsub NumR].
    assert (A := entropy_split pre post Dp Dq Hs W). assert (B := entropy_max pre Dp W).
    assert (C : 0 <= branch_average entropy post).
    { rewrite Forall_forall in Dq. assert (H := fun b => branch_average_bounds entropy post 0 b (proj2 (Forall_forall _ _) Dq)). rewrite <- EW in H.
      apply (H (Rsum (map (fun d => if Rlt_dec 0 (weight d) then entropy d else 0) post)) W). intros d Hd Wd. split; [apply entropy_nonneg; auto|].
      generalize (Rsum_ge_elem (fun d => if Rlt_dec 0 (weight d) then entropy d else 0) post d). destruct (Rlt_dec 0 (weight d)); [|lra]. intros G. apply G; auto.
      intros y Hy. destruct (Rlt_dec 0 (weight y)); [apply entropy_nonneg; auto|lra]. }
    assert (L2 := ln2_pos). split; [lra|]. eapply Rle_trans with (ln (INR (length pre)) / ln 2); [lra|]. unfold ig_range, log2. cbn [nln ndiv nofZ NumR].
    apply Rmult_le_compat_r; [left; now apply Rinv_0_lt_compat|]. assert (Len : (1 <= length pre)%nat) by (destruct pre; [cbn in W; lra|cbn; lia]).
    rewrite INR_IZR_INZ. destruct (Z.eq_dec (Z.of_nat (length pre)) (Z.max 2 (Z.of_nat (length pre)))) as [E|E]; [rewrite <- E; lra|]. left. apply ln_increasing; [apply IZR_lt; lia|apply IZR_lt; lia].
  - exists None. split; [reflexivity|]. cbn. intros [P _]. contradiction.
Qed.
Print Assumptions info_gain_range.

(** C55, C93: variance reduction on integer total weights: never fails for a non-empty list of branches; 0 if some branch has
    less than 5; otherwise the drop in standard deviation, which is at least 0 and at most the standard deviation before. *)
Theorem variance_reduction_merit : forall trunc branches, (forall n, trunc (IZR n) = IZR n) -> branches <> [] -> Forall int_weighted branches ->
  let all := concat branches in
  exists m, vr_merit trunc (target_stats all) (map target_stats branches) = Ok m
    /\ ((exists b, In b branches /\ wtotal b < 5) -> m = 0)
    /\ ((forall b, In b branches -> 5 <= wtotal b) ->
         m = std_dev all - Rsum (map (fun b => wtotal b / wtotal all * std_dev b) branches) /\ 0 <= m <= std_dev all).
Proof.
  intros trunc bs Ht NE Hi all. rewrite Forall_forall in Hi. unfold vr_merit, sdr_merit.
  destruct (Nat.eqb_spec (length (filter (fun d : stat R unit => (nofZ 5 <=? st_w d)%num) (map target_stats bs))) (length (map target_stats bs))) as [E|E].
  - assert (P : forall b, In b bs -> 5 <= wtotal b).
    { intros b Hb. apply (proj1 (filter_all _ _)) with (x := target_stats b) in E; [|now apply in_map]. cbn in E. now apply Rleb_true in E. }
    assert (P0 : forall b, In b bs -> int_weighted b /\ 0 < wtotal b) by (intros b Hb; split; auto; specialize (P b Hb); lra).
    assert (W : 0 < wtotal all). { unfold all. rewrite wtotal_concat. destruct bs as [|b bs]; [congruence|]. cbn [map Rsum]. assert (0 <= Rsum (map wtotal bs)) by (apply Rsum_nonneg; intros x Hx; apply in_map_iff in Hx as (y & <- & Hy); left; apply P0; now right).
      destruct (P0 b (or_introl eq_refl)). lra. }
    rewrite vr_sd_ok; auto; [|now apply int_weighted_concat]. cbn [bind]. replace (st_w (target_stats all)) with (wtotal all) by reflexivity.
    rewrite sdr_loop_ok; auto; [|lra]. eexists. split; [reflexivity|]. split; [intros (b & Hb & Lb); specialize (P b Hb); lra|]. intros _. split; [reflexivity|].
    assert (A := sd_split bs NE P0). fold all in A. split; [lra|].
    assert (0 <= Rsum (map (fun b => wtotal b / wtotal all * std_dev b) bs)); [|lra]. apply Rsum_nonneg. intros x Hx. apply in_map_iff in Hx as (b & <- & Hb). destruct (P0 b Hb).
    apply Rmult_le_pos; [apply Rmult_le_pos; [lra|left; now apply Rinv_0_lt_compat]|apply sqrt_pos].
  - exists 0. split; [reflexivity|]. split; auto. intros P. exfalso. apply E, filter_all. intros d Hd. apply in_map_iff in Hd as (b & <- & Hb). cbn. apply Rleb_true. now apply P.
Qed.
Print Assumptions variance_reduction_merit.

(** C55: with branches and weights of any kind the only possible failure is excluded: no division by zero. *)
Theorem variance_reduction_total : forall trunc pre post, (forall x, 1 <= x -> trunc x <> 0) -> post <> [] -> st_w pre = Rsum (map (@st_w R unit) post) ->
  exists m, vr_merit trunc pre post = Ok m.
Proof.
  intros trunc pre post Ht NE HW. unfold vr_merit, sdr_merit.
  assert (SD : forall d : stat R unit, 1 <= st_w d -> exists s, vr_sd trunc d = Ok s).
  { intros d Hd. unfold vr_sd, pydiv, n0. cbn [neqb nofZ NumR]. destruct (Reqb (trunc (st_w d)) 0) eqn:E; [apply Reqb_true in E; now apply Ht in E|]. cbn [bind].
    destruct (nltb _ _) eqn:L; eauto. unfold py_sqrt. destruct (nltb _ n0) eqn:L'; eauto. exfalso. unfold n0 in *. cbn in L, L'. apply Rltb_true in L, L'. lra. }
  destruct (Nat.eqb_spec (length (filter (fun d : stat R unit => (nofZ 5 <=? st_w d)%num) post)) (length post)) as [E|E]; [|eauto].
  assert (P : forall d, In d post -> 5 <= st_w d). { intros d Hd. apply (proj1 (filter_all _ _)) with (x := d) in E; auto. cbn in E. now apply Rleb_true in E. }
  assert (W : 5 <= st_w pre). { rewrite HW. destruct post as [|d post]; [congruence|]. cbn [map Rsum]. assert (0 <= Rsum (map st_w post)) by (apply Rsum_nonneg; intros x Hx; apply in_map_iff in Hx as (y & <- & Hy); specialize (P y (or_intror Hy)); lra).
    specialize (P d (or_introl eq_refl)). lra. }
  destruct (SD pre) as (s & ->); [lra|]. cbn [bind]. clear E HW NE. revert s. induction post as [|d post IH]; intros s; cbn [sdr_loop]; eauto.
  unfold pydiv, n0. cbn [neqb nofZ NumR]. destruct (Reqb (st_w pre) 0) eqn:E0; [apply Reqb_true in E0; lra|]. cbn [bind].
  destruct (SD d) as (s' & ->); [specialize (P d (or_introl eq_refl)); lra|]. cbn [bind]. apply IH. intros; apply P; now right.
Qed.
Print Assumptions variance_reduction_total.

(** C55 refuted: an empty list of branches at a node with less than one unit of weight divides by zero ... *)
Theorem variance_reduction_empty_refuted : forall trunc (pre : stat R unit), trunc (st_w pre) = 0 -> vr_merit trunc pre [] = Raise ZeroDivisionError.
Proof. intros trunc pre H. unfold vr_merit, sdr_merit, vr_sd, pydiv, n0. cbn [map filter length Nat.eqb neqb nofZ NumR]. rewrite H. destruct (Reqb 0 0) eqn:E; [reflexivity|apply Reqb_false in E; lra]. Qed.
Print Assumptions variance_reduction_empty_refuted.

Local Notation five y := [(y, 5)].
Lemma five_stats y : int_weighted (five y) /\ wtotal (five y) = 5 /\ std_dev (five y) = 0.
Proof.
  assert (E : wtotal (five y) = 5) by (unfold wtotal; cbn; lra). split; [split; [intros p [<-|[]]; cbn; lra|exists 5%Z; auto]|]. split; auto.
  unfold std_dev, wsqdev, wmean. rewrite E. cbn. match goal with |- sqrt ?x = 0 => replace x with 0 by (field; lra) end. apply sqrt_0.
Qed.
(** ... and the declared range 1 is exceeded by data on which the standard deviation drops by more than 1. *)
Theorem variance_reduction_range_refuted : forall trunc, (forall n, trunc (IZR n) = IZR n) ->
  exists branches m, Forall int_weighted branches /\ vr_merit trunc (target_stats (concat branches)) (map target_stats branches) = Ok m /\ m = 5 /\ vr_range < m.
Proof.
  intros trunc Ht. exists [five 0; five 10]. destruct (five_stats 0) as (I1 & W1 & S1). destruct (five_stats 10) as (I2 & W2 & S2).
  assert (I : Forall int_weighted [five 0; five 10]) by exact (Forall_cons _ I1 (Forall_cons _ I2 (Forall_nil _))).
  destruct (variance_reduction_merit trunc [five 0; five 10] Ht) as (m & Em & _ & Hm); [discriminate|exact I|].
  exists m. split; [exact I|]. split; [exact Em|]. destruct Hm as [Hm _]; [intros b [<-|[<-|[]]]; lra|].
  assert (E : m = 5).
  { rewrite Hm. cbn [map Rsum]. rewrite S1, S2. unfold std_dev, wsqdev, wmean, wtotal. cbn. match goal with |- sqrt ?x - _ = 5 => replace x with (5 * 5) by (field; lra) end. rewrite sqrt_square by lra. lra. }
  split; [exact E|]. unfold vr_range, n1. cbn. lra.
Qed.
Print Assumptions variance_reduction_range_refuted.

(** C93 refuted for fractional weights: int() truncates the weight in the variance but not in the average, and a split of
    identical halves gets a negative merit. *)
Theorem variance_reduction_negative_refuted : forall trunc, trunc (59/10) = 5 -> trunc (118/10) = 11 ->
  exists half m, (forall p, In p half -> 0 < snd p) /\ vr_merit trunc (target_stats (half ++ half)) [target_stats half; target_stats half] = Ok m /\ m < 0.
Proof.
  intros trunc T1 T2. exists [(1, 295/100); (-1, 295/100)].
  assert (A : sqrt (118/110) < sqrt (118/100)) by (apply sqrt_lt_1; lra).
  exists (sqrt (118/110) - 1/2 * sqrt (118/100) - 1/2 * sqrt (118/100)). split; [intros p [<-|[<-|[]]]; cbn; lra|]. split; [|lra].
  assert (SD : forall (d : stat R unit) w t q v, st_w d = w -> st_s d tt = 0 -> st_q d tt = q -> trunc w = t -> 0 < t -> q / t = v -> 0 < v -> vr_sd trunc d = Ok (sqrt v)).
  { intros [w' s' q'] w t q v E1 E2 E3 E4 E5 E6 E7. cbn in E1, E2, E3. subst w'. unfold vr_sd, pydiv, n0. cbn [st_w st_s st_q neqb nofZ NumR]. rewrite E4, E2, E3. destruct (Reqb t 0) eqn:E; [apply Reqb_true in E; lra|]. cbn [bind nmul nsub ndiv NumR nltb].
    replace ((q - 0 * 0 / t) / t) with v by (subst v; field; lra). unfold Rltb. destruct (Rlt_dec 0 v); [|lra]. unfold py_sqrt, n0. cbn [nltb nofZ NumR]. destruct (Rltb v 0) eqn:EL; [apply Rltb_true in EL; lra|reflexivity]. }
  unfold vr_merit, sdr_merit. set (h := target_stats [(1, 295/100); (-1, 295/100)]). set (p := target_stats _).
  assert (Wh : st_w h = 59/10) by (cbn; lra). assert (Wp : st_w p = 118/10) by (cbn; lra).
  rewrite (SD p (118/10) 11 (118/10) (118/110)); auto; [|cbn; lra|cbn; lra|lra|lra|lra].
  cbn [filter]. rewrite Wh. cbn [nleb nofZ NumR]. replace (Rleb 5 (59/10)) with true by (symmetry; apply Rleb_true; lra). cbn [length Nat.eqb bind sdr_loop]. rewrite Wp, Wh.
  rewrite (SD h (59/10) 5 (59/10) (118/100)); auto; [|cbn; lra|cbn; lra|lra|lra|lra]. unfold pydiv, n0. cbn [neqb nofZ NumR]. destruct (Reqb (118/10) 0) eqn:E; [apply Reqb_true in E; lra|]. cbn [bind ndiv nsub nmul NumR].
  f_equal. lra.
Qed.
Print Assumptions variance_reduction_negative_refuted.

(** C93 refuted for the multi-target criterion: splitting into two identical halves has a negative merit. *)
Theorem intra_cluster_negative_refuted : exists (half : stat Q unit) m,
  ic_merit [tt] (s_add half half) [half; half] = Ok m /\ (m < 0)%Q.
Proof. exists (mkS 6%Q (fun _ => 0%Q) (fun _ => 6%Q)). eexists. split; [vm_compute; reflexivity|]. reflexivity. Qed.
Print Assumptions intra_cluster_negative_refuted.

(** C94: the Hellinger distance between 0 and sqrt 2 when both classes have weight and are recorded in both branches ... *)
Theorem hellinger_range_partial : forall a b lp ln rp rn, dget a 1 = Some lp -> dget a 0 = Some ln -> dget b 1 = Some rp -> dget b 0 = Some rn ->
  0 <= lp -> 0 <= ln -> 0 <= rp -> 0 <= rn -> 0 < lp + rp -> 0 < ln + rn ->
  exists m, hellinger a b = Ok m /\ 0 <= m <= sqrt 2 /\ (ln * (lp + rp) = lp * (ln + rn) <-> m = 0) /\ (ln * lp = 0 /\ rn * rp = 0 <-> m = sqrt 2).
Proof.
  intros a b lp ln rp rn E1 E2 E3 E4 H1 H2 H3 H4 H5 H6. unfold hellinger. rewrite E1, E2, E3, E4. cbv zeta. unfold pydiv, n0. cbn [neqb nofZ NumR nadd].
  destruct (Reqb (ln + rn) 0) eqn:Q1; [apply Reqb_true in Q1; lra|]. destruct (Reqb (lp + rp) 0) eqn:Q2; [apply Reqb_true in Q2; lra|]. cbn [bind ndiv nsqrt nsub nmul nadd NumR].
  assert (D : forall x y, 0 <= x -> 0 < y -> 0 <= x / y) by (intros; apply Rmult_le_pos; [auto|left; now apply Rinv_0_lt_compat]).
  set (p := ln / (ln + rn)). set (q := lp / (lp + rp)). replace (rn / (ln + rn)) with (1 - p) by (unfold p; field; lra). replace (rp / (lp + rp)) with (1 - q) by (unfold q; field; lra).
  assert (P1 : 0 <= p <= 1). { split; [apply D; auto|]. assert (0 <= rn / (ln + rn)) by now apply D. replace p with (1 - rn / (ln + rn)) by (unfold p; field; lra). lra. }
  assert (P2 : 0 <= q <= 1). { split; [apply D; auto|]. assert (0 <= rp / (lp + rp)) by now apply D. replace q with (1 - rp / (lp + rp)) by (unfold q; field; lra). lra. }
  assert (Epq : ln * (lp + rp) = lp * (ln + rn) <-> p = q).
  { unfold p, q. split; intros E; [apply Rmult_eq_reg_r with ((ln + rn) * (lp + rp)); [field_simplify; [lra|lra|lra]|apply Rmult_integral_contrapositive; lra]|].
    replace (ln * (lp + rp)) with (ln / (ln + rn) * ((ln + rn) * (lp + rp))) by (field; lra). rewrite E. field. lra. }
  assert (Epq2 : ln * lp = 0 /\ rn * rp = 0 <-> p * q = 0 /\ (1 - p) * (1 - q) = 0).
  { replace (1 - p) with (rn / (ln + rn)) by (unfold p; field; lra). replace (1 - q) with (rp / (lp + rp)) by (unfold q; field; lra). unfold p, q.
    replace (ln / (ln + rn) * (lp / (lp + rp))) with (ln * lp * / ((ln + rn) * (lp + rp))) by (field; lra). replace (rn / (ln + rn) * (rp / (lp + rp))) with (rn * rp * / ((ln + rn) * (lp + rp))) by (field; lra).
    assert (I : / ((ln + rn) * (lp + rp)) <> 0) by (apply Rinv_neq_0_compat, Rmult_integral_contrapositive; lra).
    split; intros [A B]; [rewrite A, B; lra|]. split; [apply Rmult_integral in A as [A|A]; [auto|contradiction]|apply Rmult_integral in B as [B|B]; [auto|contradiction]]. }
  eexists. split; [reflexivity|]. rewrite Epq, Epq2. clear Epq Epq2. assert (S1 := sqrt_pos p). assert (S2 := sqrt_pos q). assert (S3 := sqrt_pos (1 - p)). assert (S4 := sqrt_pos (1 - q)).
  assert (R1 := sqrt_sqrt p (proj1 P1)). assert (R2 := sqrt_sqrt q (proj1 P2)). assert (R3 : sqrt (1 - p) * sqrt (1 - p) = 1 - p) by (apply sqrt_sqrt; lra). assert (R4 : sqrt (1 - q) * sqrt (1 - q) = 1 - q) by (apply sqrt_sqrt; lra).
  set (u := sqrt p) in *. set (v := sqrt q) in *. set (x := sqrt (1 - p)) in *. set (y := sqrt (1 - q)) in *.
  assert (Eh : (u - v) * (u - v) + (x - y) * (x - y) = 2 - 2 * (u * v + x * y)) by (replace ((u - v) * (u - v) + (x - y) * (x - y)) with (u * u + v * v + x * x + y * y - 2 * (u * v + x * y)) by ring; lra). assert (Huv : 0 <= u * v) by now apply Rmult_le_pos. assert (Hxy : 0 <= x * y) by now apply Rmult_le_pos.
  assert (Hge : 0 <= 2 - 2 * (u * v + x * y)) by (generalize (Rle_0_sqr (u - v)) (Rle_0_sqr (x - y)); unfold Rsqr; lra).
  rewrite Eh. split; [split; [apply sqrt_pos|apply sqrt_le_1_alt; lra]|]. split; split; intros E.
  - assert (u = v) by (unfold u, v; now rewrite E). assert (x = y) by (unfold x, y; now rewrite E). rewrite <- Eh, H, H0. replace ((v - v) * (v - v) + (y - y) * (y - y)) with 0 by ring. apply sqrt_0.
  - apply sqrt_eq_0 in E; auto. assert (u - v = 0) by (generalize (Rle_0_sqr (u - v)) (Rle_0_sqr (x - y)); unfold Rsqr; intros; apply Rsqr_0_uniq; unfold Rsqr; lra). rewrite <- R1, <- R2. replace u with v by lra. reflexivity.
  - destruct E as [A B]. f_equal. assert (u * v = 0). { unfold u, v. rewrite <- sqrt_mult by lra. rewrite A. apply sqrt_0. } assert (x * y = 0). { unfold x, y. rewrite <- sqrt_mult by lra. rewrite B. apply sqrt_0. } lra.
  - apply sqrt_inj in E; [|auto|lra]. assert (u * v = 0) by lra. assert (x * y = 0) by lra. split; [rewrite <- R1, <- R2; replace (u * u * (v * v)) with ((u * v) * (u * v)) by ring; rewrite H; ring|].
    rewrite <- R3, <- R4. replace (x * x * (y * y)) with ((x * y) * (x * y)) by ring. rewrite H0. ring.
Qed.
Print Assumptions hellinger_range_partial.
(** ... so it exceeds the declared range log2(2) = 1 of a two-class problem ... *)
Theorem hellinger_range_refuted : exists post m, he_merit (1/100) post = Ok (Some m) /\ ig_range [(0%Z, 5); (1%Z, 5)] < m.
Proof.
  exists [[(0%Z, 5); (1%Z, 0)]; [(0%Z, 0); (1%Z, 5)]], (sqrt 2). split.
  - unfold he_merit. rewrite vtotal_weight. unfold weight. cbn [map snd Rsum he_num_loop]. unfold pydiv, n0. cbn [neqb nofZ NumR].
    destruct (Reqb _ 0) eqn:E; [apply Reqb_true in E; lra|]. rewrite !vsum_weight. unfold weight. cbn [map snd Rsum bind nltb ndiv NumR].
    match goal with |- context [Rltb ?a ?b] => replace (Rltb a b) with true by (symmetry; apply Rltb_true; lra) end.
    match goal with |- context [Rltb ?a ?b] => replace (Rltb a b) with true by (symmetry; apply Rltb_true; lra) end. cbn [Nat.ltb Nat.leb].
    destruct (hellinger_range_partial [(0%Z, 5); (1%Z, 0)] [(0%Z, 0); (1%Z, 5)] 0 5 5 0) as (m & E1 & _ & _ & E2); try reflexivity; try lra. rewrite E1. cbn [bind]. do 2 f_equal. apply E2. lra.
  - unfold ig_range, log2. cbn [length nln ndiv nofZ NumR]. replace (Z.max 2 (Z.of_nat 2)) with 2%Z by reflexivity. assert (L := ln2_pos). unfold Rdiv. rewrite Rinv_r by lra.
    rewrite <- sqrt_1 at 1. apply sqrt_lt_1; lra.
Qed.
Print Assumptions hellinger_range_refuted.
(** ... and a perfect split, recorded as the observers record it (absent classes are not in the dictionary), gets the lowest value 0. *)
Theorem hellinger_perfect_split_refuted : forall w0 w1, hellinger [(0%Z, w0)] [(1%Z, w1)] = Ok (0 : R) /\ hellinger [(1%Z, w1)] [(0%Z, w0)] = Ok (0 : R).
Proof. intros w0 w1. split; reflexivity. Qed.
Print Assumptions hellinger_perfect_split_refuted.

(** Non-vacuity *)
Example split_example : let pre := [(0%Z, 3); (1%Z, 2)] in let post := [[(0%Z, 3)]; [(1%Z, 2)]] in
  distribution pre /\ Forall distribution post /\ split_of pre post /\ 0 < weight pre.
Proof.
  cbv zeta. assert (D : forall c w, 0 < w -> distribution [(c, w)]). { intros c w H. split; [cbn; apply NoDup_cons; [cbn; tauto|apply NoDup_nil]|]. intros c' w' [[= <- <-]|[]]. lra. }
  split; [split; [cbn; apply NoDup_cons; [cbn; intuition lia|apply NoDup_cons; [cbn; tauto|apply NoDup_nil]]|intros c w [[= <- <-]|[[= <- <-]|[]]]; lra]|]. split; [apply Forall_cons; [apply D; lra|apply Forall_cons; [apply D; lra|apply Forall_nil]]|]. split; [|unfold weight; cbn; lra].
  intros c. unfold class_weight. cbn [dget map Rsum]. destruct c as [|[p|p|]|p]; cbn; lra.
Qed.
