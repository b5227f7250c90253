(** Proofs about the weighted expert ensembles (Model/Experts.v). *)
From Coq Require Import List ZArith Bool Reals Lra Lia Permutation Sorted.
From Verif Require Import Base.Py Base.Num Spec.Lists Spec.ExpertSpec Spec.LearnerSpec Model.Adwin Model.Knn Model.TreeSkeleton Model.Learner Model.Experts Spec.ExpertRuns
  Proofs.ListFacts Proofs.KnnProofs Proofs.TreeProofs.
Import ListNotations.
Local Open Scope R_scope.

Lemma F2_len {A C} (P : A -> C -> Prop) l m : Forall2 P l m -> length l = length m.
Proof. induction 1; simpl; auto. Qed.

Lemma filter_len {A} (f : A -> bool) l : (length (filter f l) <= length l)%nat.
Proof. induction l as [|a l IH]; simpl; [lia|]. destruct (f a); simpl; lia. Qed.

Section E.
Context {X B : Type} (L : learner X R B) (base : B).

Lemma vote_ok (preds : list R) c w : (0 <= c < Z.of_nat (length preds))%Z ->
  vote preds c w = Ok (set_nth preds (Z.to_nat c) (nth (Z.to_nat c) preds 0 + w)).
Proof.
  intros H. unfold vote. rewrite (py_get_in preds c 0) by auto. cbn [bind]. rewrite py_set_in by auto. reflexivity.
Qed.
Lemma vote_range (preds : list R) c w p : vote preds c w = Ok p -> (0 <= c)%Z -> (0 <= c < Z.of_nat (length preds))%Z.
Proof.
  unfold vote, py_get, py_index. intros H Hc.
  destruct ((0 <=? c)%Z && (c <? Z.of_nat (length preds))%Z) eqn:E.
  - apply andb_true_iff in E. destruct E as (E1 & E2). apply Z.leb_le in E1. apply Z.ltb_lt in E2. lia.
  - replace (c <? 0)%Z with false in H by (symmetry; apply Z.ltb_ge; lia). discriminate.
Qed.
Lemma support_cons c w votes d : support ((c, w) :: votes) d = ((if Z.eqb c d then w else 0) + support votes d)%R.
Proof. unfold support. cbn [filter fst]. destruct (Z.eqb c d); cbn [map snd Rsum]; lra. Qed.
Lemma set_nth_support (preds : list R) c w votes : (0 <= c < Z.of_nat (length preds))%Z -> forall d, (0 <= d < Z.of_nat (length preds))%Z ->
  nth (Z.to_nat d) (set_nth preds (Z.to_nat c) (nth (Z.to_nat c) preds 0 + w)) 0 + support votes d =
  nth (Z.to_nat d) preds 0 + support ((c, w) :: votes) d.
Proof.
  intros Hc d Hd. rewrite set_nth_nth by lia. rewrite support_cons.
  destruct (Z.eqb_spec c d) as [->|Hn].
  - rewrite Nat.eqb_refl. lra.
  - replace (Nat.eqb (Z.to_nat c) (Z.to_nat d)) with false by (symmetry; apply Nat.eqb_neq; lia). lra.
Qed.

Lemma plurality_of (votes : list (Z * R)) (preds : list R) h :
  (forall d, (0 <= d < Z.of_nat (length preds))%Z -> nth (Z.to_nat d) preds 0 = support votes d) ->
  first_max preds h -> plurality (Z.of_nat (length preds)) votes (Z.of_nat h).
Proof.
  intros H (H1 & H2 & H3). split; [lia|].
  split; intros d Hd.
  - rewrite <- !H by lia. rewrite Nat2Z.id. apply H2. lia.
  - rewrite <- !H by lia. rewrite Nat2Z.id. apply H3. lia.
Qed.

(** ** Dynamic Weighted Majority *)
Section DWM.
Variables (n_estimators period : Z) (beta theta : R).
Local Notation pen := (ExpertRuns.pen beta).
Local Notation after_vote := (ExpertRuns.after_vote beta).
Lemma dwm_vote_spec hit x y : (forall b c b', predict_one L b x = Ok (c, b') -> (0 <= c)%Z) ->
  forall l i v l' v', dwm_vote L beta hit x y i l v = Ok (l', v') ->
  exists answers, answer_all L x l answers /\ l' = after_vote hit y l answers /\
    length (ta_preds v') = length (ta_preds v) /\
    Forall (fun a => (fst a < Z.of_nat (length (ta_preds v)))%Z) answers /\
    (forall d, (0 <= d < Z.of_nat (length (ta_preds v)))%Z ->
       nth (Z.to_nat d) (ta_preds v') 0 = nth (Z.to_nat d) (ta_preds v) 0 + support (votes_of (map ex_weight l') answers) d) /\
    (ta_max v <= ta_max v' /\ (forall e, In e l' -> ex_weight e <= ta_max v') /\ (ta_max v' = ta_max v \/ In (ta_max v') (map ex_weight l'))) /\
    ((ta_idx v' = ta_idx v /\ ta_weak v' = ta_weak v /\ (forall e, In e l' -> ta_weak v <= ex_weight e)) \/
     (exists j e, ta_idx v' = Some (i + j)%nat /\ nth_error l' j = Some e /\ ex_weight e < ta_weak v /\
                  (forall e', In e' l' -> ex_weight e <= ex_weight e') /\ ta_weak v' = ex_weight e)).
Proof.
  intros Hpos. induction l as [|e l IH]; intros i v l' v' H; cbn [dwm_vote] in H.
  - injection H as <- <-. exists []. split; [constructor|]. split; [reflexivity|]. split; [reflexivity|]. split; [constructor|].
    split; [intros d Hd; unfold support, votes_of; simpl; lra|].
    split; [split; [lra|split; [intros e []|auto]]|]. left. split; [reflexivity|split; [reflexivity|intros e []]].
  - apply bind_Ok in H. destruct H as ((c, b) & Hp & H).
    set (w := if (negb (c =? y)%Z && hit)%bool then (ex_weight e * beta)%num else ex_weight e) in *.
    assert (Hw : w = pen hit y c (ex_weight e)).
    { unfold w, pen, penalised. destruct hit, (c =? y)%Z; reflexivity. }
    cbv zeta in H. apply bind_Ok in H. destruct H as (preds & Hv & H).
    apply bind_Ok in H. destruct H as ((r', v1) & Hr & H). injection H as <- <-.
    pose proof (Hpos _ _ _ Hp) as Hc. pose proof (vote_range _ _ _ _ Hv Hc) as Hcr.
    rewrite (vote_ok _ _ _ Hcr) in Hv. injection Hv as <-.
    apply IH in Hr. cbn [ta_preds ta_max ta_weak ta_idx] in Hr.
    destruct Hr as (ans & Ha & -> & Hlen & Hlt & Hs & (Hm1 & Hm2 & Hm3) & Hweak). rewrite set_nth_len in *.
    exists ((c, b) :: ans). split; [constructor; auto|]. split; [unfold after_vote; cbn [combine map fst snd]; rewrite <- Hw; reflexivity|].
    split; [exact Hlen|]. split; [constructor; [simpl; lia|exact Hlt]|].
    split.
    { intros d Hd. cbn [map]. unfold votes_of. cbn [map combine fst ex_weight]. rewrite Hs by auto.
      apply set_nth_support; auto. }
    assert (Hmx : ta_max v <= py_max (ta_max v) w /\ w <= py_max (ta_max v) w /\ (py_max (ta_max v) w = ta_max v \/ py_max (ta_max v) w = w)).
    { unfold py_max. cbn [nltb NumR]. destruct (Rltb (ta_max v) w) eqn:E; rcase; split; try split; try lra; auto. }
    destruct Hmx as (Hx1 & Hx2 & Hx3).
    split.
    { split; [lra|]. split.
      - intros e' [<-|He']; [cbn [ex_weight]; lra|auto].
      - cbn [map ex_weight]. destruct Hm3 as [Hm3|Hm3].
        + rewrite Hm3. destruct Hx3 as [Hx3|Hx3]; [left; auto|right; left; auto].
        + right. right. auto. }
    cbn [nltb NumR] in Hweak. destruct (Rltb w (ta_weak v)) eqn:Ew; rcase.
    + right. destruct Hweak as [(H1 & H2 & H3)|(j & e' & H1 & H2 & H3 & H4 & H5)].
      * exists 0%nat, (mk_ex b w). split; [rewrite H1; f_equal; lia|]. split; [reflexivity|]. split; [exact Ew|].
        split; [intros e' [<-|He']; [cbn [ex_weight]; lra|cbn [ex_weight]; apply H3; auto]|exact H2].
      * exists (S j), e'. split; [rewrite H1; f_equal; lia|]. split; [exact H2|]. split; [lra|].
        split; [intros e'' [<-|He'']; [cbn [ex_weight]; lra|auto]|exact H5].
    + destruct Hweak as [(H1 & H2 & H3)|(j & e' & H1 & H2 & H3 & H4 & H5)].
      * left. split; [auto|]. split; [auto|]. intros e' [<-|He']; [cbn [ex_weight]; lra|auto].
      * right. exists (S j), e'. split; [rewrite H1; f_equal; lia|]. split; [exact H2|]. split; [lra|].
        split; [intros e'' [<-|He'']; [cbn [ex_weight]; lra|auto]|exact H5].
Qed.

Lemma kept_spec t (l : list (expert R B)) : 0 < t ->
  kept theta t (map pair_of l)
    (map pair_of (filter (fun e => (theta <=? ex_weight e)%num) (map (fun e => mk_ex (ex_est e) (ex_weight e * (1 / t))) l))).
Proof.
  intros Ht. induction l as [|[b w] l IH]; [constructor|].
  cbn [map pair_of ex_est ex_weight filter]. cbn [nleb NumR].
  assert (Hw : w * (1 / t) = w / t) by (field; lra). rewrite Hw.
  destruct (Rleb theta (w / t)) eqn:E; rcase.
  - cbn [map pair_of ex_est ex_weight]. apply kept_stays; auto.
  - apply kept_goes; auto.
Qed.

Lemma train_all x y classes sw l l' : mapM (train L x y classes sw) l = Ok l' ->
  Forall2 (fun m e => lr_fit L (fst m) [(x, y)] classes sw = Ok (ex_est e) /\ ex_weight e = snd m) (map pair_of l) l'.
Proof.
  revert l'. induction l as [|e l IH]; intros l' H; cbn [mapM] in H.
  - injection H as <-. constructor.
  - apply bind_Ok in H. destruct H as (e' & He & H). apply bind_Ok in H. destruct H as (r & Hr & H). injection H as <-.
    unfold train in He. apply bind_Ok in He. destruct He as (b & Hb & He). injection He as <-.
    cbn [map]. constructor; [split; [exact Hb|reflexivity]|auto].
Qed.

Lemma kept_length {A} th t (l k : list (A * R)) : kept th t l k -> (length k <= length l)%nat.
Proof. induction 1; simpl; lia. Qed.
Lemma kept_full {A} th t (l k : list (A * R)) : kept th t l k -> length k = length l -> k = map (fun m => (fst m, snd m / t)) l.
Proof.
  induction 1 as [|a w l l' Hw Hk IH|a w l l' Hw Hk IH]; intros Hl; simpl in *; [reflexivity|f_equal; auto|].
  apply kept_length in Hk. lia.
Qed.

Lemma without_nth (l : list (B * R)) j m : nth_error l j = Some m -> (forall m', In m' l -> snd m <= snd m') ->
  without_least l (firstn j l ++ skipn (S j) l).
Proof.
  intros H Hle. destruct (nth_error_split l j H) as (a & b & -> & Ha). exists a, m, b. split; [reflexivity|]. split; [|exact Hle].
  subst j. rewrite firstn_app, Nat.sub_diag, firstn_all. cbn [firstn]. rewrite app_nil_r. f_equal.
  change (S (length a)) with (1 + length a)%nat. rewrite <- skipn_skipn'. rewrite skipn_app, Nat.sub_diag, skipn_all. reflexivity.
Qed.

(** One sample, given that the state has at most [n_estimators] experts of positive weight. *)
Lemma dwm_one_spec s x y classes sw s' :
  (forall b c b', predict_one L b x = Ok (c, b') -> (0 <= c)%Z) ->
  (Z.of_nat (length (dw_experts s)) <= n_estimators)%Z -> 0 < beta -> dw_experts s <> [] -> Forall (fun e => 0 < ex_weight e) (dw_experts s) ->
  dwm_one L base n_estimators period beta theta s x y classes sw = Ok s' ->
  period <> 0%Z /\
  let hit := (((dw_epochs s + 1) mod period) =? 0)%Z in
  exists answers h mid,
    answer_all L x (dw_experts s) answers /\
    plurality (Z.of_nat (Z.to_nat (class_count classes y (dw_classes s)))) (votes_of (map ex_weight (after_vote hit y (dw_experts s) answers)) answers) h /\
    (if hit then round (Z.to_nat n_estimators) theta base (map pair_of (after_vote hit y (dw_experts s) answers)) (negb (Z.eqb h y)) mid
     else mid = map pair_of (after_vote hit y (dw_experts s) answers)) /\
    Forall2 (fun m e => lr_fit L (fst m) [(x, y)] classes sw = Ok (ex_est e) /\ ex_weight e = snd m) mid (dw_experts s') /\
    dw_epochs s' = (dw_epochs s + 1)%Z /\ dw_classes s' = class_count classes y (dw_classes s).
Proof.
  intros Hpos Hn Hbeta Hne Hw H. unfold dwm_one in H. cbv zeta in H.
  apply bind_Ok in H. destruct H as (hit & Hhit & H). destruct (Z.eqb_spec period 0) as [Hp|Hp]; [discriminate|]. injection Hhit as <-.
  split; [exact Hp|]. cbv zeta. set (hit := (((dw_epochs s + 1) mod period) =? 0)%Z) in *.
  apply bind_Ok in H. destruct H as ((exps & v) & Hv & H).
  pose proof (dwm_vote_spec hit x y Hpos _ _ _ _ _ Hv) as (ans & Ha & -> & Hlen & Hlt & Hs & (Hm1 & Hm2 & Hm3) & Hweak).
  cbn [ta_preds ta_max ta_weak ta_idx] in *. rewrite repeat_length in *.
  apply bind_Ok in H. destruct H as (h & Hh & H).
  assert (Hf : first_max (ta_preds v) h).
  { destruct (np_argmax_ok (ta_preds v)) as (h' & E & F); [|rewrite Hh in E; injection E as <-; exact F].
    intros E. rewrite E in Hh. discriminate. }
  apply bind_Ok in H. destruct H as (exps & He & H). apply bind_Ok in H. destruct H as (exps' & Ht & H). injection H as <-.
  cbn [dw_experts dw_epochs dw_classes].
  set (pre := after_vote hit y (dw_experts s) ans) in *.
  assert (Hll : length (dw_experts s) = length ans) by (eapply F2_len; exact Ha).
  assert (Hpl : length pre = length (dw_experts s)).
  { unfold pre, after_vote. rewrite map_length, combine_length. lia. }
  assert (Hprepos : Forall (fun e => 0 < ex_weight e) pre).
  { apply Forall_forall. intros e Hin. unfold pre, after_vote in Hin. apply in_map_iff in Hin. destruct Hin as ((e0 & a) & <- & Hin).
    apply in_combine_l in Hin. rewrite Forall_forall in Hw. specialize (Hw _ Hin). cbn [ex_weight fst snd]. unfold pen, penalised.
    destruct hit; [|auto]. destruct (Z.eqb (fst a) y); [auto|]. apply Rmult_lt_0_compat; auto. }
  assert (Htop : greatest (map pair_of pre) (ta_max v) /\ 0 < ta_max v).
  { destruct pre as [|e0 pre'] eqn:Epre.
    - destruct (dw_experts s); [congruence|simpl in Hpl; lia].
    - rewrite Forall_forall in Hprepos. assert (0 < ta_max v) by (pose proof (Hprepos e0 (or_introl eq_refl)); pose proof (Hm2 e0 (or_introl eq_refl)); lra).
      split; [|auto]. split.
      + destruct Hm3 as [Hm3|Hm3]; [cbn [nofZ NumR n0] in Hm3; unfold n0 in Hm3; cbn [nofZ NumR] in Hm3; lra|]. rewrite map_map. cbn [pair_of snd] in *. exact Hm3.
      + intros m Hm. apply in_map_iff in Hm. destruct Hm as (e & <- & He'). apply Hm2. auto. }
  destruct Htop as (Htop & Htop0).
  exists ans, (Z.of_nat h), (map pair_of exps). split; [exact Ha|]. split.
  { rewrite <- Hlen. apply plurality_of; [|exact Hf]. intros d Hd. rewrite Hlen in Hd. rewrite Hs by lia.
    fold pre. unfold n0; cbn [nofZ NumR]. rewrite repeat_nth0, Rplus_0_l. reflexivity. }
  split; [|split; [exact (train_all _ _ _ _ _ _ Ht)|split; reflexivity]].
  destruct hit; [|injection He as <-; reflexivity].
  unfold pydiv in He. destruct (ta_max v =? n0)%num eqn:E0; [discriminate|]. cbn [bind] in He.
  set (k := filter (fun e => (theta <=? ex_weight e)%num) (map (fun e => mk_ex (ex_est e) (ex_weight e * (n1 / ta_max v))%num) pre)) in *.
  pose proof (kept_spec (ta_max v) pre Htop0) as Hk. change (kept theta (ta_max v) (map pair_of pre) (map pair_of k)) in Hk.
  destruct (Z.eqb_spec (Z.of_nat h) y) as [Ey|Ey]; cbn [negb].
  - injection He as <-. apply round_right with (t := ta_max v); auto.
  - apply bind_Ok in He. destruct He as (k' & Hk' & He). injection He as <-. rewrite map_app. cbn [map pair_of ex_est ex_weight].
    destruct (Z.eqb_spec (Z.of_nat (length k)) n_estimators) as [El|El].
    + assert (Hkl : length (map pair_of k) = length (map pair_of pre)).
      { pose proof (kept_length _ _ _ _ Hk) as Hle. rewrite !map_length in *. lia. }
      pose proof (kept_full _ _ _ _ Hk Hkl) as Hkeq.
      destruct (ta_idx v) as [i|] eqn:Ei; [|discriminate]. unfold pop in Hk'.
      destruct (Nat.ltb i (length k)) eqn:Eik; [|discriminate]. injection Hk' as <-.
      apply (round_full _ _ _ _ (ta_max v) (map pair_of k)); auto; [rewrite map_length; lia|].
      destruct Hweak as [(Hw1 & _)|(j & e & Hw1 & Hw2 & Hw3 & Hw4 & _)]; [discriminate|]. injection Hw1 as ->.
      rewrite map_app, <- firstn_map. change (match k with [] => [] | _ :: l => skipn j l end) with (skipn (S j) k). rewrite <- skipn_map. apply without_nth with (m := (ex_est e, ex_weight e / ta_max v)).
      * rewrite Hkeq. rewrite map_map. cbn [fst snd pair_of]. simpl Nat.add. rewrite nth_error_map, Hw2. reflexivity.
      * intros m' Hm'. rewrite Hkeq in Hm'. rewrite map_map in Hm'. apply in_map_iff in Hm'. destruct Hm' as (e' & <- & Hin). cbn [snd].
        apply Rmult_le_compat_r; [left; apply Rinv_0_lt_compat; auto|apply Hw4; auto].
    + injection Hk' as <-. apply (round_room _ _ _ _ (ta_max v)); auto. rewrite map_length. lia.
Qed.

(** ** Invariant of the runs *)
Definition dwm_inv (s : dwm R B) : Prop :=
  (Z.of_nat (length (dw_experts s)) <= n_estimators)%Z /\
  Forall (fun e => 0 < ex_weight e <= 1 /\ theta <= ex_weight e) (dw_experts s) /\
  Exists (fun e => ex_weight e = 1) (dw_experts s).

Lemma kept_in {A} th t (l k : list (A * R)) : kept th t l k -> forall m, In m k -> th <= snd m /\ exists m0, In m0 l /\ fst m0 = fst m /\ snd m = snd m0 / t.
Proof.
  induction 1 as [|a w l l' Hw Hk IH|a w l l' Hw Hk IH]; intros m Hm.
  - destruct Hm.
  - destruct Hm as [<-|Hm]; [split; [exact Hw|exists (a, w); simpl; auto]|].
    destruct (IH m Hm) as (H1 & m0 & H2 & H3). split; [auto|]. exists m0. simpl; auto.
  - destruct (IH m Hm) as (H1 & m0 & H2 & H3). split; [auto|]. exists m0. simpl; auto.
Qed.
Lemma kept_stay {A} th t (l k : list (A * R)) : kept th t l k -> forall m, In m l -> th <= snd m / t -> In (fst m, snd m / t) k.
Proof.
  induction 1 as [|a w l l' Hw Hk IH|a w l l' Hw Hk IH]; intros m Hm Hle.
  - destruct Hm.
  - destruct Hm as [<-|Hm]; [left; reflexivity|right; auto].
  - destruct Hm as [<-|Hm]; [simpl in Hle; lra|auto].
Qed.
Lemma round_inv (n : nat) (l : list (B * R)) wrong mid : (1 <= n)%nat -> theta <= 1 -> (length l <= n)%nat -> l <> [] ->
  (forall m, In m l -> 0 < snd m) -> round n theta base l wrong mid ->
  (length mid <= n)%nat /\ (forall m, In m mid -> 0 < snd m <= 1 /\ theta <= snd m) /\ (exists m, In m mid /\ snd m = 1).
Proof.
  intros Hn1 Hth Hn Hne Hpos Hr.
  assert (K : forall t k, greatest l t -> kept theta t l k ->
    (length k <= n)%nat /\ (forall m, In m k -> 0 < snd m <= 1 /\ theta <= snd m) /\ (exists m, In m k /\ snd m = 1)).
  { intros t k (Hin & Hmax) Hk. apply in_map_iff in Hin. destruct Hin as (mt & Hmt & Hin).
    assert (Ht : 0 < t) by (rewrite <- Hmt; apply Hpos; auto).
    split; [pose proof (kept_length _ _ _ _ Hk); lia|]. split.
    - intros m Hm. destruct (kept_in _ _ _ _ Hk m Hm) as (H1 & m0 & H2 & _ & H3). split; [|exact H1]. rewrite H3. split.
      + apply Rdiv_lt_0_compat; auto.
      + apply Rmult_le_reg_r with t; [auto|]. unfold Rdiv. rewrite Rmult_assoc, Rinv_l by lra. specialize (Hmax m0 H2). lra.
    - exists (fst mt, snd mt / t). assert (snd mt / t = 1) by (rewrite Hmt; field; lra). split; [|simpl; auto].
      apply (kept_stay _ _ _ _ Hk); auto. lra. }
  destruct Hr as [t k Hg Hk|t k Hg Hk Hl|t k k' Hg Hk Hl Hw].
  - exact (K t k Hg Hk).
  - destruct (K t k Hg Hk) as (K1 & K2 & K3). split; [rewrite app_length; simpl; lia|]. split.
    + intros m Hm. apply in_app_or in Hm. destruct Hm as [Hm|[<-|[]]]; [auto|simpl; lra].
    + exists (base, 1). split; [apply in_or_app; right; left; reflexivity|reflexivity].
  - destruct (K t k Hg Hk) as (K1 & K2 & K3). destruct Hw as (a & m & b & -> & -> & _). split; [rewrite !app_length in *; simpl in *; lia|]. split.
    + intros m' Hm. apply in_app_or in Hm. destruct Hm as [Hm|[<-|[]]]; [apply K2; apply in_app_or in Hm; apply in_or_app; simpl; tauto|simpl; lra].
    + exists (base, 1). split; [apply in_or_app; right; left; reflexivity|reflexivity].
Qed.

Lemma after_vote_id y (l : list (expert R B)) answers : length answers = length l -> map ex_weight (after_vote false y l answers) = map ex_weight l.
Proof.
  revert answers. induction l as [|e l IH]; intros [|a r] H; simpl in *; try discriminate; [reflexivity|]. unfold after_vote in IH. rewrite IH by lia. reflexivity.
Qed.

Lemma trained_weights (P : R -> Prop) mid (l : list (expert R B)) (Q : B * R -> expert R B -> Prop) :
  Forall2 (fun m e => Q m e /\ ex_weight e = snd m) mid l -> map ex_weight l = map snd mid.
Proof. induction 1 as [|m e mid l (_ & H) _ IH]; [reflexivity|]. simpl. rewrite H, IH. reflexivity. Qed.

Lemma weights_inv (l : list (expert R B)) (m : list R) : map ex_weight l = m ->
  (Z.of_nat (length m) <= n_estimators)%Z -> (forall w, In w m -> 0 < w <= 1 /\ theta <= w) -> In 1 m ->
  (Z.of_nat (length l) <= n_estimators)%Z /\ Forall (fun e => 0 < ex_weight e <= 1 /\ theta <= ex_weight e) l /\ Exists (fun e => ex_weight e = 1) l.
Proof.
  intros <- H1 H2 H3. rewrite map_length in H1. split; [auto|]. split.
  - apply Forall_forall. intros e He. apply H2. apply in_map. auto.
  - apply Exists_exists. apply in_map_iff in H3. destruct H3 as (e & He & Hin). eauto.
Qed.

Lemma dwm_one_inv s x y classes sw s' : (1 <= n_estimators)%Z -> 0 < beta -> theta <= 1 ->
  (forall b c b', predict_one L b x = Ok (c, b') -> (0 <= c)%Z) -> dwm_inv s ->
  dwm_one L base n_estimators period beta theta s x y classes sw = Ok s' -> dwm_inv s'.
Proof.
  intros Hn Hbeta Hth Hpos (Hl & Hw & He) H.
  assert (Hne : dw_experts s <> []) by (intros E; rewrite E in He; inversion He).
  apply dwm_one_spec in H; auto.
  2: { eapply Forall_impl; [|exact Hw]. intros a Ha. simpl in Ha. lra. }
  destruct H as (_ & ans & h & mid & Ha & _ & Hm & Ht & _ & _).
  pose proof (trained_weights (fun _ => True) _ _ _ Ht) as Hws. pose proof (F2_len _ _ _ Ha) as Hal.
  set (hit := (((dw_epochs s + 1) mod period) =? 0)%Z) in *. set (pre := after_vote hit y (dw_experts s) ans) in *.
  destruct hit eqn:Ehit.
  - assert (Hpl : length pre = length (dw_experts s)) by (unfold pre, after_vote; rewrite map_length, combine_length; lia).
    assert (Hround := fun A1 A2 A3 => round_inv (Z.to_nat n_estimators) (map pair_of pre) _ mid ltac:(lia) Hth A1 A2 A3 Hm).
    destruct Hround as (R1 & R2 & m & R3 & R4).
    + rewrite map_length. lia.
    + intros E. apply (f_equal (@length _)) in E. rewrite map_length, Hpl in E. destruct (dw_experts s); simpl in E; [auto|lia].
    + intros m Hin. apply in_map_iff in Hin. destruct Hin as (e & <- & Hin). unfold pre, after_vote in Hin. apply in_map_iff in Hin.
      destruct Hin as ((e0 & a) & <- & Hin). apply in_combine_l in Hin. rewrite Forall_forall in Hw. specialize (Hw _ Hin).
      cbn [pair_of snd fst ex_weight]. unfold pen, penalised. destruct (Z.eqb (fst a) y); [lra|]. apply Rmult_lt_0_compat; lra.
    + apply (weights_inv _ _ Hws).
      * rewrite map_length. lia.
      * intros w Hin. apply in_map_iff in Hin. destruct Hin as (m' & <- & Hin). auto.
      * rewrite <- R4. apply in_map. auto.
  - subst mid. rewrite map_map in Hws. cbn [pair_of snd] in Hws. unfold pre in Hws. change (map ex_weight (dw_experts s') = map ex_weight (after_vote false y (dw_experts s) ans)) in Hws.
    rewrite after_vote_id in Hws by auto. apply (weights_inv _ _ Hws).
    + rewrite map_length. auto.
    + intros w Hin. apply in_map_iff in Hin. destruct Hin as (e & <- & Hin). rewrite Forall_forall in Hw. auto.
    + apply Exists_exists in He. destruct He as (e & Hin & E). rewrite <- E. apply in_map. auto.
Qed.

(** ** A well behaved base estimator makes no call fail. *)
Lemma dwm_vote_total (I : B -> Prop) m hit x y :
  (forall b, I b -> exists c b', predict_one L b x = Ok (c, b') /\ (0 <= c <= m)%Z /\ I b') ->
  forall l i (v : tally R), Forall (fun e => I (ex_est e)) l -> (m < Z.of_nat (length (ta_preds v)))%Z ->
  exists l' v', dwm_vote L beta hit x y i l v = Ok (l', v') /\ Forall (fun e => I (ex_est e)) l'.
Proof.
  intros HI. induction l as [|e l IH]; intros i v Hl Hm; cbn [dwm_vote].
  - eexists _, _. split; [reflexivity|constructor].
  - inversion Hl as [|? ? He Hr]; subst. destruct (HI _ He) as (c & b' & -> & Hc & Hb'). cbn [bind].
    rewrite vote_ok by lia. cbv zeta. cbn [bind].
    destruct (IH (S i) (mk_tally (set_nth (ta_preds v) (Z.to_nat c) (nth (Z.to_nat c) (ta_preds v) 0 + (if (negb (c =? y)%Z && hit)%bool then (ex_weight e * beta)%num else ex_weight e)))
      (py_max (ta_max v) (if (negb (c =? y)%Z && hit)%bool then (ex_weight e * beta)%num else ex_weight e))
      (if ((if (negb (c =? y)%Z && hit)%bool then (ex_weight e * beta)%num else ex_weight e) <? ta_weak v)%num then (if (negb (c =? y)%Z && hit)%bool then (ex_weight e * beta)%num else ex_weight e) else ta_weak v)
      (if ((if (negb (c =? y)%Z && hit)%bool then (ex_weight e * beta)%num else ex_weight e) <? ta_weak v)%num then Some i else ta_idx v)) Hr) as (l' & v' & E & H).
    + cbn [ta_preds]. rewrite set_nth_len. auto.
    + rewrite E. cbn [bind]. eexists _, _. split; [reflexivity|]. constructor; auto.
Qed.

Lemma train_total (I : B -> Prop) x y classes : (forall b, I b -> exists b', lr_fit L b [(x, y)] classes None = Ok b' /\ I b') ->
  forall l, Forall (fun e => I (ex_est e)) l ->
  exists l', mapM (train L x y classes None) l = Ok l' /\ Forall (fun e => I (ex_est e)) l'.
Proof.
  intros HI. induction l as [|e l IH]; intros Hl; cbn [mapM].
  - eexists; split; [reflexivity|constructor].
  - inversion Hl as [|? ? He Hr]; subst. destruct (HI _ He) as (b' & E & Hb). destruct (IH Hr) as (l' & E' & Hl').
    unfold train at 1. rewrite E. cbn [bind]. rewrite E'. cbn [bind]. eexists; split; [reflexivity|]. constructor; auto.
Qed.

Lemma support_none votes c : (forall v, In v votes -> fst v <> c) -> support votes c = 0.
Proof.
  induction votes as [|(a & w) l IH]; intros H; [reflexivity|]. rewrite support_cons, IH by (intros; apply H; right; auto).
  destruct (Z.eqb_spec a c) as [E|E]; [exfalso; apply (H (a, w)); [left; reflexivity|exact E]|lra].
Qed.
Lemma support_pos votes c : votes <> [] -> (forall v, In v votes -> fst v = c /\ 0 < snd v) -> 0 < support votes c.
Proof.
  induction votes as [|(a & w) l IH]; intros Hn H; [congruence|]. rewrite support_cons.
  destruct (H (a, w) (or_introl eq_refl)) as (E & Hw). simpl in E, Hw. subst a. rewrite Z.eqb_refl.
  destruct l as [|v l]; [unfold support; simpl; lra|]. assert (0 < support (v :: l) c) by (apply IH; [discriminate|intros; apply H; right; auto]). lra.
Qed.

Lemma in_votes_of c w (pre : list (expert R B)) (ans : list (Z * B)) : In (c, w) (votes_of (map ex_weight pre) ans) ->
  exists e b, In (e, (c, b)) (combine pre ans) /\ ex_weight e = w.
Proof.
  unfold votes_of. revert ans. induction pre as [|e pre IH]; intros [|(c0 & b0) ans] H; simpl in H; try contradiction.
  destruct H as [H|H]; [injection H as -> <-; exists e, b0; simpl; auto|].
  destruct (IH _ H) as (e' & b & H1 & H2). exists e', b. simpl; auto.
Qed.
Lemma in_after_vote hit y e c (b : B) l ans : In (e, (c, b)) (combine (after_vote hit y l ans) ans) ->
  exists e0, In e0 l /\ ex_weight e = pen hit y c (ex_weight e0).
Proof.
  unfold after_vote. revert ans. induction l as [|e0 l IH]; intros [|a ans] H; simpl in H; try contradiction.
  destruct H as [H|H].
  - injection H as <- ->. exists e0. simpl. auto.
  - destruct (IH _ H) as (e1 & H1 & H2). exists e1. simpl; auto.
Qed.

Lemma dwm_one_total (I : Z -> B -> Prop) s x y classes :
  (1 <= n_estimators)%Z -> period <> 0%Z -> 0 < beta < 1 -> theta <= 1 -> (0 <= y)%Z -> (2 <= dw_classes s)%Z ->
  I 1%Z base -> (forall m m' b, (m <= m')%Z -> I m b -> I m' b) ->
  (forall m b x, I m b -> exists c b', predict_one L b x = Ok (c, b') /\ (0 <= c <= m)%Z /\ I m b') ->
  (forall m b x y, I m b -> (0 <= y <= m)%Z -> exists b', lr_fit L b [(x, y)] classes None = Ok b' /\ I m b') ->
  dwm_inv s -> Forall (fun e => I (dw_classes s - 1)%Z (ex_est e)) (dw_experts s) ->
  (forall b c b', predict_one L b x = Ok (c, b') -> (0 <= c)%Z) ->
  exists s', dwm_one L base n_estimators period beta theta s x y classes None = Ok s' /\
    (2 <= dw_classes s')%Z /\ Forall (fun e => I (dw_classes s' - 1)%Z (ex_est e)) (dw_experts s').
Proof.
  intros Hn Hp Hb Hth Hy Hc2 Hbase Hmono Hpred Hfit (Hl & Hw & He) HI Hpos.
  unfold dwm_one. cbv zeta. destruct (Z.eqb_spec period 0) as [E|_]; [contradiction|]. cbn [bind].
  set (nc := class_count classes y (dw_classes s)). assert (Hnc : (dw_classes s <= nc /\ y + 1 <= nc)%Z) by (unfold nc, class_count; lia).
  set (hit := (((dw_epochs s + 1) mod period) =? 0)%Z).
  assert (HI' : Forall (fun e => I (nc - 1)%Z (ex_est e)) (dw_experts s)).
  { eapply Forall_impl; [|exact HI]. intros e. apply Hmono. lia. }
  destruct (dwm_vote_total (I (nc - 1)%Z) (nc - 1) hit x y (fun b H => Hpred _ b x H) (dw_experts s) 0
    (mk_tally (repeat n0 (Z.to_nat nc)) n0 n1 None) HI') as (pre & v & Ev & Hpre).
  { cbn [ta_preds]. rewrite repeat_length. lia. }
  rewrite Ev. cbn [bind].
  pose proof (dwm_vote_spec hit x y Hpos _ _ _ _ _ Ev) as (ans & Ha & -> & Hlen & Hlt & Hs & (Hm1 & Hm2 & Hm3) & Hweak).
  cbn [ta_preds ta_max ta_weak ta_idx] in *. rewrite repeat_length in *.
  destruct (np_argmax_ok (ta_preds v)) as (h & Eh & Hh).
  { intros E. rewrite E in Hlen. simpl in Hlen. lia. }
  rewrite Eh. cbn [bind].
  assert (Hplur : plurality (Z.of_nat (Z.to_nat nc)) (votes_of (map ex_weight (after_vote hit y (dw_experts s) ans)) ans) (Z.of_nat h)).
  { rewrite <- Hlen. apply plurality_of; [|exact Hh]. intros d Hd. rewrite Hlen in Hd. rewrite Hs by lia.
    unfold n0; cbn [nofZ NumR]. rewrite repeat_nth0, Rplus_0_l. reflexivity. }
  assert (HIb : I (nc - 1)%Z base) by (apply Hmono with 1%Z; [lia|auto]).
  assert (Hne : dw_experts s <> []) by (intros E; rewrite E in He; inversion He).
  assert (Hll : length (dw_experts s) = length ans) by (eapply F2_len; exact Ha).
  set (pre := after_vote hit y (dw_experts s) ans) in *.
  assert (Hpl : length pre = length (dw_experts s)) by (unfold pre, after_vote; rewrite map_length, combine_length; lia).
  assert (Hprepos : forall e, In e pre -> 0 < ex_weight e).
  { intros e Hin. unfold pre, after_vote in Hin. apply in_map_iff in Hin. destruct Hin as ((e0 & a) & <- & Hin).
    apply in_combine_l in Hin. rewrite Forall_forall in Hw. specialize (Hw _ Hin). cbn [ex_weight fst snd]. unfold pen, penalised.
    destruct hit; [|lra]. destruct (Z.eqb (fst a) y); [lra|]. apply Rmult_lt_0_compat; lra. }
  assert (Htop : 0 < ta_max v).
  { destruct pre as [|e0 r] eqn:Ep; [destruct (dw_experts s); [congruence|simpl in Hpl; lia]|].
    pose proof (Hprepos e0 (or_introl eq_refl)). pose proof (Hm2 e0 (or_introl eq_refl)). lra. }
  assert (Hfin : forall mid, Forall (fun e => I (nc - 1)%Z (ex_est e)) mid -> exists s',
    (exps <- mapM (train L x y classes None) mid ;; Ok (mk_dwm (dw_epochs s + 1)%Z nc exps)) = Ok s' /\
    (2 <= dw_classes s')%Z /\ Forall (fun e => I (dw_classes s' - 1)%Z (ex_est e)) (dw_experts s')).
  { intros mid Hmid. destruct (train_total (I (nc - 1)%Z) x y classes) with (l := mid) as (l' & E' & Hl'); auto.
    - intros b Hb'. apply Hfit; [auto|lia].
    - rewrite E'. cbn [bind]. eexists; split; [reflexivity|]. cbn [dw_classes dw_experts]. split; [lia|auto]. }
  destruct hit eqn:Ehit; [|cbn [bind]; apply Hfin; auto].
  unfold pydiv. destruct (ta_max v =? n0)%num eqn:E0.
  { exfalso. cbn [neqb NumR] in E0. rcase. unfold n0 in E0; cbn [nofZ NumR] in E0. lra. }
  cbn [bind].
  set (k := filter (fun e => (theta <=? ex_weight e)%num) (map (fun e => mk_ex (ex_est e) (ex_weight e * (n1 / ta_max v))%num) pre)) in *.
  assert (Hkin : Forall (fun e => I (nc - 1)%Z (ex_est e)) k).
  { apply Forall_forall. intros e Hin. unfold k in Hin. apply filter_In in Hin. destruct Hin as (Hin & _). apply in_map_iff in Hin.
    destruct Hin as (e0 & <- & Hin). rewrite Forall_forall in Hpre. apply (Hpre e0 Hin). }
  destruct (Z.eqb_spec (Z.of_nat h) y) as [Ey|Ey]; [cbn [bind]; apply Hfin; auto|].
  destruct (Z.eqb_spec (Z.of_nat (length k)) n_estimators) as [El|El].
  2: { cbn [bind]. apply Hfin. apply Forall_app. split; [auto|]. constructor; [auto|constructor]. }
  destruct Hweak as [(Hi & _ & Hall)|(j & e & Hi & Hnth & _)].
  - exfalso. (* no expert was penalised: all answered y, so the ensemble did too *)
    assert (Hally : forall c w, In (c, w) (votes_of (map ex_weight pre) ans) -> c = y /\ 0 < w).
    { intros c w Hin. destruct (in_votes_of _ _ _ _ Hin) as (e & b & Hin' & <-).
      pose proof (in_combine_l _ _ _ _ Hin') as Hep. pose proof (Hprepos _ Hep) as Hpw. split; [|auto].
      pose proof (in_after_vote _ _ _ _ _ _ _ Hin') as (e0 & He0 & Hwe). specialize (Hall _ Hep).
      rewrite Forall_forall in Hw. specialize (Hw _ He0). unfold pen, penalised in Hwe. unfold n1 in Hall; cbn [nofZ NumR] in Hall.
      destruct (Z.eqb_spec c y) as [|Hcy]; [auto|]. exfalso.
      assert (ex_weight e0 * beta <= 1 * beta) by (apply Rmult_le_compat_r; lra). lra. }
    destruct Hplur as (Hr & Hmax & _).
    assert (Hzero : support (votes_of (map ex_weight pre) ans) (Z.of_nat h) = 0).
    { apply support_none. intros (c & w) Hin. destruct (Hally c w Hin) as (-> & _). simpl. congruence. }
    assert (Hposy : 0 < support (votes_of (map ex_weight pre) ans) y).
    { apply support_pos; [|intros (c & w) Hin; apply (Hally c w Hin)].
      unfold votes_of. destruct ans as [|a ans']; [destruct (dw_experts s); [congruence|simpl in Hll; lia]|].
      destruct pre as [|e r] eqn:Ep; [destruct (dw_experts s); [congruence|simpl in Hpl; lia]|discriminate]. }
    specialize (Hmax y). assert ((0 <= y < Z.of_nat (Z.to_nat nc))%Z) by lia. specialize (Hmax H). lra.
  - assert (Hkl : length k = length pre).
    { assert (length k <= length pre)%nat; [|lia]. unfold k. eapply Nat.le_trans; [apply filter_len|]. rewrite map_length. lia. }
    rewrite Hi. simpl Nat.add. unfold pop. assert (Hj : (j < length k)%nat) by (rewrite Hkl; apply nth_error_Some; congruence).
    replace (Nat.ltb j (length k)) with true by (symmetry; apply Nat.ltb_lt; auto). cbn [bind]. apply Hfin.
    apply Forall_app. split; [|constructor; [auto|constructor]]. rewrite Forall_forall in *. intros e' Hin. apply Hkin.
    apply in_app_or in Hin. destruct Hin as [Hin|Hin].
    + rewrite <- (firstn_skipn j k). apply in_or_app. left. exact Hin.
    + rewrite <- (firstn_skipn (S j) k). apply in_or_app. right. exact Hin.
Qed.
End DWM.

Lemma total_weight_sum (l : list (expert R B)) : total_weight l = Rsum (map ex_weight l).
Proof.
  unfold total_weight. assert (H : forall ws a, fold_left nadd ws a = a + Rsum ws).
  { induction ws as [|w ws IH]; intros a; simpl; [lra|]. rewrite IH. cbn [nadd NumR]. lra. }
  rewrite H. unfold n0; cbn [nofZ NumR]. lra.
Qed.

(** ** Additive experts *)
Section AE.
Variables (n_estimators : Z) (beta gamma : R) (prune : pruning).
Lemma ae_vote_spec x y : (forall b c b', predict_one L b x = Ok (c, b') -> (0 <= c)%Z) ->
  forall l preds l' preds', ae_vote L beta x y l preds = Ok (l', preds') ->
  exists answers, answer_all L x l answers /\ l' = after_vote beta true y l answers /\
    length preds' = length preds /\ Forall (fun a => (fst a < Z.of_nat (length preds))%Z) answers /\
    (forall d, (0 <= d < Z.of_nat (length preds))%Z ->
       nth (Z.to_nat d) preds' 0 = nth (Z.to_nat d) preds 0 + support (votes_of (map ex_weight l) answers) d).
Proof.
  intros Hpos. induction l as [|e l IH]; intros preds l' preds' H; cbn [ae_vote] in H.
  - injection H as <- <-. exists []. split; [constructor|]. split; [reflexivity|]. split; [reflexivity|]. split; [constructor|].
    intros d Hd. unfold support, votes_of. simpl. lra.
  - apply bind_Ok in H. destruct H as ((c, b) & Hp & H). apply bind_Ok in H. destruct H as (p1 & Hv & H).
    apply bind_Ok in H. destruct H as ((r', p2) & Hr & H). injection H as <- <-.
    pose proof (Hpos _ _ _ Hp) as Hc. pose proof (vote_range _ _ _ _ Hv Hc) as Hcr.
    rewrite (vote_ok _ _ _ Hcr) in Hv. injection Hv as <-.
    apply IH in Hr. destruct Hr as (ans & Ha & -> & Hlen & Hlt & Hs). rewrite set_nth_len in *.
    exists ((c, b) :: ans). split; [constructor; auto|]. split; [reflexivity|]. split; [exact Hlen|]. split; [constructor; [simpl; lia|exact Hlt]|].
    intros d Hd. unfold votes_of. cbn [map combine fst]. rewrite Hs by auto. apply set_nth_support; auto.
Qed.

Definition wkey (a b : expert R B) : bool := negb (ex_weight b <? ex_weight a)%num.
(** The list of experts between the vote and the training *)
Definition ae_mid (pre : list (expert R B)) (wrong : bool) : list (expert R B) :=
  let l := match prune with Weakest => sort_stable wkey pre | Oldest => pre end in
  let l := if wrong then add_expert prune l (mk_ex base (total_weight l * gamma)%num) else l in
  if (n_estimators <? Z.of_nat (length l))%Z then tl l else l.

Lemma norm_all t : t <> 0 -> forall l l' : list (expert R B), mapM (fun e => w <- pydiv (ex_weight e) t ;; Ok (mk_ex (ex_est e) w)) l = Ok l' ->
  l' = map (fun e => mk_ex (ex_est e) (ex_weight e / t)) l.
Proof.
  intros Ht. assert (Hd : forall a, pydiv a t = Ok (a / t)).
  { intros a. unfold pydiv. destruct (t =? n0)%num eqn:E; [|reflexivity]. cbn [neqb NumR] in E. rcase. unfold n0 in E; cbn [nofZ NumR] in E. lra. }
  induction l as [|e l IH]; intros l' H; cbn [mapM] in H.
  - injection H as <-. reflexivity.
  - rewrite Hd in H. cbn [bind] in H. apply bind_Ok in H. destruct H as (r & Hr & H). injection H as <-. simpl. rewrite (IH _ Hr). reflexivity.
Qed.
Lemma norm_total t : t <> 0 -> forall l : list (expert R B), mapM (fun e => w <- pydiv (ex_weight e) t ;; Ok (mk_ex (ex_est e) w)) l =
  Ok (map (fun e => mk_ex (ex_est e) (ex_weight e / t)) l).
Proof.
  intros Ht l. destruct (mapM (fun e => w <- pydiv (ex_weight e) t ;; Ok (mk_ex (ex_est e) w)) l) as [l'|e] eqn:E.
  - f_equal. apply (norm_all t Ht). exact E.
  - exfalso. assert (Hd : forall a, pydiv a t = Ok (a / t)).
    { intros a. unfold pydiv. destruct (t =? n0)%num eqn:E1; [|reflexivity]. cbn [neqb NumR] in E1. rcase. unfold n0 in E1; cbn [nofZ NumR] in E1. lra. }
    revert e E. induction l as [|a l IH]; intros e E; cbn [mapM] in E; [discriminate|]. rewrite Hd in E. cbn [bind] in E.
    destruct (mapM _ l) as [r|e'] eqn:Er; cbn [bind] in E; [discriminate|]. exact (IH _ eq_refl).
Qed.

Lemma Rsum_pos (l : list R) : l <> [] -> (forall x, In x l -> 0 < x) -> 0 < Rsum l.
Proof.
  induction l as [|a l IH]; intros Hn H; [congruence|]. simpl. pose proof (H a (or_introl eq_refl)).
  destruct l as [|b l]; [simpl; lra|]. assert (0 < Rsum (b :: l)) by (apply IH; [discriminate|intros; apply H; right; auto]). lra.
Qed.

Lemma ae_one_spec s x y classes sw s' :
  (forall b c b', predict_one L b x = Ok (c, b') -> (0 <= c)%Z) ->
  (forall wrong answers, length answers = length (ae_experts s) ->
     let mid := ae_mid (after_vote beta true y (ae_experts s) answers) wrong in mid <> [] /\ forall e, In e mid -> 0 < ex_weight e) ->
  ae_one L base n_estimators beta gamma prune s x y classes sw = Ok s' ->
  exists answers h,
    answer_all L x (ae_experts s) answers /\
    plurality (Z.of_nat (Z.to_nat (class_count classes y (ae_classes s)))) (votes_of (map ex_weight (ae_experts s)) answers) h /\
    let mid := ae_mid (after_vote beta true y (ae_experts s) answers) (negb (Z.eqb h y)) in
    let t := if ((ae_epochs s + 1) mod 1000 =? 0)%Z then 1 else Rsum (map ex_weight mid) in
    Forall2 (fun m e => lr_fit L (fst m) [(x, y)] classes sw = Ok (ex_est e) /\ ex_weight e = snd m / t) (map pair_of mid) (ae_experts s') /\
    ae_epochs s' = (ae_epochs s + 1)%Z /\ ae_classes s' = class_count classes y (ae_classes s).
Proof.
  intros Hpos Hmid H. unfold ae_one in H. cbv zeta in H.
  apply bind_Ok in H. destruct H as ((pre & preds) & Hv & H).
  destruct (ae_vote_spec x y Hpos _ _ _ _ Hv) as (ans & Ha & -> & Hlen & Hlt & Hs). rewrite repeat_length in *.
  apply bind_Ok in H. destruct H as (h & Hh & H).
  assert (Hf : first_max preds h).
  { destruct (np_argmax_ok preds) as (h' & E & F); [|rewrite Hh in E; injection E as <-; exact F].
    intros E. rewrite E in Hh. discriminate. }
  apply bind_Ok in H. destruct H as (tr & Ht & H). apply bind_Ok in H. destruct H as (fin & Hfin & H). injection H as <-.
  cbn [ae_experts ae_epochs ae_classes].
  exists ans, (Z.of_nat h). split; [exact Ha|]. split.
  { rewrite <- Hlen. apply plurality_of; [|exact Hf]. intros d Hd. rewrite Hlen in Hd. rewrite Hs by lia.
    unfold n0; cbn [nofZ NumR]. rewrite repeat_nth0, Rplus_0_l. reflexivity. }
  pose proof (F2_len _ _ _ Ha) as Hal. specialize (Hmid (negb (Z.of_nat h =? y)%Z) ans ltac:(lia)). cbv zeta in *.
  set (pre := after_vote beta true y (ae_experts s) ans) in *.
  assert (Hm : mapM (train L x y classes sw) (ae_mid pre (negb (Z.of_nat h =? y)%Z)) = Ok tr).
  { unfold ae_mid. unfold wkey. destruct (Z.of_nat h =? y)%Z; exact Ht. }
  set (mid := ae_mid pre (negb (Z.of_nat h =? y)%Z)) in *. clear Ht.
  apply train_all in Hm. destruct Hmid as (Hne & Hmp).
  assert (Hws : map ex_weight tr = map ex_weight mid).
  { pose proof (trained_weights (fun _ => True) _ _ _ Hm) as E. rewrite map_map in E. exact E. }
  split; [|split; reflexivity].
  destruct ((ae_epochs s + 1) mod 1000 =? 0)%Z.
  - injection Hfin as <-. clear -Hm. induction Hm as [|m e l l' (H1 & H2) _ IH]; constructor; auto. split; [auto|]. rewrite H2. field.
  - assert (Hpw : 0 < Rsum (map ex_weight mid)).
    { apply Rsum_pos; [destruct mid; [congruence|discriminate]|]. intros w Hw. apply in_map_iff in Hw. destruct Hw as (e & <- & He). auto. }
    rewrite total_weight_sum, Hws in Hfin. apply norm_all in Hfin; [|lra]. subst fin.
    remember (Rsum (map ex_weight mid)) as t. clear -Hm. induction Hm as [|m e l l' (H1 & H2) _ IH]; constructor; auto.
    split; [auto|]. cbn [ex_weight]. rewrite H2. reflexivity.
Qed.

(** *** Invariant *)
Definition ae_inv (s : addexp R B) : Prop :=
  (1 <= Z.of_nat (length (ae_experts s)) <= n_estimators)%Z /\ Forall (fun e => 0 < ex_weight e) (ae_experts s).

Lemma insert_in (f : expert R B -> expert R B -> bool) a l e : In e (insert_stable f a l) <-> e = a \/ In e l.
Proof. induction l as [|b l IH]; simpl; [intuition|]. destruct (f a b); simpl; [intuition|rewrite IH; intuition]. Qed.
Lemma insert_len (f : expert R B -> expert R B -> bool) a l : length (insert_stable f a l) = S (length l).
Proof. induction l as [|b l IH]; simpl; [reflexivity|]. destruct (f a b); simpl; [reflexivity|]. rewrite IH. reflexivity. Qed.
Lemma sorted_in (f : expert R B -> expert R B -> bool) l e : In e (sort_stable f l) <-> In e l.
Proof. induction l as [|b l IH]; simpl; [reflexivity|]. unfold sort_stable in *. simpl. rewrite insert_in, IH. intuition. Qed.
Lemma sorted_len (f : expert R B -> expert R B -> bool) l : length (sort_stable f l) = length l.
Proof. induction l as [|b l IH]; simpl; [reflexivity|]. unfold sort_stable in *. simpl. rewrite insert_len, IH. reflexivity. Qed.
Lemma add_weakest_in (l : list (expert R B)) new e : In e (add_weakest l new) <-> e = new \/ In e l.
Proof.
  induction l as [|a l IH]; cbn [add_weakest]; [simpl; intuition|]. destruct (ex_weight a <? ex_weight new)%num.
  - simpl. intuition.
  - cbn [In]. rewrite IH. intuition.
Qed.
Lemma add_weakest_len (l : list (expert R B)) new : length (add_weakest l new) = S (length l).
Proof. induction l as [|a l IH]; cbn [add_weakest]; [reflexivity|]. destruct (ex_weight a <? ex_weight new)%num; cbn [length]; auto. Qed.
Lemma add_in l new e : In e (add_expert prune l new) <-> e = new \/ In e (l : list (expert R B)).
Proof. unfold add_expert. destruct prune; [apply add_weakest_in|]. rewrite in_app_iff. simpl. intuition. Qed.
Lemma add_len l new : length (add_expert prune l new) = S (length (l : list (expert R B))).
Proof. unfold add_expert. destruct prune; [apply add_weakest_len|]. rewrite app_length. simpl. lia. Qed.
Lemma tl_in {A} (l : list A) e : In e (tl l) -> In e l.
Proof. destruct l; simpl; auto. Qed.

Lemma total_pos (l : list (expert R B)) : l <> [] -> (forall e, In e l -> 0 < ex_weight e) -> 0 < total_weight l.
Proof.
  intros Hne H. rewrite total_weight_sum. apply Rsum_pos; [destruct l; [congruence|discriminate]|].
  intros w Hw. apply in_map_iff in Hw. destruct Hw as (e & <- & He). auto.
Qed.

Lemma ae_mid_ok (pre : list (expert R B)) wrong : 0 < gamma -> (1 <= Z.of_nat (length pre) <= n_estimators)%Z ->
  (forall e, In e pre -> 0 < ex_weight e) ->
  (1 <= Z.of_nat (length (ae_mid pre wrong)) <= n_estimators)%Z /\ (forall e, In e (ae_mid pre wrong) -> 0 < ex_weight e).
Proof.
  intros Hg Hl Hw. unfold ae_mid.
  set (l := match prune with Weakest => sort_stable wkey pre | Oldest => pre end).
  assert (Hll : length l = length pre) by (unfold l; destruct prune; [apply sorted_len|reflexivity]).
  assert (Hlw : forall e, In e l -> 0 < ex_weight e).
  { intros e He. apply Hw. unfold l in He. destruct prune; [apply sorted_in in He|]; auto. }
  assert (Hne : l <> []) by (intros E; rewrite E in Hll; simpl in Hll; lia).
  pose proof (total_pos l Hne Hlw) as Ht.
  set (l2 := if wrong then add_expert prune l (mk_ex base (total_weight l * gamma)%num) else l).
  assert (H2w : forall e, In e l2 -> 0 < ex_weight e).
  { intros e He. unfold l2 in He. destruct wrong; [|auto]. apply add_in in He. destruct He as [->|He]; [|auto].
    cbn [ex_weight nmul NumR]. apply Rmult_lt_0_compat; auto. }
  assert (H2l : (length pre <= length l2 <= S (length pre))%nat) by (unfold l2; destruct wrong; [rewrite add_len|]; lia).
  cbv zeta. destruct (Z.ltb_spec n_estimators (Z.of_nat (length l2))) as [Hb|Hb].
  - split; [|intros e He; apply H2w, tl_in, He]. destruct l2 as [|a r]; simpl in *; lia.
  - split; [lia|exact H2w].
Qed.

Lemma after_vote_pos hit y (l : list (expert R B)) answers : 0 < beta -> Forall (fun e => 0 < ex_weight e) l ->
  forall e, In e (after_vote beta hit y l answers) -> 0 < ex_weight e.
Proof.
  intros Hb Hw e Hin. unfold after_vote in Hin. apply in_map_iff in Hin. destruct Hin as ((e0 & a) & <- & Hin).
  apply in_combine_l in Hin. rewrite Forall_forall in Hw. specialize (Hw _ Hin). cbn [ex_weight fst snd]. unfold pen, penalised.
  destruct hit; [|auto]. destruct (Z.eqb (fst a) y); [auto|]. apply Rmult_lt_0_compat; auto.
Qed.
Lemma after_vote_len hit y (l : list (expert R B)) answers : length answers = length l -> length (after_vote beta hit y l answers) = length l.
Proof. intros H. unfold after_vote. rewrite map_length, combine_length. lia. Qed.

Lemma Rsum_div (l : list R) t : Rsum (map (fun w => w / t) l) = Rsum l / t.
Proof. induction l as [|a l IH]; simpl; [unfold Rdiv; lra|]. rewrite IH. unfold Rdiv. ring. Qed.

Lemma ae_one_inv s x y classes sw s' : 0 < beta -> 0 < gamma ->
  (forall b c b', predict_one L b x = Ok (c, b') -> (0 <= c)%Z) -> ae_inv s ->
  ae_one L base n_estimators beta gamma prune s x y classes sw = Ok s' ->
  ae_inv s' /\ ae_epochs s' = (ae_epochs s + 1)%Z /\
  (((ae_epochs s + 1) mod 1000 <> 0)%Z -> Rsum (map ex_weight (ae_experts s')) = 1).
Proof.
  intros Hb Hg Hpos (Hl & Hw) H.
  assert (Hmid : forall wrong answers, length answers = length (ae_experts s) ->
    let mid := ae_mid (after_vote beta true y (ae_experts s) answers) wrong in
    (1 <= Z.of_nat (length mid) <= n_estimators)%Z /\ forall e, In e mid -> 0 < ex_weight e).
  { intros wrong answers Ha. apply ae_mid_ok; auto; [rewrite after_vote_len by auto; auto|]. intros e. apply after_vote_pos; auto. }
  apply ae_one_spec in H; auto.
  2: { intros wrong answers Ha. destruct (Hmid wrong answers Ha) as (H1 & H2). cbv zeta. split; [|auto].
       intros E. rewrite E in H1. simpl in H1. lia. }
  destruct H as (ans & h & Ha & _ & Ht & Hep & _). cbv zeta in Ht. pose proof (F2_len _ _ _ Ha) as Hal.
  destruct (Hmid (negb (Z.eqb h y)) ans ltac:(lia)) as (H1 & H2).
  set (mid := ae_mid (after_vote beta true y (ae_experts s) ans) (negb (Z.eqb h y))) in *.
  assert (Hpw : 0 < Rsum (map ex_weight mid)).
  { apply Rsum_pos; [destruct mid; [simpl in H1; lia|discriminate]|]. intros w Hin. apply in_map_iff in Hin. destruct Hin as (e & <- & He). auto. }
  set (t := if ((ae_epochs s + 1) mod 1000 =? 0)%Z then 1 else Rsum (map ex_weight mid)) in *.
  assert (Ht0 : 0 < t) by (unfold t; destruct ((ae_epochs s + 1) mod 1000 =? 0)%Z; lra).
  assert (Hws : map ex_weight (ae_experts s') = map (fun w => w / t) (map ex_weight mid)).
  { clear -Ht. clearbody t. clearbody mid. revert Ht. generalize (ae_experts s'). induction mid as [|e mid IH]; intros l Hf; inversion Hf as [|? ? ? ? (_ & E) Hr]; subst; [reflexivity|].
    simpl. rewrite E. rewrite (IH _ Hr). reflexivity. }
  split; [|split; [exact Hep|]].
  - split.
    + rewrite <- (map_length ex_weight), Hws, !map_length. exact H1.
    + apply Forall_forall. intros e He. apply (in_map ex_weight) in He. rewrite Hws in He. rewrite map_map in He. apply in_map_iff in He.
      destruct He as (e0 & <- & He). apply Rdiv_lt_0_compat; auto.
  - intros Hm. rewrite Hws, Rsum_div. unfold t. destruct (Z.eqb_spec ((ae_epochs s + 1) mod 1000) 0); [contradiction|]. field. lra.
Qed.

(** *** No call fails *)
Lemma ae_vote_total (I : B -> Prop) m x y :
  (forall b, I b -> exists c b', predict_one L b x = Ok (c, b') /\ (0 <= c <= m)%Z /\ I b') ->
  forall l preds, Forall (fun e => I (ex_est e)) l -> (m < Z.of_nat (length preds))%Z ->
  exists l' preds', ae_vote L beta x y l preds = Ok (l', preds') /\ Forall (fun e => I (ex_est e)) l'.
Proof.
  intros HI. induction l as [|e l IH]; intros preds Hl Hm; cbn [ae_vote].
  - eexists _, _. split; [reflexivity|constructor].
  - inversion Hl as [|? ? He Hr]; subst. destruct (HI _ He) as (c & b' & -> & Hc & Hb'). cbn [bind].
    rewrite vote_ok by lia. cbn [bind].
    destruct (IH (set_nth preds (Z.to_nat c) (nth (Z.to_nat c) preds 0 + ex_weight e)) Hr) as (l' & p' & E & H).
    + rewrite set_nth_len. auto.
    + rewrite E. cbn [bind]. eexists _, _. split; [reflexivity|]. constructor; auto.
Qed.

Lemma ae_one_total (I : Z -> B -> Prop) s x y classes :
  0 < beta -> 0 < gamma -> (0 <= y)%Z -> (2 <= ae_classes s)%Z ->
  I 1%Z base -> (forall m m' b, (m <= m')%Z -> I m b -> I m' b) ->
  (forall m b x, I m b -> exists c b', predict_one L b x = Ok (c, b') /\ (0 <= c <= m)%Z /\ I m b') ->
  (forall m b x y, I m b -> (0 <= y <= m)%Z -> exists b', lr_fit L b [(x, y)] classes None = Ok b' /\ I m b') ->
  ae_inv s -> Forall (fun e => I (ae_classes s - 1)%Z (ex_est e)) (ae_experts s) ->
  (forall b c b', predict_one L b x = Ok (c, b') -> (0 <= c)%Z) ->
  exists s', ae_one L base n_estimators beta gamma prune s x y classes None = Ok s' /\
    (2 <= ae_classes s')%Z /\ Forall (fun e => I (ae_classes s' - 1)%Z (ex_est e)) (ae_experts s').
Proof.
  intros Hb Hg Hy Hc2 Hbase Hmono Hpred Hfit (Hl & Hw) HI Hpos.
  unfold ae_one. cbv zeta.
  set (nc := class_count classes y (ae_classes s)). assert (Hnc : (ae_classes s <= nc /\ y + 1 <= nc)%Z) by (unfold nc, class_count; lia).
  assert (HI' : Forall (fun e => I (nc - 1)%Z (ex_est e)) (ae_experts s)).
  { eapply Forall_impl; [|exact HI]. intros e. apply Hmono. lia. }
  destruct (ae_vote_total (I (nc - 1)%Z) (nc - 1) x y (fun b H => Hpred _ b x H) (ae_experts s) (repeat n0 (Z.to_nat nc)) HI') as (pre & preds & Ev & Hpre).
  { rewrite repeat_length. lia. }
  rewrite Ev. cbn [bind].
  destruct (ae_vote_spec x y Hpos _ _ _ _ Ev) as (ans & Ha & -> & Hlen & _). rewrite repeat_length in *.
  destruct (np_argmax_ok preds) as (h & Eh & Hh).
  { intros E. rewrite E in Hlen. simpl in Hlen. lia. }
  rewrite Eh. cbn [bind].
  pose proof (F2_len _ _ _ Ha) as Hal. set (pre := after_vote beta true y (ae_experts s) ans) in *.
  assert (Hmid : (1 <= Z.of_nat (length (ae_mid pre (negb (Z.of_nat h =? y)%Z))) <= n_estimators)%Z /\ forall e, In e (ae_mid pre (negb (Z.of_nat h =? y)%Z)) -> 0 < ex_weight e).
  { apply ae_mid_ok; auto; [unfold pre; rewrite after_vote_len by auto; auto|]. intros e. apply after_vote_pos; auto. }
  assert (HIb : I (nc - 1)%Z base) by (apply Hmono with 1%Z; [lia|auto]).
  assert (HmI : Forall (fun e => I (nc - 1)%Z (ex_est e)) (ae_mid pre (negb (Z.of_nat h =? y)%Z))).
  { rewrite Forall_forall in *. intros e He. unfold ae_mid in He.
    set (l := match prune with Weakest => sort_stable wkey pre | Oldest => pre end) in He.
    assert (Hlp : forall e, In e l -> In e pre) by (intros a Hin; unfold l in Hin; destruct prune; [apply sorted_in in Hin|]; auto).
    assert (Hin : In e (if negb (Z.of_nat h =? y)%Z then add_expert prune l (mk_ex base (total_weight l * gamma)%num) else l)).
    { cbv zeta in He. destruct (n_estimators <? _)%Z in He; [apply tl_in in He|]; exact He. }
    destruct (negb (Z.of_nat h =? y)%Z); [apply add_in in Hin; destruct Hin as [->|Hin]; [exact HIb|]|]; apply Hpre, Hlp, Hin. }
  match goal with |- exists s', bind (mapM _ ?m) _ = _ /\ _ => replace m with (ae_mid pre (negb (Z.of_nat h =? y)%Z)) by (unfold ae_mid, wkey; destruct (Z.of_nat h =? y)%Z; reflexivity) end.
  destruct (train_total (I (nc - 1)%Z) x y classes) with (l := ae_mid pre (negb (Z.of_nat h =? y)%Z)) as (tr & E' & Htr); auto.
  { intros b Hb'. apply Hfit; [auto|lia]. }
  rewrite E'. cbn [bind]. apply train_all in E'.
  assert (Hws : map ex_weight tr = map ex_weight (ae_mid pre (negb (Z.of_nat h =? y)%Z))).
  { pose proof (trained_weights (fun _ => True) _ _ _ E') as E. rewrite map_map in E. exact E. }
  destruct ((ae_epochs s + 1) mod 1000 =? 0)%Z.
  - cbn [bind]. eexists; split; [reflexivity|]. cbn [ae_classes ae_experts]. split; [lia|auto].
  - rewrite norm_total.
    + cbn [bind]. eexists; split; [reflexivity|]. cbn [ae_classes ae_experts]. split; [lia|]. rewrite Forall_forall in *.
      intros e He. apply in_map_iff in He. destruct He as (e0 & <- & He). cbn [ex_est]. auto.
    + rewrite total_weight_sum, Hws. destruct Hmid as (M1 & M2).
      assert (0 < Rsum (map ex_weight (ae_mid pre (negb (Z.of_nat h =? y)%Z)))); [|lra].
      apply Rsum_pos; [destruct (ae_mid pre (negb (Z.of_nat h =? y)%Z)); [simpl in M1; lia|discriminate]|].
      intros w Hin. apply in_map_iff in Hin. destruct Hin as (e & <- & He). auto.
Qed.

(** *** What the two ways of pruning do *)
Lemma ae_mid_oldest pre wrong : prune = Oldest -> (Z.of_nat (length pre) <= n_estimators)%Z ->
  ae_mid pre wrong = lastn (Z.to_nat n_estimators) (pre ++ if wrong then [mk_ex base (Rsum (map ex_weight pre) * gamma)] else []).
Proof.
  intros E Hl. unfold ae_mid. rewrite E. cbv zeta. unfold add_expert.
  destruct wrong.
  - rewrite <- total_weight_sum. set (l := pre ++ _). destruct (Z.ltb_spec n_estimators (Z.of_nat (length l))) as [Hb|Hb].
    + unfold lastn. assert (Hll : length l = S (length pre)) by (unfold l; rewrite app_length; simpl; lia).
      replace (length l - Z.to_nat n_estimators)%nat with 1%nat by lia. destruct l; reflexivity.
    + symmetry. apply lastn_all. lia.
  - rewrite app_nil_r. destruct (Z.ltb_spec n_estimators (Z.of_nat (length pre))) as [Hb|Hb]; [lia|]. symmetry. apply lastn_all. lia.
Qed.

Lemma wkey_true a b : wkey a b = true <-> ex_weight a <= ex_weight b.
Proof. unfold wkey. cbn [nltb NumR]. destruct (Rltb (ex_weight b) (ex_weight a)) eqn:E; rcase; simpl; split; intros; try lra; try discriminate; auto. Qed.
Lemma sorted_by_weight l : StronglySorted (fun a b => ex_weight a <= ex_weight b) (sort_stable wkey l).
Proof.
  assert (H : StronglySorted (fun a b => wkey a b = true) (sort_stable wkey l)).
  { apply sort_stable_sorted.
    - intros a b H. apply wkey_true. assert (~ ex_weight a <= ex_weight b) by (rewrite <- wkey_true, H; discriminate). lra.
    - intros a b c H1 H2. apply wkey_true in H1, H2. apply wkey_true. lra. }
  induction H as [|a r H IH F]; constructor; auto. eapply Forall_impl; [|exact F]. intros b. apply wkey_true.
Qed.
Lemma add_weakest_last l (new : expert R B) : (forall e, In e l -> ex_weight new <= ex_weight e) -> add_weakest l new = l ++ [new].
Proof.
  induction l as [|a l IH]; intros H; cbn [add_weakest]; [reflexivity|]. cbn [nltb NumR].
  destruct (Rltb (ex_weight a) (ex_weight new)) eqn:E; rcase.
  - specialize (H a (or_introl eq_refl)). lra.
  - rewrite IH by (intros; apply H; right; auto). reflexivity.
Qed.
(** A full ensemble that answered wrongly: either the new expert is the one that goes, or it stays and the weakest goes. *)
Lemma ae_mid_weakest pre w0 : prune = Weakest -> Z.of_nat (length pre) = n_estimators -> (1 <= n_estimators)%Z ->
  let new := mk_ex base (Rsum (map ex_weight pre) * gamma) in
  (exists e, In e pre /\ w0 = ex_weight e) -> (forall e, In e pre -> w0 <= ex_weight e) ->
  if Rlt_dec w0 (ex_weight new) then Permutation pre (ae_mid pre true) /\ length (ae_mid pre true) = length pre
  else exists e r, Permutation pre (e :: r) /\ ex_weight e = w0 /\ ae_mid pre true = r ++ [new].
Proof.
  intros E Hl Hn new Hin Hmin. unfold ae_mid. rewrite E. cbv zeta. unfold add_expert.
  pose proof (sort_stable_perm wkey pre) as P. pose proof (sorted_by_weight pre) as S0.
  set (l := sort_stable wkey pre) in *.
  assert (Ht : total_weight l = Rsum (map ex_weight pre)).
  { rewrite total_weight_sum. clear -P. induction P; simpl; lra. }
  rewrite Ht. change (total_weight l * gamma)%num with (total_weight l * gamma).
  change (mk_ex base (Rsum (map ex_weight pre) * gamma)%num) with new.
  assert (Hlen : length l = length pre) by (symmetry; apply Permutation_length; auto).
  destruct l as [|e r] eqn:El; [simpl in Hlen; lia|].
  assert (He : ex_weight e = w0).
  { destruct Hin as (e1 & Hin & ->). apply Rle_antisym.
    - apply (Permutation_in _ P) in Hin. destruct Hin as [<-|Hin]; [lra|]. inversion S0 as [|? ? _ F]; subst. rewrite Forall_forall in F. auto.
    - apply Hmin. apply (Permutation_in _ (Permutation_sym P)). left; reflexivity. }
  destruct (Rlt_dec w0 (ex_weight new)) as [Hlt|Hge].
  - cbn [add_weakest]. cbn [nltb NumR]. replace (Rltb (ex_weight e) (ex_weight new)) with true by (symmetry; apply Rltb_true; lra).
    replace (n_estimators <? Z.of_nat (length (new :: e :: r)))%Z with true by (symmetry; apply Z.ltb_lt; simpl in *; lia).
    cbn [tl]. split; auto.
  - rewrite add_weakest_last.
    + replace (n_estimators <? Z.of_nat (length ((e :: r) ++ [new])))%Z with true by (symmetry; apply Z.ltb_lt; rewrite app_length; simpl in *; lia).
      exists e, r. split; [auto|]. split; [auto|]. reflexivity.
    + intros e' He'. specialize (Hmin e'). assert (In e' pre) by (apply (Permutation_in _ (Permutation_sym P)); auto). specialize (Hmin H). lra.
Qed.
Lemma min_exists (l : list (expert R B)) : l <> [] -> exists w0, (exists e, In e l /\ w0 = ex_weight e) /\ forall e, In e l -> w0 <= ex_weight e.
Proof.
  induction l as [|a l IH]; intros Hn; [congruence|]. destruct l as [|b l].
  - exists (ex_weight a). split; [exists a; simpl; auto|]. intros e [<-|[]]. lra.
  - destruct IH as (w & (e & Hin & ->) & Hmin); [discriminate|]. destruct (Rle_dec (ex_weight a) (ex_weight e)) as [H|H].
    + exists (ex_weight a). split; [exists a; split; [left; reflexivity|auto]|]. intros e' [<-|He']; [lra|]. specialize (Hmin e' He'). lra.
    + exists (ex_weight e). split; [exists e; split; [right; auto|auto]|]. intros e' [<-|He']; [lra|auto].
Qed.
Lemma min_sum (l : list (expert R B)) w0 : (forall e, In e l -> w0 <= ex_weight e) -> w0 * INR (length l) <= Rsum (map ex_weight l).
Proof.
  induction l as [|a l IH]; intros H; [simpl; lra|]. rewrite map_cons. cbn [length Rsum]. rewrite S_INR.
  pose proof (H a (or_introl eq_refl)). assert (w0 * INR (length l) <= Rsum (map ex_weight l)) by (apply IH; intros; apply H; right; auto). lra.
Qed.
End AE.

(** ** The prediction *)
Lemma zip_add_len (a b : list R) : length a = length b -> length (zip_add a b) = length a.
Proof. revert b. induction a as [|x a IH]; intros [|y b] H; simpl in *; auto; try discriminate. Qed.
Lemma zip_add_nth (a b : list R) i : length a = length b -> nth i (zip_add a b) 0 = nth i a 0 + nth i b 0.
Proof.
  revert b i. induction a as [|x a IH]; intros [|y b] [|i] H; simpl in *; try discriminate; try reflexivity; try lra; auto.
Qed.
Lemma zip_fold (rows : list (list R)) : forall acc, Forall (fun r => length r = length acc) rows ->
  length (fold_left zip_add rows acc) = length acc /\
  forall i, nth i (fold_left zip_add rows acc) 0 = nth i acc 0 + Rsum (map (fun r => nth i r 0) rows).
Proof.
  induction rows as [|r rows IH]; intros acc H; simpl.
  - split; [reflexivity|]. intros i. lra.
  - inversion H as [|? ? Hr Hrest]; subst. destruct (IH (zip_add acc r)) as (I1 & I2).
    { eapply Forall_impl; [|exact Hrest]. intros q Hq. simpl in Hq. rewrite zip_add_len by lia. auto. }
    rewrite zip_add_len in I1 by lia. split; [auto|]. intros i. rewrite I2, zip_add_nth by lia. lra.
Qed.

Lemma ask_spec xs : forall (l : list (expert R B)) ps l', ask L l xs = Ok (ps, l') ->
  Forall2 (fun e p => exists b', lr_predict L (ex_est e) xs = Ok (p, b')) l ps /\ map ex_weight l' = map ex_weight l.
Proof.
  induction l as [|e l IH]; intros ps l' H; cbn [ask] in H.
  - injection H as <- <-. split; [constructor|reflexivity].
  - apply bind_Ok in H. destruct H as ((p & b) & Hp & H). apply bind_Ok in H. destruct H as ((ps0 & es) & Hr & H). injection H as <- <-.
    destruct (IH _ _ Hr) as (H1 & H2). split; [constructor; eauto|]. simpl. rewrite H2. reflexivity.
Qed.
Lemma experts_predict_mean l xs out l' : label_per_row L -> l <> [] ->
  experts_predict L Rtrunc l xs = Ok (out, l') ->
  exists ps, Forall2 (fun e p => exists b', lr_predict L (ex_est e) xs = Ok (p, b')) l ps /\
    length out = length xs /\ map ex_weight l' = map ex_weight l /\
    forall i, (i < length xs)%nat -> nth i out 0%Z = Rtrunc (mean_label (row_votes_of l ps i) + 1 / 2).
Proof.
  intros Hrow Hne H. unfold experts_predict in H. apply bind_Ok in H. destruct H as ((ps & l1) & Ha & H).
  destruct (ask_spec _ _ _ _ Ha) as (Hps & Hws). exists ps. split; [exact Hps|].
  destruct l as [|e0 r0] eqn:El; [congruence|]. rewrite <- El in *. cbv zeta in H. injection H as <- <-. clear e0 r0 El Ha.
  set (rows := map (map (fun v => (v / total_weight l)%num)) (map (fun pe : list Z * expert R B => map (fun c => (nofZ c * ex_weight (snd pe))%num) (fst pe)) (combine ps l))).
  assert (Hlen : Forall (fun r => length r = length (repeat (@n0 R NumR) (length xs))) rows).
  { rewrite repeat_length. unfold rows. rewrite map_map. apply Forall_forall. intros r Hr. apply in_map_iff in Hr.
    destruct Hr as ((p & e) & <- & Hin). rewrite !map_length. cbn [fst].
    assert (Hp : exists e' : expert R B, exists b', lr_predict L (ex_est e') xs = Ok (p, b')).
    { apply in_combine_l in Hin. clear -Hps Hin. induction Hps as [|a b l0 m Hab _ IH]; [destruct Hin|].
      destruct Hin as [<-|Hin]; [eauto|auto]. }
    destruct Hp as (e' & b' & Hp). apply (Hrow _ _ _ _ Hp). }
  destruct (zip_fold rows (repeat n0 (length xs)) Hlen) as (Z1 & Z2). rewrite repeat_length in Z1.
  split; [rewrite map_length; exact Z1|]. split; [exact Hws|]. intros i Hi.
  change (nth i (map (fun a => Rtrunc (a + 1 / 2)) (fold_left zip_add rows (repeat n0 (length xs)))) 0%Z = Rtrunc (mean_label (row_votes_of l ps i) + 1 / 2)).
  rewrite (nth_indep _ _ (Rtrunc (0 + 1 / 2))) by (rewrite map_length, Z1; auto).
  rewrite (map_nth (fun a => Rtrunc (a + 1 / 2))). f_equal.
  f_equal. rewrite Z2. unfold n0; cbn [nofZ NumR]. rewrite repeat_nth0, Rplus_0_l.
  unfold mean_label, row_votes_of.
  assert (HW : forall (ps : list (list Z)) l0, length l0 = length ps -> map snd (combine (map (fun p => nth i p 0%Z) ps) (map ex_weight (l0 : list (expert R B)))) = map ex_weight l0).
  { clear. induction ps as [|p ps IH]; intros [|e l0] Hl; simpl in *; try discriminate; [reflexivity|]. rewrite IH by lia. reflexivity. }
  pose proof (F2_len _ _ _ Hps) as Hpl. rewrite HW by lia. rewrite <- total_weight_sum.
  assert (Hsum : forall t (ps : list (list Z)) (l0 : list (expert R B)), Forall (fun p => length p = length xs) ps ->
    Rsum (map (fun r => nth i r 0) (map (map (fun v => (v / t)%num)) (map (fun pe : list Z * expert R B => map (fun c => (nofZ c * ex_weight (snd pe))%num) (fst pe)) (combine ps l0)))) =
    Rsum (map (fun v : Z * R => IZR (fst v) * snd v) (combine (map (fun p => nth i p 0%Z) ps) (map ex_weight l0))) / t).
  { clear -Hi. intros t. induction ps as [|p ps IH]; intros [|e l0] Hf; simpl; try (unfold Rdiv; lra).
    inversion Hf as [|? ? Hp Hrest]; subst. rewrite IH by auto. cbn [nofZ nmul ndiv NumR].
    rewrite map_map. rewrite (nth_indep _ 0 ((fun c => IZR c * ex_weight e / t) 0%Z)) by (rewrite map_length; lia).
    rewrite (map_nth (fun c => IZR c * ex_weight e / t)). unfold Rdiv. ring. }
  apply Hsum. apply Forall_forall. intros p Hin. clear -Hps Hin Hrow. induction Hps as [|a b l0 m (b' & Hab) _ IH]; [destruct Hin|].
  destruct Hin as [<-|Hin]; [exact (Hrow _ _ _ _ Hab)|auto].
Qed.
End E.
