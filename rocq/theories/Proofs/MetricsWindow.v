From Coq Require Import List ZArith Bool Reals Lia Lra Sorted Permutation.
From Verif Require Import Base.Py Base.Num Model.ClassMetrics Spec.Lists Spec.MetricsSpec Proofs.ListFacts Proofs.ConfMatProofs
  Proofs.DdmProofs Proofs.MetricsProofs Proofs.MetricsScores.
Import ListNotations.
Local Open Scope Z_scope.

Definition all_positive (l : list (Z * Z * R)) : Prop := Forall (fun r => 0 < r_weight r)%R l.
Lemma all_positive_positive l : all_positive l -> positive l = l.
Proof.
  induction 1 as [|r l H _ IH]; [reflexivity|]. simpl.
  replace (Rltb 0 (r_weight r)) with true by (symmetry; apply Rltb_true; auto). f_equal. exact IH.
Qed.
Lemma all_positive_nonneg l : all_positive l -> nonneg l.
Proof. intros H. eapply Forall_impl; [|exact H]. simpl. intros; lra. Qed.
Lemma unit_all_positive l : unit_weights l -> all_positive l.
Proof. intros H. eapply Forall_impl; [|exact H]. simpl. intros r ->. lra. Qed.

Fixpoint nc_flags (prev : Z) (l : list (Z * Z * R)) : list bool :=
  match l with [] => [] | r :: l' => (prev =? r_true r) :: nc_flags (r_true r) l' end.
Lemma nc_flags_snoc l : forall prev r, nc_flags prev (l ++ [r]) = nc_flags prev l ++ [last (map r_true l) prev =? r_true r].
Proof.
  induction l as [|a l IH]; intros prev r; simpl; [reflexivity|]. rewrite IH. repeat f_equal.
  destruct (map r_true l) eqn:E; [reflexivity|]. apply last_default. discriminate.
Qed.

Definition q_result (e : Z * Z * R * bool * bool) : Z * Z * R := fst (fst e).
Definition q_maj (e : Z * Z * R * bool * bool) : bool := snd (fst e).
Definition q_nc (e : Z * Z * R * bool * bool) : bool := snd e.
Definition maj_sum (q : list (Z * Z * R * bool * bool)) : R :=
  Rsum (map (fun e => if q_maj e then r_weight (q_result e) else 0%R) q).

Record WOk (n : Z) (s : wcpe R) (prev : Z) (l : list (Z * Z * R)) : Prop := {
  wo_queue : map q_result (w_queue s) = l;
  wo_cm : CmOk (e_cm (w_ev s)) l;
  wo_n : e_n (w_ev s) = Z.of_nat (length l);
  wo_tw : (0 <= e_tw (w_ev s))%R /\ (l <> [] -> (0 < e_tw (w_ev s))%R);
  wo_last : e_last_true (w_ev s) = last (map r_true l) prev;
  wo_flags : map q_nc (w_queue s) = nc_flags prev l;
  wo_nc : e_nc (w_ev s) = repeat_weight prev l;
  wo_maj : e_maj (w_ev s) = maj_sum (w_queue s);
  wo_pos : all_positive l;
  wo_size : w_size s = n
}.

Lemma wcpe_new_ok k n : WOk n (wcpe_new k n) 0 [].
Proof.
  constructor; try reflexivity; simpl.
  - apply cfm_new_ok.
  - split; [unfold n0; simpl; lra|congruence].
  - constructor.
Qed.

Lemma last_cons {A} (x : A) l d : last (x :: l) d = last l x.
Proof.
  simpl. destruct l as [|y l]; [reflexivity|]. apply last_default. discriminate.
Qed.

Lemma wcpe_evict_ok n s prev r l : WOk n s prev (r :: l) ->
  exists s', wcpe_evict s = Ok s' /\ WOk n s' (r_true r) l.
Proof.
  intros [H1 H2 H3 H4 H5 H6 H7 H8 H9 H10]. unfold wcpe_evict.
  destruct (w_queue s) as [|[[[[t p] w] fm] fn] q] eqn:Eq; [discriminate|].
  simpl in H1, H6. unfold q_result in H1 at 1; simpl in H1. inversion H1; subst r. injection H6 as Hfn Hfl.
  eexists. split; [reflexivity|]. inversion H9; subst. constructor; simpl; auto.
  - unfold n0; simpl. apply cfm_set_remove. auto.
  - rewrite H3. simpl length. lia.
  - split; [tauto|]. intros _. apply H4. discriminate.
  - rewrite H5. change (map r_true ((t, p, w) :: map q_result q)) with (t :: map r_true (map q_result q)).
    rewrite last_cons. reflexivity.
  - rewrite H7. simpl. unfold r_weight, q_nc; simpl.
    destruct (prev =? r_true (t, p, w)); simpl; lra.
  - rewrite H8. unfold maj_sum. cbn [map Rsum]. generalize (Rsum (map (fun e => if q_maj e then r_weight (q_result e) else 0%R) q)).
    intros x. destruct fm; cbn; lra.
Qed.

Lemma wcpe_record_ok n s prev l t p w : WOk n s prev l -> (0 < w)%R ->
  exists e fm fn, cpe_record (w_ev s) t p w = Ok (e, fm, fn)
    /\ WOk n (mk_wcpe e (w_size s) (w_queue s ++ [(t, p, w, fm, fn)])) prev (l ++ [(t, p, w)])
    /\ e_tw e = (e_tw (w_ev s) + w)%R
    /\ exists m, fm = (m =? t) /\ is_majority (l ++ [(t, p, w)]) m.
Proof.
  intros [H1 H2 H3 H4 H5 H6 H7 H8 H9 H10] Hw. unfold cpe_record, n0. cbn [nltb nofZ nadd NumR]. cbv zeta.
  replace (Rltb 0 w) with true by (symmetry; apply Rltb_true; auto).
  assert (Hap : all_positive (l ++ [(t, p, w)])).
  { apply Forall_app. split; auto. }
  set (s1 := mk_cpe _ _ _ _ _ _ _ _).
  destruct (majority_ok s1 (l ++ [(t, p, w)])) as (m & Hm & Ha).
  { rewrite all_positive_positive by auto. unfold s1; simpl. apply cfm_set_ok; auto. }
  { unfold s1; simpl. lia. }
  { rewrite all_positive_positive by auto. unfold s1; simpl. split; intros E; [lra|destruct l; discriminate]. }
  rewrite Hm. cbn [bind]. eexists _, _, _. split; [reflexivity|]. split; [|split; [reflexivity|]].
  - unfold s1. constructor; simpl; auto.
    + rewrite map_app, H1. reflexivity.
    + apply cfm_set_ok; auto.
    + rewrite H3, app_length. simpl. lia.
    + split; intros; lra.
    + rewrite map_app. simpl. rewrite last_snoc. reflexivity.
    + rewrite map_app, H6, nc_flags_snoc. unfold q_nc at 1; simpl. rewrite H5. reflexivity.
    + rewrite repeat_weight_snoc, <- H7, H5. unfold r_true, r_weight; simpl. destruct (last _ prev =? t); simpl; lra.
    + unfold maj_sum in *. rewrite map_app, Rsum_app, H8.
      generalize (Rsum (map (fun e => if q_maj e then r_weight (q_result e) else 0%R) (w_queue s))).
      intros x. cbn [map Rsum]. destruct (m =? t); cbn; lra.
  - exists m. split; auto. destruct Ha as [[Ha _]|[_ Ha]]; rewrite all_positive_positive in Ha by auto; auto.
    destruct l; discriminate.
Qed.

Definition WInv (n : Z) (s : wcpe R) (h : list (Z * Z * R)) : Prop :=
  exists pre l, h = pre ++ l /\ l = lastn (Z.to_nat n) h /\ WOk n s (last_label pre) l /\ (h = [] -> e_tw (w_ev s) = 0%R).

Lemma lastn_split {A} k (pre l : list A) : (length l = k \/ (length l < k)%nat /\ pre = []) -> lastn k (pre ++ l) = l.
Proof.
  intros [<-|[Hl ->]].
  - unfold lastn. rewrite app_length, Nat.add_sub. rewrite skipn_app, skipn_all, Nat.sub_diag. reflexivity.
  - simpl. apply lastn_all. lia.
Qed.
Lemma lastn_split_inv {A} k (pre l : list A) : l = lastn k (pre ++ l) -> length l = k \/ ((length l < k)%nat /\ pre = []) .
Proof.
  intros H. assert (Hl : length l = Nat.min k (length pre + length l)) by (rewrite H at 1; rewrite lastn_length, app_length; auto).
  destruct (Nat.eq_dec (length l) k) as [E|E]; auto. right. destruct pre; [split; auto; simpl in *; lia|simpl in *; lia].
Qed.

Lemma wcpe_add_inv n s h t p w : 1 <= n -> WInv n s h -> (0 < w)%R ->
  exists s', wcpe_add s t p w = Ok s' /\ WInv n s' (h ++ [(t, p, w)])
   /\ exists m, is_majority (lastn (Z.to_nat n) (h ++ [(t, p, w)])) m
        /\ w_queue s' = skipn (length (w_queue s) + 1 - Z.to_nat n) (w_queue s) ++ [(t, p, w, m =? t, last_label h =? t)].
Proof.
  intros Hn (pre & l & Hh & Hl & HW & _) Hw. unfold wcpe_add.
  assert (Hq : Z.of_nat (length (w_queue s)) = Z.of_nat (length l)).
  { rewrite <- (wo_queue _ _ _ _ HW), map_length. reflexivity. }
  rewrite (wo_size _ _ _ _ HW). rewrite Hq.
  rewrite Hh in Hl. apply lastn_split_inv in Hl.
  assert (Hlast : e_last_true (w_ev s) = last_label h).
  { rewrite (wo_last _ _ _ _ HW), Hh. unfold last_label. rewrite map_app. clear. revert pre.
    induction l as [|a l IH] using rev_ind; intros pre; simpl; [rewrite app_nil_r; reflexivity|].
    rewrite map_app, app_assoc. simpl. rewrite !last_snoc. reflexivity. }
  destruct (Z.of_nat (length l) =? n) eqn:E; zb.
  - destruct l as [|r l]; [simpl in *; lia|].
    destruct (wcpe_evict_ok n s _ r l HW) as (s1 & E1 & HW1). rewrite E1. cbn [bind].
    destruct (wcpe_record_ok n s1 _ l t p w HW1 Hw) as (e & fm & fn & E2 & HW2 & _ & m & Hm & Hmaj). rewrite E2. cbn [bind].
    eexists. split; [reflexivity|].
    assert (Hlast2 : l ++ [(t, p, w)] = lastn (Z.to_nat n) (h ++ [(t, p, w)])).
    { rewrite Hh. symmetry. replace ((pre ++ r :: l) ++ [(t, p, w)]) with ((pre ++ [r]) ++ (l ++ [(t, p, w)])) by
        (rewrite <- !app_assoc; reflexivity). apply lastn_split. left. rewrite app_length. simpl in *. lia. }
    split.
    + exists (pre ++ [r]), (l ++ [(t, p, w)]). split; [rewrite Hh, <- !app_assoc; reflexivity|].
      split; [exact Hlast2|]. split; [|destruct h; discriminate].
      unfold last_label. rewrite map_app. simpl. rewrite last_snoc. exact HW2.
    + exists m. rewrite <- Hlast2. split; auto. simpl. 
      assert (Hq1 : w_queue s1 = skipn 1 (w_queue s)).
      { revert E1. unfold wcpe_evict. destruct (w_queue s) as [|[[[[? ?] ?] ?] ?] ?]; [discriminate|]. intros E1; inversion E1. reflexivity. }
      assert (Hfn : fn = (last_label h =? t)).
      { revert E2. unfold cpe_record. cbv zeta. destruct (cpe_majority _) ; cbn [bind]; intros E2; inversion E2.
        f_equal. rewrite <- Hlast. revert E1. unfold wcpe_evict. destruct (w_queue s) as [|[[[[? ?] ?] ?] ?] ?]; [discriminate|].
        intros E1; inversion E1. reflexivity. }
      rewrite Hq1, Hfn, Hm. f_equal. f_equal. simpl in *. lia.
  - destruct Hl as [Hl|[Hl ->]]; [lia|]. cbn [bind].
    destruct (wcpe_record_ok n s _ l t p w HW Hw) as (e & fm & fn & E2 & HW2 & _ & m & Hm & Hmaj). rewrite E2. cbn [bind].
    eexists. split; [reflexivity|]. simpl in Hh. subst h.
    assert (Hlast2 : l ++ [(t, p, w)] = lastn (Z.to_nat n) (l ++ [(t, p, w)])).
    { symmetry. apply lastn_all. rewrite app_length. simpl. lia. }
    split.
    + exists [], (l ++ [(t, p, w)]). split; [reflexivity|]. split; [exact Hlast2|].
      split; [|destruct l; discriminate]. exact HW2.
    + exists m. rewrite <- Hlast2. split; auto. simpl.
      assert (Hfn : fn = (last_label l =? t)).
      { revert E2. unfold cpe_record. cbv zeta. destruct (cpe_majority _) ; cbn [bind]; intros E2; inversion E2.
        rewrite <- Hlast. reflexivity. }
      rewrite Hfn, Hm. replace (length (w_queue s) + 1 - Z.to_nat n)%nat with 0%nat by lia. reflexivity.
Qed.

Lemma wcpe_run_inv n r : forall s h, 1 <= n -> WInv n s h -> all_positive r ->
  exists s', wcpe_run s r = Ok s' /\ WInv n s' (h ++ r).
Proof.
  induction r as [|[[t p] w] r IH]; intros s h Hn HI Hr; simpl.
  - exists s. rewrite app_nil_r. auto.
  - inversion Hr; subst. destruct (wcpe_add_inv n s h t p w Hn HI H1) as (s1 & E & HI1 & _). rewrite E. cbn [bind].
    destruct (IH s1 _ Hn HI1 H2) as (s2 & E2 & HI2). exists s2. rewrite <- app_assoc in HI2. auto.
Qed.

Lemma WInv_new k n : 1 <= n -> WInv n (wcpe_new k n) [].
Proof. intros Hn. exists [], []. split; [reflexivity|]. split; [reflexivity|]. split; [apply wcpe_new_ok|reflexivity]. Qed.

Lemma wcpe_run_new k n h : 1 <= n -> all_positive h -> exists s, wcpe_run (wcpe_new k n) h = Ok s /\ WInv n s h.
Proof. intros Hn Hp. exact (wcpe_run_inv n h _ [] Hn (WInv_new k n Hn) Hp). Qed.

Lemma repeat_weight_bounds l : nonneg l -> forall prev, (0 <= repeat_weight prev l <= total_weight l)%R.
Proof.
  induction 1 as [|r l H _ IH]; intros prev; [unfold total_weight, weight_where; simpl; lra|].
  unfold total_weight in *. rewrite weight_where_cons. simpl. specialize (IH (r_true r)). destruct (prev =? r_true r); lra.
Qed.
Lemma majority_weight_bounds l x : nonneg l -> majority_weight l x -> (0 <= x <= total_weight l)%R.
Proof.
  intros Hn H. induction H as [|l r x m H IH Ha]; [unfold total_weight, weight_where; simpl; lra|].
  apply Forall_app in Hn. destruct Hn as [Hn1 Hn2]. specialize (IH Hn1). inversion Hn2; subst.
  unfold total_weight in *. rewrite weight_where_snoc. destruct (m =? r_true r); lra.
Qed.
Lemma maj_sum_bounds q : nonneg (map q_result q) -> (0 <= maj_sum q <= total_weight (map q_result q))%R.
Proof.
  unfold maj_sum. induction q as [|e q IH]; intros H; [unfold total_weight, weight_where; simpl; lra|].
  cbn [map] in *. inversion H; subst. specialize (IH H3). unfold total_weight in *. rewrite weight_where_cons. cbn [Rsum].
  destruct (q_maj e); lra.
Qed.

Lemma EvInv_EvOk n s l : EvInv n s l -> unit_weights l -> EvOk s l.
Proof.
  intros [H0 H1 H2 H3 H4 H5 H6 H7] Hu. rewrite unit_positive in * by auto. constructor; auto.
  - rewrite H3. rewrite unit_total by auto. split.
    + intros Hc ->. unfold count in Hc; simpl in Hc. lra.
    + apply count_pos.
  - rewrite <- unit_total by auto. apply majority_weight_bounds; auto. apply unit_nonneg; auto.
  - rewrite H5. rewrite <- unit_total by auto. apply repeat_weight_bounds. apply unit_nonneg; auto.
Qed.

Lemma suffix_Forall {A} (P : A -> Prop) k l : Forall P l -> Forall P (lastn k l).
Proof. intros H. rewrite <- (butlastn_lastn k l) in H. apply Forall_app in H. tauto. Qed.

Lemma WInv_EvOk n s h : 1 <= n -> WInv n s h -> unit_weights h -> EvOk (w_ev s) (lastn (Z.to_nat n) h).
Proof.
  intros Hn (pre & l & Hh & Hl & [H1 H2 H3 H4 H5 H6 H7 H8 H9 H10] & H0) Hu. rewrite <- Hl.
  assert (Hul : unit_weights l) by (rewrite Hl; apply suffix_Forall; auto).
  constructor; auto.
  - destruct H4 as [H4a H4b]. split; auto. intros Ht ->.
    assert (h = []).
    { assert (Hlen : length (lastn (Z.to_nat n) h) = 0%nat) by (rewrite <- Hl; reflexivity).
      rewrite lastn_length in Hlen. destruct h; auto. simpl in Hlen. lia. }
    rewrite (H0 H) in Ht. lra.
  - rewrite H8, <- unit_total by auto. rewrite <- H1. apply maj_sum_bounds. rewrite H1. apply all_positive_nonneg; auto.
  - rewrite H7, <- unit_total by auto. apply repeat_weight_bounds. apply all_positive_nonneg; auto.
Qed.
