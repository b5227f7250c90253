From Coq Require Import List ZArith Bool Reals Lia Lra.
From Verif Require Import Base.Py Base.Num Model.FastBuffer Model.FastComplexBuffer Model.ConfMat Model.MultiTargetClass
  Spec.Lists Spec.MultiLabelSpec Spec.MultiTargetSpec
  Proofs.ListFacts Proofs.FastBufferProofs Proofs.DdmProofs Proofs.ConfMatProofs Proofs.MetricsProofs Proofs.MetricsScores
  Proofs.MultiLabelProofs Proofs.RegProofs.
Import ListNotations.
Local Open Scope Z_scope.

Notation sample := (list bool * list bool)%type.
Definition b2z (b : bool) : Z := if b then 1 else 0.

Lemma count_where_ok f g a b : (forall x y, f (b2z x) (b2z y) = g (x, y)) ->
  count_where f (ints a) (ints b) = Z.of_nat (length (filter g (combine a b))).
Proof.
  intros Hf. revert b. induction a as [|x a IH]; intros [|y b]; try reflexivity. cbn [ints map count_where combine filter].
  fold (ints a). fold (ints b). rewrite IH. change (if x then 1 else 0) with (b2z x). change (if y then 1 else 0) with (b2z y). rewrite Hf.
  destruct (g (x, y)); simpl length; lia.
Qed.

Lemma count_agree s : count_where Z.eqb (ints (fst s)) (ints (snd s)) = Z.of_nat (n_agree s).
Proof. apply count_where_ok. intros [] []; reflexivity. Qed.
Lemma count_both s : count_where (fun x y => 0 <? x * y) (ints (fst s)) (ints (snd s)) = Z.of_nat (n_both s).
Proof. apply count_where_ok. intros [] []; reflexivity. Qed.
Lemma count_any s : count_where (fun x y => 0 <? x + y) (ints (fst s)) (ints (snd s)) = Z.of_nat (n_any s).
Proof. apply count_where_ok. intros [] []; reflexivity. Qed.

Lemma no_any_zero a : forall b, length a = length b -> n_any (a, b) = 0%nat -> zsum (ints a) = 0.
Proof.
  unfold n_any, pairs. simpl. induction a as [|x a IH]; intros [|y b] Hl Hn; try discriminate; [reflexivity|].
  simpl in *. destruct x; simpl in *; [discriminate|]. destruct y; simpl in *; [discriminate|]. rewrite (IH b); auto.
Qed.

Lemma row_j_ok (s : sample) : length (fst s) = length (snd s) -> row_j (T := R) (ints (fst s)) (ints (snd s)) = Some (jaccard1 s).
Proof.
  intros Hl. unfold row_j, jaccard1. rewrite count_both, count_any. destruct (n_any s) as [|u] eqn:E.
  - simpl. destruct s as [a b]. simpl in *. rewrite (no_any_zero a b) by auto. reflexivity.
  - replace (0 <? Z.of_nat (S u)) with true by (symmetry; apply Z.ltb_lt; lia).
    cbn [ndiv nofZ NumR]. rewrite <- !INR_IZR_INZ. reflexivity.
Qed.

(** counts of one sample *)
Lemma counts_sum a : forall b, length a = length b -> (n_agree (a, b) + n_any (a, b) = length a + n_both (a, b))%nat.
Proof.
  unfold n_agree, n_any, n_both, pairs. simpl. induction a as [|x a IH]; intros [|y b] Hl; try discriminate; [reflexivity|].
  simpl in *. specialize (IH b ltac:(lia)). destruct x, y; simpl; lia.
Qed.
Lemma counts_order a : forall b, length a = length b -> (n_both (a, b) <= n_any (a, b) <= length a)%nat.
Proof.
  unfold n_any, n_both, pairs. simpl. induction a as [|x a IH]; intros [|y b] Hl; try discriminate; [simpl; lia|].
  simpl in *. specialize (IH b ltac:(lia)). destruct x, y; simpl; lia.
Qed.
Lemma same_agree a : forall b, length a = length b -> same_labels (a, b) = true <-> n_agree (a, b) = length a.
Proof.
  intros b Hl. unfold same_labels. simpl. destruct (list_eq_dec bool_dec a b) as [->|Hne].
  - split; auto. intros _. unfold n_agree, pairs. simpl. clear. induction b as [|x b IH]; [reflexivity|]. simpl.
    rewrite eqb_reflx. simpl. auto.
  - split; [discriminate|]. intros H. exfalso. apply Hne. revert b Hl H Hne. unfold n_agree, pairs; simpl.
    induction a as [|x a IH]; intros [|y b] Hl H Hne; try discriminate; [reflexivity|]. simpl in *.
    assert (Hle : (length (filter (fun p : bool * bool => eqb (fst p) (snd p)) (combine a b)) <= length a)%nat).
    { clear. revert b. induction a as [|x a IH]; intros [|y b]; simpl; try lia. specialize (IH b). destruct (eqb x y); simpl; lia. }
    destruct (eqb x y) eqn:E; simpl in H; [|lia]. apply eqb_prop in E. subst y. f_equal.
    destruct (list_eq_dec bool_dec a b); auto.
Qed.

Definition ind (b : bool) : R := if b then 1%R else 0%R.

Lemma sample_order L (s : sample) : (1 <= L)%nat -> length (fst s) = L -> length (snd s) = L ->
  (0 <= ind (same_labels s) <= jaccard1 s /\ jaccard1 s <= INR (n_agree s) / INR L <= 1)%R.
Proof.
  destruct s as [a b]. simpl. intros HL Ha Hb. pose proof (counts_sum a b ltac:(lia)) as Hsum. pose proof (counts_order a b ltac:(lia)) as Hord.
  pose proof (same_agree a b ltac:(lia)) as Hsame. unfold jaccard1.
  assert (HLp : (0 < INR L)%R) by (apply lt_0_INR; lia).
  assert (Hag : (n_agree (a, b) <= L)%nat) by lia.
  assert (Hag1 : (INR (n_agree (a, b)) / INR L <= 1)%R).
  { apply div_01; auto. split; [apply pos_INR|apply le_INR; lia]. }
  destruct (n_any (a, b)) as [|u] eqn:Eu.
  - assert (E : n_agree (a, b) = length a) by lia. apply Hsame in E as Es. rewrite Es, E, Ha. unfold ind. repeat split; try lra.
    unfold Rdiv. rewrite Rinv_r by lra. lra. 
    unfold Rdiv. rewrite Rinv_r by lra. lra.
  - set (U := S u) in *. assert (HU : (0 < INR U)%R) by (apply lt_0_INR; lia).
    assert (Hj0 : (0 <= INR (n_both (a, b)) / INR U <= 1)%R).
    { apply div_01; auto. split; [apply pos_INR|apply le_INR; lia]. }
    assert (Hjh : (INR (n_both (a, b)) / INR U <= INR (n_agree (a, b)) / INR L)%R).
    { apply (Rmult_le_reg_r (INR U * INR L)); [apply Rmult_lt_0_compat; auto|].
      replace (INR (n_both (a, b)) / INR U * (INR U * INR L))%R with (INR (n_both (a, b)) * INR L)%R by (field; lra).
      replace (INR (n_agree (a, b)) / INR L * (INR U * INR L))%R with (INR (n_agree (a, b)) * INR U)%R by (field; lra).
      rewrite <- !mult_INR. apply le_INR. rewrite Ha in *. nia. }
    assert (Hs : (ind (same_labels (a, b)) <= INR (n_both (a, b)) / INR U)%R).
    { unfold ind. destruct (same_labels (a, b)) eqn:Es; [|lra]. pose proof (proj1 Hsame eq_refl) as E.
      replace (n_both (a, b)) with U by lia. unfold Rdiv. rewrite Rinv_r by lra. lra. }
    repeat split; try lra. unfold ind. destruct (same_labels (a, b)); lra.
Qed.

(** *** the batch functions on rows of 0/1 labels *)
Lemma ints_length a : length (ints a) = length a.
Proof. apply map_length. Qed.
Lemma shape_ok L l : well_formed L l -> l <> [] -> shape2 (trues l) (preds l) = Ok (Z.of_nat (length l), Z.of_nat L).
Proof.
  intros Hw Hne. unfold shape2, trues, preds. destruct l as [|s l]; [congruence|]. 
  assert (Hs : length (ints (fst s)) = L) by (inversion Hw; subst; rewrite ints_length; tauto).
  cbn [map]. rewrite Hs. change (ints (fst s) :: map (fun s => ints (fst s)) l) with (map (fun s : sample => ints (fst s)) (s :: l)).
  change (ints (snd s) :: map (fun s => ints (snd s)) l) with (map (fun s : sample => ints (snd s)) (s :: l)).
  rewrite !map_length, Nat.eqb_refl, andb_true_r.
  replace (forallb _ (map _ (s :: l))) with true.
  replace (forallb _ (map _ (s :: l))) with true. reflexivity.
  - symmetry. apply forallb_forall. intros x Hx. apply in_map_iff in Hx as (r & <- & Hr). rewrite ints_length. apply Nat.eqb_eq.
    eapply Forall_forall in Hw; [|exact Hr]. tauto.
  - symmetry. apply forallb_forall. intros x Hx. apply in_map_iff in Hx as (r & <- & Hr). rewrite ints_length. apply Nat.eqb_eq.
    eapply Forall_forall in Hw; [|exact Hr]. tauto.
Qed.
Lemma combine_rows l : combine (trues l) (preds l) = map (fun s => (ints (fst s), ints (snd s))) l.
Proof. unfold trues, preds. induction l; simpl; [reflexivity|]. f_equal. auto. Qed.

Lemma zsum_nat (f : sample -> nat) l : zsum (map (fun s => Z.of_nat (f s)) l) = Z.of_nat (nsum (map f l)).
Proof. induction l as [|a l IH]; simpl; [reflexivity|]. rewrite IH. lia. Qed.

Lemma nonempty_INR {A} (l : list A) : l <> [] -> (0 < INR (length l))%R.
Proof. destruct l; [congruence|]. intros _. apply lt_0_INR. simpl. lia. Qed.

Lemma hamming_ok L l : (1 <= L)%nat -> well_formed L l -> l <> [] -> hamming_score (trues l) (preds l) = Ok (label_accuracy L l).
Proof.
  intros HL Hw Hne. unfold hamming_score. rewrite (shape_ok L) by auto. cbn [bind]. f_equal. unfold sum_rows. rewrite combine_rows, map_map.
  cbn [fst snd]. rewrite (map_ext _ (fun s => Z.of_nat (n_agree s)) count_agree), zsum_nat. cbn [ndiv nofZ NumR].
  rewrite <- !INR_IZR_INZ. unfold label_accuracy. pose proof (nonempty_INR l Hne). assert (0 < INR L)%R by (apply lt_0_INR; lia).
  field. lra.
Qed.

Lemma exact_row L l : well_formed L l ->
  zsum (map (fun s : sample => if count_where Z.eqb (ints (fst s)) (ints (snd s)) =? Z.of_nat L then 1 else 0) l) = Z.of_nat (length (filter same_labels l)).
Proof.
  induction 1 as [|s l [Ha Hb] Hw IH]; [reflexivity|]. cbn [map zsum fold_right filter]. unfold zsum in IH. rewrite IH, count_agree.
  destruct s as [a b]. simpl in Ha, Hb. pose proof (same_agree a b ltac:(lia)) as Hs.
  destruct (Z.of_nat (n_agree (a, b)) =? Z.of_nat L) eqn:E.
  - apply Z.eqb_eq in E. rewrite (proj2 Hs) by lia. simpl length. lia.
  - apply Z.eqb_neq in E. destruct (same_labels (a, b)) eqn:Es; [|lia]. exfalso. apply E. f_equal. rewrite (proj1 Hs eq_refl). auto.
Qed.

Lemma exact_ok L l : well_formed L l -> l <> [] -> exact_match (trues l) (preds l) = Ok (subset_accuracy l).
Proof.
  intros Hw Hne. unfold exact_match. rewrite (shape_ok L) by auto. cbn [bind]. f_equal. unfold sum_rows. rewrite combine_rows, map_map.
  cbn [fst snd]. rewrite exact_row by auto. cbn [ndiv nmul nofZ NumR]. unfold n1. cbn [nofZ NumR].
  rewrite <- !INR_IZR_INZ, Rmult_1_r. reflexivity.
Qed.

Lemma jsum_ok L l : well_formed L l -> forall a : R,
  fold_left (fun s r => opt_add s (row_j (fst r) (snd r))) (combine (trues l) (preds l)) a = (a + Rsum (map jaccard1 l))%R.
Proof.
  intros Hw. rewrite combine_rows. induction Hw as [|s l [Ha Hb] Hw IH]; intros a; simpl; [lra|].
  rewrite row_j_ok by congruence. unfold opt_add at 2. rewrite IH. cbn [nadd NumR]. lra.
Qed.

Lemma j_ok L l : well_formed L l -> l <> [] -> j_index (trues l) (preds l) = Ok (mean_jaccard l).
Proof.
  intros Hw Hne. unfold j_index. rewrite (shape_ok L) by auto. cbn [bind]. f_equal.
  lazymatch goal with |- context[fold_left ?F ?C ?A] => replace (fold_left F C A) with (Rsum (map jaccard1 l)) by
    (rewrite (jsum_ok L l Hw); unfold n0; cbn [nofZ NumR]; lra) end.
  cbn [ndiv nmul nofZ NumR]. unfold n1. cbn [nofZ NumR]. rewrite <- INR_IZR_INZ, Rmult_1_r. unfold mean_jaccard, Rmean. rewrite map_length. reflexivity.
Qed.

(** means *)
Lemma Rsum_le {A} (f g : A -> R) l : (forall x, In x l -> f x <= g x)%R -> (Rsum (map f l) <= Rsum (map g l))%R.
Proof.
  induction l as [|a l IH]; simpl; intros Hl; [lra|]. pose proof (Hl a (or_introl eq_refl)). specialize (IH (fun x Hx => Hl x (or_intror Hx))). lra.
Qed.
Lemma Rsum_ind l : Rsum (map (fun s => ind (same_labels s)) l) = INR (length (filter same_labels l)).
Proof. induction l as [|s l IH]; simpl; [reflexivity|]. rewrite IH. unfold ind. destruct (same_labels s); cbn [length]; rewrite ?S_INR; lra. Qed.
Lemma Rsum_agree L l : Rsum (map (fun s => INR (n_agree s) / INR L)%R l) = (INR (nsum (map n_agree l)) / INR L)%R.
Proof. induction l as [|s l IH]; simpl; [lra|]. rewrite IH, plus_INR. lra. Qed.

Lemma div_le a b c : (0 < c -> a <= b -> a / c <= b / c)%R.
Proof. intros. apply Rmult_le_compat_r; [left; apply Rinv_0_lt_compat; auto|auto]. Qed.

Lemma label_accuracy_mean L l : (1 <= L)%nat -> l <> [] -> label_accuracy L l = (Rsum (map (fun s => INR (n_agree s) / INR L)%R l) / INR (length l))%R.
Proof.
  intros HL Hne. rewrite Rsum_agree. unfold label_accuracy. pose proof (nonempty_INR l Hne). assert (0 < INR L)%R by (apply lt_0_INR; lia).
  field. lra.
Qed.

Lemma Rsum_const1 {A} (l : list A) : Rsum (map (fun _ => 1%R) l) = INR (length l).
Proof. induction l as [|a l IH]; simpl map; simpl Rsum; [reflexivity|]. rewrite IH. cbn [length]. rewrite S_INR. lra. Qed.

Lemma scores_ordered L l : (1 <= L)%nat -> well_formed L l -> l <> [] ->
  (0 <= subset_accuracy l <= mean_jaccard l /\ mean_jaccard l <= label_accuracy L l <= 1)%R.
Proof.
  intros HL Hw Hne. pose proof (nonempty_INR l Hne) as Hn. rewrite label_accuracy_mean by auto.
  unfold subset_accuracy, mean_jaccard, Rmean. rewrite map_length, <- Rsum_ind.
  assert (HS : forall s, In s l -> (0 <= ind (same_labels s) <= jaccard1 s /\ jaccard1 s <= INR (n_agree s) / INR L <= 1)%R).
  { intros s Hs. eapply Forall_forall in Hw; [|exact Hs]. apply sample_order; tauto. }
  split; split.
  - apply Rmult_le_pos; [|left; apply Rinv_0_lt_compat; auto]. apply Rsum_nonneg. intros x Hx. apply in_map_iff in Hx as (s & <- & Hs).
    apply HS; auto.
  - apply div_le; auto. apply Rsum_le. intros s Hs. apply HS; auto.
  - apply div_le; auto. apply Rsum_le. intros s Hs. apply HS; auto.
  - replace 1%R with (INR (length l) / INR (length l))%R by (field; lra). apply div_le; auto.
    rewrite <- Rsum_const1. apply Rsum_le. intros s Hs. apply HS; auto.
Qed.

Lemma Rsum_le1_all {A} (f : A -> R) l : (forall x, In x l -> f x <= 1)%R -> Rsum (map f l) = INR (length l) -> forall x, In x l -> f x = 1%R.
Proof.
  induction l as [|a l IH]; simpl map; simpl Rsum; intros Hl Hs x Hx; [destruct Hx|]. cbn [length] in Hs. rewrite S_INR in Hs.
  pose proof (Hl a (or_introl eq_refl)) as H1.
  assert (H2 : (Rsum (map f l) <= INR (length l))%R).
  { rewrite <- (Rsum_const1 l). apply Rsum_le. intros y Hy. apply Hl. right; auto. }
  destruct Hx as [<-|Hx]; [lra|]. apply IH; auto; [|lra]. intros y Hy. apply Hl. right; auto.
Qed.

Lemma label_accuracy_1 L l : (1 <= L)%nat -> well_formed L l -> l <> [] -> label_accuracy L l = 1%R -> Forall (fun s => fst s = snd s) l.
Proof.
  intros HL Hw Hne H1. pose proof (nonempty_INR l Hne) as Hn. rewrite label_accuracy_mean in H1 by auto.
  assert (HS : Rsum (map (fun s => INR (n_agree s) / INR L)%R l) = INR (length l)).
  { apply (Rmult_eq_reg_r (/ INR (length l))); [|apply Rinv_neq_0_compat; lra]. rewrite Rinv_r by lra. exact H1. }
  apply Forall_forall. intros s Hs.
  assert (Hwf : length (fst s) = L /\ length (snd s) = L) by (eapply Forall_forall in Hw; [|exact Hs]; auto).
  assert (E : (INR (n_agree s) / INR L)%R = 1%R).
  { apply (Rsum_le1_all (fun s => INR (n_agree s) / INR L)%R l); auto. intros x Hx. eapply Forall_forall in Hw; [|exact Hx].
    apply sample_order; tauto. }
  assert (HLp : (0 < INR L)%R) by (apply lt_0_INR; lia).
  assert (E2 : n_agree s = L).
  { apply INR_eq. apply (Rmult_eq_reg_r (/ INR L)); [|apply Rinv_neq_0_compat; lra]. rewrite Rinv_r by lra. exact E. }
  destruct s as [a b]. simpl in *. assert (Hsm : same_labels (a, b) = true) by (apply same_agree; lia).
  unfold same_labels in Hsm. simpl in Hsm. destruct (list_eq_dec bool_dec a b); [auto|discriminate].
Qed.

Lemma all_same_scores l : l <> [] -> Forall (fun s => fst s = snd s) l -> subset_accuracy l = 1%R.
Proof.
  intros Hne Hf. unfold subset_accuracy. replace (filter same_labels l) with l.
  - pose proof (nonempty_INR l Hne). field. lra.
  - clear Hne. induction Hf as [|s l Hs Hf IH]; [reflexivity|]. simpl. unfold same_labels at 1.
    destruct (list_eq_dec bool_dec (fst s) (snd s)); [|contradiction]. f_equal. exact IH.
Qed.

(** *** the incremental class *)
Lemma diag_zsum m : mol_diagonal m = zsum (map (fun t => mo_cell m t 0 0 + mo_cell m t 1 1) (zrange (mo_size m))).
Proof.
  unfold mol_diagonal.
  assert (E : forall l a, fold_left (fun acc t => acc + mo_cell m t 0 0 + mo_cell m t 1 1) l a
     = a + zsum (map (fun t => mo_cell m t 0 0 + mo_cell m t 1 1) l)).
  { induction l as [|x l IH]; intros a; simpl; [lia|]. rewrite IH. lia. }
  rewrite E. lia.
Qed.

Lemma zrange_succ n : 0 <= n -> zrange (n + 1) = zrange n ++ [n].
Proof.
  intros Hn. unfold zrange. rewrite Z2Nat.inj_add, Nat.add_1_r by lia. rewrite seq_S, map_app. simpl. rewrite Z2Nat.id; auto.
Qed.
Lemma zsum_app a b : zsum (a ++ b) = zsum a + zsum b.
Proof. induction a; simpl; [reflexivity|]. lia. Qed.

Lemma zsum_bump f t d n : 0 <= t < n -> zsum (map (fun i => f i + (if i =? t then d else 0)) (zrange n)) = zsum (map f (zrange n)) + d.
Proof.
  intros Ht. rewrite (zsum_map_add f (fun i => if i =? t then d else 0)). f_equal.
  assert (Hn : n = Z.of_nat (Z.to_nat n)) by lia. revert Ht. rewrite Hn. generalize (Z.to_nat n). clear. intros n.
  induction n as [|n IH]; intros Ht; [lia|]. rewrite Nat2Z.inj_succ. unfold Z.succ. rewrite zrange_succ by lia. rewrite map_app, zsum_app. simpl.
  destruct (Z.of_nat n =? t) eqn:E.
  - apply Z.eqb_eq in E. subst t. replace (zsum (map (fun i => if i =? Z.of_nat n then d else 0) (zrange (Z.of_nat n)))) with 0; [lia|].
    assert (Hz : forall l, (forall x, In x l -> x <> Z.of_nat n) -> zsum (map (fun i => if i =? Z.of_nat n then d else 0) l) = 0).
    { induction l as [|x l IHl]; simpl; intros Hx; [reflexivity|]. pose proof (Hx x (or_introl eq_refl)).
      replace (x =? Z.of_nat n) with false by (symmetry; apply Z.eqb_neq; auto). rewrite IHl; auto. }
    symmetry. apply Hz. intros x Hx. apply zrange_In in Hx. lia.
  - apply Z.eqb_neq in E. rewrite IH by lia. lia.
Qed.

Definition wfm (m : mol) : Prop := 0 <= mo_size m.

Lemma bump_diag m t i j d : wfm m -> 0 <= t < mo_size m -> 0 <= i < 2 -> 0 <= j < 2 ->
  exists m', mol_bump m t i j d = (m', Ok true) /\ wfm m' /\ mo_size m' = mo_size m
    /\ mol_diagonal m' = mol_diagonal m + (if i =? j then d else 0) /\ mol_total m' = mol_total m + d.
Proof.
  intros Hw Ht Hi Hj. unfold mol_bump. rewrite !np_index_in by auto. eexists. split; [reflexivity|].
  split; [exact Hw|]. split; [reflexivity|]. rewrite !diag_zsum. unfold mol_total. cbn [mo_size mo_cell].
  split.
  - rewrite <- (zsum_bump _ t) by auto. f_equal. apply map_ext. intros c. unfold set_cell3.
    assert (i = 0 \/ i = 1) as [-> | ->] by lia; assert (j = 0 \/ j = 1) as [-> | ->] by lia;
      destruct (c =? t) eqn:E; simpl; try lia; apply Z.eqb_eq in E; subst c; lia.
  - rewrite <- (zsum_bump _ t) by auto. f_equal. apply map_ext. intros c. unfold set_cell3.
    assert (i = 0 \/ i = 1) as [-> | ->] by lia; assert (j = 0 \/ j = 1) as [-> | ->] by lia;
      destruct (c =? t) eqn:E; simpl; try lia; apply Z.eqb_eq in E; subst c; lia.
Qed.

Lemma update_diag m t i j : wfm m -> 0 <= t <= mo_size m -> 0 <= i < 2 -> 0 <= j < 2 ->
  exists m', mol_update m (Some t) (Some i) (Some j) 1 = (m', Ok true) /\ wfm m' /\ mo_size m' = Z.max (mo_size m) (t + 1)
    /\ mol_diagonal m' = mol_diagonal m + (if i =? j then 1 else 0) /\ mol_total m' = mol_total m + 1.
Proof.
  intros Hw Ht Hi Hj. unfold mol_update. zcase.
  - destruct (bump_diag m t i j 1 Hw ltac:(lia) Hi Hj) as (m' & -> & K1 & K2 & K3 & K4). exists m'. repeat split; auto. lia.
  - assert (t = mo_size m) by lia. subst t. zcase; [lia|]. zcase; [lia|]. unfold mol_reshape.
    replace (mo_size m + 1 <? mo_size m + 1) with false by (symmetry; apply Z.ltb_ge; lia). cbn [Z.eqb Pos.eqb negb orb Z.ltb Z.compare Pos.compare Pos.compare_cont].
    zcase; [unfold wfm in Hw; lia|]. zcase; [lia|].
    set (m1 := mkMol _ _).
    assert (Hw1 : wfm m1) by (unfold wfm in *; simpl; lia).
    destruct (bump_diag m1 (mo_size m) i j 1 Hw1) as (m' & -> & K1 & K2 & K3 & K4); auto; [simpl; unfold wfm in Hw; lia|].
    assert (E1 : mol_diagonal m1 = mol_diagonal m).
    { rewrite !diag_zsum. unfold m1. cbn [mo_size mo_cell]. rewrite zrange_succ by exact Hw. rewrite map_app, zsum_app. simpl map.
      replace (mo_size m <? mo_size m) with false by (symmetry; apply Z.ltb_ge; lia). rewrite !andb_false_r. simpl zsum at 2.
      rewrite Z.add_0_r. f_equal. apply map_ext_in. intros c Hc. apply zrange_In in Hc.
      replace ((0 <=? c) && (c <? mo_size m) && (c <? mo_size m + 1)) with true; [reflexivity|].
      symmetry. repeat (apply andb_true_intro; split); [apply Z.leb_le|apply Z.ltb_lt|apply Z.ltb_lt]; lia. }
    assert (E2 : mol_total m1 = mol_total m).
    { unfold mol_total, m1. cbn [mo_size mo_cell]. rewrite zrange_succ by exact Hw. rewrite map_app, zsum_app. simpl map.
      replace (mo_size m <? mo_size m) with false by (symmetry; apply Z.ltb_ge; lia). rewrite !andb_false_r. simpl zsum at 2.
      rewrite Z.add_0_r. f_equal. apply map_ext_in. intros c Hc. apply zrange_In in Hc.
      replace ((0 <=? c) && (c <? mo_size m) && (c <? mo_size m + 1)) with true; [reflexivity|].
      symmetry. repeat (apply andb_true_intro; split); [apply Z.leb_le|apply Z.ltb_lt|apply Z.ltb_lt]; lia. }
    exists m'. rewrite K3, K4, K2, E1, E2. simpl. repeat split; auto. lia.
Qed.

Lemma update_all_ok a : forall m i b, wfm m -> length a = length b -> 0 <= i <= mo_size m ->
  exists m', update_all m i (ints a) (ints b) = (m', Ok tt) /\ wfm m' /\ mo_size m' = Z.max (mo_size m) (i + Z.of_nat (length a))
    /\ mol_diagonal m' = mol_diagonal m + Z.of_nat (n_agree (a, b)) /\ mol_total m' = mol_total m + Z.of_nat (length a).
Proof.
  induction a as [|x a IH]; intros m i [|y b] Hw Hl Hi; try discriminate.
  - exists m. unfold n_agree; simpl. repeat split; auto; lia.
  - cbn [ints map update_all]. fold (ints a) (ints b). change (if x then 1 else 0) with (b2z x). change (if y then 1 else 0) with (b2z y).
    destruct (update_diag m i (b2z x) (b2z y) Hw Hi) as (m1 & -> & H1 & H2 & H3 & H4); try (unfold b2z; destruct x, y; lia).
    destruct (IH m1 (i + 1) b H1 ltac:(simpl in *; lia) ltac:(lia)) as (m2 & Hu & G1 & G2 & G3 & G4).
    exists m2. split; [exact Hu|]. split; [exact G1|]. simpl length.
    split; [lia|]. split; [|lia]. rewrite G3, H3. unfold n_agree, pairs; simpl. unfold b2z; destruct x, y; simpl; lia.
Qed.

Record MTC (L : nat) (s : mtc R) (l : list sample) : Prop := {
  c_wf : wfm (k_cm s);
  c_diag : mol_diagonal (k_cm s) = Z.of_nat (nsum (map n_agree l));
  c_tot : mol_total (k_cm s) = Z.of_nat (length l * L);
  c_n : k_n s = Z.of_nat (length l);
  c_ex : k_exact s = Z.of_nat (length (filter same_labels l));
  c_j : k_j s = Rsum (map jaccard1 l);
  c_t : l <> [] -> k_n_targets s = Z.of_nat L
}.

Lemma nsum_snoc l x : nsum (l ++ [x]) = (nsum l + x)%nat.
Proof. rewrite nsum_app. simpl. lia. Qed.

Lemma mtc_run_ok L l : forall s h, MTC L s h -> well_formed L l ->
  exists s', mtc_run s (combine (trues l) (preds l)) = Ok s' /\ MTC L s' (h ++ l).
Proof.
  induction l as [|[a b] l IH]; intros s h HM Hw.
  - exists s. rewrite app_nil_r. auto.
  - inversion Hw as [|? ? [Ha Hb] Hw']; subst. cbn [fst snd] in *. cbn [trues preds map combine mtc_run fst snd].
    destruct HM as [C1 C2 C3 C4 C5 C6 C7].
    unfold mtc_add at 1. destruct (update_all_ok a (k_cm s) 0 b C1 ltac:(lia) ltac:(unfold wfm in C1; lia)) as (m & -> & G1 & G2 & G3 & G4).
    rewrite !ints_length. rewrite Hb, Nat.eqb_refl. cbn [negb bind].
    match goal with |- exists s', mtc_run ?S1 _ = _ /\ _ => destruct (IH S1 (h ++ [(a, b)])) as (s2 & Hr & HM2) end.
    + constructor; cbn [k_cm k_n k_exact k_j k_n_targets].
      * exact G1.
      * rewrite G3, C2, map_app. simpl map. rewrite nsum_snoc. lia.
      * rewrite G4, C3, app_length. simpl. lia.
      * rewrite C4, app_length. simpl. lia.
      * rewrite C5, filter_app, app_length. pose proof (count_agree (a, b)) as Hc. cbn [fst snd] in Hc. rewrite Hc. simpl filter.
        pose proof (same_agree a b ltac:(lia)) as Hs.
        destruct (Z.of_nat (n_agree (a, b)) =? Z.of_nat (length a)) eqn:E.
        -- apply Z.eqb_eq in E. rewrite (proj2 Hs) by lia. simpl length. lia.
        -- apply Z.eqb_neq in E. destruct (same_labels (a, b)) eqn:Es; [|simpl; lia]. exfalso. apply E. f_equal. rewrite (proj1 Hs eq_refl). auto.
      * rewrite C6, map_app, Rsum_app. pose proof (row_j_ok (a, b)) as Hrj. cbn [fst snd] in Hrj. rewrite Hrj by lia. simpl. lra.
      * auto.
    + exact Hw'.
    + rewrite <- app_assoc in HM2. exists s2. split; [exact Hr|exact HM2].
Qed.

Lemma MTC_new targets s L : mtc_new targets = Ok s -> MTC L s [].
Proof.
  unfold mtc_new, mol_init, np_dim. simpl targets_or_0 at 1. destruct (targets_or_0 targets <? 0) eqn:E; [discriminate|]. cbn [bind].
  intros Hs. inversion Hs; subst. zb. constructor; cbn [k_cm k_n k_exact k_j k_n_targets]; try reflexivity.
  - exact E.
  - rewrite diag_zsum. simpl. induction (zrange _); simpl; auto.
  - unfold mol_total. simpl. induction (zrange _); simpl; auto.
  - congruence.
Qed.

(** *** the windowed class *)
Definition frep (n : nat) (q : list (list Z)) (b : fcb Z) : Prop := rep n (map Flat q) (fc_fb b).

Lemma fcb_add1 n q b e : (1 <= n)%nat -> e <> [] -> frep n q b ->
  exists b', frep n (lastn n (q ++ [e])) b' /\
    fcb_add b (Entry e) = (b', Ok (match q with y :: _ => if (length q <? n)%nat then None else Some [Some (Flat y)] | [] => None end)).
Proof.
  intros Hn He Hr. unfold fcb_add. destruct e as [|x e]; [congruence|]. cbn [fcb_items].
  destruct (fb_add1 n (map Flat q) (fc_fb b) (Flat (x :: e)) Hn Hr) as (f & Hr' & ->).
  eexists. split; [|destruct q; simpl; rewrite ?map_length; [reflexivity|]; destruct (S (length q) <? n)%nat; reflexivity].
  unfold frep. simpl. rewrite map_lastn, map_app. exact Hr'.
Qed.

Definition wq (l : list sample) : list (list Z) * list (list Z) := (trues l, preds l).

Record WMC (L n : nat) (s : wmtc) (h : list sample) : Prop := {
  m_wf : wfm (v_cm s);
  m_tot : mol_total (v_cm s) = Z.of_nat (length h * L);
  m_true : frep n (trues (lastn n h)) (v_true s);
  m_pred : frep n (preds (lastn n h)) (v_pred s)
}.

Lemma remove_all_ok m n : forall a b, length a = n -> length b = n -> remove_all m n a b = (m, Ok tt).
Proof.
  induction n as [|n IH]; intros [|x a] [|y b] Ha Hb; try discriminate; [reflexivity|]. cbn [remove_all mol_remove]. apply IH; simpl in *; lia.
Qed.

Lemma trues_snoc n h s : lastn n (trues (lastn n h) ++ [ints (fst s)]) = trues (lastn n (h ++ [s])).
Proof.
  unfold trues. change [ints (fst s)] with (map (fun s : sample => ints (fst s)) [s]). rewrite <- map_app, <- map_lastn. f_equal. apply lastn_lastn_app.
Qed.
Lemma preds_snoc n h s : lastn n (preds (lastn n h) ++ [ints (snd s)]) = preds (lastn n (h ++ [s])).
Proof.
  unfold preds. change [ints (snd s)] with (map (fun s : sample => ints (snd s)) [s]). rewrite <- map_app, <- map_lastn. f_equal. apply lastn_lastn_app.
Qed.

Lemma wmtc_run_ok L n l : (1 <= L)%nat -> (1 <= n)%nat -> forall s h, WMC L n s h -> well_formed L h -> well_formed L l ->
  exists s', wmtc_run s (combine (trues l) (preds l)) = Ok s' /\ WMC L n s' (h ++ l).
Proof.
  intros HL Hn. induction l as [|[a b] l IH]; intros s h [C1 C2 C3 C4] Hwh Hw.
  - exists s. rewrite app_nil_r. split; [reflexivity|]. constructor; auto.
  - inversion Hw as [|? ? [Ha Hb] Hw']; subst. cbn [fst snd] in *. cbn [trues preds map combine wmtc_run fst snd].
    unfold wmtc_add at 1. destruct (update_all_ok a (v_cm s) 0 b C1 ltac:(lia) ltac:(unfold wfm in C1; lia)) as (m & -> & G1 & G2 & G3 & G4).
    assert (Hnea : ints a <> []) by (destruct a; simpl in *; [lia|congruence]).
    assert (Hneb : ints b <> []) by (destruct b; simpl in *; [lia|congruence]).
    destruct (fcb_add1 n _ _ (ints a) Hn Hnea C3) as (t' & F1 & ->).
    destruct (fcb_add1 n _ _ (ints b) Hn Hneb C4) as (p' & F2 & ->). cbn [bind].
    pose proof (trues_snoc n h (a, b)) as E1. pose proof (preds_snoc n h (a, b)) as E2. cbn [fst snd] in E1, E2. rewrite E1 in F1. rewrite E2 in F2.
    assert (Hwin : well_formed (length a) (lastn n h)).
    { unfold lastn. clear - Hwh. revert Hwh. generalize (length h - n)%nat. induction h as [|x h IHh]; intros [|k] Hf; simpl; auto. inversion Hf; auto. }
    assert (Hwh' : well_formed (length a) (h ++ [(a, b)])) by (apply Forall_app; split; [auto|constructor; auto]).
    destruct (lastn n h) as [|[a0 b0] q] eqn:Eq; cbn [trues preds map fst snd].
    + match goal with |- exists s', (bind (Ok ?S1) _) = _ /\ _ => destruct (IH S1 (h ++ [(a, b)])) as (s2 & Hr & HM2) end; auto.
      * constructor; cbn [v_cm v_true v_pred]; auto. rewrite G4, C2, app_length. simpl. lia.
      * cbn [bind]. rewrite <- app_assoc in HM2. exists s2. auto.
    + cbn [length]. rewrite !map_length. destruct (S (length q) <? n)%nat.
      * match goal with |- exists s', (bind (Ok ?S1) _) = _ /\ _ => destruct (IH S1 (h ++ [(a, b)])) as (s2 & Hr & HM2) end; auto.
        -- constructor; cbn [v_cm v_true v_pred]; auto. rewrite G4, C2, app_length. simpl. lia.
        -- cbn [bind]. rewrite <- app_assoc in HM2. exists s2. auto.
      * cbn [first_entry bind]. inversion Hwin as [|? ? [Ha0 Hb0] _]; subst. cbn [fst snd] in Ha0, Hb0.
        rewrite remove_all_ok by (rewrite !ints_length; lia).
        match goal with |- exists s', (bind (Ok ?S1) _) = _ /\ _ => destruct (IH S1 (h ++ [(a, b)])) as (s2 & Hr & HM2) end; auto.
        -- constructor; cbn [v_cm v_true v_pred]; auto. rewrite G4, C2, app_length. simpl. lia.
        -- cbn [bind]. rewrite <- app_assoc in HM2. exists s2. auto.
Qed.

Lemma WMC_new targets n s L : wmtc_new targets (Z.of_nat n) = Ok s -> WMC L n s [].
Proof.
  unfold wmtc_new, mol_init, np_dim. simpl targets_or_0. destruct (targets_or_0 targets <? 0) eqn:E; [discriminate|]. cbn [bind].
  intros Hs. inversion Hs; subst. zb. constructor; cbn [v_cm v_true v_pred].
  - exact E.
  - unfold mol_total. simpl. induction (zrange _); simpl; auto.
  - apply rep_init.
  - apply rep_init.
Qed.

Lemma rows_of_rep n q b : frep n q b -> rows_of b = q.
Proof. intros (Hb & _). unfold rows_of. rewrite Hb, map_map. rewrite <- (map_id q) at 2. apply map_ext. auto. Qed.
