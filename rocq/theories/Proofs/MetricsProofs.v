From Coq Require Import List ZArith Bool Reals Lia Lra Sorted Permutation.
From Verif Require Import Base.Py Base.Num Model.ClassMetrics Spec.Lists Spec.MetricsSpec Proofs.ListFacts Proofs.ConfMatProofs
  Proofs.DdmProofs.
Import ListNotations.
Local Open Scope Z_scope.

(** *** weights *)
Lemma weight_where_cons c r l : weight_where c (r :: l) = ((if c r then r_weight r else 0) + weight_where c l)%R.
Proof. unfold weight_where. simpl. destruct (c r); simpl; lra. Qed.
Lemma weight_where_app c a b : weight_where c (a ++ b) = (weight_where c a + weight_where c b)%R.
Proof. unfold weight_where. rewrite filter_app, map_app, Rsum_app. reflexivity. Qed.
Lemma weight_where_snoc c l r : weight_where c (l ++ [r]) = (weight_where c l + if c r then r_weight r else 0)%R.
Proof. rewrite weight_where_app. f_equal. unfold weight_where. simpl. destruct (c r); simpl; lra. Qed.
Lemma weight_where_perm c a b : Permutation a b -> weight_where c a = weight_where c b.
Proof.
  induction 1 as [|r a b H IH|r q a|a b d H1 IH1 H2 IH2]; rewrite ?weight_where_cons; auto; [lra|lra|congruence].
Qed.
Definition nonneg (l : list (Z * Z * R)) : Prop := Forall (fun r => 0 <= r_weight r)%R l.
Lemma weight_where_nonneg c l : nonneg l -> (0 <= weight_where c l)%R.
Proof.
  induction 1 as [|r l H _ IH]; [unfold weight_where; simpl; lra|]. rewrite weight_where_cons. destruct (c r); lra.
Qed.
Lemma weight_where_le c d l : nonneg l -> (forall r, c r = true -> d r = true) ->
  (weight_where c l <= weight_where d l)%R.
Proof.
  intros Hn Hcd. induction Hn as [|r l H _ IH]; [unfold weight_where; simpl; lra|].
  rewrite !weight_where_cons. specialize (Hcd r). destruct (c r), (d r); try lra; exfalso; discriminate (Hcd eq_refl).
Qed.
Lemma positive_nonneg l : nonneg (positive l).
Proof.
  apply Forall_forall. intros r Hr. apply filter_In in Hr. destruct Hr as [_ Hr]. rcase. lra.
Qed.
Lemma positive_app a b : positive (a ++ b) = positive a ++ positive b.
Proof. apply filter_app. Qed.
Lemma unit_positive l : unit_weights l -> positive l = l.
Proof.
  induction 1 as [|r l H _ IH]; [reflexivity|]. simpl. rewrite H.
  replace (Rltb 0 1) with true by (symmetry; apply Rltb_true; lra). f_equal. exact IH.
Qed.
Lemma unit_nonneg l : unit_weights l -> nonneg l.
Proof. intros H. eapply Forall_impl; [|exact H]. simpl. intros r ->. lra. Qed.
Lemma unit_total l : unit_weights l -> total_weight l = count l.
Proof.
  induction 1 as [|r l H _ IH]; [unfold total_weight, weight_where, count; reflexivity|].
  unfold total_weight in *. rewrite weight_where_cons, IH, H. unfold count. simpl length. rewrite S_INR. lra.
Qed.
Lemma unit_app a b : unit_weights (a ++ b) <-> unit_weights a /\ unit_weights b.
Proof. apply Forall_app. Qed.

(** sums over a duplicate-free list of labels covering the data *)
Lemma Rsum_map_add {A} (f g : A -> R) l : Rsum (map (fun x => f x + g x)%R l) = (Rsum (map f l) + Rsum (map g l))%R.
Proof. induction l; simpl; [lra|rewrite IHl; lra]. Qed.
Lemma Rsum_map_ext_in {A} (f g : A -> R) l : (forall x, In x l -> f x = g x) -> Rsum (map f l) = Rsum (map g l).
Proof. intros H. f_equal. apply map_ext_in. exact H. Qed.
Lemma Rsum_map_0 {A} (l : list A) : Rsum (map (fun _ => 0%R) l) = 0%R.
Proof. induction l; simpl; [lra|rewrite IHl; lra]. Qed.
Lemma Rsum_indicator cs x w : NoDup cs -> In x cs -> Rsum (map (fun c => if x =? c then w else 0%R) cs) = w.
Proof.
  induction 1 as [|c cs Hc Hn IH]; simpl; [tauto|]. intros [->|Hin].
  - rewrite Z.eqb_refl. rewrite (Rsum_map_ext_in _ (fun _ => 0%R)), Rsum_map_0; [lra|].
    intros y Hy. zcase; [subst; tauto|reflexivity].
  - rewrite IH by auto. zcase; [subst; tauto|lra].
Qed.
Lemma Rsum_rows (g : Z * Z * R -> Z) cs l :
  NoDup cs -> Forall (fun r => In (g r) cs) l ->
  Rsum (map (fun c => weight_where (fun r => g r =? c) l) cs) = total_weight l.
Proof.
  intros Hnd. induction 1 as [|r l H Hl IH].
  - unfold total_weight, weight_where; simpl. apply Rsum_map_0.
  - unfold total_weight in *. rewrite weight_where_cons.
    rewrite (Rsum_map_ext_in _ (fun c => ((if (g r =? c)%Z then r_weight r else 0) + weight_where (fun r => g r =? c)%Z l)%R)).
    + rewrite Rsum_map_add, IH, Rsum_indicator; auto.
    + intros c _. rewrite weight_where_cons. reflexivity.
Qed.
Lemma Rsum_cells_row cs l i :
  NoDup cs -> Forall (fun r => In (r_pred r) cs) l ->
  Rsum (map (fun j => cell_weight l i j) cs) = row_weight l i.
Proof.
  intros Hnd. unfold cell_weight, row_weight. induction 1 as [|r l H Hl IH].
  - unfold weight_where; simpl. apply Rsum_map_0.
  - rewrite weight_where_cons.
    rewrite (Rsum_map_ext_in _ (fun j => ((if (r_pred r =? j)%Z then (if (r_true r =? i)%Z then r_weight r else 0%R) else 0)
               + weight_where (fun r => (r_true r =? i)%Z && (r_pred r =? j)%Z) l)%R)).
    + rewrite Rsum_map_add, IH, Rsum_indicator; auto.
    + intros c _. rewrite weight_where_cons. f_equal. destruct (r_true r =? i), (r_pred r =? c); reflexivity.
Qed.
Lemma Rsum_cells_col cs l j :
  NoDup cs -> Forall (fun r => In (r_true r) cs) l ->
  Rsum (map (fun i => cell_weight l i j) cs) = col_weight l j.
Proof.
  intros Hnd. unfold cell_weight, col_weight. induction 1 as [|r l H Hl IH].
  - unfold weight_where; simpl. apply Rsum_map_0.
  - rewrite weight_where_cons.
    rewrite (Rsum_map_ext_in _ (fun i => ((if (r_true r =? i)%Z then (if (r_pred r =? j)%Z then r_weight r else 0%R) else 0)
               + weight_where (fun r => (r_true r =? i)%Z && (r_pred r =? j)%Z) l)%R)).
    + rewrite Rsum_map_add, IH, Rsum_indicator; auto.
    + intros c _. rewrite weight_where_cons. f_equal. destruct (r_true r =? c), (r_pred r =? j); reflexivity.
Qed.
Lemma Rsum_cells_diag cs l :
  NoDup cs -> Forall (fun r => In (r_true r) cs) l ->
  Rsum (map (fun i => cell_weight l i i) cs) = correct_weight l.
Proof.
  intros Hnd. unfold cell_weight, correct_weight. induction 1 as [|r l H Hl IH].
  - unfold weight_where; simpl. apply Rsum_map_0.
  - rewrite weight_where_cons.
    rewrite (Rsum_map_ext_in _ (fun i => ((if (r_true r =? i)%Z then (if (r_true r =? r_pred r)%Z then r_weight r else 0%R) else 0)
               + weight_where (fun r => (r_true r =? i)%Z && (r_pred r =? i)%Z) l)%R)).
    + rewrite Rsum_map_add, IH, Rsum_indicator; auto.
    + intros c _. rewrite weight_where_cons. f_equal.
      destruct (r_true r =? c) eqn:E1; simpl; [|reflexivity]. zb. subst c. rewrite (Z.eqb_sym (r_pred r)). reflexivity.
Qed.

(** *** the class set *)
Lemma set_add_In x y s : In x (set_add y s) <-> x = y \/ In x s.
Proof.
  induction s as [|z s IH]; simpl; [intuition|]. repeat zcase; simpl; subst; rewrite ?IH; intuition.
Qed.
Lemma set_add_sorted y s : StronglySorted Z.lt s -> StronglySorted Z.lt (set_add y s).
Proof.
  induction 1 as [|z s Hs IH Hz]; simpl; [repeat constructor|]. zcase.
  - constructor; [constructor; auto|]. constructor; auto. eapply Forall_impl; [|exact Hz]. simpl; intros; lia.
  - zcase; [constructor; auto|]. constructor; auto. apply Forall_forall. intros x Hx. apply set_add_In in Hx.
    destruct Hx as [->|Hx]; [lia|]. rewrite Forall_forall in Hz. auto.
Qed.
Lemma sorted_NoDup s : StronglySorted Z.lt s -> NoDup s.
Proof.
  induction 1 as [|z s Hs IH Hz]; constructor; auto. intros Hin. rewrite Forall_forall in Hz. specialize (Hz z Hin). lia.
Qed.
Lemma set_add_length y s : (length s <= length (set_add y s))%nat.
Proof. induction s; simpl; [lia|]. repeat zcase; simpl; lia. Qed.
Lemma set_range_In n x : In x (set_range n) <-> 0 <= x < n.
Proof.
  unfold set_range. rewrite in_map_iff. split.
  - intros (k & <- & H). apply in_seq in H. lia.
  - intros H. exists (Z.to_nat x). split; [lia|]. apply in_seq. lia.
Qed.
Lemma set_range_sorted n : StronglySorted Z.lt (set_range n).
Proof.
  unfold set_range. generalize (Z.to_nat n) 0%nat. intros k; induction k as [|k IH]; intros a; simpl; constructor; auto.
  apply Forall_forall. intros x Hx. apply in_map_iff in Hx. destruct Hx as (m & <- & H). apply in_seq in H. lia.
Qed.

(** *** the matrix represents a list of results *)
Record CmOk (m : cfm R) (l : list (Z * Z * R)) : Prop := {
  cm_cells : forall i j, f_cell m i j = cell_weight l i j;
  cm_rows : forall i, f_row m i = row_weight l i;
  cm_cols : forall j, f_col m j = col_weight l j;
  cm_diags : f_diag m = correct_weight l;
  cm_sorted : StronglySorted Z.lt (f_classes m);
  cm_labels : Forall (fun r => In (r_true r) (f_classes m) /\ In (r_pred r) (f_classes m)) l;
  cm_two : 2 <= f_n m
}.

Lemma cfm_new_ok n : CmOk (cfm_new n) [].
Proof.
  constructor; try reflexivity; simpl.
  - apply set_range_sorted.
  - constructor.
  - unfold f_n; simpl. unfold set_range. rewrite map_length, seq_length. zcase; lia.
Qed.

Lemma labels_grow m t p (w : R) l :
  Forall (fun r => In (r_true r) (f_classes m) /\ In (r_pred r) (f_classes m)) l ->
  Forall (fun r => In (r_true r) (f_classes (cfm_set m t p w)) /\ In (r_pred r) (f_classes (cfm_set m t p w))) l.
Proof.
  intros H. eapply Forall_impl; [|exact H]. simpl. intros r [Ha Hb]. rewrite !set_add_In. tauto.
Qed.
Lemma two_grow m t p (w : R) : 2 <= f_n m -> 2 <= f_n (cfm_set m t p w).
Proof.
  unfold f_n; simpl. pose proof (set_add_length t (f_classes m)). pose proof (set_add_length p (set_add t (f_classes m))). lia.
Qed.

Lemma cfm_set_ok m l t p w : CmOk m l -> CmOk (cfm_set m t p w) (l ++ [(t, p, w)]).
Proof.
  intros [H1 H2 H3 H4 H5 H6 H7]. constructor.
  - intros i j. unfold cell_weight. rewrite weight_where_snoc. simpl. unfold upd2. rewrite H1.
    unfold r_true, r_pred; simpl. rewrite (Z.eqb_sym t i), (Z.eqb_sym p j). unfold cell_weight, r_true, r_pred.
    destruct ((i =? t) && (j =? p)); simpl; lra.
  - intros i. unfold row_weight. rewrite weight_where_snoc. simpl. unfold upd1. rewrite H2.
    unfold r_true; simpl. rewrite (Z.eqb_sym t i). unfold row_weight, r_true. destruct (i =? t); simpl; lra.
  - intros i. unfold col_weight. rewrite weight_where_snoc. simpl. unfold upd1. rewrite H3.
    unfold r_pred; simpl. rewrite (Z.eqb_sym p i). unfold col_weight, r_pred. destruct (i =? p); simpl; lra.
  - unfold correct_weight. rewrite weight_where_snoc. simpl. rewrite H4. unfold correct_weight, r_true, r_pred; simpl.
    destruct (t =? p); simpl; lra.
  - simpl. apply set_add_sorted, set_add_sorted, H5.
  - apply Forall_app. split; [apply labels_grow; auto|]. constructor; [|constructor].
    unfold r_true, r_pred; simpl. rewrite !set_add_In. tauto.
  - apply two_grow; auto.
Qed.

Lemma cfm_set_remove m l t p w : CmOk m ((t, p, w) :: l) -> CmOk (cfm_set m t p (0 - w)%R) l.
Proof.
  intros [H1 H2 H3 H4 H5 H6 H7]. constructor.
  - intros i j. simpl. unfold upd2. rewrite H1. unfold cell_weight. rewrite weight_where_cons.
    unfold r_true, r_pred; simpl. rewrite (Z.eqb_sym t i), (Z.eqb_sym p j).
    destruct ((i =? t) && (j =? p)); simpl; lra.
  - intros i. simpl. unfold upd1. rewrite H2. unfold row_weight. rewrite weight_where_cons.
    unfold r_true; simpl. rewrite (Z.eqb_sym t i). destruct (i =? t); simpl; lra.
  - intros i. simpl. unfold upd1. rewrite H3. unfold col_weight. rewrite weight_where_cons.
    unfold r_pred; simpl. rewrite (Z.eqb_sym p i). destruct (i =? p); simpl; lra.
  - simpl. rewrite H4. unfold correct_weight. rewrite weight_where_cons. unfold r_true, r_pred; simpl.
    destruct (t =? p); simpl; lra.
  - simpl. apply set_add_sorted, set_add_sorted, H5.
  - inversion H6; subst. apply labels_grow; auto.
  - apply two_grow; auto.
Qed.

(** *** majority_class *)
Lemma majority_fold (v : Z -> R) (g : Z -> res R) cs : (forall i, g i = Ok (v i)) -> forall b i,
  StronglySorted Z.lt cs ->
  exists b' i',
    fold_left (fun acc i => '(best, idx) <- acc ;; x <- g i ;; Ok (if (best <? x)%num then (x, i) else (best, idx))) cs
              (Ok (b, i)) = Ok (b', i')
    /\ (b <= b')%R /\ (forall c, In c cs -> (v c <= b')%R)
    /\ ((b' = b /\ i' = i) \/ (In i' cs /\ b' = v i' /\ (b < b')%R /\ forall c, In c cs -> v c = b' -> i' <= c)).
Proof.
  intros Hg. induction cs as [|c cs IH]; intros b i Hs.
  - exists b, i. simpl. repeat split; auto; [lra|tauto].
  - inversion Hs as [|? ? Hs' Hc]; subst. cbn [fold_left bind]. rewrite Hg. cbn [bind nltb NumR].
    destruct (Rltb b (v c)) eqn:E; rcase.
    + destruct (IH (v c) c Hs') as (b' & i' & Hf & Hb & Hall & Hor). exists b', i'. split; [exact Hf|]. split; [lra|]. split.
      * intros d [<-|Hd]; auto.
      * right. destruct Hor as [[-> ->]|(Hin & Hv & Hlt & Hmin)].
        { split; [left; auto|]. split; [auto|]. split; [lra|]. intros d [<-|Hd] _; [lia|].
          rewrite Forall_forall in Hc. specialize (Hc d Hd). lia. }
        { split; [right; auto|]. split; [auto|]. split; [lra|]. intros d [<-|Hd] Hv'; [lra|]. auto. }
    + destruct (IH b i Hs') as (b' & i' & Hf & Hb & Hall & Hor). exists b', i'. split; [exact Hf|]. split; [lra|]. split.
      * intros d [<-|Hd]; auto. lra.
      * destruct Hor as [[-> ->]|(Hin & Hv & Hlt & Hmin)]; [left; auto|]. right.
        split; [right; auto|]. split; [auto|]. split; [lra|]. intros d [<-|Hd] Hv'; [lra|]. auto.
Qed.

Lemma positive_weights l r : In r (positive l) -> (0 < r_weight r)%R.
Proof. intros H. apply filter_In in H. destruct H as [_ H]. rcase. auto. Qed.

Lemma row_ge r l : nonneg l -> In r l -> (r_weight r <= row_weight l (r_true r))%R.
Proof.
  intros Hn. revert r. induction Hn as [|a l Ha Hl IH]; intros r Hr; [destruct Hr|]. unfold row_weight. rewrite weight_where_cons.
  destruct Hr as [->|Hr].
  - rewrite Z.eqb_refl. pose proof (weight_where_nonneg (fun x => r_true x =? r_true r) l Hl). lra.
  - specialize (IH r Hr). unfold row_weight in IH. destruct (r_true a =? r_true r); lra.
Qed.

Lemma row_absent l c : ~ In c (map r_true l) -> row_weight l c = 0%R.
Proof.
  unfold row_weight. induction l as [|r l IH]; simpl; [reflexivity|]. intros H. rewrite weight_where_cons, IH by tauto.
  zcase; [subst; tauto|lra].
Qed.

Lemma total_zero_iff l : total_weight (positive l) = 0%R <-> positive l = [].
Proof.
  pose proof (positive_nonneg l) as Hp0. pose proof (positive_weights l) as Hpos. set (pl := positive l) in *. clearbody pl.
  split; [|intros ->; reflexivity]. intros E. destruct pl as [|r pl]; auto. exfalso.
  unfold total_weight in E. rewrite weight_where_cons in E. inversion Hp0; subst.
  pose proof (weight_where_nonneg (fun _ => true) pl H2). specialize (Hpos r (or_introl eq_refl)). lra.
Qed.

Lemma majority_ok (s : cpe R) l :
  CmOk (e_cm s) (positive l) -> 0 < e_n s -> (e_tw s = 0%R <-> positive l = []) ->
  exists m, cpe_majority s = Ok m /\ majority_answer l m.
Proof.
  intros [H1 H2 H3 H4 H5 H6 H7] Hn Ht. unfold cpe_majority, majority_answer, n0.
  pose proof (positive_nonneg l) as Hp0. pose proof (positive_weights l) as Hpos.
  set (pl := positive l) in *. clearbody pl.
  cbn [neqb nofZ NumR]. destruct (Reqb (e_tw s) 0) eqn:E; rcase.
  - exists 0. split; auto. left. split; auto. apply Ht; auto.
  - assert (HN : (0 < IZR (e_n s))%R) by (apply IZR_lt; auto).
    destruct (majority_fold (fun i => (f_row (e_cm s) i / IZR (e_n s))%R)
               (fun i => pydiv (f_row (e_cm s) i) (nofZ (e_n s))) (f_classes (e_cm s))) with (b := 0%R) (i := 0)
      as (b & i & Hf & Hb & Hall & Hor); auto.
    { intros i. apply pydiv_R. cbn. lra. }
    lazymatch goal with |- context[fold_left ?F ?C ?A] => replace (fold_left F C A) with (Ok (b, i)) by (symmetry; exact Hf) end.
    cbn [bind snd]. exists i. split; [reflexivity|]. right.
    assert (Hne : pl <> []).
    { intros ->. apply E. apply Ht. reflexivity. }
    split; [exact Hne|].
    destruct Hor as [[-> ->]|(Hin & Hv & Hlt & Hmin)].
    { exfalso. destruct pl as [|r pl]; [congruence|]. specialize (Hpos r (or_introl eq_refl)).
      inversion H6; subst. destruct H8 as [Hr _]. specialize (Hall _ Hr). rewrite H2 in Hall.
      pose proof (row_ge r (r :: pl) Hp0 (or_introl eq_refl)) as Hg.
      assert (0 < row_weight (r :: pl) (r_true r) / IZR (e_n s))%R by (apply Rdiv_lt_0_compat; lra). lra. }
    assert (Hmax : forall c, (row_weight pl c <= row_weight pl i)%R).
    { intros c. destruct (in_dec Z.eq_dec c (f_classes (e_cm s))) as [Hc|Hc].
      - specialize (Hall c Hc). subst b. rewrite !H2 in Hall.
        apply (Rmult_le_reg_r (/ IZR (e_n s))); [apply Rinv_0_lt_compat; lra|exact Hall].
      - rewrite row_absent; [apply weight_where_nonneg; auto|]. intros Hm. apply in_map_iff in Hm. destruct Hm as (r & <- & Hr).
        rewrite Forall_forall in H6. destruct (H6 r Hr). tauto. }
    split; [exact Hmax|]. intros c Hc.
    destruct (in_dec Z.eq_dec c (f_classes (e_cm s))) as [Hcc|Hcc].
    + apply Hmin; auto. subst b. rewrite !H2, Hc. reflexivity.
    + exfalso. rewrite row_absent in Hc.
      * subst b. rewrite H2 in Hlt. rewrite <- Hc in Hlt. unfold Rdiv in Hlt. lra.
      * intros Hm. apply in_map_iff in Hm. destruct Hm as (r & <- & Hr). rewrite Forall_forall in H6. destruct (H6 r Hr). tauto.
Qed.

(** *** the unwindowed evaluator, any weights *)
Definition last_label (l : list (Z * Z * R)) : Z := last (map r_true l) 0.

Lemma last_default {A} (l : list A) d d' : l <> [] -> last l d = last l d'.
Proof. induction l as [|a l IH]; [congruence|]. intros _. simpl. destruct l; auto. apply IH. discriminate. Qed.

Lemma repeat_weight_snoc l : forall prev r,
  repeat_weight prev (l ++ [r])
  = (repeat_weight prev l + if (last (map r_true l) prev =? r_true r)%Z then r_weight r else 0)%R.
Proof.
  induction l as [|a l IH]; intros prev r; simpl.
  - lra.
  - rewrite IH. replace (match map r_true l with [] => r_true a | _ :: _ => last (map r_true l) prev end)
      with (last (map r_true l) (r_true a)); [lra|].
    destruct (map r_true l) eqn:E; [reflexivity|]. apply last_default. discriminate.
Qed.

Record EvInv (n : Z) (s : cpe R) (l : list (Z * Z * R)) : Prop := {
  ev_init : e_init s = if n <? 2 then 2 else n;
  ev_cm : CmOk (e_cm s) (positive l);
  ev_n : e_n s = Z.of_nat (length l);
  ev_tw : e_tw s = total_weight (positive l);
  ev_last : e_last_true s = last_label l;
  ev_nc : e_nc s = repeat_weight 0 l;
  ev_maj : majority_weight l (e_maj s);
  ev_range : forall c, In c (f_classes (e_cm s))
               <-> 0 <= c < e_init s \/ In c (map r_true (positive l)) \/ In c (map r_pred (positive l))
}.

Lemma cpe_new_inv n : EvInv n (cpe_new n) [].
Proof.
  constructor; try reflexivity; simpl.
  - apply cfm_new_ok.
  - constructor.
  - intros c. rewrite set_range_In. destruct (n <? 2) eqn:E; simpl; [tauto|]. rewrite E. tauto.
Qed.

Lemma last_snoc {A} (l : list A) x d : last (l ++ [x]) d = x.
Proof. induction l as [|a l IH]; simpl; auto. destruct (l ++ [x]) eqn:E; [destruct l; discriminate|]. auto. Qed.

Lemma cpe_record_inv n s l t p w : EvInv n s l ->
  exists s' fm fn, cpe_record s t p w = Ok (s', fm, fn) /\ EvInv n s' (l ++ [(t, p, w)])
    /\ (exists m, majority_answer (l ++ [(t, p, w)]) m /\ fm = (m =? t)) /\ fn = (last_label l =? t).
Proof.
  intros [H0 H1 H2 H3 H4 H5 H6 H7]. unfold cpe_record, n0. cbn [nltb nofZ nadd NumR]. cbv zeta.
  set (cm1 := if Rltb 0 w then cfm_set (e_cm s) t p w else e_cm s).
  set (tw1 := if Rltb 0 w then (e_tw s + w)%R else e_tw s).
  assert (Hcm : CmOk cm1 (positive (l ++ [(t, p, w)]))).
  { rewrite positive_app. simpl. unfold r_weight; simpl. unfold cm1. destruct (Rltb 0 w).
    - apply cfm_set_ok; auto.
    - rewrite app_nil_r. auto. }
  assert (Htw : tw1 = total_weight (positive (l ++ [(t, p, w)]))).
  { rewrite positive_app. simpl. unfold r_weight; simpl. unfold tw1. unfold total_weight in *. rewrite weight_where_app, H3.
    destruct (Rltb 0 w); unfold weight_where; simpl; unfold r_weight; simpl; lra. }
  set (s1 := mk_cpe _ cm1 _ _ _ _ _ _).
  destruct (majority_ok s1 (l ++ [(t, p, w)]) Hcm) as (m & Hm & Ha); auto.
  { unfold s1; simpl. lia. }
  { unfold s1; simpl. rewrite Htw. apply total_zero_iff. }
  rewrite Hm. cbn [bind]. eexists _, _, _. split; [reflexivity|]. split; [|split].
  - unfold s1. constructor; simpl; auto.
    + rewrite H2, app_length. simpl. lia.
    + unfold last_label. rewrite map_app. simpl. rewrite last_snoc. reflexivity.
    + rewrite repeat_weight_snoc, <- H5. rewrite H4. unfold last_label, r_true, r_weight; simpl.
      destruct (last _ 0 =? t); simpl; lra.
    + eapply eq_ind; [eapply mw_snoc; eauto|]. reflexivity.
    + intros c. rewrite positive_app, !map_app, !in_app_iff. simpl. unfold r_weight; simpl. unfold cm1.
      destruct (Rltb 0 w); simpl; rewrite ?set_add_In, H7; unfold r_true, r_pred; simpl; intuition congruence.
  - exists m. auto.
  - rewrite H4. reflexivity.
Qed.

Lemma cpe_add_inv n s l t p w : EvInv n s l -> exists s', cpe_add s t p w = Ok s' /\ EvInv n s' (l ++ [(t, p, w)]).
Proof.
  intros H. destruct (cpe_record_inv n s l t p w H) as (s' & fm & fn & E & HI & _). unfold cpe_add. rewrite E. simpl. eauto.
Qed.

Lemma cpe_run_inv n r : forall s l, EvInv n s l -> exists s', cpe_run s r = Ok s' /\ EvInv n s' (l ++ r).
Proof.
  induction r as [|[[t p] w] r IH]; intros s l HI; simpl.
  - exists s. rewrite app_nil_r. auto.
  - destruct (cpe_add_inv n s l t p w HI) as (s1 & E & HI1). rewrite E. cbn [bind].
    destruct (IH s1 _ HI1) as (s2 & E2 & HI2). exists s2. rewrite <- app_assoc in HI2. auto.
Qed.

Lemma cpe_run_new n l : exists s, cpe_run (cpe_new n) l = Ok s /\ EvInv n s l.
Proof. exact (cpe_run_inv n l _ [] (cpe_new_inv n)). Qed.

(** the chance agreement does not depend on how the label set is listed *)
Lemma Rsum_rows_times (g : Z -> R) cs l : NoDup cs -> Forall (fun r => In (r_true r) cs) l ->
  Rsum (map (fun c => row_weight l c * g c)%R cs) = Rsum (map (fun r => r_weight r * g (r_true r))%R l).
Proof.
  intros Hnd. unfold row_weight. induction 1 as [|r l H Hl IH].
  - unfold weight_where; simpl. rewrite (Rsum_map_ext_in _ (fun _ => 0%R)); [apply Rsum_map_0|]. intros; simpl; lra.
  - rewrite (Rsum_map_ext_in _ (fun c => ((if (r_true r =? c)%Z then (r_weight r * g (r_true r)) else 0)
               + weight_where (fun r => r_true r =? c)%Z l * g c)%R)).
    + rewrite Rsum_map_add, IH, Rsum_indicator; auto.
    + intros c _. rewrite weight_where_cons. destruct (r_true r =? c) eqn:E; zb; subst; lra.
Qed.
Lemma expected_independent l cs cs' : covers cs l -> covers cs' l -> expected l cs = expected l cs'.
Proof.
  intros [Hn Hc] [Hn' Hc']. unfold expected.
  set (g := fun c => ((col_weight l c / count l) / count l)%R).
  rewrite (Rsum_map_ext_in _ (fun c => row_weight l c * g c)%R cs) by (intros; unfold g; lra).
  rewrite (Rsum_map_ext_in _ (fun c => row_weight l c * g c)%R cs') by (intros; unfold g; lra).
  rewrite !Rsum_rows_times; auto.
  - eapply Forall_impl; [|exact Hc']; simpl; tauto.
  - eapply Forall_impl; [|exact Hc]; simpl; tauto.
Qed.
