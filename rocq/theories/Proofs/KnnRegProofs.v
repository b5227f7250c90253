From Coq Require Import List ZArith Lia Reals Lra Bool Permutation Sorted.
From Verif Require Import Base.Py Base.Num Spec.Lists Spec.WindowSpec Spec.SlidingWindowSpec Spec.KnnSpec
  Model.SlidingWindow Model.Knn Proofs.ListFacts Proofs.SlidingWindowProofs Proofs.KnnProofs.
Import ListNotations.

Lemma fold_sum (l : list R) : forall a, fold_left nadd l a = (a + Rsum l)%R.
Proof. induction l as [|x l IH]; intros a; simpl; [lra|]. rewrite IH. simpl. lra. Qed.

Lemma mean_ok (l : list R) : mean l = Rmean l.
Proof. unfold mean, Rmean. rewrite fold_sum. simpl. rewrite <- INR_IZR_INZ. rewrite Rplus_0_l. reflexivity. Qed.

Lemma insert_perm (x : R) l : Permutation (insert x l) (x :: l).
Proof.
  induction l as [|y r IH]; simpl; auto. destruct (Rleb x y); auto.
  rewrite IH. constructor.
Qed.
Lemma sort_perm (l : list R) : Permutation (sort l) l.
Proof. induction l as [|x l IH]; simpl; auto. rewrite insert_perm. constructor. auto. Qed.

Lemma insert_sorted (x : R) l : Sorted Rle l -> Sorted Rle (insert x l).
Proof.
  induction l as [|y r IH]; intros H; simpl; auto.
  destruct (Rleb x y) eqn:E.
  - apply Rleb_true in E. auto.
  - apply Rleb_false in E. inversion H; subst. constructor; auto.
    destruct r as [|z r]; simpl; [constructor; lra|].
    inversion H3; subst. destruct (Rleb x z); constructor; lra.
Qed.
Lemma sort_sorted (l : list R) : Sorted Rle (sort l).
Proof. induction l; simpl; auto using insert_sorted. Qed.

Lemma median_ok (l : list R) : l <> [] -> is_median (median l) l.
Proof.
  intros Hl. exists (sort l). split; [apply sort_perm|]. split; [apply sort_sorted|].
  unfold median. cbv zeta. destruct (Nat.even (length l)) eqn:E.
  - apply Nat.even_spec in E. destruct E as (m & Em).
    assert (m <> 0) by (destruct l; [congruence|simpl in Em; lia]).
    replace (length l / 2 - 1) with ((length l - 1) / 2); [reflexivity|].
    rewrite Em. rewrite (Nat.mul_comm 2 m), Nat.div_mul by lia.
    symmetry; apply Nat.div_unique with 1; lia.
  - assert (O : Nat.odd (length l) = true) by (unfold Nat.odd; rewrite E; reflexivity).
    apply Nat.odd_spec in O. destruct O as (m & Em).
    replace ((length l - 1) / 2) with (length l / 2).
    + simpl. lra.
    + rewrite Em. replace (2 * m + 1 - 1) with (m * 2) by lia. rewrite Nat.div_mul by lia.
      symmetry. apply Nat.div_unique with 1; lia.
Qed.

Section P.
Context (query : list (list R) -> list R -> Z -> list nat).

Definition one_target (w : list (list R * list R)) : Prop := Forall (fun p => exists y, snd p = [y]) w.
Lemma one_lastn n w : one_target w -> one_target (lastn n w).
Proof. intros H. unfold one_target in *. rewrite Forall_forall in *. intros x Hx. apply H.
  unfold lastn in Hx. rewrite <- (firstn_skipn (length w - n) w). apply in_or_app; auto. Qed.

Definition krinv n k agg w sh (s : knr) : Prop :=
  kr_k s = Z.of_nat k /\ kr_agg s = agg /\ srep n sh w (kr_win s) /\ one_target w.

Lemma knr_run_inv n k agg ops : 1 <= n ->
  forall w sh s, krinv n k agg w sh s -> consistent sh (flat_map window_ops ops) ->
  exists s' sh', knr_run s ops = Ok s' /\ krinv n k agg (wrun n w (flat_map window_ops ops)) sh' s'.
Proof.
  intros Hn. induction ops as [|o r IH]; intros w sh s Hi Hc; simpl in *.
  - exists s, sh. auto.
  - assert (G : exists s1 sh1, knr_step s o = Ok s1 /\ krinv n k agg (wrun n w (window_ops o)) sh1 s1
                /\ consistent sh1 (flat_map window_ops r)).
    { destruct Hi as (Ek & Ea & Hr & Hg). destruct o as [rows c|X|]; simpl in *.
      - rewrite wadds_pairs in Hc. unfold knr_fit.
        destruct (add_rows_rep (fun _ => 0%Z) n rows sh w (kr_win s) _ Hn Hr Hc) as (s' & sh' & E & Hr' & Hc').
        rewrite E. eexists _, sh'. split; [reflexivity|]. split; auto.
        rewrite wadds_pairs, wrun_adds by (destruct Hr as (_ & ? & _); lia).
        split; auto. split; auto. split; auto. apply one_lastn. apply Forall_app. split; auto.
        unfold pairs. apply Forall_map. apply Forall_forall. intros [x y] _. simpl. eauto.
      - exists s, sh. split; auto. split; auto. split; auto.
      - eexists _, None. split; [reflexivity|]. split; auto. split; auto. split; auto. split; [|constructor].
        destruct Hr as (A & _). repeat split; simpl; auto; lia. }
    destruct G as (s1 & sh1 & E & Hi1 & Hc1). rewrite E. cbn [bind].
    destruct (IH _ _ _ Hi1 Hc1) as (s2 & sh2 & E2 & Hi2). exists s2, sh2. split; auto.
    rewrite flat_app. auto.
Qed.

Lemma knr_new_inv n k agg : krinv n k agg [] None (knr_new (Z.of_nat k) (Z.of_nat n) agg).
Proof. split; [reflexivity|]. split; auto. split; [|constructor]. repeat split; simpl; auto; lia. Qed.

Lemma targets_ok n sh w s idx : srep n sh w s -> one_target w -> (forall i, In i idx -> i < length w) ->
  mapM (fun i => match nth_error (sw_targets s) i with Some (y :: _) => Ok y | _ => Raise IndexError end) idx
  = Ok (targets_of w idx) /\ length (targets_of w idx) = length idx.
Proof.
  intros Hr Ho. induction idx as [|i r IH]; intros Hi; simpl; auto.
  rewrite (srep_targets _ _ _ _ Hr), nth_error_map.
  destruct (nth_error w i) as [[x ys]|] eqn:E.
  - pose proof (nth_error_In _ _ E) as Hin. unfold one_target in Ho. rewrite Forall_forall in Ho.
    destruct (Ho _ Hin) as (y & Ey). simpl in Ey. subst ys. simpl.
    destruct IH as (E1 & E2); [intros; apply Hi; simpl; auto|].
    rewrite (srep_targets _ _ _ _ Hr) in E1. rewrite E1. cbn [bind]. simpl. split; auto.
  - apply nth_error_None in E. specialize (Hi i (or_introl eq_refl)). lia.
Qed.

Lemma knr_single n k agg dist w sh s x : 1 <= k ->
  (forall pts x, k <= length pts -> k_nearest dist pts x k (query pts x (Z.of_nat k))) ->
  krinv n k agg w sh s ->
  (length w < k -> knr_predict query s [x] = Ok [0%R])
  /\ (k <= length w -> exists idx v, knr_predict query s [x] = Ok [v] /\ k_nearest dist (map fst w) x k idx
       /\ match agg with
          | AggMean => v = Rmean (targets_of w idx)
          | AggMedian => is_median v (targets_of w idx) end).
Proof.
  intros Hk Hq (Ek & Ea & Hr & Ho). unfold knr_predict. rewrite mapM_one. unfold knr_predict1.
  rewrite (srep_size _ _ _ _ Hr), Ek. split; intros Hw.
  - replace (Z.of_nat (length w) <? Z.of_nat k)%Z with true by (symmetry; apply Z.ltb_lt; lia). reflexivity.
  - replace (Z.of_nat (length w) <? Z.of_nat k)%Z with false by (symmetry; apply Z.ltb_ge; lia).
    rewrite (srep_features _ _ _ _ Hr). specialize (Hq (map fst w) x).
    rewrite map_length in Hq. specialize (Hq Hw). set (idx := query (map fst w) x (Z.of_nat k)) in *.
    pose proof Hq as (H1 & H2 & H3 & H4). rewrite map_length in H3.
    destruct (targets_ok n sh w (kr_win s) idx Hr Ho H3) as (E1 & E2).
    rewrite (mapM_one (fun x => mapM _ (query (map fst w) x (Z.of_nat k)))).
    fold idx. rewrite E1. cbn [bind concat]. rewrite app_nil_r, Ea.
    eexists idx, _. split; [reflexivity|]. split; auto. destruct agg.
    + apply mean_ok.
    + apply median_ok. intros E. rewrite E in E2. simpl in E2. lia.
Qed.

(** With enough samples every row of a batch gets the same number. *)
Lemma knr_batch_same s X :
  forall out, knr_predict query s X = Ok out -> forall a b, In a out -> In b out -> a = b.
Proof.
  intros out. unfold knr_predict. generalize (knr_predict1 query s X) as v. intros v E.
  assert (G : forall (X : list (list R)) out, mapM (fun _ => v) X = Ok out -> forall a, In a out -> v = Ok a).
  { clear. induction X as [|x X IH]; simpl; intros out E a Ha.
    - injection E as <-. destruct Ha.
    - destruct v as [t|e] eqn:Ev; simpl in E; [|discriminate].
      destruct (mapM (fun _ => Ok t) X) as [bs|] eqn:Em; simpl in E; [|discriminate]. injection E as <-.
      destruct Ha as [<-|Ha]; auto. eapply IH; eauto. }
  intros a b Ha Hb. apply (G _ _ E) in Ha. apply (G _ _ E) in Hb. congruence.
Qed.
End P.

Lemma combine_fst_snd {A B} (l : list (A * B)) : combine (map fst l) (map snd l) = l.
Proof. induction l as [|[a b] l IH]; simpl; congruence. Qed.
