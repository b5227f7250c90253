From Coq Require Import List ZArith Lia Reals Lra Bool Permutation Sorted.
From Verif Require Import Base.Py Base.Num Spec.Lists Spec.WindowSpec Spec.SlidingWindowSpec Spec.KnnSpec Spec.AdwinSpec
  Model.SlidingWindow Model.Adwin Model.Knn Proofs.ListFacts Proofs.SlidingWindowProofs Proofs.AdwinHistory Proofs.KnnProofs.
Import ListNotations.

Local Open Scope nat_scope.

Lemma lastn_min_snoc {A} n W (l : list A) p : W <= length l ->
  lastn n (lastn (Nat.min n W) l ++ [p]) = lastn (Nat.min n (W + 1)) (l ++ [p]).
Proof.
  intros HW. destruct (le_lt_dec n W) as [H|H].
  - rewrite !Nat.min_l by lia. apply lastn_lastn_app.
  - rewrite !Nat.min_r by lia. rewrite lastn_all by (rewrite app_length, lastn_length; simpl; lia).
    rewrite (lastn_app_l (W + 1)) by (simpl; lia). simpl. replace (W + 1 - 1) with W by lia. reflexivity.
Qed.

Lemma lastn_lastn {A} a b (l : list A) : a <= b -> lastn a (lastn b l) = lastn a l.
Proof.
  intros H. pose proof (lastn_suffix b l) as (p & Hp). rewrite Hp at 2.
  destruct (le_lt_dec b (length l)) as [Hb|Hb].
  - rewrite lastn_app_r; auto. rewrite lastn_length. lia.
  - rewrite (lastn_all b l) in * by lia. f_equal. auto.
Qed.

Section P.
Context {V D : Type} (vint : V -> Z) (query : list (list V) -> list V -> Z -> list nat) (P : detector D)
  (eqv : nat -> V -> bool).

Lemma predict_some n k dist w sh s X : 1 <= k ->
  (forall pts x, k <= length pts -> k_nearest dist pts x k (query pts x (Z.of_nat k))) ->
  kinv vint n k w sh s ->
  exists l s', knn_predict (T := R) vint query s X = Ok (l, s') /\ kinv vint n k w sh s'.
Proof.
  intros Hk Hq Hi. pose proof Hi as (Ek & Hr & Hg).
  destruct (predict_ok vint query n k dist w sh s X Hk Hq Hi) as (A & B).
  destruct (le_lt_dec k (length w)) as [H|H].
  - destruct (proba_ok vint query n k sh w s X dist Hk Ek Hr Hg H Hq) as (p & s1 & E & E1 & E2 & _).
    destruct (B H) as (p' & l & s' & Ep & El & _). rewrite E in Ep. injection Ep as <- <-.
    exists l, s1. split; auto. unfold kinv. rewrite E1, E2. auto.
  - destruct (A H) as (_ & E). eauto.
Qed.

Variable I : D -> Prop.
Hypothesis Hadd : forall d b, I d -> exists d', d_add P d b = Ok d' /\ I d' /\ d_width P d' = (d_width P d + 1)%Z.
Hypothesis Hdet : forall d, I d -> exists d' b, d_change P d = Ok (d', b) /\ I d' /\ (0 <= d_width P d' <= d_width P d)%Z
                         /\ (b = false -> d_width P d' = d_width P d).

Definition kadinv (n k : nat) (seen : list (list V * list V)) sh (s : kad D) : Prop :=
  I (ka_det s) /\ (0 <= d_width P (ka_det s))%Z /\ Z.to_nat (d_width P (ka_det s)) <= length seen
  /\ kinv vint n k (lastn (Nat.min n (Z.to_nat (d_width P (ka_det s)))) seen) sh (ka_knn s).

Lemma rows_inv n k dist rows : 1 <= n -> 1 <= k ->
  (forall pts x, k <= length pts -> k_nearest dist pts x k (query pts x (Z.of_nat k))) ->
  Forall (fun p => (0 <= vint (snd p))%Z) rows ->
  forall seen sh s rest, kadinv n k seen sh s -> consistent sh (map WAdd (pairs rows) ++ rest) ->
  exists s' sh', kad_rows (T := R) vint query P eqv s rows = Ok s' /\ kadinv n k (seen ++ pairs rows) sh' s'
    /\ consistent sh' rest.
Proof.
  intros Hn Hk Hq. induction rows as [|[x y] r IH]; intros Hl seen sh s rest (Hd & H0 & Hle & Ek & Hr & Hg) Hc; cbn [kad_rows].
  - exists s, sh. cbn [pairs map]. rewrite app_nil_r. split; auto. split; auto. unfold kadinv, kinv. auto 10.
  - inversion Hl; subst. simpl in H2.
    assert (Hpre : match sh with None => True | Some (nf, nt) => length x = nf /\ length [y] = nt end).
    { simpl in Hc. destruct sh as [[nf nt]|]; auto. tauto. }
    destruct (sadd_rep n sh _ _ x [y] Hn Hr Hpre) as (w1 & Hs & Hr1).
    change (sw_add (kn_win (ka_knn s)) (as_row x) (as_row [y])) with (sw_add (kn_win (ka_knn s)) (row1 x) (row1 [y])).
    rewrite Hs. cbn [bind]. rewrite (lastn_min_snoc n _ seen (x, [y]) Hle) in Hr1.
    set (W := Z.to_nat (d_width P (ka_det s))) in *.
    set (w := lastn (Nat.min n (W + 1)) (seen ++ [(x, [y])])) in *.
    assert (Hgw : good_win vint w).
    { unfold w. rewrite <- lastn_min_snoc by auto. apply good_lastn. apply Forall_app. split; auto.
      constructor; auto. exists y. auto. }
    assert (Hki : kinv vint n k w (Some (length x, length [y])) (mk_knn (kn_k (ka_knn s)) w1 (kn_classes (ka_knn s)))).
    { split; auto. }
    assert (Hmid : exists ok kn', (if (kn_k (mk_knn (kn_k (ka_knn s)) w1 (kn_classes (ka_knn s))) <=? sw_size w1)%Z
         then ' (l, kn') <- knn_predict (T := R) vint query (mk_knn (kn_k (ka_knn s)) w1 (kn_classes (ka_knn s))) [x] ;;
              Ok (match l with [c] => eqv c y | _ => false end, kn')
         else Ok (false, mk_knn (kn_k (ka_knn s)) w1 (kn_classes (ka_knn s)))) = Ok (ok, kn')
         /\ kinv vint n k w (Some (length x, length [y])) kn').
    { destruct (_ <=? _)%Z.
      - destruct (predict_some n k dist w _ _ [x] Hk Hq Hki) as (l & s' & E & Hi'). rewrite E. cbn [bind].
        eexists _, _. split; [reflexivity|auto].
      - eexists _, _. split; [reflexivity|auto]. }
    destruct Hmid as (ok & kn' & Em & Hkn'). rewrite Em. cbn [bind].
    destruct (Hadd (ka_det s) ok Hd) as (d' & Ed & Hd' & Hw'). rewrite Ed. cbn [bind].
    assert (Hc' : consistent (Some (length x, length [y])) (map WAdd (pairs r) ++ rest)).
    { simpl in Hc. destruct sh as [[nf nt]|]; auto. destruct Hc as (<- & Hln & Hc). simpl in Hln. subst. auto. }
    destruct (IH H3 (seen ++ [(x, [y])]) (Some (length x, length [y])) (mk_kad kn' d') rest) as (s' & sh' & E' & Hi' & Hc''); auto.
    { split; auto. cbn [ka_det ka_knn]. rewrite Hw'. split; [lia|].
      replace (Z.to_nat (d_width P (ka_det s) + 1)) with (W + 1) by (unfold W; lia).
      split; [rewrite app_length; simpl; lia|]. exact Hkn'. }
    exists s', sh'. split; auto. split; auto. rewrite <- app_assoc in Hi'. exact Hi'.
Qed.

Lemma delete_oldest_rep n sh m : forall w (s : swin V), srep n sh w s -> srep n sh (skipn m w) (delete_oldest m s).
Proof.
  induction m as [|m IH]; intros w s H; simpl; auto.
  destruct w as [|p w].
  - apply sdel_rep in H. apply (IH [] _) in H. rewrite skipn_nil in H. exact H.
  - apply sdel_rep in H. apply IH in H. exact H.
Qed.

Lemma fit_inv n k dist rows classes : 1 <= n -> 1 <= k ->
  (forall pts x, k <= length pts -> k_nearest dist pts x k (query pts x (Z.of_nat k))) ->
  Forall (fun p => (0 <= vint (snd p))%Z) rows ->
  forall seen sh s rest, kadinv n k seen sh s -> consistent sh (map WAdd (pairs rows) ++ rest) ->
  exists s' sh', kad_fit (T := R) vint query P eqv s rows classes = Ok s' /\ kadinv n k (seen ++ pairs rows) sh' s'
    /\ consistent sh' rest.
Proof.
  intros Hn Hk Hq Hl seen sh s rest Hi Hc. unfold kad_fit.
  destruct (rows_inv n k dist rows Hn Hk Hq Hl seen sh (mk_kad (add_classes (ka_knn s) classes) (ka_det s)) rest)
    as (s1 & sh1 & E & Hi1 & Hc1); auto.
  { destruct Hi as (A & B & C & Ek & Hr & Hg). split; auto. split; auto. split; auto.
    destruct classes; split; auto. }
  rewrite E. cbn [bind]. cbv zeta. destruct Hi1 as (Hd & H0 & Hle & Ek & Hr & Hg).
  set (all := seen ++ pairs rows) in *. set (W := Z.to_nat (d_width P (ka_det s1))) in *.
  rewrite (srep_size _ _ _ _ Hr). rewrite lastn_length.
  destruct (kn_k (ka_knn s1) <=? _)%Z.
  2: { exists s1, sh1. split; auto. split; auto. split; auto. split; auto. split; auto. split; auto. }
  destruct (Hdet _ Hd) as (d' & b & Ed & Hd' & Hw & Hb). rewrite Ed. cbn [bind].
  set (W' := Z.to_nat (d_width P d')).
  assert (HW' : W' <= W) by (unfold W, W'; lia).
  eexists _, sh1. split; [reflexivity|]. split; auto. split; auto. cbn [ka_det ka_knn]. split; [lia|]. fold W'.
  split; [lia|]. split; auto. cbn [kn_win].
  assert (Hgood : good_win vint (lastn (Nat.min n W') all)).
  { rewrite <- (lastn_lastn (Nat.min n W') (Nat.min n W)) by lia. apply good_lastn. auto. }
  split; auto.
  destruct (b && _) eqn:Eb.
  - apply andb_true_iff in Eb. destruct Eb as (_ & Eb). apply Z.ltb_lt in Eb.
    assert (Hsz : W' < Nat.min (Nat.min n W) (length all)) by (unfold W'; lia).
    replace (lastn (Nat.min n W') all)
      with (skipn (Z.to_nat (Z.of_nat (Nat.min (Nat.min n W) (length all)) - d_width P d')) (lastn (Nat.min n W) all)).
    + apply delete_oldest_rep. auto.
    + rewrite (Nat.min_r n W') by lia. rewrite <- (lastn_lastn W' (Nat.min n W)) by lia.
      unfold lastn at 2. rewrite lastn_length. f_equal. unfold W'. lia.
  - assert (EW : Nat.min n W' = Nat.min n W).
    { destruct b; [|rewrite (Hb eq_refl) in *; unfold W', W; lia].
      simpl in Eb. apply Z.ltb_ge in Eb. unfold W' in *. lia. }
    rewrite EW. auto.
Qed.

Lemma kad_run_inv n k dist ops : 1 <= n -> 1 <= k -> I (d_new P) -> d_width P (d_new P) = 0%Z ->
  (forall pts x, k <= length pts -> k_nearest dist pts x k (query pts x (Z.of_nat k))) ->
  forall seen sh s, kadinv n k seen sh s -> Forall (labels_ok vint) ops -> consistent sh (flat_map window_ops ops) ->
  exists s' sh', kad_run R vint query P eqv s ops = Ok s' /\
    kadinv n k (fold_left (fun acc o => match o with
                          | KFit rows _ => acc ++ map (fun '(x, y) => (x, [y])) rows
                          | KPredict _ => acc
                          | KReset => [] end) ops seen) sh' s'.
Proof.
  intros Hn Hk HI HW Hq. induction ops as [|o r IH]; intros seen sh s Hi Hl Hc; simpl in *.
  - eauto.
  - inversion Hl; subst.
    assert (G : exists s1 sh1, kad_step R vint query P eqv s o = Ok s1 /\ kadinv n k (match o with
                          | KFit rows _ => seen ++ map (fun '(x, y) => (x, [y])) rows
                          | KPredict _ => seen
                          | KReset => [] end) sh1 s1 /\ consistent sh1 (flat_map window_ops r)).
    { destruct o as [rows classes|X|]; simpl in *.
      - rewrite wadds_pairs in Hc. eapply fit_inv; eauto.
      - destruct Hi as (A & B & C & Hki). destruct (predict_some n k dist _ _ _ X Hk Hq Hki) as (l & s' & E & Hki').
        rewrite E. cbn [bind]. eexists _, sh. split; [reflexivity|]. split; auto. split; auto.
      - eexists _, None. split; [reflexivity|]. split; auto. split; auto. cbn [kad_reset ka_det ka_knn]. rewrite HW.
        split; [lia|]. split; [simpl; lia|]. destruct Hi as (_ & _ & _ & Ek & (A & _) & _). split; auto.
        split; [|constructor]. repeat split; simpl; auto; lia. }
    destruct G as (s1 & sh1 & E & Hi1 & Hc1). rewrite E. cbn [bind]. eapply IH; eauto.
Qed.
End P.

Lemma adwin_is_window_detector {T} {N : Num T} (delta : T) : window_detector (adwin_detector delta).
Proof.
  exists (fun s => exists L, AdwinProofs.Inv Plen_only Ttriv s L /\ ad_clock s <> 0%Z).
  split; [|split; [reflexivity|split]].
  - exists []. split; [|simpl; discriminate]. apply AdwinProofs.Inv_init. exact I.
  - intros d b (L & HI & Hc). cbn [d_add d_width adwin_detector adwin_step].
    destruct (AdwinProofs.Inv_add Plen_only Ttriv (fun v => eq_refl)) with (s := d) (L := L) (v := if b then nofZ 1 else nofZ 0)
      as (s' & E & I' & F1 & F2 & F3 & F4 & F5 & F6 & _); auto.
    { intros. unfold Plen_only in *. rewrite app_length. simpl. lia. }
    rewrite E. cbn [bind]. exists s'. split; auto. split; [|lia]. eexists. split; eauto. congruence.
  - intros d (L & HI & Hc). cbn [d_change d_width adwin_detector].
    destruct (detect_len d L HI Hc) as (s' & b & L' & E & I' & S' & F1 & F2 & F3 & F4 & F5 & F6 & F7 & _).
    rewrite E. exists s', b. split; auto. split; [eexists; split; eauto; congruence|].
    assert (W : ad_width d = Z.of_nat (length L)) by apply HI.
    assert (W' : ad_width s' = Z.of_nat (length L')) by apply I'.
    destruct S' as (p & ->). rewrite app_length in W. destruct b.
    + split; [|discriminate]. lia.
    + split; [lia|]. intros _. destruct (Z.eq_dec (ad_width s') (ad_width d)); auto.
      assert (ad_width s' < ad_width d)%Z by lia. apply F7 in H. discriminate.
Qed.
