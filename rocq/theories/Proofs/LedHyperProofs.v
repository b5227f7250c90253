From Coq Require Import ZArith List Bool Reals Lra Lia Arith Permutation.
From Verif Require Import Base.Py Base.Num Model.Generators Spec.GeneratorSpec Proofs.GeneratorProofs Proofs.GeneratorReal.
Import ListNotations.
Local Open Scope R_scope.

(** *** LED *)
Lemma led_segments_clean {G} (S : Rng G R) noise vs g ws g' :
  rng_ok S -> noise < 1 / 100 -> led_segments S noise vs g = (ws, g') -> ws = vs.
Proof.
  intros HS Hn. revert g ws g'; induction vs as [|v r IH]; intros g ws g' H; cbn [led_segments] in H.
  - now injection H as <- <-.
  - unfold led_segment in H. destruct (noise_hit S noise g) as [h g1] eqn:E.
    apply (no_hit _ _ _ _ _ HS Hn) in E. subst h.
    destruct (led_segments S noise r g1) as [ws' g2] eqn:E2. injection H as <- <-. f_equal. eapply IH; eauto.
Qed.
Lemma led_segments_length {G T} `{Num T} (S : Rng G T) noise vs g ws g' :
  led_segments S noise vs g = (ws, g') -> length ws = length vs.
Proof.
  revert g ws g'; induction vs as [|v r IH]; intros g ws g' E; cbn [led_segments] in E.
  - now injection E as <- <-.
  - destruct (led_segment S noise v g) as [w g1]. destruct (led_segments S noise r g1) as [ws' g2] eqn:E2.
    injection E as <- <-. cbn. f_equal. eauto.
Qed.
Lemma led_extra_ok {G} (S : Rng G R) n g ws g' :
  rng_ok S -> led_extra S n g = (ws, g') -> length ws = n /\ Forall (fun v => v = 0%Z \/ v = 1%Z) ws.
Proof.
  intros HS. revert g ws g'; induction n as [|n IH]; intros g ws g' H; cbn [led_extra] in H.
  - injection H as <- <-. auto.
  - rands HS. destruct (led_extra S n g0) as [ws' g2] eqn:E2. injection H as <- <-.
    destruct (IH _ _ _ E2) as [A B]. cbn. split; [now rewrite A|]. constructor; [lia|assumption].
Qed.
Lemma led_digit d : (0 <= d < 10)%Z -> nth (Z.to_nat d) led_digits [] = segments d.
Proof.
  intros H. assert (C : (d = 0 \/ d = 1 \/ d = 2 \/ d = 3 \/ d = 4 \/ d = 5 \/ d = 6 \/ d = 7 \/ d = 8 \/ d = 9)%Z) by lia.
  repeat (destruct C as [-> | C]; [reflexivity|]). now subst d.
Qed.
Lemma led_values_ok {G} (S : Rng G R) noise hn g vs y g' :
  rng_ok S -> noise < 1 / 100 -> led_values S noise hn g = (vs, y, g') ->
  (0 <= y <= 9)%Z /\ exists extra, vs = segments y ++ extra /\
    length extra = (if hn then 17 else 0)%nat /\ Forall (fun v => v = 0%Z \/ v = 1%Z) extra.
Proof.
  intros HS Hn H. unfold led_values in H. rands HS.
  destruct (led_segments S noise _ g0) as [segs g2] eqn:E1.
  apply (led_segments_clean _ _ _ _ _ _ HS Hn) in E1. rewrite led_digit in E1 by lia. subst segs.
  destruct hn.
  - destruct (led_extra S 17 g2) as [ex g3] eqn:E2. injection H as <- <- <-.
    destruct (led_extra_ok _ _ _ _ _ HS E2) as [A B]. split; [lia|]. exists ex. auto.
  - injection H as <- <- <-. split; [lia|]. exists []. auto.
Qed.
Lemma led_one_ok {G} (S : Rng G R) noise hn g x row y g' x' :
  rng_ok S -> noise < 1 / 100 -> led_one S noise hn g x = Ret (row, y, (g', x')) -> led_sample hn row y.
Proof.
  intros HS Hn H. unfold led_one in H. destruct (led_values S noise hn g) as [[vs y0] g1] eqn:E.
  injection H as <- <- <- <-. destruct (led_values_ok _ _ _ _ _ _ _ HS Hn E) as (A & ex & -> & B & C).
  split; [exact A|]. exists ex. auto.
Qed.

(** *** LED with drift *)
Lemma put_length {A} (l : list A) i v l' : put l i v = Some l' -> length l' = length l.
Proof.
  revert i l'; induction l as [|x l IH]; intros [|i] l' H; cbn in H; try discriminate.
  - now injection H as <-.
  - destruct (put l i v) eqn:E; [|discriminate]. injection H as <-. cbn. f_equal. eauto.
Qed.
Lemma put_some {A} (l : list A) i v : (i < length l)%nat -> exists l', put l i v = Some l'.
Proof.
  revert i; induction l as [|x l IH]; intros [|i] H; cbn in *; try lia; [eauto|].
  destruct (IH i) as [l' E]; [lia|]. rewrite E. eauto.
Qed.
Lemma put_none {A} (l : list A) i v : (length l <= i)%nat -> put l i v = None.
Proof.
  revert i; induction l as [|x l IH]; intros [|i] H; cbn in *; try lia; try reflexivity.
  rewrite IH; [reflexivity|lia].
Qed.
Lemma put_nth {A} (l : list A) i v l' j d :
  put l i v = Some l' -> nth j l' d = if (j =? i)%nat then v else nth j l d.
Proof.
  revert i l' j; induction l as [|x l IH]; intros [|i] l' [|j] H; cbn in H; try discriminate.
  - now injection H as <-.
  - now injection H as <-.
  - destruct (put l i v) eqn:E; [|discriminate]. now injection H as <-.
  - destruct (put l i v) eqn:E; [|discriminate]. injection H as <-. cbn. eapply IH; eauto.
Qed.

Lemma place_ok vs cols row :
  (length vs <= length cols)%nat -> NoDup cols -> Forall (fun c => (c < length row)%nat) (firstn (length vs) cols) ->
  exists row', place vs cols row = Ok row' /\ length row' = length row /\
    (forall i, (i < length vs)%nat -> nth (nth i cols 0%nat) row' 0%Z = nth i vs 0%Z) /\
    (forall j, ~ In j (firstn (length vs) cols) -> nth j row' 0%Z = nth j row 0%Z).
Proof.
  revert cols row; induction vs as [|v vs IH]; intros cols row HL HN HF.
  - exists row. destruct cols; cbn; repeat split; auto; lia.
  - destruct cols as [|c cols]; cbn in HL; [lia|].
    inversion HN as [|? ? Hc HN']; subst. cbn [firstn length] in HF. inversion HF as [|? ? H1 H2]; subst.
    destruct (put_some row c v H1) as [row1 E1]. cbn [place]. rewrite E1.
    pose proof (put_length _ _ _ _ E1) as L1.
    destruct (IH cols row1) as (row' & P1 & P2 & P3 & P4); [lia|assumption| |].
    { rewrite L1. assumption. }
    assert (Hc' : ~ In c (firstn (length vs) cols)).
    { intros K. apply Hc. rewrite <- (firstn_skipn (length vs) cols). apply in_or_app. auto. }
    exists row'. split; [exact P1|]. split; [congruence|]. split.
    + intros [|i] Hi; cbn in *.
      * rewrite P4 by assumption. rewrite (put_nth _ _ _ _ _ _ E1), Nat.eqb_refl. reflexivity.
      * apply P3. lia.
    + intros j Hj. cbn [length firstn] in Hj. rewrite P4 by (intros K; apply Hj; now right).
      rewrite (put_nth _ _ _ _ _ _ E1). destruct (Nat.eqb_spec j c); [|reflexivity]. subst. destruct Hj. now left.
Qed.

Definition drift_cols (n : nat) (r o : Z) : list nat := fold_left (swap_columns r o) (seq 0 n) (seq 0 24).

Definition cols_check (n : nat) (r o : Z) : bool :=
  let cols := drift_cols n r o in
  (length cols =? 24)%nat && forallb (fun i => (nth (nth i cols 0%nat) cols 0 =? i)%nat && (nth i cols 0 <? 24)%nat) (seq 0 24) &&
  (length (filter (fun i => negb (nth i cols 0 =? i)%nat) (seq 0 7)) =? n)%nat &&
  forallb (fun i => (nth i cols 0 =? i)%nat || (7 <=? nth i cols 0)%nat) (seq 0 7).

Lemma cols_check_all :
  forallb (fun n => forallb (fun r => forallb (fun o => cols_check n (Z.of_nat r) (Z.of_nat o)) (seq 0 17)) (seq 0 7)) (seq 0 8) = true.
Proof. vm_compute. reflexivity. Qed.

Lemma cols_ok n r o : (n <= 7)%nat -> (0 <= r < 7)%Z -> (0 <= o < 17)%Z -> cols_check n r o = true.
Proof.
  intros Hn Hr Ho. pose proof cols_check_all as H. rewrite forallb_forall in H.
  specialize (H n ltac:(apply in_seq; lia)). rewrite forallb_forall in H.
  specialize (H (Z.to_nat r) ltac:(apply in_seq; lia)). rewrite forallb_forall in H.
  specialize (H (Z.to_nat o) ltac:(apply in_seq; lia)). now rewrite !Z2Nat.id in H by lia.
Qed.

Lemma involution_perm cols : length cols = 24%nat ->
  (forall i, (i < 24)%nat -> nth (nth i cols 0%nat) cols 0%nat = i /\ (nth i cols 0 < 24)%nat) ->
  Permutation cols (seq 0 24).
Proof.
  intros L H. apply NoDup_Permutation.
  - apply (NoDup_nth cols 0%nat). intros i j Hi Hj E. rewrite L in *.
    destruct (H i Hi) as [A _]. destruct (H j Hj) as [B _]. rewrite E in A. congruence.
  - apply seq_NoDup.
  - intros x. rewrite in_seq. split.
    + intros K. apply (In_nth _ _ 0%nat) in K. destruct K as (i & Hi & <-). rewrite L in Hi.
      split; [lia|]. now apply H.
    + intros [_ Hx]. cbn in Hx. destruct (H x Hx) as [A B]. rewrite <- A. apply nth_In. now rewrite L.
Qed.

(** What a first (and only) LEDGeneratorDrift with at most seven drifting attributes does. *)
Lemma cols_facts n r o : (n <= 7)%nat -> (0 <= r < 7)%Z -> (0 <= o < 17)%Z ->
  Permutation (drift_cols n r o) (seq 0 24) /\
  length (filter (fun i => (7 <=? nth i (drift_cols n r o) 0)%nat) (seq 0 7)) = n.
Proof.
  intros Hn Hr Ho. pose proof (cols_ok n r o Hn Hr Ho) as H. unfold cols_check in H. cbv zeta in H.
  rewrite !andb_true_iff in H. destruct H as [[[H1 H2] H3] H4].
  apply Nat.eqb_eq in H1, H3. rewrite forallb_forall in H2, H4.
  split.
  - apply involution_perm; [assumption|]. intros i Hi. specialize (H2 i ltac:(apply in_seq; lia)).
    rewrite andb_true_iff in H2. destruct H2 as [A B]. apply Nat.eqb_eq in A. apply Nat.ltb_lt in B. auto.
  - transitivity (length (filter (fun i => negb (nth i (drift_cols n r o) 0%nat =? i)%nat) (seq 0 7))); [f_equal|exact H3]. apply filter_ext_in. intros i Hi. specialize (H4 i Hi). apply in_seq in Hi.
    destruct (Nat.eqb_spec (nth i (drift_cols n r o) 0%nat) i) as [E|E]; cbn [negb orb] in *.
    + rewrite E. apply Nat.leb_gt. lia.
    + exact H4.
Qed.

Lemma ledd_one_ok {G} (S : Rng G R) cols noise g x row y g' x' :
  rng_ok S -> noise < 1 / 100 -> Permutation cols (seq 0 24) ->
  ledd_one S cols noise true g x = Ret (row, y, (g', x')) ->
  (0 <= y <= 9)%Z /\ length row = 24%nat /\ Forall (fun v => v = 0 \/ v = 1) row /\
  (forall i, (i < 7)%nat -> nth (nth i cols 0%nat) row 0 = IZR (nth i (segments y) 0%Z)).
Proof.
  intros HS Hn HP H. unfold ledd_one in H. destruct (led_values S noise true g) as [[vs y0] g1] eqn:E.
  destruct (led_values_ok _ _ _ _ _ _ _ HS Hn E) as (A & ex & -> & B & C).
  pose proof (Permutation_length HP) as LP. rewrite seq_length in LP.
  assert (LS : length (segments y0) = 7%nat).
  { assert (K : (y0 = 0 \/ y0 = 1 \/ y0 = 2 \/ y0 = 3 \/ y0 = 4 \/ y0 = 5 \/ y0 = 6 \/ y0 = 7 \/ y0 = 8 \/ y0 = 9)%Z) by lia.
    repeat (destruct K as [-> | K]; [reflexivity|]). now subst y0. }
  assert (LV : length (segments y0 ++ ex) = 24%nat) by (rewrite app_length, LS, B; reflexivity).
  cbv zeta in H.
  destruct (place_ok (segments y0 ++ ex) cols (repeat 0%Z 25)) as (r' & P1 & P2 & P3 & P4).
  - rewrite LV, LP. lia.
  - eapply Permutation_NoDup; [apply Permutation_sym; exact HP|apply seq_NoDup].
  - rewrite LV, <- LP, firstn_all, repeat_length. apply Forall_forall. intros c Hc.
    apply (Permutation_in _ HP) in Hc. apply in_seq in Hc. lia.
  - rewrite P1 in H. apply (f_equal (fun o => match o with Ret v => v | _ => ([], 0%Z, (g, x)) end)) in H.
    cbv beta iota in H.
    apply pair_equal_spec in H. destruct H as [H Hx]. apply pair_equal_spec in H. destruct H as [Hrow Hy]. subst y0.
    rewrite repeat_length in P2.
    assert (IN : forall j, (j < 24)%nat -> In j cols).
    { intros j Hj. apply (Permutation_in _ (Permutation_sym HP)). apply in_seq. lia. }
    assert (VAL : Forall (fun v => v = 0%Z \/ v = 1%Z) (segments y ++ ex)).
    { apply Forall_app. split; [|exact C].
      assert (K : (y = 0 \/ y = 1 \/ y = 2 \/ y = 3 \/ y = 4 \/ y = 5 \/ y = 6 \/ y = 7 \/ y = 8 \/ y = 9)%Z) by lia.
      repeat (destruct K as [-> | K]; [cbn; repeat (apply Forall_cons; [auto|]); apply Forall_nil|]).
      subst y. cbn. repeat (apply Forall_cons; [auto|]). apply Forall_nil. }
    assert (COL : forall j, (j < 24)%nat -> nth j r' 0%Z = 0%Z \/ nth j r' 0%Z = 1%Z).
    { intros j Hj. destruct (In_nth _ _ 0%nat (IN j Hj)) as (i & Hi & <-). rewrite LP in Hi.
      rewrite P3 by (rewrite LV; exact Hi). rewrite Forall_forall in VAL. apply VAL, nth_In. now rewrite LV. }
    split; [exact A|]. rewrite <- Hrow. split; [rewrite map_length, firstn_length, P2; reflexivity|]. split.
    + apply Forall_forall. intros v Hv. apply in_map_iff in Hv. destruct Hv as (z & <- & Hz).
      apply (In_nth _ _ 0%Z) in Hz. destruct Hz as (j & Hj & <-). rewrite firstn_length, P2 in Hj.
      replace (nth j (firstn 24 r') 0%Z) with (nth j r' 0%Z).
      * destruct (COL j) as [-> | ->]; [lia|left|right]; reflexivity.
      * rewrite <- (firstn_skipn 24 r') at 1. rewrite app_nth1; [reflexivity|rewrite firstn_length, P2; lia].
    + intros i Hi. change 0 with (nofZ (T := R) 0) at 1. rewrite map_nth. cbn [nofZ NumR]. f_equal.
      assert (Hc : (nth i cols 0 < 24)%nat).
      { assert (K : In (nth i cols 0%nat) (seq 0 24)) by (apply (Permutation_in _ HP), nth_In; lia). apply in_seq in K. lia. }
      transitivity (nth (nth i cols 0%nat) r' 0%Z).
      * rewrite <- (firstn_skipn 24 r') at 2. rewrite app_nth1; [reflexivity|rewrite firstn_length, P2; lia].
      * rewrite P3 by lia. rewrite app_nth1 by lia. reflexivity.
Qed.

(** *** Hyperplane *)
Lemma rands_ok {G} (S : Rng G R) n g us g' :
  rng_ok S -> rands S n g = (us, g') -> length us = n /\ Forall (fun u => 0 <= u < 1) us.
Proof.
  intros HS. revert g us g'; induction n as [|n IH]; intros g us g' H; cbn [rands] in H.
  - injection H as <- <-. auto.
  - rands HS. destruct (rands S n g0) as [us' g2] eqn:E2. injection H as <- <-.
    destruct (IH _ _ _ E2) as [A B]. cbn. split; [now rewrite A|]. constructor; assumption.
Qed.
Lemma rands_length {G T} (S : Rng G T) n g us g' : rands S n g = (us, g') -> length us = n.
Proof.
  revert g us g'; induction n as [|n IH]; intros g us g' H; cbn [rands] in H.
  - now injection H as <- <-.
  - destruct (rng_rand S g) as [u g1]. destruct (rands S n g1) as [us' g2] eqn:E2. injection H as <- <-.
    cbn. f_equal. eauto.
Qed.

(** n drifting weights: moved by their direction, the direction possibly reversed; the rest stays. *)
Lemma hyper_drift_ok {G} (S : Rng G R) n mag sigp ws ss g ws' ss' g' :
  hyper_drift S n mag sigp ws ss g = Ok (ws', ss', g') ->
  (n <= length ws)%nat /\ (n <= length ss)%nat /\ length ws' = length ws /\ length ss' = length ss /\
  (forall i, (i < n)%nat -> nth i ws' 0 = nth i ws 0 + nth i ss 0 * mag /\
     (nth i ss' 0 = nth i ss 0 \/ nth i ss' 0 = - nth i ss 0)) /\
  (forall i, (n <= i)%nat -> nth i ws' 0 = nth i ws 0 /\ nth i ss' 0 = nth i ss 0).
Proof.
  revert ws ss g ws' ss' g'; induction n as [|n IH]; intros ws ss g ws' ss' g' H; cbn [hyper_drift] in H.
  - injection H as <- <- <-. repeat split; auto; lia.
  - destruct ws as [|w wr]; [discriminate|]. destruct ss as [|s sr]; [discriminate|].
    destruct (noise_hit S sigp g) as [h g1]. apply bind_Ok in H. destruct H as ([[wr' sr'] g2] & E & H).
    injection H as <- <- <-. destruct (IH _ _ _ _ _ _ E) as (A & B & C & D & F & K).
    cbn [length]. repeat (split; [lia|]). split.
    + intros [|i] Hi; cbn [nth].
      * cbn. split; [reflexivity|]. destruct h; [right; lra|left; reflexivity].
      * apply F. lia.
    + intros [|i] Hi; [lia|]. cbn [nth]. apply K. lia.
Qed.
Lemma hyper_drift_total {G T} `{Num T} (S : Rng G T) n mag sigp ws ss g :
  (n <= length ws)%nat -> (n <= length ss)%nat -> exists v, hyper_drift S n mag sigp ws ss g = Ok v.
Proof.
  revert ws ss g; induction n as [|n IH]; intros ws ss g A B; cbn [hyper_drift]; [eauto|].
  destruct ws as [|w wr]; cbn in A; [lia|]. destruct ss as [|s sr]; cbn in B; [lia|].
  destruct (noise_hit S sigp g) as [h g1]. destruct (IH wr sr g1) as [[[? ?] ?] E]; [lia|lia|]. rewrite E. cbn. eauto.
Qed.
Lemma hyper_drift_raises {G T} `{Num T} (S : Rng G T) n mag sigp ws ss g :
  (length ws < n)%nat \/ (length ss < n)%nat -> hyper_drift S n mag sigp ws ss g = Raise IndexError.
Proof.
  revert ws ss g; induction n as [|n IH]; intros ws ss g A; cbn [hyper_drift]; [lia|].
  destruct ws as [|w wr]; [reflexivity|]. destruct ss as [|s sr]; [reflexivity|]. cbn in A.
  destruct (noise_hit S sigp g) as [h g1]. rewrite IH by lia. reflexivity.
Qed.

Lemma fold_plus_acc l a : fold_left Rplus l a = a + fold_right Rplus 0 l.
Proof. revert a; induction l as [|x l IH]; intros a; cbn; [lra|]. rewrite IH. lra. Qed.
Lemma dot_acc ws xs a : dot (T := R) ws xs a = a + Rdot ws xs.
Proof. revert xs a; induction ws as [|w ws IH]; intros [|x xs] a; cbn; try lra. rewrite IH. cbn. lra. Qed.

Lemma hyper_label_ok ws xs :
  hyper_label ws xs (if (fold_left nadd ws (nofZ 0) * half <=? dot ws xs (nofZ 0))%num then 1 else 0)%Z.
Proof.
  unfold hyper_label. cbn [nofZ nadd nmul nleb NumR]. unfold half; cbn [nofZ ndiv NumR].
  rewrite fold_plus_acc, dot_acc. set (s := fold_right Rplus 0 ws).
  destruct (Rleb ((0 + s) * (1 / 2)) (0 + Rdot ws xs)) eqn:E; [apply Rleb_true in E|apply Rleb_false in E];
    split; intros; try reflexivity; exfalso; lra.
Qed.

(** *** Waveform *)
Lemma wave_points_ok {G} (S : Rng G R) ma mb ha hb g ps g' :
  length ha = length hb -> wave_points S ma mb ha hb g = (ps, g') ->
  exists es, length es = length ha /\ length ps = length ha /\
    forall i, (i < length ha)%nat ->
      nth i ps 0 = ma * IZR (nth i ha 0%Z) + mb * IZR (nth i hb 0%Z) + nth i es 0.
Proof.
  revert hb g ps g'; induction ha as [|a ha IH]; intros [|b hb] g ps g' L H; cbn in L; try discriminate; cbn [wave_points] in H.
  - injection H as <- <-. exists []. cbn. repeat split; lia.
  - destruct (rng_normal S g) as [e g1]. destruct (wave_points S ma mb ha hb g1) as [ps' g2] eqn:E.
    injection H as <- <-. injection L as L. destruct (IH _ _ _ _ L E) as (es & A & B & C).
    exists (e :: es). cbn [length]. repeat (split; [lia|]). intros [|i] Hi; cbn [nth]; [reflexivity|]. apply C. lia.
Qed.
Lemma normals_length {G T} (S : Rng G T) n g us g' : normals S n g = (us, g') -> length us = n.
Proof.
  revert g us g'; induction n as [|n IH]; intros g us g' H; cbn [normals] in H.
  - now injection H as <- <-.
  - destruct (rng_normal S g) as [u g1]. destruct (normals S n g1) as [us' g2] eqn:E2. injection H as <- <-.
    cbn. f_equal. eauto.
Qed.
Lemma wave_form_ok k i : (k < 3)%nat -> (i < 21)%nat ->
  IZR (nth i (nth k wave_forms []) 0%Z) = base_wave (Z.of_nat k) (Z.of_nat i).
Proof.
  intros Hk Hi. unfold base_wave. cbv zeta. f_equal.
  do 3 (destruct k as [|k]; [do 21 (destruct i as [|i]; [reflexivity|]); lia|]). lia.
Qed.
