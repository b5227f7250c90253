From Coq Require Import List ZArith Bool Reals Lia Lra.
From Verif Require Import Base.Py Base.Num Model.MultiLabelMetrics Spec.Lists Spec.MultiLabelSpec Proofs.ListFacts
  Proofs.ConfMatProofs Proofs.MetricsProofs Proofs.MetricsScores Proofs.MetricsWindow.
Import ListNotations.
Local Open Scope Z_scope.

Definition bz (b : bool) : Z := if b then 1 else 0.
Definition cellv (m : mlcm R) (i a b : Z) : R := if i <? c_n m then c_cell m i a b else 0%R.

Lemma enc_cons b v : enc (b :: v) = Some (bz b) :: enc v.
Proof. reflexivity. Qed.
Lemma enc_length v : length (enc v) = length v.
Proof. apply map_length. Qed.
Lemma enc_nonan v : existsb is_nan (enc v) = false.
Proof. induction v; simpl; auto. Qed.

Definition ind (ps : list (bool * bool)) (k a b : Z) (w : R) : R :=
  if 0 <=? k then
    match nth_error ps (Z.to_nat k) with
    | Some (x, y) => if (bz x =? a) && (bz y =? b) then w else 0%R
    | None => 0%R
    end
  else 0%R.

Lemma mlcm_set_ok m i x y (w : R) : 0 <= i ->
  exists m', mlcm_set m i (bz x) (bz y) w = Ok m' /\ c_n m' = Z.max (c_n m) (i + 1) /\ c_init m' = c_init m
   /\ forall k a b, cellv m' k a b = (cellv m k a b + if (k =? i)%Z && (a =? bz x)%Z && (b =? bz y)%Z then w else 0)%R.
Proof.
  intros Hi. unfold mlcm_set.
  replace (negb ((0 <=? bz x) && (bz x <? 2)) || negb ((0 <=? bz y) && (bz y <? 2))) with false by (destruct x, y; reflexivity).
  eexists. split; [reflexivity|]. simpl. split; [zcase; lia|]. split; [reflexivity|].
  intros k a b. unfold cellv. simpl. unfold n0; cbn [nofZ NumR nadd].
  destruct ((k =? i) && (a =? bz x) && (b =? bz y)) eqn:E.
  - zb. subst. destruct (c_n m - 1 <? i) eqn:E1; zb.
    + replace (i <? i + 1) with true by (symmetry; apply Z.ltb_lt; lia). reflexivity.
    + replace (i <? c_n m) with true by (symmetry; apply Z.ltb_lt; lia). reflexivity.
  - destruct (c_n m - 1 <? i) eqn:E1; zb.
    + destruct (k <? i + 1) eqn:E2; zb; destruct (k <? c_n m) eqn:E3; zb; try lra; lia.
    + destruct (k <? c_n m); lra.
Qed.

Lemma ind_cons x y ps k i a b w : 0 <= i ->
  ind ((x, y) :: ps) (k - i) a b w
  = ((if (k =? i)%Z && (a =? bz x)%Z && (b =? bz y)%Z then w else 0) + ind ps (k - (i + 1)) a b w)%R.
Proof.
  intros Hi. unfold ind. destruct (k =? i) eqn:E; zb.
  - subst. replace (i - i) with 0 by lia. replace (i - (i + 1)) with (-1) by lia. simpl.
    rewrite (Z.eqb_sym (bz x)), (Z.eqb_sym (bz y)). destruct ((a =? bz x) && (b =? bz y)); lra.
  - simpl. destruct (0 <=? k - i) eqn:E1; zb.
    + replace (0 <=? k - (i + 1)) with true by (symmetry; apply Z.leb_le; lia).
      replace (Z.to_nat (k - i)) with (S (Z.to_nat (k - (i + 1)))) by lia. simpl. lra.
    + replace (0 <=? k - (i + 1)) with false by (symmetry; apply Z.leb_gt; lia). lra.
Qed.

Lemma add_labels_ok yt : forall yp m i (w : R), length yt = length yp -> 0 <= i ->
  exists m', add_labels m i (enc yt) (enc yp) w = (m', Ok tt)
    /\ c_n m' = (match yt with [] => c_n m | _ => Z.max (c_n m) (i + Z.of_nat (length yt)) end)
    /\ c_init m' = c_init m
    /\ forall k a b, cellv m' k a b = (cellv m k a b + ind (combine yt yp) (k - i) a b w)%R.
Proof.
  induction yt as [|x yt IH]; intros [|y yp] m i w Hl Hi; try discriminate.
  - exists m. simpl. repeat split; auto. intros. unfold ind. destruct (0 <=? k - i); [|lra].
    destruct (Z.to_nat (k - i)); simpl; lra.
  - simpl in Hl. inversion Hl. rewrite !enc_cons. cbn [add_labels val].
    destruct (mlcm_set_ok m i x y w Hi) as (m1 & E1 & Hn1 & Hi1 & Hc1). rewrite E1.
    destruct (IH yp m1 (i + 1) w) as (m2 & E2 & Hn2 & Hi2 & Hc2); auto; [lia|]. exists m2. rewrite E2. split; [reflexivity|].
    split; [|split; [congruence|]].
    + rewrite Hn2, Hn1. destruct yt; simpl length; lia.
    + intros k a b. rewrite Hc2, Hc1. cbn [combine]. rewrite (ind_cons x y _ k i a b w Hi). lra.
Qed.

(** per-sample quantities *)
Lemma count_pairs_ok (f : bool -> bool -> bool) yt : forall yp, length yt = length yp ->
  count_pairs f (enc yt) (enc yp) = Z.of_nat (length (filter (fun p => f (fst p) (snd p)) (combine yt yp))).
Proof.
  induction yt as [|x yt IH]; intros [|y yp] Hl; try discriminate; [reflexivity|]. inversion Hl.
  rewrite !enc_cons. cbn [count_pairs val combine filter fst snd].
  replace (negb (bz x =? 0)) with x by (destruct x; reflexivity). replace (negb (bz y =? 0)) with y by (destruct y; reflexivity).
  rewrite IH by auto. destruct (f x y); cbn [length]; lia.
Qed.
Lemma vec_equal_ok yt : forall yp, length yt = length yp -> vec_equal (enc yt) (enc yp) = same_labels (yt, yp).
Proof.
  unfold same_labels; simpl. induction yt as [|x yt IH]; intros [|y yp] Hl; try discriminate.
  - simpl. reflexivity.
  - inversion Hl. rewrite !enc_cons. cbn [vec_equal val]. rewrite IH by auto.
    destruct (list_eq_dec bool_dec yt yp) as [->|Hne].
    + destruct (bool_dec x y) as [->|Hxy].
      * destruct (list_eq_dec bool_dec (y :: yp) (y :: yp)); [|congruence]. destruct y; reflexivity.
      * destruct (list_eq_dec bool_dec (x :: yp) (y :: yp)); [congruence|]. destruct x, y; simpl; auto; congruence.
    + rewrite andb_false_r. destruct (list_eq_dec bool_dec (x :: yt) (y :: yp)); [congruence|]. reflexivity.
Qed.
Lemma jaccard_of_ok yt yp : length yt = length yp -> jaccard_of (enc yt) (enc yp) = jaccard (yt, yp).
Proof.
  intros H. unfold jaccard_of, jaccard, n_any, n_both, pairs; simpl. rewrite !count_pairs_ok by auto.
  destruct (length (filter (fun p => fst p || snd p) (combine yt yp))) as [|u] eqn:E; [reflexivity|].
  replace (0 <? Z.of_nat (S u)) with true by (symmetry; apply Z.ltb_lt; lia). cbn [nofZ ndiv NumR].
  rewrite <- !INR_IZR_INZ. reflexivity.
Qed.
Lemma jac_add_ok s yt yp : length yt = length yp -> jac_add s (enc yt) (enc yp) = (s + jaccard (yt, yp))%R.
Proof.
  intros H. unfold jac_add. destruct (0 <? count_pairs orb (enc yt) (enc yp)) eqn:E.
  - rewrite jaccard_of_ok by auto. reflexivity.
  - rewrite <- jaccard_of_ok by auto. unfold jaccard_of. rewrite E. unfold n0; simpl. lra.
Qed.
Lemma check_ok yt yp : length yt = length yp -> check_inputs (enc yt) (enc yp) = Ok true.
Proof. intros H. unfold check_inputs. rewrite !enc_length, H, Z.eqb_refl, !enc_nonan. reflexivity. Qed.

Lemma jaccard_01 s : (0 <= jaccard s <= 1)%R.
Proof.
  unfold jaccard. destruct (n_any s) as [|u] eqn:E; [lra|]. apply div_01.
  - split; [apply pos_INR|]. apply le_INR. rewrite <- E. unfold n_both, n_any. generalize (pairs s). clear.
    induction l as [|[x y] l IH]; simpl; [lia|]. destruct x, y; simpl; lia.
  - apply lt_0_INR. lia.
Qed.

Definition same_count (l : list (list bool * list bool)) : Z := Z.of_nat (length (filter same_labels l)).
Definition cell_sum (l : list (list bool * list bool)) (k a b : Z) : R :=
  Rsum (map (fun s => ind (pairs s) k a b 1%R) l).
Definition balanced (l : list (list bool * list bool)) : Prop := Forall (fun s => length (fst s) = length (snd s)) l.

Fixpoint max_labels (n : Z) (l : list (list bool * list bool)) : Z :=
  match l with [] => n | s :: r => max_labels (Z.max n (Z.of_nat (length (fst s)))) r end.

Record MInv (s : mle R) (l : list (list bool * list bool)) : Prop := {
  mi_n : m_n s = Z.of_nat (length l);
  mi_exact : m_exact s = same_count l;
  mi_jac : m_jac s = Rsum (map jaccard l);
  mi_cell : forall k a b, 0 <= k -> cellv (m_cm s) k a b = cell_sum l k a b;
  mi_two : 2 <= c_n (m_cm s)
}.

Lemma same_count_snoc l s : same_count (l ++ [s]) = same_count l + if same_labels s then 1 else 0.
Proof. unfold same_count. rewrite filter_app, app_length. simpl. destruct (same_labels s); simpl; lia. Qed.
Lemma cell_sum_snoc l s k a b : cell_sum (l ++ [s]) k a b = (cell_sum l k a b + ind (pairs s) k a b 1)%R.
Proof. unfold cell_sum. rewrite map_app, Rsum_app. simpl. lra. Qed.

Lemma mle_new_inv n : MInv (mle_new n) [].
Proof.
  constructor; try reflexivity; simpl. intros k a b Hk. unfold cellv; simpl. destruct (k <? 2); reflexivity.
Qed.

Lemma mle_add_inv s l yt yp : MInv s l -> length yt = length yp ->
  exists s', mle_add s (enc yt) (enc yp) 1%R = (s', Ok tt) /\ MInv s' (l ++ [(yt, yp)])
    /\ c_n (m_cm s') = Z.max (c_n (m_cm s)) (Z.of_nat (length yt)).
Proof.
  intros [H1 H2 H3 H4 H5] Hl. unfold mle_add. rewrite check_ok by auto.
  destruct (add_labels_ok yt yp (m_cm s) 0 1%R Hl) as (m & E & Hn & _ & Hc); [lia|]. rewrite E.
  assert (Hn2 : c_n m = Z.max (c_n (m_cm s)) (Z.of_nat (length yt))) by (rewrite Hn; destruct yt; simpl length; lia).
  eexists. split; [reflexivity|]. split; [|exact Hn2]. constructor; simpl.
  - rewrite H1, app_length. simpl. lia.
  - rewrite H2, same_count_snoc, vec_equal_ok by auto. reflexivity.
  - rewrite H3, jac_add_ok, map_app, Rsum_app by auto. simpl. lra.
  - intros k a b Hk. rewrite Hc, H4, cell_sum_snoc, Z.sub_0_r by auto. reflexivity.
  - lia.
Qed.

Lemma mle_run_inv r : forall s l, MInv s l -> balanced r ->
  MInv (mle_run s (calls r)) (l ++ r)
  /\ forall L, well_formed L r -> r <> [] -> c_n (m_cm (mle_run s (calls r))) = Z.max (c_n (m_cm s)) (Z.of_nat L).
Proof.
  induction r as [|[yt yp] r IH]; intros s l HI Hb; simpl.
  - rewrite app_nil_r. split; auto. congruence.
  - inversion Hb; subst. destruct (mle_add_inv s l yt yp HI H1) as (s1 & E & HI1 & Hn). rewrite E. cbn [fst].
    destruct (IH s1 _ HI1 H2) as [HI2 Hn2]. rewrite <- app_assoc in HI2. split; [exact HI2|].
    intros L HL _. inversion HL; subst. destruct r as [|x r]; [simpl; rewrite Hn; simpl in *; lia|].
    rewrite (Hn2 L) by (auto; discriminate). rewrite Hn. simpl in *. lia.
Qed.

Lemma wf_balanced L l : well_formed L l -> balanced l.
Proof. intros H. eapply Forall_impl; [|exact H]. simpl. intros s [H1 H2]. congruence. Qed.

(** both_one counts the both-one pairs *)
Lemma both_one_R (m : mlcm R) : both_one m = Rsum (map (fun i => c_cell m (Z.of_nat i) 1 1) (seq 0 (Z.to_nat (c_n m)))).
Proof.
  unfold both_one, n0. cbn [nofZ NumR]. rewrite <- (Rplus_0_l (Rsum _)). generalize (0%R). generalize (seq 0 (Z.to_nat (c_n m))).
  induction l as [|i l IH]; intros a; simpl; [lra|]. rewrite IH. cbn. lra.
Qed.
Lemma ind_sum ps : forall n, (length ps <= n)%nat ->
  Rsum (map (fun i => ind ps (Z.of_nat i) 1 1 1%R) (seq 0 n)) = INR (length (filter (fun p => fst p && snd p) ps)).
Proof.
  induction ps as [|[x y] ps IH]; intros n Hn; simpl in Hn.
  - simpl. rewrite (Rsum_map_ext_in _ (fun _ => 0%R)); [apply Rsum_map_0|]. intros i _. unfold ind.
    destruct (0 <=? Z.of_nat i); [|reflexivity]. destruct (Z.to_nat (Z.of_nat i)); reflexivity.
  - destruct n as [|n]; [lia|]. cbn [seq map Rsum]. rewrite <- seq_shift, map_map.
    rewrite (Rsum_map_ext_in _ (fun i => ind ps (Z.of_nat i) 1 1 1%R)).
    + rewrite IH by lia. cbn [filter fst snd]. unfold ind at 1; simpl. destruct x, y; simpl filter; try (simpl; lra).
      cbn [length andb]. rewrite S_INR. simpl. lra.
    + intros i _. unfold ind. replace (0 <=? Z.of_nat (S i)) with true by (symmetry; apply Z.leb_le; lia).
      replace (0 <=? Z.of_nat i) with true by (symmetry; apply Z.leb_le; lia). rewrite !Nat2Z.id. reflexivity.
Qed.
Lemma both_one_ok s L l : MInv s l -> well_formed L l -> (Z.of_nat L <= c_n (m_cm s)) ->
  both_one (m_cm s) = Rsum (map (fun x => INR (n_both x)) l).
Proof.
  intros [H1 H2 H3 H4 H5] HL Hc. rewrite both_one_R.
  rewrite (Rsum_map_ext_in _ (fun i => cell_sum l (Z.of_nat i) 1 1)).
  2:{ intros i Hi. apply in_seq in Hi. rewrite <- H4 by lia. unfold cellv.
      replace (Z.of_nat i <? c_n (m_cm s)) with true by (symmetry; apply Z.ltb_lt; lia). reflexivity. }
  unfold cell_sum. clear H1 H2 H3 H4. induction HL as [|s0 l [Ha Hb] Hl IH].
  - simpl. apply Rsum_map_0.
  - cbn [map Rsum]. rewrite Rsum_map_add, IH. f_equal. apply ind_sum. unfold pairs. rewrite combine_length. lia.
Qed.

(** *** window *)
Definition mq_ok (e : list (option Z) * list (option Z) * R * Z * R) (s : list bool * list bool) : Prop :=
  e = (enc (fst s), enc (snd s), 1%R, if same_labels s then 1 else 0, jaccard s).

Record WMOk (n : Z) (s : wmle R) (l : list (list bool * list bool)) : Prop := {
  wm_inv : MInv (wm_ev s) l;
  wm_q : Forall2 mq_ok (wm_queue s) l;
  wm_bal : balanced l;
  wm_sz : wm_size s = n
}.

Lemma ind_neg ps k a b : ind ps k a b (0 - 1)%R = (- ind ps k a b 1)%R.
Proof. unfold ind. destruct (0 <=? k); [|lra]. destruct (nth_error ps (Z.to_nat k)) as [[x y]|]; [|lra]. zcase; lra. Qed.

Lemma wmle_evict_ok n s x l : WMOk n s (x :: l) -> exists s', wmle_evict s = (s', Ok tt) /\ WMOk n s' l
   /\ wm_queue s' = tl (wm_queue s).
Proof.
  intros [[H1 H2 H3 H4 H5] Hq Hb Hs]. unfold wmle_evict. inversion Hq as [|e x' q l' He Hq']; subst. unfold mq_ok in He. subst e.
  inversion Hb as [|? ? Hx Hbl]; subst.
  unfold n0; cbn [nofZ NumR nsub].
  destruct (add_labels_ok (fst x) (snd x) (m_cm (wm_ev s)) 0 (0 - 1)%R Hx) as (m & E & Hn & _ & Hc); [lia|]. rewrite E.
  eexists. split; [reflexivity|]. split; [|reflexivity]. constructor; simpl; auto. constructor; simpl.
  - rewrite H1. simpl length. lia.
  - rewrite H2. unfold same_count. simpl. destruct (same_labels x); simpl length; lia.
  - rewrite H3. simpl. lra.
  - intros k a b Hk. rewrite Hc, H4, Z.sub_0_r by auto. rewrite ind_neg. unfold cell_sum. simpl. unfold pairs. lra.
  - rewrite Hn. destruct (fst x); lia.
Qed.

Lemma Forall2_len {A B} (P : A -> B -> Prop) a b : Forall2 P a b -> length a = length b.
Proof. induction 1; simpl; auto. Qed.

Lemma wmle_add_inv n s h yt yp : 1 <= n -> WMOk n s (lastn (Z.to_nat n) h) -> length yt = length yp ->
  exists s', wmle_add s (enc yt) (enc yp) 1%R = (s', Ok tt) /\ WMOk n s' (lastn (Z.to_nat n) (h ++ [(yt, yp)])).
Proof.
  intros Hn HW Hl. unfold wmle_add. rewrite check_ok by auto.
  assert (Hlen : length (wm_queue s) = length (lastn (Z.to_nat n) h)) by (eapply Forall2_len; apply HW).
  assert (Hrec : forall s1 l, WMOk n s1 l -> exists s2,
     (let e := wm_ev s1 in
          match add_labels (m_cm e) 0 (enc yt) (enc yp) 1%R with
          | (m, Raise x) => (mk_wmle (mk_mle (m_init e) m (m_last_true e) (m_last_pred e) (m_n e) (m_exact e) (m_jac e))
                                     (wm_size s1) (wm_queue s1), Raise x)
          | (m, Ok _) =>
              let eq := if vec_equal (enc yt) (enc yp) then 1 else 0 in
              (mk_wmle (mk_mle (m_init e) m (enc yt) (enc yp) (m_n e + 1) (m_exact e + eq) (jac_add (m_jac e) (enc yt) (enc yp)))
                       (wm_size s1) (wm_queue s1 ++ [(enc yt, enc yp, 1%R, eq, jaccard_of (enc yt) (enc yp))]), Ok tt)
          end) = (s2, Ok tt) /\ WMOk n s2 (l ++ [(yt, yp)])).
  { intros s1 l [[H1 H2 H3 H4 H5] Hq Hb Hs]. cbv zeta.
    destruct (add_labels_ok yt yp (m_cm (wm_ev s1)) 0 1%R Hl) as (m & E & Hn' & _ & Hc); [lia|]. rewrite E.
    eexists. split; [reflexivity|]. rewrite vec_equal_ok, jaccard_of_ok, jac_add_ok by auto. constructor; simpl; auto.
    - constructor; simpl.
      + rewrite H1, app_length. simpl. lia.
      + rewrite H2, same_count_snoc. reflexivity.
      + rewrite H3, map_app, Rsum_app. simpl. lra.
      + intros k a b Hk. rewrite Hc, H4, cell_sum_snoc, Z.sub_0_r by auto. reflexivity.
      + rewrite Hn'. destruct yt; lia.
    - apply Forall2_app; auto. constructor; [reflexivity|constructor].
    - apply Forall_app. split; auto. }
  rewrite (wm_sz _ _ _ HW), Hlen.
  destruct (Z.of_nat (length (lastn (Z.to_nat n) h)) =? n) eqn:E; zb.
  - destruct (lastn (Z.to_nat n) h) as [|x l] eqn:El; [simpl in E; lia|].
    destruct (wmle_evict_ok n s x l HW) as (s1 & E1 & HW1 & _). rewrite E1.
    destruct (Hrec s1 l HW1) as (s2 & E2 & HW2). exists s2. split; [exact E2|].
    replace (lastn (Z.to_nat n) (h ++ [(yt, yp)])) with (l ++ [(yt, yp)]); auto.
    rewrite <- lastn_lastn_app, El. symmetry. change (x :: l) with ([x] ++ l). rewrite <- app_assoc.
    apply lastn_split. left. rewrite app_length. simpl in *. lia.
  - destruct (Hrec s _ HW) as (s2 & E2 & HW2). exists s2. split; [exact E2|].
    replace (lastn (Z.to_nat n) (h ++ [(yt, yp)])) with (lastn (Z.to_nat n) h ++ [(yt, yp)]); auto.
    rewrite lastn_length in E. rewrite (lastn_all _ h) by lia. symmetry. apply lastn_all. rewrite app_length. simpl. lia.
Qed.

Lemma wmle_run_inv n r : forall s h, 1 <= n -> WMOk n s (lastn (Z.to_nat n) h) -> balanced r ->
  WMOk n (wmle_run s (calls r)) (lastn (Z.to_nat n) (h ++ r)).
Proof.
  induction r as [|[yt yp] r IH]; intros s h Hn HI Hb; simpl.
  - rewrite app_nil_r. auto.
  - inversion Hb; subst. destruct (wmle_add_inv n s h yt yp Hn HI H1) as (s1 & E & HI1). rewrite E. cbn [fst].
    specialize (IH s1 _ Hn HI1 H2). rewrite <- app_assoc in IH. exact IH.
Qed.

Lemma scores_of_inv s l : MInv s l ->
  mle_exact s = (if (length l =? 0)%nat then 0%R else (INR (length (filter same_labels l)) / INR (length l))%R)
  /\ mle_jaccard s = (if (length l =? 0)%nat then 0%R else Rmean (map jaccard l))
  /\ (0 <= mle_exact s <= 1)%R /\ (0 <= mle_jaccard s <= 1)%R.
Proof.
  intros [H1 H2 H3 H4 H5].
  assert (E1 : mle_exact s = (if (length l =? 0)%nat then 0%R else (INR (length (filter same_labels l)) / INR (length l))%R)).
  { unfold mle_exact. rewrite H1, H2. destruct l as [|x l]; [reflexivity|].
    replace (Z.of_nat (length (x :: l)) =? 0) with false by (symmetry; apply Z.eqb_neq; simpl length; lia).
    unfold same_count. cbn [nofZ ndiv NumR]. rewrite <- !INR_IZR_INZ. reflexivity. }
  assert (E2 : mle_jaccard s = (if (length l =? 0)%nat then 0%R else Rmean (map jaccard l))).
  { unfold mle_jaccard. rewrite H1, H3. destruct l as [|x l]; [reflexivity|].
    replace (Z.of_nat (length (x :: l)) =? 0) with false by (symmetry; apply Z.eqb_neq; simpl length; lia).
    unfold Rmean. cbn [nofZ ndiv NumR]. rewrite <- !INR_IZR_INZ, map_length. reflexivity. }
  split; [exact E1|]. split; [exact E2|]. rewrite E1, E2. destruct l as [|x l]; [simpl; lra|].
  replace (length (x :: l) =? 0)%nat with false by reflexivity.
  assert (Hpos : (0 < INR (length (x :: l)))%R) by (apply lt_0_INR; simpl; lia).
  split.
  - apply div_01; auto. split; [apply pos_INR|]. apply le_INR. generalize (x :: l). clear.
    induction l as [|y l IH]; simpl; [lia|]. destruct (same_labels y); simpl; lia.
  - unfold Rmean. rewrite map_length. apply div_01; auto. generalize (x :: l). clear.
    induction l as [|y l IH]; [simpl; lra|]. cbn [map Rsum length]. rewrite S_INR. pose proof (jaccard_01 y). lra.
Qed.
