(** Which comparisons one scan makes, and when detected_change answers True. *)
From Coq Require Import List ZArith Lia Bool Reals Lra.
From Verif Require Import Base.Py Base.Num Spec.Lists Spec.AdwinSpec Model.Adwin Proofs.ListFacts Proofs.StatFacts
  Proofs.AdwinProofs Proofs.AdwinHistory.
Import ListNotations.
Local Open Scope Z_scope.

Section Pure.
Context {T : Type} {N : Num T}.

(** sides: (n0, n1, u0, u1) *)
Definition side4 : Type := (Z * Z * T * T)%type.
Definition move (q : side4) (b : nat * T) : side4 :=
  let '(a, c, u, v) := q in (a + Z.of_nat (fst b), c - Z.of_nat (fst b), (u + snd b)%num, (v - snd b)%num).
Definition cutq (s : adwin T) (q : side4) : bool :=
  let '(a, c, u, v) := q in
  (MIN_WINDOW_LENGTH <=? c) && (MIN_WINDOW_LENGTH <=? a)
  && cut_expression s a c (u / nofZ a - v / nofZ c)%num.
Fixpoint pure_scan (s : adwin T) (q : side4) (V : list (nat * T)) : option side4 :=
  match V with
  | [] => Some q
  | b :: V' => let q' := move q b in if cutq s q' then None else pure_scan s q' V'
  end.
Definition sides (st : @scan_st T) : side4 := (sn0 st, sn1 st, su0 st, su1 st).

Lemma pure_scan_app s V1 : forall q V2,
  pure_scan s q (V1 ++ V2) = match pure_scan s q V1 with None => None | Some q' => pure_scan s q' V2 end.
Proof.
  induction V1 as [|b V1 IH]; intros q V2; simpl; auto. destruct (cutq s (move q b)); auto.
Qed.

Lemma pure_scan_none s V : forall q,
  pure_scan s q V = None <-> exists old b rest, V = old ++ b :: rest /\ cutq s (fold_left move (old ++ [b]) q) = true.
Proof.
  induction V as [|b V IH]; intros q; simpl.
  - split; [discriminate|]. intros (old & b & rest & E & _). destruct old; discriminate.
  - destruct (cutq s (move q b)) eqn:E.
    + split; auto. intros _. exists [], b, V. split; auto.
    + rewrite IH. split.
      * intros (old & c & rest & -> & H). exists (b :: old), c, rest. split; auto.
      * intros (old & c & rest & EV & H). destruct old as [|b' old]; inversion EV; subst.
        -- simpl in H. congruence.
        -- exists old, c, rest. split; auto.
Qed.

Lemma nth_firstn_lt {A} (l : list A) : forall n k, (k < n)%nat -> nth_error (firstn n l) k = nth_error l k.
Proof. induction l; intros [|n] [|k] H; simpl; auto; try lia. apply IHl. lia. Qed.

Definition row_moved (i : nat) (r : item T) : list (nat * T) :=
  map (fun t => ((2 ^ i)%nat, t)) (removelast (row_sums r)).

Lemma removelast_firstn' {A} (l : list A) : forall n, (n <= length l)%nat -> removelast (firstn n l) = firstn (n - 1) l.
Proof.
  intros [|n] H; [reflexivity|]. rewrite removelast_firstn by lia. f_equal. lia.
Qed.

Lemma py_range_cons a b : a < b -> py_range a b = a :: py_range (a + 1) b.
Proof.
  intros H. unfold py_range. replace (Z.to_nat (b - a)) with (S (Z.to_nat (b - (a + 1)))) by lia.
  simpl. f_equal; [lia|]. rewrite <- seq_shift, map_map. apply map_ext. intros; lia.
Qed.

Lemma py_range_nil a b : b <= a -> py_range a b = [].
Proof. intros H. unfold py_range. replace (Z.to_nat (b - a)) with 0%nat by lia. reflexivity. Qed.

Lemma scan_row_pure s i r n : forall j st,
  wf_item r -> 0 <= j -> n = Z.to_nat (it_size r - 1 - j) ->
  exists x c, scan_row s (Z.of_nat i) r st (py_range j (it_size r - 1)) = Ok (x, c) /\
    match pure_scan s (sides st) (skipn (Z.to_nat j) (row_moved i r)) with
    | None => x = ScanCut
    | Some q => exists st', x = ScanGo st' /\ sides st' = q
    end.
Proof.
  induction n as [|n IH]; intros j st Hwf Hj Hn.
  - rewrite py_range_nil by lia. simpl. do 2 eexists. split; [reflexivity|].
    assert (L : skipn (Z.to_nat j) (row_moved i r) = []).
    { apply skipn_all2. unfold row_moved, row_sums. destruct Hwf as (E1 & E2 & E3).
      rewrite map_length, removelast_firstn', firstn_length by (rewrite E1; lia). lia. }
    rewrite L. simpl. eauto.
  - rewrite py_range_cons by lia.
    destruct (item_get_ok r j Hwf) as (t & v & G1 & G2 & G3); [lia|].
    assert (L : skipn (Z.to_nat j) (row_moved i r)
                = ((2 ^ i)%nat, t) :: skipn (Z.to_nat (j + 1)) (row_moved i r)).
    { assert (Hnth : nth_error (row_moved i r) (Z.to_nat j) = Some ((2 ^ i)%nat, t)).
      { unfold row_moved, row_sums. destruct Hwf as (E1 & E2 & E3).
        rewrite removelast_firstn' by (rewrite E1; lia).
        assert (Z.to_nat j < Z.to_nat (it_size r) - 1)%nat by lia.
        apply map_nth_error. rewrite nth_firstn_lt by lia.
        unfold buckets in G3. rewrite nth_firstn_lt in G3 by lia.
        apply (map_nth_error fst) in G3. simpl in G3. rewrite <- G3.
        rewrite <- (firstn_all (combine _ _)), firstn_combine_fst by lia.
        rewrite combine_length, E1, E2. rewrite firstn_all2; auto. rewrite E1. simpl. lia. }
      replace (Z.to_nat (j + 1)) with (S (Z.to_nat j)) by lia.
      revert Hnth. generalize (row_moved i r) (Z.to_nat j). clear.
      intros l k. revert l. induction k; intros [|a l] H; simpl in *; try discriminate.
      - inversion H; reflexivity.
      - apply IHk; auto. }
    cbn [scan_row]. unfold scan_bucket. rewrite bucket_size_nat, G1, G2. cbn [bind].
    replace (j =? it_size r - 1) with false by (symmetry; apply Z.eqb_neq; lia).
    rewrite andb_false_r. rewrite L. cbn [pure_scan].
    assert (P2 : Z.of_nat (2 ^ i) = 2 ^ Z.of_nat i) by (rewrite Nat2Z.inj_pow; reflexivity).
    match goal with |- context[if ?c then Ok (ScanCut, _) else Ok (ScanGo ?x, _)] => set (st2 := x) end.
    assert (E2 : move (sides st) ((2 ^ i)%nat, t) = sides st2).
    { unfold sides, st2. cbn [move fst snd sn0 sn1 su0 su1]. rewrite !P2. reflexivity. }
    rewrite E2. 
    change (if cutq s (sides st2) then _ else _) with (if cutq s (sides st2) then None else pure_scan s (sides st2)
      (skipn (Z.to_nat (j + 1)) (row_moved i r))).
    match goal with |- context[if ?c then Ok (ScanCut, _) else _] => change c with (cutq s (sides st2)) end.
    destruct (cutq s (sides st2)) eqn:EC.
    + do 2 eexists. split; [reflexivity|]. reflexivity.
    + cbn [bind].
      destruct (IH (j + 1) st2 Hwf) as (x & c & -> & Hx); [lia|lia|].
      cbn [bind]. exists x. eexists. split; [reflexivity|]. exact Hx.
Qed.

Lemma moved_from_app (a : list (item T)) : forall i b,
  moved_from i (a ++ b) = moved_from (i + length a) b ++ moved_from i a.
Proof.
  induction a as [|r a IH]; intros i b; simpl; [rewrite Nat.add_0_r, app_nil_r; reflexivity|].
  rewrite IH, Nat.add_succ_comm, app_assoc. reflexivity.
Qed.

Lemma scan_rows_pure s rs : forall st,
  Forall wf_item rs ->
  exists x c, scan_rows s (Z.of_nat (length rs) - 1) (rev rs) st = Ok (x, c) /\
    match pure_scan s (sides st) (moved_from 0 rs) with
    | None => x = ScanCut
    | Some q => exists st', x = ScanGo st' /\ sides st' = q
    end.
Proof.
  induction rs as [|r rs IH] using rev_ind; intros st Hwf.
  - simpl. do 2 eexists. split; [reflexivity|]. eauto.
  - apply Forall_app in Hwf. destruct Hwf as [Hwf Hr]. inversion Hr; subst.
    rewrite rev_app_distr, app_length. cbn [rev app length scan_rows].
    replace (Z.of_nat (length rs + 1) - 1) with (Z.of_nat (length rs)) by lia.
    rewrite moved_from_app. cbn [moved_from app]. rewrite Nat.add_0_l, pure_scan_app.
    destruct (scan_row_pure s (length rs) r _ 0 st H1 (Z.le_refl 0) eq_refl) as (x & c & -> & Hx).
    cbn [bind]. change (Z.to_nat 0) with 0%nat in Hx. cbn [skipn] in Hx.
    change (map (fun t => ((2 ^ length rs)%nat, t)) (removelast (row_sums r))) with (row_moved (length rs) r).
    destruct (pure_scan s (sides st) (row_moved (length rs) r)) as [q|].
    + destruct Hx as (st' & -> & Hq).
      destruct (IH st' Hwf) as (y & c' & -> & Hy). cbn [bind].
      exists y. eexists. split; [reflexivity|]. rewrite <- Hq. exact Hy.
    + subst x. do 2 eexists. split; [reflexivity|]. reflexivity.
Qed.

Definition start (s : adwin T) : side4 := (0, ad_width s, n0, ad_total s).

(** A scan finds a cut exactly when some prefix of the moved buckets passes the test. *)
Definition cuts (s : adwin T) : Prop :=
  exists old b rest, moved_buckets s = old ++ b :: rest /\ cutq s (fold_left move (old ++ [b]) (start s)) = true.

Lemma adwin_scan_cuts s P Tot L :
  Inv P Tot s L ->
  (exists c, adwin_scan s = Ok (ScanCut, c) /\ cuts s) \/ (exists st c, adwin_scan s = Ok (ScanGo st, c) /\ ~ cuts s).
Proof.
  intros (HL & Hsh & Hrep & Hw & Ht). unfold adwin_scan.
  destruct (scan_rows_pure s (ad_rows s) (mkScan 0 (ad_width s) n0 (ad_total s) n0 (ad_variance s))) as (x & c & E & H).
  { eapply rows_rep_wf; eauto. }
  replace (ad_last_row s) with (Z.of_nat (length (ad_rows s)) - 1) by lia. rewrite E.
  unfold sides in H. cbn [sn0 sn1 su0 su1] in H.
  change (moved_from 0 (ad_rows s)) with (moved_buckets s) in H.
  change (0, ad_width s, n0, ad_total s) with (start s) in H.
  destruct (pure_scan s (start s) (moved_buckets s)) eqn:EP.
  - right. destruct H as (st & -> & _). do 2 eexists. split; [reflexivity|].
    intros Hc. apply pure_scan_none in Hc. congruence.
  - left. subst x. eexists. split; [reflexivity|]. apply pure_scan_none. exact EP.
Qed.

Lemma shrink_cuts fuel (P : nat -> T -> T -> list T -> Prop) (Tot : T -> T -> list T -> Prop)
  (Plen : forall i t v b, P i t v b -> length b = (2 ^ i)%nat)
  (TotDel : forall i t0 v0 b0 t v L,
    P i t0 v0 b0 -> L <> [] -> Tot t v (b0 ++ L) ->
    Tot (t - t0)%num (v - del_incr t0 v0 (t - t0)%num (2 ^ Z.of_nat i) (Z.of_nat (length L)))%num L) :
  forall s L c s' b,
  Inv P Tot s L -> shrink fuel s c = Ok (Some (s', b)) ->
  (b = true <-> c = true \/ cuts s) /\ ~ cuts s'.
Proof.
  induction fuel as [|f IH]; intros s L c s' b HI E; [discriminate|].
  simpl in E. destruct (adwin_scan_cuts s P Tot L HI) as [(cm & ES & HC)|(st & cm & ES & HC)]; rewrite ES in E; cbn [bind] in E.
  - destruct (adwin_scan_ok P Tot s L HI) as (x & cm2 & E2 & _ & Hcut).
    assert (x = ScanCut) by congruence. specialize (Hcut H). clear E2 H.
    change (ad_width (note_cut s)) with (ad_width s) in E.
    replace (0 <? ad_width s) with true in E by (symmetry; apply Z.ltb_lt; lia).
    destruct (Inv_delete P Tot Plen TotDel (note_cut s) L (Inv_note_cut P Tot s L HI)) as
      (s2 & n & L2 & blk & E2 & HI2 & _); [simpl; lia|].
    rewrite E2 in E. cbn [bind] in E. destruct (IH s2 L2 true s' b HI2 E) as [H1 H2].
    split; auto. split; auto. intros _. apply H1. auto.
  - inversion E; subst. split; auto. split; auto. intros [H|H]; [auto|contradiction].
Qed.

Lemma detect_cuts (P : nat -> T -> T -> list T -> Prop) (Tot : T -> T -> list T -> Prop)
  (Plen : forall i t v b, P i t v b -> length b = (2 ^ i)%nat)
  (TotDel : forall i t0 v0 b0 t v L,
    P i t0 v0 b0 -> L <> [] -> Tot t v (b0 ++ L) ->
    Tot (t - t0)%num (v - del_incr t0 v0 (t - t0)%num (2 ^ Z.of_nat i) (Z.of_nat (length L)))%num L) :
  forall s L s' b, Inv P Tot s L -> ad_clock s <> 0 -> adwin_detect s = Ok (Some (s', b)) ->
  (b = true <-> (ad_time s + 1) mod ad_clock s = 0 /\ 10 < ad_width s /\ cuts s)
  /\ ((ad_time s + 1) mod ad_clock s = 0 -> 10 < ad_width s -> ~ cuts s').
Proof.
  intros s L s' b HI Hc. unfold adwin_detect. cbv zeta.
  change (ad_clock (set_time s (ad_time s + 1))) with (ad_clock s).
  change (ad_time (set_time s (ad_time s + 1))) with (ad_time s + 1).
  change (ad_width (set_time s (ad_time s + 1))) with (ad_width s).
  replace (ad_clock s =? 0) with false by (symmetry; apply Z.eqb_neq; auto).
  destruct (((ad_time s + 1) mod ad_clock s =? 0) && (MIN_WINDOW_LONGITUDE <? ad_width s)) eqn:E; intros ED.
  - apply andb_prop in E. destruct E as [E1 E2]. apply Z.eqb_eq in E1. apply Z.ltb_lt in E2.
    unfold MIN_WINDOW_LONGITUDE in E2.
    destruct (shrink _ _ _) as [[[s2 b2]|]|] eqn:ES; cbn [bind option_map fst snd] in ED; try discriminate.
    inversion ED; subst. clear ED.
    destruct (shrink_cuts _ P Tot Plen TotDel (set_time s (ad_time s + 1)) L _ _ _ HI ES) as [H1 H2].
    split; [|intros _ _; exact H2]. rewrite H1. split.
    + intros [H|H]; [discriminate|]. auto.
    + intros (_ & _ & H). right. exact H.
  - inversion ED; subst. apply andb_false_iff in E. unfold MIN_WINDOW_LONGITUDE in E.
    rewrite Z.eqb_neq, Z.ltb_ge in E.
    split; [split; [discriminate|]|]; intros; lia.
Qed.
End Pure.

(** *** Over the reals *)
Local Open Scope R_scope.

Lemma fold_move old : forall (a c : Z) (u v : R),
  fold_left move old (a, c, u, v)
  = ((a + Z.of_nat (nsum (map fst old)))%Z, (c - Z.of_nat (nsum (map fst old)))%Z,
     u + Rsum (map snd old), v - Rsum (map snd old)).
Proof.
  induction old as [|[n x] old IH]; intros a c u v.
  - simpl. f_equal; [f_equal; [f_equal; lia|]|]; ring.
  - cbn [fold_left move fst snd map nsum Rsum]. rewrite IH. cbn [nadd nsub NumR].
    f_equal; [f_equal; [f_equal|]|]; try lia; try ring;
    try (simpl; unfold Rsum; simpl; ring).
Qed.

Lemma cutq_separates (s : adwin R) old :
  (0 <= ad_width s)%Z ->
  cutq s (fold_left move old (start s)) = true <-> separates (ad_delta s) s old.
Proof.
  intros Hw. unfold start. rewrite fold_move. unfold separates, cutq, MIN_WINDOW_LENGTH.
  set (n := nsum (map fst old)). set (u := Rsum (map snd old)).
  rewrite !andb_true_iff, !Z.leb_le.
  assert (EQ : (5 <= n)%nat -> (n + 5 <= Z.to_nat (ad_width s))%nat ->
     cut_expression s (0 + Z.of_nat n) (ad_width s - Z.of_nat n)
       ((n0 + u) / nofZ (0 + Z.of_nat n) - (ad_total s - u) / nofZ (ad_width s - Z.of_nat n))%num = true <->
     adwin_threshold (ad_delta s) (adwin_variance s) (INR (Z.to_nat (ad_width s))) (INR n) (INR (Z.to_nat (ad_width s) - n))
      < Rabs (u / INR n - (ad_total s - u) / INR (Z.to_nat (ad_width s) - n))).
  { intros H5 H5'. unfold cut_expression, adwin_threshold, nabs, MIN_WINDOW_LENGTH. cbv zeta.
    rewrite minus_INR by lia.
    rewrite !(INR_IZR_INZ (Z.to_nat _)), Z2Nat.id, (INR_IZR_INZ n) by lia.
    assert (EA : forall x : R, (if @nltb R NumR x n0 then (n0 - x)%num else x) = Rabs x).
    { intros x. unfold n0. cbn [nofZ nltb nsub NumR]. destruct (Rlt_dec x 0).
      - unfold Rabs. destruct (Rcase_abs x); [|lra]. rewrite (proj2 (Rltb_true x 0)); auto. simpl. lra.
      - unfold Rabs. destruct (Rcase_abs x); [lra|]. rewrite (proj2 (Rltb_false x 0)); auto. lra. }
    rewrite EA. unfold n0, n1. cbn [nofZ nltb nsub nadd nmul ndiv nln nsqrt NumR].
    rewrite Rltb_true. rewrite !plus_IZR, !minus_IZR, !plus_IZR.
    replace (0 + IZR (Z.of_nat n) - 5 + 1) with (IZR (Z.of_nat n) - 4) by lra.
    replace (IZR (ad_width s) - IZR (Z.of_nat n) - 5 + 1) with (IZR (ad_width s) - IZR (Z.of_nat n) - 4) by lra.
    rewrite !Rplus_0_l. reflexivity. }
  split.
  - intros ((H1 & H2) & H3). assert (5 <= n)%nat by lia. assert (n + 5 <= Z.to_nat (ad_width s))%nat by lia.
    split; [auto|]. split; [auto|]. apply EQ; auto.
  - intros (H1 & H2 & H3). split; [lia|]. apply EQ; auto.
Qed.

Lemma cuts_separates (s : adwin R) :
  (0 <= ad_width s)%Z ->
  (cuts s <-> exists old rest, moved_buckets s = old ++ rest /\ separates (ad_delta s) s old).
Proof.
  intros Hw. unfold cuts. split.
  - intros (old & b & rest & E & H). exists (old ++ [b]), rest. rewrite <- app_assoc. split; auto.
    apply cutq_separates; auto.
  - intros (old & rest & E & H). destruct old as [|b old _] using rev_ind.
    + destruct H as (H & _). simpl in H. lia.
    + exists old, b, rest. rewrite <- app_assoc in E. split; auto. apply cutq_separates; auto.
Qed.

Lemma adwin_decision_proof (delta : R) ops (s s' : adwin R) b :
  reached delta ops s -> adwin_detect s = Ok (Some (s', b)) ->
  (b = true <-> ((ad_time s + 1) mod ad_clock s = 0 /\ 10 < ad_width s)%Z
     /\ exists old rest, moved_buckets s = old ++ rest /\ separates delta s old)
  /\ (((ad_time s + 1) mod ad_clock s = 0 /\ 10 < ad_width s)%Z ->
      forall old rest, moved_buckets s' = old ++ rest -> ~ separates delta s' old).
Proof.
  intros H E. destruct (reached_R delta ops s H) as (L & (HI & Hd & Hc & _) & HS).
  assert (PL : forall i t v b, PR i t v b -> length b = (2 ^ i)%nat) by (intros ? ? ? ? X; apply X).
  destruct (detect_cuts (N:=NumR) PR TR PL TR_del s L s' b HI Hc E) as [H1 H2].
  destruct (Inv_detect (N:=NumR) PR TR PL TR_del s L HI Hc) as (s2 & b2 & L2 & E2 & HI2 & _ & D2 & _).
  assert (s2 = s') by congruence. subst s2.
  assert (W : (0 <= ad_width s)%Z) by (destruct HI as (_ & _ & _ & -> & _); lia).
  assert (W2 : (0 <= ad_width s')%Z) by (destruct HI2 as (_ & _ & _ & -> & _); lia).
  split.
  - rewrite H1, (cuts_separates s W), Hd. tauto.
  - intros (A & B) old rest EO HX. apply (H2 A B). apply (cuts_separates s' W2). rewrite D2, Hd. eauto.
Qed.

(** *** Constant streams *)
Lemma removelast_In {A} (l : list A) x : In x (removelast l) -> In x l.
Proof.
  intros H. destruct l as [|a l _] using rev_ind; [destruct H|].
  rewrite removelast_last in H. apply in_or_app. auto.
Qed.

Lemma moved_stored {T} (rows : list (item T)) : forall i b, In b (moved_from i rows) -> In b (buckets_from i rows).
Proof.
  induction rows as [|r rows IH]; intros i b; simpl; auto. rewrite !in_app_iff, !in_map_iff.
  intros [H|(t & <- & H)]; [left; auto|right]. exists t. split; auto. apply removelast_In; auto.
Qed.

Lemma Rsum_const c l : (forall x : R, In x l -> x = c) -> Rsum l = INR (length l) * c.
Proof.
  induction l as [|x l IH]; intros H.
  - simpl. ring.
  - change (Rsum (x :: l)) with (x + Rsum l). rewrite IH by (intros; apply H; right; auto).
    rewrite (H x) by (left; auto). cbn [length]. rewrite S_INR. ring.
Qed.

Lemma buckets_const_sum c (old : list (nat * R)) :
  (forall n t, In (n, t) old -> t = INR n * c) -> Rsum (map snd old) = INR (nsum (map fst old)) * c.
Proof.
  induction old as [|[n t] old IH]; intros H.
  - simpl. ring.
  - cbn [map fst snd]. change (Rsum (t :: map snd old)) with (t + Rsum (map snd old)).
    change (nsum (n :: map fst old)) with (n + nsum (map fst old))%nat.
    rewrite plus_INR, IH by (intros; apply H; right; auto). rewrite (H n t) by (left; auto). ring.
Qed.

Lemma Forall2_In_l {A B} (P : A -> B -> Prop) l l' a : Forall2 P l l' -> In a l -> exists b, In b l' /\ P a b.
Proof. induction 1; intros Hi; [destruct Hi|]. destruct Hi as [->|Hi]; [eexists; split; [left; eauto|auto]|].
  destruct (IHForall2 Hi) as (b & ? & ?). exists b. split; [right|]; auto. Qed.

Lemma adwin_const_proof (delta : R) ops (s s' : adwin R) b c :
  0 < delta <= 1 -> reached delta ops s -> (forall x, In x (seen ops) -> x = c) ->
  adwin_detect s = Ok (Some (s', b)) -> b = false.
Proof.
  intros Hd H Hx E. destruct (adwin_decision_proof delta ops s s' b H E) as [[H1 _] _].
  destruct b; auto. exfalso. destruct (H1 eq_refl) as ((_ & H10) & old & rest & EM & Hsep).
  pose proof (adwin_total_proof delta ops s H) as HT. cbv zeta in HT.
  set (window := lastn (Z.to_nat (ad_width s)) (seen ops)) in HT.
  destruct HT as (W0 & WL & WT & _ & blocks & EB & HF).
  assert (HW : forall x, In x window -> x = c) by (intros x Hi; apply Hx; eapply lastn_In; eauto).
  assert (HB : forall n t, In (n, t) (stored_buckets s) -> t = INR n * c).
  { intros n t Hi. destruct (Forall2_In_l _ _ _ _ HF Hi) as (blk & Hb & HL & HS). simpl in HL, HS.
    rewrite <- HS, <- HL. apply Rsum_const. intros x Hin. apply HW. rewrite <- EB. apply in_concat. eauto. }
  assert (HO : Rsum (map snd old) = INR (nsum (map fst old)) * c).
  { apply buckets_const_sum. intros n t Hi. apply HB. apply (moved_stored (ad_rows s) 0).
    change (In (n, t) (moved_buckets s)). rewrite EM. apply in_or_app; auto. }
  destruct Hsep as (H5 & H5' & Hlt).
  set (n := nsum (map fst old)) in *. set (w := Z.to_nat (ad_width s)) in *.
  rewrite WT, HO, (Rsum_const c window HW), WL in Hlt.
  assert (Hn : 5 <= INR n) by (replace 5 with (INR 5) by (simpl; lra); apply le_INR; lia).
  assert (Hm : 5 <= INR (w - n)) by (replace 5 with (INR 5) by (simpl; lra); apply le_INR; lia).
  assert (Hw : INR w = INR n + INR (w - n)) by (rewrite <- plus_INR; f_equal; lia).
  replace (INR n * c / INR n - (INR w * c - INR n * c) / INR (w - n)) with 0 in Hlt
    by (rewrite Hw; field; lra).
  rewrite Rabs_R0 in Hlt. unfold adwin_threshold in Hlt.
  assert (HM : 0 < 1 / (INR n - 4) + 1 / (INR (w - n) - 4)).
  { apply Rplus_lt_0_compat; apply Rdiv_lt_0_compat; lra. }
  assert (H1w : 1 <= ln (INR w)).
  { rewrite <- (ln_exp 1). assert (exp 1 < INR w) by (pose proof exp_le_3; lra).
    apply Rlt_le. apply ln_increasing; auto. apply exp_pos. }
  assert (HD : 0 <= ln (2 * ln (INR w) / delta)).
  { rewrite <- ln_1. assert (1 < 2 * ln (INR w) / delta).
    { apply (Rmult_lt_reg_r delta); [lra|]. unfold Rdiv. rewrite Rmult_assoc, Rinv_l by lra. lra. }
    apply Rlt_le. apply ln_increasing; lra. }
  match type of Hlt with sqrt ?a + ?b' < 0 => pose proof (sqrt_pos a); assert (0 <= b') end.
  { apply Rmult_le_pos; [|lra]. apply Rmult_le_pos; lra. }
  lra.
Qed.
