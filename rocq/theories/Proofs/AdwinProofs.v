From Coq Require Import List ZArith Lia Bool.
From Verif Require Import Base.Py Base.Num Spec.Lists Model.Adwin Proofs.ListFacts.
Import ListNotations.
Open Scope Z_scope.

Lemma Forall2_len {A B} (R : A -> B -> Prop) l l' : Forall2 R l l' -> length l = length l'.
Proof. induction 1; simpl; auto. Qed.

Ltac destr_len l H :=
  let x0 := fresh "x0" in let x1 := fresh "x1" in let x2 := fresh "x2" in
  let x3 := fresh "x3" in let x4 := fresh "x4" in let x5 := fresh "x5" in
  destruct l as [|x0 [|x1 [|x2 [|x3 [|x4 [|x5 [|? ?]]]]]]]; simpl in H; try discriminate H.

Section Rows.
Context {T : Type} {N : Num T}.
Implicit Types (r : item T) (rs : list (item T)).

Definition wf_item r : Prop :=
  length (it_tot r) = 6%nat /\ length (it_var r) = 6%nat /\ 0 <= it_size r <= 6.

Definition buckets r : list (T * T) :=
  firstn (Z.to_nat (it_size r)) (combine (it_tot r) (it_var r)).

Lemma buckets_length r : wf_item r -> length (buckets r) = Z.to_nat (it_size r).
Proof.
  intros (H1 & H2 & H3). unfold buckets. rewrite firstn_length, combine_length, H1, H2.
  simpl. lia.
Qed.

Lemma wf_item_new : wf_item (@item_new T N).
Proof. unfold wf_item, item_new; simpl; repeat split; lia. Qed.

Lemma item_insert_ok r t v :
  wf_item r -> it_size r <= 5 ->
  exists r', item_insert r t v = Ok r' /\ wf_item r' /\ it_size r' = it_size r + 1
             /\ buckets r' = buckets r ++ [(t, v)].
Proof.
  destruct r as [n tt vv]. intros (H1 & H2 & H3) H4. simpl in *.
  destr_len tt H1. destr_len vv H2.
  assert (Hn : n = 0 \/ n = 1 \/ n = 2 \/ n = 3 \/ n = 4 \/ n = 5) by lia.
  destruct Hn as [->|[->|[->|[->|[->| ->]]]]];
    (eexists; split; [reflexivity|]; unfold wf_item, buckets; simpl; repeat split; try lia; reflexivity).
Qed.

Lemma item_compress_ok r d :
  wf_item r -> (d = 1 \/ d = 2) -> d <= it_size r ->
  exists r', item_compress r d = Ok r' /\ wf_item r' /\ it_size r' = it_size r - d
             /\ buckets r' = skipn (Z.to_nat d) (buckets r).
Proof.
  destruct r as [n tt vv]. intros (H1 & H2 & H3) Hd H4. simpl in *.
  destr_len tt H1. destr_len vv H2.
  assert (Hn : n = 0 \/ n = 1 \/ n = 2 \/ n = 3 \/ n = 4 \/ n = 5 \/ n = 6) by lia.
  destruct Hd as [-> | ->];
  destruct Hn as [->|[->|[->|[->|[->|[->| ->]]]]]]; try lia;
    (eexists; split; [reflexivity|]; unfold wf_item, buckets; simpl; repeat split; try lia; reflexivity).
Qed.

Lemma item_get_ok r k :
  wf_item r -> 0 <= k < it_size r ->
  exists t v, py_get (it_tot r) k = Ok t /\ py_get (it_var r) k = Ok v
              /\ nth_error (buckets r) (Z.to_nat k) = Some (t, v).
Proof.
  destruct r as [n tt vv]. intros (H1 & H2 & H3) H4. simpl in *.
  destr_len tt H1. destr_len vv H2.
  assert (Hn : n = 1 \/ n = 2 \/ n = 3 \/ n = 4 \/ n = 5 \/ n = 6) by lia.
  assert (Hk : k = 0 \/ k = 1 \/ k = 2 \/ k = 3 \/ k = 4 \/ k = 5) by lia.
  destruct Hk as [->|[->|[->|[->|[->| ->]]]]];
  destruct Hn as [->|[->|[->|[->|[->| ->]]]]]; try lia;
    (do 2 eexists; split; [reflexivity|split; reflexivity]).
Qed.

Lemma buckets_new : buckets (@item_new T N) = [].
Proof. reflexivity. Qed.

(** *** What the buckets stand for *)
Variable P : nat -> T -> T -> list T -> Prop.
Variable Tot : T -> T -> list T -> Prop.

Definition incr_of (i : nat) (t0 t1 : T) : T :=
  let sz := 2 ^ Z.of_nat i in
  let u1 := (t0 / nofZ sz)%num in
  let u2 := (t1 / nofZ sz)%num in
  (nofZ (sz * sz) * ((u1 - u2) * (u1 - u2)) / nofZ (sz + sz))%num.

Hypothesis Pleaf : forall v, P 0 v n0 [v].
Hypothesis Pnode : forall i t0 v0 b0 t1 v1 b1,
  P i t0 v0 b0 -> P i t1 v1 b1 ->
  P (S i) (t0 + t1)%num (v1 + incr_of i t0 t1)%num (b0 ++ b1).
Hypothesis Plen : forall i t v b, P i t v b -> length b = (2 ^ i)%nat.
Definition add_incr (w0 : Z) (t v : T) : T :=
  let w := w0 + 1 in
  if 1 <? w then
    let d := (v - t / nofZ (w - 1))%num in (nofZ (w - 1) * d * d / nofZ w)%num
  else n0.

Definition del_incr (t0 v0 total : T) (n1 width : Z) : T :=
  let u1 := (t0 / nofZ n1)%num in
  let d := (u1 - total / nofZ width)%num in
  (v0 + nofZ (n1 * width) * d * d / nofZ (n1 + width))%num.

Hypothesis Tot0 : Tot n0 n0 [].
Hypothesis TotAdd : forall t v L x,
  Tot t v L -> Tot (t + x)%num (v + add_incr (Z.of_nat (length L)) t x)%num (L ++ [x]).
Hypothesis TotDel : forall i t0 v0 b0 t v L,
  P i t0 v0 b0 -> L <> [] -> Tot t v (b0 ++ L) ->
  Tot (t - t0)%num (v - del_incr t0 v0 (t - t0)%num (2 ^ Z.of_nat i) (Z.of_nat (length L)))%num L.

Definition reps (i : nat) (r : item T) (blocks : list (list T)) : Prop :=
  Forall2 (fun b blk => P i (fst b) (snd b) blk) (buckets r) blocks.

(** [rows_rep i rows L]: the rows (from level [i] on) summarise the list [L], oldest first. *)
Fixpoint rows_rep (i : nat) (rs : list (item T)) (L : list T) : Prop :=
  match rs with
  | [] => L = []
  | r :: rest =>
      exists blocks Lrest, L = Lrest ++ concat blocks /\ wf_item r /\ reps i r blocks
                           /\ rows_rep (S i) rest Lrest
  end.

(** Rows sizes: the last row holds 1..5 buckets, the others 4..5. *)
Fixpoint shape (rs : list (item T)) : Prop :=
  match rs with
  | [] => False
  | r :: rest =>
      match rest with
      | [] => 1 <= it_size r <= 5
      | _ :: _ => 4 <= it_size r <= 5 /\ shape rest
      end
  end.

Definition shape0 rs : Prop := (exists r, rs = [r] /\ it_size r = 0) \/ shape rs.

Lemma bucket_size_nat i : bucket_size (Z.of_nat i) = Ok (2 ^ Z.of_nat i).
Proof.
  unfold bucket_size. replace (Z.of_nat i <? 0) with false by (symmetry; apply Z.ltb_ge; lia). reflexivity.
Qed.

Lemma compress_ok rest : forall i cur L,
  rows_rep i (cur :: rest) L ->
  match rest with [] => 1 <= it_size cur <= 6 | _ :: _ => 4 <= it_size cur <= 6 /\ shape rest end ->
  exists rs dr db, compress (Z.of_nat i) cur rest = Ok (rs, dr, db)
    /\ rows_rep i rs L /\ shape rs /\ Z.of_nat (length rs) = Z.of_nat (length (cur :: rest)) + dr.
Proof.
  induction rest as [|nx rest IH]; intros i cur L Hrep Hsz;
    destruct Hrep as (blocks & Lrest & HL & Hwf & Hreps & Hrest).
  - simpl in Hrest. subst Lrest. cbn [compress].
    destruct (it_size cur =? MAX_BUCKETS + 1) eqn:E.
    + apply Z.eqb_eq in E. unfold MAX_BUCKETS in E.
      rewrite bucket_size_nat. cbn [bind].
      destruct (item_get_ok cur 0 Hwf) as (t0 & v0 & G1 & G2 & G3); [lia|].
      destruct (item_get_ok cur 1 Hwf) as (t1 & v1 & G4 & G5 & G6); [lia|].
      rewrite G1, G4, G5. cbn [bind].
      destruct (item_insert_ok item_new (t0 + t1)%num (v1 + incr_of i t0 t1)%num wf_item_new) as (nx & I1 & I2 & I3 & I4);
        [simpl; lia|].
      unfold incr_of in I1. cbv zeta in I1. cbv zeta. rewrite I1. cbn [bind].
      destruct (item_compress_ok cur 2 Hwf) as (cur' & C1 & C2 & C3 & C4); [auto|lia|].
      rewrite C1. cbn [bind].
      do 3 eexists; split; [reflexivity|].
      split; [|split].
      * unfold reps in Hreps.
        destruct (buckets cur) as [|b0 [|b1 bs]] eqn:EB; try discriminate G3; try discriminate G6.
        simpl in G3, G6. inversion G3; inversion G6; subst b0 b1.
        inversion Hreps as [|? k0 ? ks0 HP0 HR0]; subst. inversion HR0 as [|? k1 ? ks1 HP1 HR1]; subst.
        simpl in HP0, HP1.
        exists ks1, (k0 ++ k1). split; [|split; [auto|split]].
        -- simpl. rewrite <- app_assoc. reflexivity.
        -- unfold reps. rewrite C4. exact HR1.
        -- exists [k0 ++ k1], []. split; [simpl; rewrite app_nil_r; reflexivity|].
           split; auto. split; [|reflexivity].
           unfold reps. rewrite I4, buckets_new. constructor; [|constructor]. simpl. apply Pnode with (v0 := v0); auto.
      * simpl. rewrite C3, I3, E. simpl. lia.
      * simpl. lia.
    + apply Z.eqb_neq in E. unfold MAX_BUCKETS in E.
      do 3 eexists; split; [reflexivity|]. split; [|split].
      * exists blocks, []. repeat split; auto; try apply Hwf.
      * simpl. lia.
      * simpl. lia.
  - destruct Hsz as [Hsz Hshape].
    cbn [compress]. destruct (it_size cur =? MAX_BUCKETS + 1) eqn:E.
    + apply Z.eqb_eq in E. unfold MAX_BUCKETS in E.
      rewrite bucket_size_nat. cbn [bind].
      destruct (item_get_ok cur 0 Hwf) as (t0 & v0 & G1 & G2 & G3); [lia|].
      destruct (item_get_ok cur 1 Hwf) as (t1 & v1 & G4 & G5 & G6); [lia|].
      rewrite G1, G4, G5. cbn [bind].
      destruct Hrest as (blocks2 & Lrest2 & HL2 & Hwf2 & Hreps2 & Hrest2).
      assert (Hnx : 1 <= it_size nx <= 5 /\ (rest <> [] -> 4 <= it_size nx)).
      { destruct rest; simpl in Hshape; split; try lia; intros; try congruence; lia. }
      destruct (item_insert_ok nx (t0 + t1)%num (v1 + incr_of i t0 t1)%num Hwf2) as (nx' & I1 & I2 & I3 & I4);
        [lia|].
      unfold incr_of in I1. cbv zeta in I1. cbv zeta. rewrite I1. cbn [bind].
      destruct (item_compress_ok cur 2 Hwf) as (cur' & C1 & C2 & C3 & C4); [auto|lia|].
      rewrite C1. cbn [bind].
      unfold reps in Hreps.
      destruct (buckets cur) as [|b0 [|b1 bs]] eqn:EB; try discriminate G3; try discriminate G6.
      simpl in G3, G6. inversion G3; inversion G6; subst b0 b1.
      inversion Hreps as [|? k0 ? ks0 HP0 HR0]; subst. inversion HR0 as [|? k1 ? ks1 HP1 HR1]; subst.
      simpl in HP0, HP1.
      assert (Hrep' : rows_rep (S i) (nx' :: rest) (Lrest2 ++ concat (blocks2 ++ [k0 ++ k1]))).
      { exists (blocks2 ++ [k0 ++ k1]), Lrest2. split; auto. split; auto. split; auto.
        unfold reps. rewrite I4. apply Forall2_app; auto.
        constructor; [|constructor]. simpl. apply Pnode with (v0 := v0); auto. }
      assert (HLL : (Lrest2 ++ concat blocks2) ++ concat (k0 :: k1 :: ks1)
                    = (Lrest2 ++ concat (blocks2 ++ [k0 ++ k1])) ++ concat ks1).
      { simpl. rewrite concat_app. simpl. rewrite app_nil_r, <- !app_assoc. reflexivity. }
      destruct (it_size nx' <=? MAX_BUCKETS) eqn:E2.
      * apply Z.leb_le in E2. unfold MAX_BUCKETS in E2.
        do 3 eexists; split; [reflexivity|]. split; [|split].
        -- exists ks1, (Lrest2 ++ concat (blocks2 ++ [k0 ++ k1])).
           split; auto. split; auto. split; auto. unfold reps. rewrite C4. exact HR1.
        -- cbn [shape]. split; [lia|]. destruct rest; [lia|]. split; [destruct Hnx as [? Hnx]; specialize (Hnx ltac:(discriminate)); lia|]. apply Hshape.
        -- simpl. lia.
      * apply Z.leb_gt in E2. unfold MAX_BUCKETS in E2.
        destruct (IH (S i) nx' _ Hrep') as (rs & dr & db & K1 & K2 & K3 & K4).
        { destruct rest; [lia|]. split; [destruct Hnx as [? Hnx]; specialize (Hnx ltac:(discriminate)); lia|]. apply Hshape. }
        replace (Z.of_nat i + 1) with (Z.of_nat (S i)) by lia.
        rewrite K1. cbn [bind].
        do 3 eexists; split; [reflexivity|]. split; [|split].
        -- exists ks1, (Lrest2 ++ concat (blocks2 ++ [k0 ++ k1])).
           split; auto. split; auto. split; auto. unfold reps. rewrite C4. exact HR1.
        -- destruct rs; [simpl in K3; contradiction|]. simpl. split; [lia|]. exact K3.
        -- simpl length in *. lia.
    + apply Z.eqb_neq in E. unfold MAX_BUCKETS in E.
      do 3 eexists; split; [reflexivity|]. split; [|split].
      * exists blocks, Lrest. repeat split; auto; try apply Hwf.
      * cbn [shape]. split; [lia|]. auto.
      * simpl length. lia.
Qed.

Lemma rows_rep_app a : forall i b L,
  rows_rep i (a ++ b) L <->
  exists La Lb, L = Lb ++ La /\ rows_rep i a La /\ rows_rep (i + length a) b Lb.
Proof.
  induction a as [|r a IH]; intros i b L; simpl.
  - rewrite Nat.add_0_r. split.
    + intros H. exists [], L. rewrite app_nil_r. auto.
    + intros (La & Lb & -> & -> & H). rewrite app_nil_r. auto.
  - split.
    + intros (bl & Lr & -> & Hw & Hr & Hrest). apply IH in Hrest.
      destruct Hrest as (La & Lb & -> & H1 & H2).
      exists (La ++ concat bl), Lb. rewrite app_assoc. split; auto. split.
      * exists bl, La. auto.
      * replace (i + S (length a))%nat with (S i + length a)%nat by lia. auto.
    + intros (La & Lb & -> & (bl & Lr & -> & Hw & Hr & Hrest) & H2).
      exists bl, (Lb ++ Lr). rewrite app_assoc. split; auto. split; auto. split; auto.
      apply IH. exists Lr, Lb. split; auto. split; auto.
      replace (S i + length a)%nat with (i + S (length a))%nat by lia. auto.
Qed.

Lemma shape_app_last a r : shape (a ++ [r]) -> 1 <= it_size r <= 5.
Proof.
  induction a as [|x a IH]; simpl; intros H; [lia|].
  destruct (a ++ [r]) eqn:E; [destruct a; discriminate|]. apply IH. apply H.
Qed.

Lemma shape_drop_last a r : shape (a ++ [r]) -> a <> [] -> shape a.
Proof.
  induction a as [|x a IH]; simpl; intros H Hn; [congruence|].
  destruct a as [|y a]; simpl in *; [lia|].
  split; [apply H|]. apply IH; [apply H|congruence].
Qed.

Lemma shape_replace_last a r r' : shape (a ++ [r]) -> 1 <= it_size r' <= 5 -> shape (a ++ [r']).
Proof.
  induction a as [|x a IH]; simpl; intros H Hn; [lia|].
  destruct a as [|y a]; simpl in *; [lia|].
  split; [apply H|]. apply IH; auto. apply H.
Qed.

Lemma reps_length i r bl : wf_item r -> reps i r bl -> length bl = Z.to_nat (it_size r).
Proof. intros Hw H. apply Forall2_len in H. rewrite <- H. apply buckets_length; auto. Qed.

Lemma reps_concat_length i r bl :
  wf_item r -> reps i r bl -> length (concat bl) = (Z.to_nat (it_size r) * 2 ^ i)%nat.
Proof.
  intros Hw H. rewrite <- (reps_length i r bl Hw H). clear Hw. unfold reps in H.
  induction H; simpl; auto. rewrite app_length, IHForall2, (Plen _ _ _ _ H). lia.
Qed.

(** Total number of elements summarised. *)
Fixpoint rows_weight (i : nat) (rs : list (item T)) : nat :=
  match rs with [] => 0 | r :: rest => (Z.to_nat (it_size r) * 2 ^ i + rows_weight (S i) rest)%nat end.

Lemma rows_rep_weight rs : forall i L, rows_rep i rs L -> length L = rows_weight i rs.
Proof.
  induction rs as [|r rs IH]; intros i L; simpl.
  - intros ->; reflexivity.
  - intros (bl & Lr & -> & Hw & Hr & Hrest).
    rewrite app_length, (IH _ _ Hrest), (reps_concat_length i r bl Hw Hr). lia.
Qed.

Lemma rows_rep_wf rs : forall i L, rows_rep i rs L -> Forall wf_item rs.
Proof.
  induction rs as [|r rs IH]; intros i L; simpl; auto.
  intros (bl & Lr & -> & Hw & Hr & Hrest). constructor; eauto.
Qed.

(** *** The invariant *)
Definition Inv (s : adwin T) (L : list T) : Prop :=
  ad_last_row s = Z.of_nat (length (ad_rows s)) - 1 /\
  shape0 (ad_rows s) /\
  rows_rep 0 (ad_rows s) L /\
  ad_width s = Z.of_nat (length L) /\
  Tot (ad_total s) (ad_variance s) L.

Lemma Inv_init d : Inv (adwin_init d) [].
Proof.
  unfold Inv, adwin_init; simpl. repeat split; auto.
  - left. eexists; split; reflexivity.
  - exists [], []. repeat split; simpl; auto; try lia. constructor.
Qed.

Lemma Inv_add s L v :
  Inv s L -> exists s', adwin_add s v = Ok s' /\ Inv s' (L ++ [v])
    /\ ad_delta s' = ad_delta s /\ ad_clock s' = ad_clock s /\ ad_time s' = ad_time s
    /\ ad_n_detections s' = ad_n_detections s /\ ad_bln_bucket_deleted s' = ad_bln_bucket_deleted s
    /\ ad_width s' = ad_width s + 1 /\ ad_total s' = (ad_total s + v)%num
    /\ ad_in_change s' = ad_in_change s
    /\ ad_variance s' = (ad_variance s + add_incr (ad_width s) (ad_total s) v)%num.
Proof.
  intros (HL & Hsh & Hrep & Hw & Ht). unfold adwin_add.
  destruct (ad_rows s) as [|r rest] eqn:ER.
  { destruct Hsh as [(? & ? & _)|H]; [discriminate|destruct H]. }
  destruct Hrep as (bl & Lr & HLe & Hwf & Hreps & Hrest).
  assert (Hsz : match rest with [] => 0 <= it_size r <= 5 | _ => 4 <= it_size r <= 5 /\ shape rest end).
  { destruct Hsh as [(r' & E & E0)|H].
    - inversion E; subst. lia.
    - simpl in H. destruct rest; [lia|]. auto. }
  destruct (item_insert_ok r v n0 Hwf) as (r' & I1 & I2 & I3 & I4).
  { destruct rest; lia. }
  rewrite I1. cbn [bind].
  assert (Hrep' : rows_rep 0 (r' :: rest) (L ++ [v])).
  { exists (bl ++ [[v]]), Lr. split; [|split; [auto|split; auto]].
    - rewrite HLe, concat_app, <- app_assoc. reflexivity.
    - unfold reps. rewrite I4. apply Forall2_app; auto. }
  destruct (compress_ok rest 0 r' _ Hrep') as (rs & dr & db & C1 & C2 & C3 & C4).
  { destruct rest; [lia|]. split; [lia|]. apply Hsz. }
  change (Z.of_nat 0) with 0 in C1. rewrite C1. cbn [bind].
  eexists. split; [reflexivity|]. simpl. unfold Inv; simpl.
  repeat split; auto.
  - simpl length in *. lia.
  - right; auto.
  - rewrite app_length. simpl. lia.
  - rewrite Hw. apply TotAdd; auto.
Qed.

Lemma Inv_delete s L :
  Inv s L -> 2 <= ad_width s ->
  exists s' n L' b, adwin_delete s = Ok (s', n) /\ Inv s' L' /\ L = b ++ L'
    /\ Z.of_nat (length b) = n /\ 1 <= n /\ n = 2 ^ ad_last_row s
    /\ ad_delta s' = ad_delta s /\ ad_clock s' = ad_clock s /\ ad_time s' = ad_time s
    /\ ad_n_detections s' = ad_n_detections s /\ ad_bln_bucket_deleted s' = ad_bln_bucket_deleted s
    /\ ad_in_change s' = ad_in_change s
    /\ ((2 <= length (ad_rows s))%nat -> 1 <= ad_width s').
Proof.
  intros (HL & Hsh & Hrep & Hw & Ht) Hw2. unfold adwin_delete.
  destruct (rev (ad_rows s)) as [|node before] eqn:ER.
  { apply (f_equal (@rev _)) in ER. rewrite rev_involutive in ER. simpl in ER.
    rewrite ER in Hsh. destruct Hsh as [(? & ? & _)|H]; [discriminate|destruct H]. }
  assert (ER' : ad_rows s = rev before ++ [node]).
  { rewrite <- (rev_involutive (ad_rows s)), ER. reflexivity. }
  rewrite ER' in *. clear ER.
  rewrite app_length in HL. simpl length in HL.
  assert (Hlast : ad_last_row s = Z.of_nat (length (rev before))) by lia.
  apply rows_rep_app in Hrep. destruct Hrep as (La & Lb & -> & Ha & Hb).
  simpl in Hb. destruct Hb as (bl & Lr & -> & Hwf & Hreps & ->). simpl in *.
  assert (Hshape : shape (rev before ++ [node])).
  { destruct Hsh as [(r & E & E0)|H]; auto. exfalso.
    destruct (rev before) as [|? [|? ?]] eqn:EB; simpl in E; try discriminate.
    inversion E; subst. simpl in Ha. subst La.
    assert (length bl = 0)%nat by (rewrite (reps_length _ _ _ Hwf Hreps), E0; reflexivity).
    destruct bl; [|discriminate]. simpl in Hw. lia. }
  pose proof (shape_app_last _ _ Hshape) as Hns.
  unfold bucket_size. rewrite Hlast.
  replace (Z.of_nat (length (rev before)) <? 0) with false by (symmetry; apply Z.ltb_ge; lia).
  cbn [bind].
  destruct (item_get_ok node 0 Hwf) as (t0 & v0 & G1 & G2 & G3); [lia|].
  rewrite G1, G2. cbn [bind].
  destruct (item_compress_ok node 1 Hwf) as (node' & C1 & C2 & C3 & C4); [auto|lia|].
  rewrite C1. cbn [bind].
  unfold reps in Hreps.
  destruct (buckets node) as [|b0 bs] eqn:EB; [discriminate G3|].
  simpl in G3. inversion G3; subst b0. clear G3.
  inversion Hreps as [|? k0 ? ks0 HP0 HR0]; subst. simpl in HP0.
  pose proof (Plen _ _ _ _ HP0) as Hk0.
  assert (Hpow : Z.of_nat (length k0) = 2 ^ Z.of_nat (length (rev before))).
  { rewrite Hk0, Nat2Z.inj_pow. reflexivity. }
  assert (Hpos : 1 <= 2 ^ Z.of_nat (length (rev before))).
  { rewrite <- Hpow, Hk0. assert (2 ^ length (rev before) <> 0)%nat by (apply Nat.pow_nonzero; lia). lia. }
  assert (Hw' : ad_width s - 2 ^ Z.of_nat (length (rev before)) = Z.of_nat (length (concat ks0 ++ La))).
  { rewrite Hw. simpl. rewrite !app_length in *. lia. }
  assert (Hpos2 : (2 <= length (rev before ++ [node]))%nat ->
            1 <= ad_width s - 2 ^ Z.of_nat (length (rev before))).
  { intros H2. rewrite Hw', app_length.
    rewrite app_length in H2. simpl in H2.
    assert (HLa : (1 <= length La)%nat).
    { rewrite (rows_rep_weight _ _ _ Ha).
      destruct (rev before) as [|x before'] eqn:EBF; [simpl in H2; lia|].
      assert (Hx : 4 <= it_size x).
      { simpl in Hshape. destruct (before' ++ [node]) eqn:E'; [destruct before'; discriminate|].
        lia. }
      simpl. lia. }
    lia. }
  assert (HLne : concat ks0 ++ La <> []).
  { intros E.
    assert (Hlt : (length (rev before ++ [node]) < 2)%nat).
    { destruct (lt_dec (length (rev before ++ [node])) 2) as [H|H]; auto.
      assert (H2 : (2 <= length (rev before ++ [node]))%nat) by lia.
      specialize (Hpos2 H2). rewrite Hw', E in Hpos2. simpl in Hpos2. lia. }
    rewrite app_length in Hlt. simpl in Hlt.
    assert (Hr0 : length (rev before) = 0%nat) by lia.
    rewrite Hr0 in Hw'. rewrite E in Hw'. simpl in Hw'. lia. }
  assert (Htot : Tot (ad_total s - t0)%num
     (ad_variance s - del_incr t0 v0 (ad_total s - t0)%num (2 ^ Z.of_nat (length (rev before)))
                        (Z.of_nat (length (concat ks0 ++ La))))%num (concat ks0 ++ La)).
  { eapply TotDel; eauto. simpl in Ht. rewrite app_assoc. exact Ht. }
  rewrite <- Hw' in Htot. unfold del_incr in Htot. cbv zeta in Htot.
  destruct (it_size node' =? 0) eqn:E0.
  - apply Z.eqb_eq in E0.
    assert (ks0 = []).
    { assert (Hb0 : length bs = 0%nat).
      { assert (length (buckets node') = 0%nat) by (rewrite (buckets_length _ C2), E0; reflexivity).
        rewrite C4 in H. simpl in H. exact H. }
      destruct bs; [|discriminate]. inversion HR0. reflexivity. }
    subst ks0. simpl in *.
    eexists _, _, La, k0. split; [reflexivity|].
    split; [|repeat split; simpl; auto; try lia].
    + unfold Inv; simpl.
      assert (Hnn : before <> []).
      { intros ->. simpl in *. subst La. rewrite !app_nil_r in Hw. lia. }
      rewrite ER' || idtac.
      repeat split; auto; try lia.
      right. eapply shape_drop_last; eauto. intros E. apply Hnn.
      rewrite <- (rev_involutive before), E. reflexivity.
    + rewrite app_nil_r. reflexivity.
  - apply Z.eqb_neq in E0.
    eexists _, _, (concat ks0 ++ La), k0. split; [reflexivity|].
    split; [|repeat split; simpl; auto; try lia].
    + unfold Inv; simpl. rewrite app_length. simpl.
      repeat split; auto; try lia.
      * right. eapply shape_replace_last; eauto. lia.
      * apply rows_rep_app. exists La, (concat ks0). repeat split; auto.
        simpl. exists ks0, []. repeat split; auto; try apply C2.
        unfold reps. rewrite C4. simpl. exact HR0.
    + rewrite <- app_assoc. reflexivity.
Qed.

(** *** The scan never fails, and a cut needs at least ten elements. *)
Lemma scan_bucket_ok s i r st k :
  wf_item r -> 0 <= i -> 0 <= k < it_size r - 1 ->
  exists x c, scan_bucket s i r st k = Ok (x, c) /\
    match x with
    | ScanGo st' => sn0 st' + sn1 st' = sn0 st + sn1 st
    | ScanExit => False
    | ScanCut => 10 <= sn0 st + sn1 st
    end.
Proof.
  intros Hwf Hi Hk. unfold scan_bucket, bucket_size.
  replace (i <? 0) with false by (symmetry; apply Z.ltb_ge; lia). cbn [bind].
  destruct (item_get_ok r k Hwf) as (t & v & G1 & G2 & G3); [lia|].
  rewrite G1, G2. cbn [bind].
  replace (k =? it_size r - 1) with false by (symmetry; apply Z.eqb_neq; lia).
  rewrite andb_false_r.
  match goal with |- context[if ?c then _ else _] =>
    match c with context[cut_expression] => destruct c eqn:EC end end.
  - do 2 eexists; split; [reflexivity|]. simpl in *.
    apply andb_prop in EC. destruct EC as [EC _]. apply andb_prop in EC. destruct EC as [E1 E2].
    unfold MIN_WINDOW_LENGTH in *. apply Z.leb_le in E1, E2. simpl in *. lia.
  - do 2 eexists; split; [reflexivity|]. simpl. lia.
Qed.

Lemma scan_row_ok s i r ks : forall st,
  wf_item r -> 0 <= i -> (forall k, In k ks -> 0 <= k < it_size r - 1) ->
  exists x c, scan_row s i r st ks = Ok (x, c) /\
    match x with
    | ScanGo st' => sn0 st' + sn1 st' = sn0 st + sn1 st
    | ScanExit => False
    | ScanCut => 10 <= sn0 st + sn1 st
    end.
Proof.
  induction ks as [|k ks IH]; intros st Hwf Hi Hk; simpl.
  - do 2 eexists; split; [reflexivity|]. simpl; auto.
  - destruct (scan_bucket_ok s i r st k Hwf Hi) as (x & c & -> & Hx); [apply Hk; left; auto|].
    cbn [bind]. destruct x as [st'| |]; [|contradiction|].
    + destruct (IH st' Hwf Hi) as (y & c' & -> & Hy); [intros; apply Hk; right; auto|].
      cbn [bind]. do 2 eexists; split; [reflexivity|]. destruct y; auto; lia.
    + do 2 eexists; split; [reflexivity|]. auto.
Qed.

Lemma py_range_in a b k : In k (py_range a b) <-> a <= k < b.
Proof.
  unfold py_range. rewrite in_map_iff. split.
  - intros (x & <- & H). apply in_seq in H. lia.
  - intros H. exists (Z.to_nat (k - a)). split; [lia|]. apply in_seq. lia.
Qed.

Lemma scan_rows_ok s rs : forall i st,
  Forall wf_item rs -> i = Z.of_nat (length rs) - 1 ->
  exists x c, scan_rows s i rs st = Ok (x, c) /\
    match x with
    | ScanGo st' => sn0 st' + sn1 st' = sn0 st + sn1 st
    | ScanExit => False
    | ScanCut => 10 <= sn0 st + sn1 st
    end.
Proof.
  induction rs as [|r rs IH]; intros i st Hwf Hi; simpl.
  - do 2 eexists; split; [reflexivity|]. simpl; auto.
  - inversion Hwf; subst. simpl length.
    destruct (scan_row_ok s (Z.of_nat (S (length rs)) - 1) r (py_range 0 (it_size r - 1)) st H1)
      as (x & c & -> & Hx); [lia|intros k Hk; apply py_range_in in Hk; lia|].
    cbn [bind]. destruct x as [st'| |]; [|contradiction|].
    + destruct (IH (Z.of_nat (S (length rs)) - 1 - 1) st' H2) as (y & c' & -> & Hy); [lia|].
      cbn [bind]. do 2 eexists; split; [reflexivity|]. destruct y; auto; lia.
    + do 2 eexists; split; [reflexivity|]. auto.
Qed.

Lemma adwin_scan_ok s L :
  Inv s L -> exists x c, adwin_scan s = Ok (x, c) /\ x <> ScanExit /\ (x = ScanCut -> 10 <= ad_width s).
Proof.
  intros (HL & Hsh & Hrep & Hw & Ht). unfold adwin_scan.
  destruct (scan_rows_ok s (rev (ad_rows s)) (ad_last_row s)
    (mkScan 0 (ad_width s) n0 (ad_total s) n0 (ad_variance s))) as (x & c & E & H).
  { apply Forall_rev. eapply rows_rep_wf; eauto. }
  { rewrite rev_length. auto. }
  exists x, c. split; auto. destruct x; simpl in H; split; try congruence; try tauto.
Qed.

Lemma Inv_note_cut s L : Inv s L -> Inv (note_cut s) L.
Proof. intros H; exact H. Qed.

Lemma ten_two_rows s L : Inv s L -> 10 <= ad_width s -> (2 <= length (ad_rows s))%nat.
Proof.
  intros (HL & Hsh & Hrep & Hw & Ht) H10.
  destruct (ad_rows s) as [|r [|r2 rest]] eqn:E; simpl; try lia.
  - destruct Hsh as [(? & ? & _)|H]; [discriminate|destruct H].
  - apply rows_rep_weight in Hrep. simpl in Hrep.
    assert (it_size r <= 5).
    { destruct Hsh as [(r' & E' & E0)|H]; [inversion E'; subst; lia|simpl in H; lia]. }
    lia.
Qed.

Lemma shrink_ok fuel : forall s L c,
  Inv s L -> (Z.to_nat (ad_width s) < fuel)%nat ->
  exists s' b L', shrink fuel s c = Ok (Some (s', b)) /\ Inv s' L' /\ suffix_of L' L
    /\ ad_delta s' = ad_delta s /\ ad_clock s' = ad_clock s /\ ad_time s' = ad_time s
    /\ ad_n_detections s' = ad_n_detections s /\ ad_bln_bucket_deleted s' = ad_bln_bucket_deleted s
    /\ (b = true <-> c = true \/ ad_width s' < ad_width s)
    /\ (ad_width s' < ad_width s \/ s' = s).
Proof.
  induction fuel as [|f IH]; intros s L c HI Hf; [lia|].
  simpl. destruct (adwin_scan_ok s L HI) as (x & cm & -> & Hne & Hcut). cbn [bind].
  destruct x as [st| |]; [|congruence|].
  - exists s, c, L. repeat split; auto using suffix_refl; try apply HI; try lia; try tauto.
    intros [H|H]; [auto|lia].
  - specialize (Hcut eq_refl).
    change (ad_width (note_cut s)) with (ad_width s).
    replace (0 <? ad_width s) with true by (symmetry; apply Z.ltb_lt; lia).
    pose proof (ten_two_rows s L HI Hcut) as Hrows.
    destruct (Inv_delete (note_cut s) L (Inv_note_cut s L HI)) as
      (s2 & n & L2 & blk & E & HI2 & HL2 & Hn & Hn1 & Hn2 & F1 & F2 & F3 & F4 & F5 & F6 & F7);
      [simpl; lia|].
    rewrite E. cbn [bind].
    assert (Hw2 : ad_width s2 < ad_width s).
    { destruct HI as (_ & _ & _ & -> & _). destruct HI2 as (_ & _ & _ & -> & _).
      rewrite HL2, app_length. lia. }
    destruct (IH s2 L2 true HI2) as (s' & b & L' & E' & I' & S' & G1 & G2 & G3 & G4 & G5 & G6 & G7).
    { destruct HI2 as (_ & _ & _ & Hw & _). lia. }
    exists s', b, L'. simpl in *. split; auto. split; auto.
    split; [eapply suffix_trans; [eassumption|]; exists blk; auto|].
    assert (ad_width s' <= ad_width s2) by (destruct G7 as [?| ->]; lia).
    repeat split; try congruence; try tauto.
    + intros _. right. lia.
    + left. lia.
Qed.

Lemma Inv_detect s L :
  Inv s L -> ad_clock s <> 0 ->
  exists s' b L', adwin_detect s = Ok (Some (s', b)) /\ Inv s' L' /\ suffix_of L' L
    /\ ad_delta s' = ad_delta s /\ ad_clock s' = ad_clock s /\ ad_time s' = ad_time s + 1
    /\ ad_n_detections s' = ad_n_detections s + (if b then 1 else 0)
    /\ ad_bln_bucket_deleted s' = ad_bln_bucket_deleted s
    /\ ad_in_change s' = b
    /\ (b = true <-> ad_width s' < ad_width s)
    /\ (b = true -> (ad_time s + 1) mod ad_clock s = 0 /\ 10 < ad_width s)
    /\ (b = false -> ad_rows s' = ad_rows s /\ ad_total s' = ad_total s /\ ad_width s' = ad_width s
         /\ ad_variance s' = ad_variance s).
Proof.
  intros HI Hc. unfold adwin_detect. cbv zeta.
  change (ad_clock (set_time s (ad_time s + 1))) with (ad_clock s).
  change (ad_time (set_time s (ad_time s + 1))) with (ad_time s + 1).
  change (ad_width (set_time s (ad_time s + 1))) with (ad_width s).
  assert (HI1 : Inv (set_time s (ad_time s + 1)) L) by exact HI.
  replace (ad_clock s =? 0) with false by (symmetry; apply Z.eqb_neq; auto).
  destruct (((ad_time s + 1) mod ad_clock s =? 0) && (MIN_WINDOW_LONGITUDE <? ad_width s)) eqn:E.
  - apply andb_prop in E. destruct E as [E1 E2]. apply Z.eqb_eq in E1. apply Z.ltb_lt in E2.
    unfold MIN_WINDOW_LONGITUDE in E2.
    destruct (shrink_ok (S (Z.to_nat (ad_width s))) (set_time s (ad_time s + 1)) L false HI1)
      as (s' & b & L' & E' & I' & S' & G1 & G2 & G3 & G4 & G5 & G6 & G7); [simpl; lia|].
    rewrite E'. cbn [bind option_map fst snd].
    exists (finish_detect s' b), b, L'. simpl in *.
    repeat split; auto; try apply I'; try apply G6; try tauto; try congruence.
    + destruct b; lia.
    + intros Hb. destruct G6 as [G6 _]. destruct (G6 Hb); [discriminate|lia].
    + destruct G7 as [?| ->]; auto. assert (b = true) by (apply G6; right; lia). congruence.
    + destruct G7 as [?| ->]; auto. assert (b = true) by (apply G6; right; lia). congruence.
    + destruct G7 as [?| ->]; auto. assert (b = true) by (apply G6; right; lia). congruence.
    + destruct G7 as [?| ->]; auto. assert (b = true) by (apply G6; right; lia). congruence.
  - exists (finish_detect (set_time s (ad_time s + 1)) false), false, L. simpl.
    repeat split; auto using suffix_refl; try apply HI1; try lia; try discriminate.
Qed.

End Rows.
