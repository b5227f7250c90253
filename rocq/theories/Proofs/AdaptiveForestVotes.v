(** Proofs about the votes, max_features and failures of AdaptiveRandomForestClassifier. *)
From Coq Require Import List ZArith Lia Bool Reals Lra.
From Verif Require Import Base.Py Base.Num Base.Dict Spec.Lists Model.Adwin Model.Knn Model.AdaptiveForest Spec.AdaptiveForestSpec.
From Verif Require Import Proofs.ListFacts Proofs.MetricsScores Proofs.MetricsProofs Proofs.NaiveBayesProofs Proofs.KnnProofs.
Import ListNotations.
Local Open Scope R_scope.

Lemma vsum_R (d : list (Z * R)) : vsum d = total d.
Proof. unfold vsum, total, dvals. rewrite fold_nadd_R. cbn. lra. Qed.
Lemma votes_set (d : list (Z * R)) k v c : votes_for (dset d k v) c = if Z.eqb k c then v else votes_for d c.
Proof. unfold votes_for. rewrite dget_dset. destruct (Z.eqb k c); auto. Qed.
Lemma add_votes_ok (d : list (Z * R)) : forall acc c, NoDup (dkeys d) -> votes_for (add_votes acc d) c = votes_for acc c + votes_for d c.
Proof.
  induction d as [|[k v] d IH]; intros acc c ND.
  - unfold add_votes, votes_for at 3. simpl. lra.
  - simpl in ND. inversion_clear ND. unfold add_votes in *. simpl. rewrite IH by auto. rewrite votes_set. unfold votes_for at 4. simpl.
    destruct (Z.eqb_spec k c) as [->|Ne].
    + replace (votes_for d c) with 0.
      * unfold votes_for. destruct (dget acc c); cbn; lra.
      * unfold votes_for. destruct (dget d c) eqn:Ed; auto. elim H. apply dget_Some. eauto.
    + reflexivity.
Qed.
Lemma add_votes_total (d : list (Z * R)) : forall acc, total (add_votes acc d) = total acc + total d.
Proof.
  unfold total, add_votes. induction d as [|[k v] d IH]; intros acc; simpl; [lra|]. rewrite IH.
  change (map snd (dset acc k ?x)) with (dvals (dset acc k x)). change (map snd acc) with (dvals acc).
  destruct (dget acc k) eqn:Ed.
  - rewrite (Rsum_dset_old acc k r) by auto. cbn. lra.
  - rewrite (Rsum_dset_new acc k) by auto. lra.
Qed.
Lemma add_votes_nodup {T} {N : Num T} (d : list (Z * T)) : forall acc, NoDup (dkeys acc) -> NoDup (dkeys (add_votes acc d)).
Proof. unfold add_votes. induction d as [|[k v] d IH]; intros acc H; simpl; auto. apply IH. apply NoDup_dset; auto. Qed.
Lemma add_votes_keys {T} {N : Num T} (d : list (Z * T)) : forall acc k, In k (dkeys (add_votes acc d)) <-> In k (dkeys acc) \/ In k (dkeys d).
Proof.
  unfold add_votes. induction d as [|[k0 v] d IH]; intros acc k; simpl; [tauto|]. rewrite IH, In_dkeys_dset. intuition.
Qed.
Lemma normalized_keys {T} {N : Num T} (d : list (Z * T)) : dkeys (normalized d) = dkeys d.
Proof. unfold normalized, dkeys. rewrite map_map. reflexivity. Qed.
Lemma dget_map {V W} (f : V -> W) (d : list (Z * V)) k : dget (map (fun kv => (fst kv, f (snd kv))) d) k = option_map f (dget d k).
Proof. induction d as [|[k0 v] d IH]; simpl; auto. destruct (Z.eqb k0 k); auto. Qed.
Lemma normalized_R (d : list (Z * R)) c : votes_for (normalized d) c = votes_for d c / total d.
Proof.
  assert (A : dget (normalized d) c = option_map (fun v => v / vsum d) (dget d c)) by (exact (dget_map (fun v => v / vsum d) d c)).
  unfold votes_for. rewrite A, vsum_R. destruct (dget d c); simpl; auto. unfold Rdiv. lra.
Qed.
Lemma normalized_total (d : list (Z * R)) : total d <> 0 -> total (normalized d) = 1.
Proof. intros H. unfold total, normalized. rewrite map_map. simpl. rewrite vsum_R. rewrite <- (map_map snd (fun v => v / total d) d). rewrite RegProofs.Rsum_div. fold (total d). field. auto. Qed.
Lemma scaled_votes (d : list (Z * R)) p c : votes_for (map (fun kv => (fst kv, snd kv * p)) d) c = votes_for d c * p.
Proof. unfold votes_for. rewrite (dget_map (fun v => v * p)). destruct (dget d c); simpl; auto. lra. Qed.
Lemma scaled_total (d : list (Z * R)) p : total (map (fun kv => (fst kv, snd kv * p)) d) = total d * p.
Proof. unfold total. rewrite map_map. simpl. rewrite <- (map_map snd (fun v => v * p)). generalize (map snd d). induction l; simpl; [lra|]. rewrite IHl. lra. Qed.

Section Votes.
Context {X B RG D E G : Type}.
Variables (t_votes : B -> X -> res (list (Z * R))) (e_score : E -> res R) (unweighted : bool).
Notation combined_votes := (combined_votes t_votes e_score unweighted).
(** [ballot x m (d, p)]: asked about [x], the member [m] votes [d], with performance [p] *)
Definition ballot (x : X) (m : member B RG D E) (b : list (Z * R) * R) : Prop :=
  t_votes (m_tree m) x = Ok (fst b) /\ NoDup (dkeys (fst b)) /\ (unweighted = false -> e_score (m_eval m) = Ok (snd b)).
Definition voice (b : list (Z * R) * R) (c : Z) : R := power unweighted (snd b) * share (fst b) c.
Definition weight (b : list (Z * R) * R) : R := if Rlt_dec 0 (total (fst b)) then power unweighted (snd b) else 0.
Definition voices (bs : list (list (Z * R) * R)) (c : Z) : R := Rsum (map (fun b => voice b c) bs).

Lemma combined_ok x : forall ms bs acc, Forall2 (ballot x) ms bs -> NoDup (dkeys acc) -> exists v, combined_votes x ms acc = Ok v /\ NoDup (dkeys v) /\
  (forall c, votes_for v c = votes_for acc c + voices bs c) /\ total v = total acc + Rsum (map weight bs) /\
  (forall k, In k (dkeys v) <-> In k (dkeys acc) \/ exists b, In b bs /\ 0 < total (fst b) /\ In k (dkeys (fst b))).
Proof.
  intros ms bs acc F. revert acc. induction F as [|m b ms bs Hb F IH]; intros acc ND.
  - exists acc. simpl. unfold voices. simpl. repeat split; auto; try (intros; lra); try lra. intros [|(b & [] & _)]; auto.
  - destruct b as [d p]. destruct Hb as (H1 & H2 & H3). simpl in H1, H2, H3. cbn [AdaptiveForest.combined_votes]. rewrite H1. cbn [bind].
    rewrite vsum_R. change (n0 <? total d)%num with (Rltb 0 (total d)). unfold voices in *. cbn [map Rsum].
    assert (SK : ~ 0 < total d -> exists v, combined_votes x ms acc = Ok v /\ NoDup (dkeys v) /\
       (forall c, votes_for v c = votes_for acc c + (voice (d, p) c + Rsum (map (fun b => voice b c) bs))) /\
       total v = total acc + (weight (d, p) + Rsum (map weight bs)) /\
       (forall k, In k (dkeys v) <-> In k (dkeys acc) \/ exists b, In b ((d, p) :: bs) /\ 0 < total (fst b) /\ In k (dkeys (fst b)))).
    { intros Hn. destruct (IH acc ND) as (v & E1 & E2 & E3 & E4 & E5). exists v. repeat split; auto.
      - intros c. rewrite E3. unfold voice, share. simpl. destruct (Rlt_dec 0 (total d)); [contradiction|]. lra.
      - rewrite E4. unfold weight. simpl. destruct (Rlt_dec 0 (total d)); [contradiction|]. lra.
      - intros I. apply E5 in I. destruct I as [|(b & I1 & I2)]; auto. right. exists b. simpl. auto.
      - intros [I|(b & [<-|I1] & I2 & I3)]; apply E5; auto; [contradiction|]. right. eauto. }
    destruct d as [|kv d'] eqn:Ed.
    { simpl. apply SK. unfold total. simpl. lra. }
    rewrite <- Ed in *. cbn [andb]. destruct (Rltb 0 (total d)) eqn:Et; cycle 1.
    { apply Rltb_false in Et. replace (match d with [] => false | _ => true end) with true by (rewrite Ed; auto). cbn [andb]. apply SK. lra. }
    apply Rltb_true in Et. replace (match d with [] => false | _ => true end) with true by (rewrite Ed; auto). cbn [andb].
    assert (Hp : exists d2, (if unweighted then Ok (normalized d) else (p0 <- e_score (m_eval m);; Ok (if negb (p0 =? n0)%num then map (fun kv => (fst kv, (snd kv * p0)%num)) (normalized d) else normalized d))) = Ok d2
       /\ dkeys d2 = dkeys d /\ (forall c, votes_for d2 c = voice (d, p) c) /\ total d2 = weight (d, p)).
    { unfold voice, weight, share, power. simpl. destruct (Rlt_dec 0 (total d)); [|contradiction]. destruct unweighted.
      - exists (normalized d). rewrite normalized_keys, normalized_total by lra. repeat split; auto. intros c. rewrite normalized_R. lra.
      - rewrite H3 by auto. cbn [bind]. change (p =? n0)%num with (Reqb p 0). destruct (Reqb p 0) eqn:Ep; cbn [negb].
        + apply Reqb_true in Ep. destruct (Req_EM_T p 0); [|contradiction]. exists (normalized d). rewrite normalized_keys, normalized_total by lra. repeat split; auto. intros c. rewrite normalized_R. lra.
        + apply Reqb_false in Ep. destruct (Req_EM_T p 0); [contradiction|]. eexists; split; [reflexivity|]. split.
          * unfold dkeys at 1. rewrite map_map. simpl. fold (dkeys (normalized d)). apply normalized_keys.
          * split; [intros c|]. { change nmul with Rmult. rewrite (scaled_votes (normalized d) p c), normalized_R. lra. }
            change nmul with Rmult. rewrite (scaled_total (normalized d) p), normalized_total by lra. lra. }
    destruct Hp as (d2 & Ed2 & K2 & V2 & T2). rewrite Ed2. cbn [bind].
    destruct (IH (add_votes acc d2)) as (v & E1 & E2 & E3 & E4 & E5). { apply add_votes_nodup; auto. }
    exists v. repeat split; auto.
    + intros c. rewrite E3, add_votes_ok, V2 by (rewrite K2; auto). lra.
    + rewrite E4, add_votes_total, T2. lra.
    + intros I. apply E5 in I. destruct I as [I|(b & I1 & I2)].
      * apply add_votes_keys in I. rewrite K2 in I. destruct I as [I|I]; auto. right. exists (d, p). simpl. auto.
      * right. exists b. simpl. auto.
    + intros I. apply E5. rewrite add_votes_keys, K2. destruct I as [I|(b & [<-|I1] & I2 & I3)]; auto. right. eauto.
Qed.

Lemma put_votes_ok (d : list (Z * R)) : forall arr, NoDup (dkeys d) -> (forall k, In k (dkeys d) -> (0 <= k < Z.of_nat (length arr))%Z) ->
  exists arr', put_votes arr d = Ok arr' /\ length arr' = length arr /\ forall j, (j < length arr)%nat -> nth j arr' 0 = match dget d (Z.of_nat j) with Some v => v | None => nth j arr 0 end.
Proof.
  induction d as [|[k v] d IH]; intros arr ND H; simpl.
  - exists arr. auto.
  - simpl in ND. inversion_clear ND. assert (Hk : (0 <= k < Z.of_nat (length arr))%Z) by (apply H; simpl; auto).
    rewrite py_set_in by auto. cbn [bind]. destruct (IH (set_nth arr (Z.to_nat k) v)) as (a' & E1 & E2 & E3); auto.
    { rewrite set_nth_len. intros j I. apply H. simpl; auto. }
    rewrite set_nth_len in *. exists a'. repeat split; auto. intros j Hj. rewrite E3 by auto.
    destruct (Z.eqb_spec k (Z.of_nat j)) as [->|Ne].
    + replace (dget d (Z.of_nat j)) with (@None R). 2: { symmetry. apply dget_None. auto. }
      rewrite Nat2Z.id, (set_nth_nth arr j j v 0) by lia. rewrite Nat.eqb_refl. auto.
    + destruct (dget d (Z.of_nat j)); auto. rewrite (set_nth_nth arr (Z.to_nat k) j v 0) by lia. destruct (Nat.eqb_spec (Z.to_nat k) j); [lia|]. auto.
Qed.
Lemma Rsum_map_nth (l : list R) : l = map (fun j => nth j l 0) (seq 0 (length l)).
Proof. induction l; simpl; auto. f_equal. rewrite <- seq_shift, map_map. auto. Qed.
Lemma Rsum_table (d : list (Z * R)) n : NoDup (dkeys d) -> (forall k, In k (dkeys d) -> (0 <= k < Z.of_nat n)%Z) ->
  Rsum (map (fun j => votes_for d (Z.of_nat j)) (seq 0 n)) = total d.
Proof.
  intros ND H. induction d as [|[k v] d IH].
  - unfold total. simpl. unfold votes_for. simpl. rewrite (Rsum_map_0 (seq 0 n)). auto.
  - simpl in ND. inversion_clear ND. unfold total in *. simpl. rewrite <- IH; auto. 2: intros; apply H; simpl; auto.
    assert (Hk : (0 <= k < Z.of_nat n)%Z) by (apply H; simpl; auto).
    rewrite <- (Rsum_indicator (map Z.of_nat (seq 0 n)) k v) at 1.
    + rewrite map_map, <- Rsum_map_add. apply Rsum_map_ext_in. intros j Hj. unfold votes_for. simpl.
      destruct (Z.eqb_spec k (Z.of_nat j)) as [<-|Ne]; [|lra]. replace (dget d k) with (@None R). { lra. } symmetry. apply dget_None; auto.
    + apply FinFun.Injective_map_NoDup; [intros a b; lia|apply seq_NoDup].
    + apply in_map_iff. exists (Z.to_nat k). rewrite in_seq. split; lia.
Qed.
Lemma zmax_ge l x : In x l -> (x <= zmax l)%Z.
Proof.
  unfold zmax. destruct l as [|z l]; [intros []|]. assert (A : forall l a, (a <= fold_left Z.max l a)%Z /\ forall x, In x l -> (x <= fold_left Z.max l a)%Z).
  { clear. induction l as [|b l IH]; intros a; simpl; [split; [lia|intros ? []]|]. destruct (IH (Z.max a b)) as [P Q]. split; [lia|]. intros x [<-|I]; [lia|auto]. }
  destruct (A l z) as [P Q]. intros [<-|I]; auto.
Qed.
Lemma zmax_in l : l <> [] -> In (zmax l) l.
Proof.
  unfold zmax. destruct l as [|z l]; [congruence|]. intros _. revert z. induction l as [|b l IH]; intros a; simpl; auto.
  destruct (IH (Z.max a b)) as [E1|I]; auto. rewrite <- E1. destruct (Z.max_spec a b) as [[_ ->]|[_ ->]]; auto.
Qed.

Lemma proba_ok (s : forest R B RG D E G) (x : X) ms bs : Forall2 (ballot x) ms bs -> (exists b, In b bs /\ 0 < total (fst b)) ->
  0 < Rsum (map weight bs) ->
  (forall b k, In b bs -> 0 < total (fst b) -> In k (dkeys (fst b)) -> (0 <= k)%Z /\ match f_classes s with None => True | Some c => (k <= zmax c)%Z end) ->
  exists ps, arf_proba_row t_votes e_score unweighted s ms x = Ok ps /\ ps <> [] /\
    (forall c, (c < length ps)%nat -> nth c ps 0 = voices bs (Z.of_nat c) / Rsum (map weight bs)) /\
    (forall c, (length ps <= c)%nat -> voices bs (Z.of_nat c) = 0) /\ Rsum ps = 1 /\
    (forall cl, f_classes s = Some cl -> length ps = Z.to_nat (zmax cl + 1)).
Proof.
  intros F Hex HP HK. destruct (combined_ok x ms bs [] F) as (v & E1 & E2 & E3 & E4 & E5). { constructor. }
  assert (VK : forall k, In k (dkeys v) -> (0 <= k)%Z /\ match f_classes s with None => True | Some c => (k <= zmax c)%Z end).
  { intros k I. apply E5 in I. destruct I as [[]|(b & I1 & I2 & I3)]. eauto. }
  assert (V0 : total v = Rsum (map weight bs)). { rewrite E4. unfold total. simpl. lra. }
  assert (V1 : forall c, votes_for v c = voices bs c). { intros c. rewrite E3. unfold votes_for at 1. simpl. lra. }
  destruct v as [|kv v'] eqn:Ev. { unfold total in V0. simpl in V0. lra. }
  rewrite <- Ev in *. unfold arf_proba_row. rewrite E1. cbn [bind].
  set (u := if negb (vsum v =? n0)%num then normalized v else v).
  assert (Eu : u = normalized v). { unfold u. rewrite vsum_R. change (total v =? n0)%num with (Reqb (total v) 0). destruct (Reqb (total v) 0) eqn:Et; auto. apply Reqb_true in Et. lra. }
  set (m := zmax match f_classes s with Some c => c | None => dkeys u end).
  assert (KU : dkeys u = dkeys v) by (rewrite Eu; apply normalized_keys).
  assert (KM : forall k, In k (dkeys u) -> (0 <= k < Z.of_nat (length (zeros (T := R) m)))%Z).
  { intros k I. unfold zeros. rewrite repeat_length. rewrite KU in I. destruct (VK k I) as [A B1]. assert (k <= m)%Z; [|lia].
    unfold m. destruct (f_classes s); auto. apply zmax_ge. rewrite KU. auto. }
  destruct (put_votes_ok u (zeros m)) as (ps & P1 & P2 & P3); auto. { rewrite KU; auto. }
  assert (LV : v <> []) by (rewrite Ev; congruence).
  replace (match v with [] => Ok [n0] | _ :: _ => put_votes (zeros m) u end) with (put_votes (zeros m) u) by (destruct v; congruence).
  exists ps. split; [exact P1|].
  assert (NZ : forall j, (j < length ps)%nat -> nth j ps 0 = votes_for u (Z.of_nat j)).
  { intros j Hj. rewrite P3 by lia. unfold votes_for. destruct (dget u (Z.of_nat j)); auto. unfold zeros. rewrite nth_repeat. reflexivity. }
  assert (KP : forall k, In k (dkeys u) -> (0 <= k < Z.of_nat (length ps))%Z) by (intros k I; rewrite P2; auto).
  split; [|split; [|split; [|split]]].
  - intros ->. destruct v as [|[k x0] v0]; [congruence|]. assert (I : In k (dkeys u)) by (rewrite KU; left; auto). specialize (KP k I). simpl in KP. lia.
  - intros c Hc. rewrite NZ by auto. rewrite Eu, normalized_R, V0, V1. reflexivity.
  - intros c Hc. rewrite <- V1. unfold votes_for. destruct (dget v (Z.of_nat c)) eqn:Eg; auto. assert (I : In (Z.of_nat c) (dkeys v)) by (apply dget_Some; eauto). rewrite <- KU in I. apply KP in I. lia.
  - rewrite (Rsum_map_nth ps), (map_ext_in _ (fun j => votes_for u (Z.of_nat j))). 2: { intros j I. apply in_seq in I. apply NZ. lia. }
    rewrite Rsum_table; auto. 2: rewrite KU; auto. rewrite Eu. apply normalized_total. lra.
  - intros cl Ec. rewrite P2. unfold zeros, m. rewrite repeat_length, Ec. auto.
Qed.
End Votes.

Lemma max_features_range {T} rsqrt rlog2 (part : T -> nat -> Z) m n : (1 <= n)%nat -> (1 <= max_features rsqrt rlog2 part m n <= Z.of_nat n)%Z.
Proof.
  intros H. unfold max_features. set (v := match m with MAuto => _ | _ => _ end). clearbody v. cbv zeta.
  destruct (Z.ltb_spec v 0); [destruct (Z.leb_spec (v + Z.of_nat n) 0)|destruct (Z.leb_spec v 0)]; match goal with |- context[(Z.of_nat n <? ?a)%Z] => destruct (Z.ltb_spec (Z.of_nat n) a) end; lia.
Qed.

(** A vote for a label outside the table *)
Lemma put_votes_fails {T} {N : Num T} (d : list (Z * T)) : forall arr k, In k (dkeys d) -> (Z.of_nat (length arr) <= k)%Z -> put_votes arr d = Raise IndexError.
Proof.
  induction d as [|[k0 v] d IH]; intros arr k I H; [destruct I|]. simpl. unfold py_set.
  destruct I as [Ek|I].
  - simpl in Ek. subst k0. unfold py_index. destruct (Z.leb_spec 0 k); [|lia]. destruct (Z.ltb_spec k (Z.of_nat (length arr))); [lia|].
    cbn [andb]. destruct (Z.ltb_spec k 0); [lia|]. reflexivity.
  - destruct (py_index (length arr) k0); auto. simpl. eapply IH; eauto. rewrite set_nth_len. auto.
Qed.
