(** Proofs about the model of StreamingRandomPatchesClassifier. *)
From Coq Require Import List ZArith Lia Bool Reals Lra Permutation Sorting.Sorted.
From Verif Require Import Base.Py Base.Num Spec.Lists Model.Knn Model.Generators Model.RandomPatches Spec.AdaptiveForestSpec Spec.RandomPatchesSpec.
From Verif Require Import Proofs.ListFacts Proofs.KnnProofs Proofs.AdaptiveForestProofs Proofs.AdaptiveForestVotes.
Import ListNotations.

(** *** The combinations *)
Lemma combs_step k o n : o + k < n -> combs (S k) o n = map (cons o) (combs k (S o) n) ++ combs (S k) (S o) n.
Proof. intros H. simpl. replace (n + 1 - S k - o) with (S (n + 1 - S k - S o)) by lia. reflexivity. Qed.
Lemma combs_none k o n : n <= o + k -> combs (S k) o n = [].
Proof. intros H. simpl. replace (n + 1 - S k - o) with 0 by lia. reflexivity. Qed.
Lemma binom_small n : forall k, n < k -> binom n k = 0.
Proof. induction n as [|n IH]; intros [|k] H; simpl; try lia. rewrite !IH by lia. auto. Qed.
Lemma combs_len k : forall d o n, n - o = d -> length (combs k o n) = binom d k.
Proof.
  induction k as [|k IHk]; intros d o n E0; [destruct d; reflexivity|]. revert o n E0. induction d as [|d IHd]; intros o n E0.
  - rewrite combs_none by lia. reflexivity.
  - destruct (Nat.lt_ge_cases (o + k) n) as [Lt|Ge].
    + rewrite combs_step, app_length, map_length by auto. rewrite (IHk d), (IHd (S o)) by lia. reflexivity.
    + rewrite combs_none by auto. simpl. rewrite !binom_small by lia. reflexivity.
Qed.
Definition subset_from (k o n : nat) (l : list nat) : Prop := length l = k /\ StronglySorted lt l /\ Forall (fun i => o <= i < n) l.
Lemma combs_in k : forall d o n l, n - o = d -> In l (combs k o n) <-> subset_from k o n l.
Proof.
  induction k as [|k IHk]; intros d o n l E0.
  - simpl. unfold subset_from. split; [intros [<-|[]]; repeat split; constructor|intros (L & _); destruct l; [auto|discriminate]].
  - revert o n E0. induction d as [|d IHd]; intros o n E0.
    + rewrite combs_none by lia. split; [intros []|]. intros (L & _ & F). destruct l as [|i l]; [discriminate|]. inversion F; lia.
    + destruct (Nat.lt_ge_cases (o + k) n) as [Lt|Ge].
      * rewrite combs_step by auto. rewrite in_app_iff, in_map_iff, (IHd (S o)) by lia. split.
        -- intros [(l' & <- & I)|(L & S1 & F)].
           ++ apply (IHk d) in I; [|lia]. destruct I as (L & S1 & F). split; [simpl; lia|]. split.
              ** constructor; auto. eapply Forall_impl; [|exact F]. simpl. intros; lia.
              ** constructor; [lia|]. eapply Forall_impl; [|exact F]. simpl. intros; lia.
           ++ split; auto. split; auto. eapply Forall_impl; [|exact F]. simpl. intros; lia.
        -- intros (L & S1 & F). destruct l as [|i l]; [discriminate|]. inversion S1; subst. inversion F; subst. destruct (Nat.eq_dec i o) as [->|NE].
           ++ left. exists l. split; auto. apply (IHk d); [lia|]. split; [simpl in L; lia|]. split; auto. rewrite Forall_forall in *. intros j I. specialize (H2 j I). specialize (H4 j I). simpl in *. lia.
           ++ right. split; auto. split; auto. constructor; [lia|]. rewrite Forall_forall in *. intros j I. specialize (H2 j I). specialize (H4 j I). simpl in *. lia.
      * rewrite combs_none by auto. split; [intros []|]. intros (L & S1 & F). exfalso.
        assert (A : forall l o n, StronglySorted lt l -> Forall (fun i => o <= i < n) l -> length l <= n - o).
        { clear. induction l as [|i l IH]; intros o n S1 F; simpl; [lia|]. inversion S1; subst. inversion F; subst. assert (length l <= n - S i); [|lia]. apply IH; auto.
          rewrite Forall_forall in *. intros j I. specialize (H2 j I). specialize (H4 j I). simpl in *. lia. }
        specialize (A l o n S1 F). lia.
Qed.
Lemma NoDup_app_disj {A} (a b : list A) : NoDup a -> NoDup b -> (forall x, In x a -> In x b -> False) -> NoDup (a ++ b).
Proof.
  induction 1 as [|x a N HA IH]; intros HB D; simpl; auto. constructor.
  - rewrite in_app_iff. intros [I|I]; [auto|]. apply (D x); simpl; auto.
  - apply IH; auto. intros y I1 I2. apply (D y); simpl; auto.
Qed.
Lemma combs_nodup k : forall d o n, n - o = d -> NoDup (combs k o n).
Proof.
  induction k as [|k IHk]; intros d o n E0; [repeat constructor; auto|]. revert o n E0. induction d as [|d IHd]; intros o n E0.
  - rewrite combs_none by lia. constructor.
  - destruct (Nat.lt_ge_cases (o + k) n) as [Lt|Ge]; [|rewrite combs_none by auto; constructor].
    rewrite combs_step by auto. apply NoDup_app_disj.
    + apply FinFun.Injective_map_NoDup; [intros a b H; injection H; auto|]. apply (IHk d). lia.
    + apply IHd. lia.
    + intros l I1 I2. apply in_map_iff in I1. destruct I1 as (l' & <- & _). apply (combs_in (S k) d) in I2; [|lia]. destruct I2 as (_ & _ & F). inversion F; lia.
Qed.
(** The first of them begin alike. *)
Lemma combs_prefix j : forall k o n, j <= k -> o + k <= n -> exists rest, combs k o n = map (app (seq o j)) (combs (k - j) (o + j) n) ++ rest.
Proof.
  induction j as [|j IH]; intros k o n Hj Hn.
  - exists []. rewrite Nat.sub_0_r, Nat.add_0_r, app_nil_r. simpl. symmetry. apply map_id.
  - destruct k as [|k]; [lia|]. rewrite combs_step by lia. destruct (IH k (S o) n) as (rest & ->); try lia. rewrite map_app, map_map. eexists. rewrite <- app_assoc. f_equal.
    simpl. replace (o + S j) with (S (o + j)) by lia. reflexivity.
Qed.
Lemma combs_first j k n i : j <= k -> k <= n -> i < binom (n - j) (k - j) -> forall f, f < j -> In f (nth i (combs k 0 n) []).
Proof.
  intros Hj Hn Hi f Hf. destruct (combs_prefix j k 0 n) as (rest & E); try lia. rewrite E.
  assert (LL : length (combs (k - j) (0 + j) n) = binom (n - j) (k - j)) by (apply combs_len; lia).
  rewrite app_nth1 by (rewrite map_length; lia). rewrite (nth_indep _ [] (seq 0 j ++ [])) by (rewrite map_length; lia). rewrite (map_nth (app (seq 0 j)) _ [] i). apply in_or_app. left. apply in_seq. lia.
Qed.

(** *** The loop *)
Lemma widen_loops subs n : length subs < n -> forall fuel i, widen fuel i subs n = Loop.
Proof. intros H. induction fuel as [|fuel IH]; intros i; simpl; auto. destruct (Nat.ltb_spec (length subs) n); [|lia]. apply IH. Qed.
Lemma widen_ret subs n fuel i r : widen fuel i subs n = Ret r -> r = subs /\ n <= length subs.
Proof.
  intros H. destruct (Nat.lt_ge_cases (length subs) n) as [Lt|Ge]; [rewrite widen_loops in H by auto; discriminate|]. split; auto.
  destruct fuel as [|fuel]; [discriminate|]. simpl in H. destruct (Nat.ltb_spec (length subs) n); [lia|]. congruence.
Qed.

(** *** Feature subsets *)
Lemma filter_sorted {A} (R : A -> A -> Prop) f l : StronglySorted R l -> StronglySorted R (filter f l).
Proof.
  induction 1 as [|x l S IH F]; simpl; [constructor|]. destruct (f x); auto. constructor; auto. rewrite Forall_forall in *. intros y I. apply filter_In in I. apply F. tauto.
Qed.
Lemma seq_sorted n : forall o, StronglySorted lt (seq o n).
Proof. induction n as [|n IH]; intros o; simpl; constructor; auto. rewrite Forall_forall. intros x I. apply in_seq in I. lia. Qed.
Lemma remap_ok nominal feats : nominal_positions nominal feats (remap nominal feats).
Proof.
  unfold remap, nominal_positions. set (l := filter _ _).
  assert (A : forall i, In i l <-> i < length feats /\ In (nth i feats 0) nominal).
  { intros i. unfold l. rewrite filter_In, in_seq, existsb_exists. split.
    - intros (H & y & I & E). apply Nat.eqb_eq in E. rewrite E. split; [lia|auto].
    - intros (H & I). split; [lia|]. exists (nth i feats 0). rewrite Nat.eqb_refl. auto. }
  assert (S1 : StronglySorted lt l) by (apply filter_sorted, seq_sorted). clearbody l. destruct l as [|a l].
  - intros i H I. apply (proj2 (A i)). auto.
  - split; [discriminate|]. split; auto.
Qed.
Lemma pick_ok {V} (x : list V) : forall l xs, pick l x = Ok xs -> restricted (Some l) x xs.
Proof.
  induction l as [|i l IH]; intros xs H; simpl in H.
  - injection H as <-. split; auto. intros [|j] i; discriminate.
  - destruct (nth_error x i) as [v|] eqn:Ev; [|discriminate]. destruct (pick l x) as [vs|] eqn:Ep; [|discriminate]. simpl in H. injection H as <-. destruct (IH _ eq_refl) as [L A].
    split; [simpl; lia|]. intros [|j] i' Hj; simpl in *; [|apply A; auto]. injection Hj as <-. split; [auto|discriminate].
Qed.
Lemma subset_ok {V} feats (x xs : list V) : subset feats x = Ok xs -> restricted feats x xs.
Proof. destruct feats as [l|]; simpl; [apply pick_ok|congruence]. Qed.
Lemma pick_total {V} (x : list V) l : Forall (fun i => i < length x) l -> exists xs, pick l x = Ok xs.
Proof.
  induction 1 as [|i l H F (xs & IH)]; simpl; [eauto|]. destruct (nth_error x i) as [v|] eqn:Ev; [|apply nth_error_None in Ev; lia]. rewrite IH. simpl. eauto.
Qed.

Section Life.
Context {V T B D E G : Type} {N : Num T}.
Variables (b_fit : B -> list V -> Z -> option (list Z) -> Z -> res B) (b_predict : B -> list V -> res Z) (b_proba : B -> list V -> res (list T))
  (b_reset b_new : B -> B) (b_nominal : B -> option (list nat) -> B)
  (d_add : D -> bool -> D) (d_change : D -> bool) (d_clone : D -> D)
  (e_new : E) (e_add : E -> Z -> Z -> T -> res E)
  (choice : G -> nat -> nat -> list nat * G) (base : B) (drift warning : D) (no_drift no_background : bool) (nominal : list nat).
Notation smember := (smember B D E).
Notation smember_fit := (smember_fit b_fit b_predict b_reset b_new b_nominal d_add d_change d_clone e_new choice no_drift no_background nominal).
Notation base_fit := (base_fit b_fit b_nominal nominal).
Notation sgrown := (sgrown (T := T) b_fit b_nominal nominal).
Notation new_smember := (new_smember b_new d_clone e_new base drift warning nominal).
Notation can_tell := (can_tell nominal).
Notation fed := (fed (list V) T).

(** The answer of a member to an instance *)
Definition answer (m : smember) (x : list V) : res nat := xs <- subset (sm_feats m) x ;; ps <- b_proba (sm_base m) xs ;; np_argmax ps.
Definition srow (f : fed) (m : smember) (g : G) : res (smember * G) :=
  p <- answer m (r_x f) ;; e <- e_add (sm_eval m) (r_y f) (Z.of_nat p) (r_w f) ;;
  let m1 := mk_sm (sm_base m) e (sm_created m) (sm_feats m) (sm_drift m) (sm_warn m) (sm_bg m) (sm_tell m) (sm_drifts m) (sm_warns m) in
  if (0 <? r_k f)%Z then smember_fit (r_x f) (r_y f) (r_cl f) (r_k f) (r_n f) m1 g else Ok (m1, g).
(** [slife f0 fs ld lw m]: [m] started with the features [f0] and has met the rows [fs]; its last drift was at row [ld], its last warning at row [lw] (0: none) *)
Inductive slife (f0 : option (list nat)) : list fed -> nat -> nat -> smember -> Prop :=
| slife_new n0 : slife f0 [] 0 0 (new_smember n0 f0)
| slife_row fs ld lw m f g m' g' : slife f0 fs ld lw m -> r_n f = S (length fs) -> srow f m g = Ok (m', g') ->
    slife f0 (fs ++ [f]) (if Nat.eqb (sm_drifts m') (sm_drifts m) then ld else r_n f) (if Nat.eqb (sm_warns m') (sm_warns m) then lw else r_n f) m'.
Lemma slife_numbered f0 fs ld lw m : slife f0 fs ld lw m -> numbered fs.
Proof. induction 1; [reflexivity|]. apply numbered_snoc; auto. Qed.

Definition some_learnt (fs : list fed) : bool := existsb (fun f => (0 <? r_k f)%Z) fs.
Lemma some_learnt_snoc fs f : some_learnt (fs ++ [f]) = some_learnt fs || (0 <? r_k f)%Z.
Proof. unfold some_learnt. rewrite existsb_app. simpl. rewrite orb_false_r. reflexivity. Qed.
Definition tell_ok (feats : option (list nat)) (told : bool) (fs : list fed) (tell : bool) : Prop := match feats with None => True | Some _ => tell = told && negb (some_learnt fs) end.

Lemma base_fit_ok feats told b fs b' tell f b2 t2 : sgrown feats told b fs b' -> tell_ok feats told fs tell -> (0 < r_k f)%Z ->
  base_fit b' feats tell (r_x f) (r_y f) (r_cl f) (r_k f) = Ok (b2, t2) -> sgrown feats told b (fs ++ [f]) b2 /\ tell_ok feats told (fs ++ [f]) t2.
Proof.
  intros HG HT HK H. unfold RandomPatches.base_fit in H. destruct (subset feats (r_x f)) as [xs|] eqn:ES; simpl in H; [|discriminate]. apply subset_ok in ES.
  assert (K : (0 <? r_k f)%Z = true) by (apply Z.ltb_lt; auto).
  destruct feats as [l|].
  - simpl in HT. destruct tell.
    + symmetry in HT. apply andb_prop in HT. destruct HT as [-> HT]. apply negb_true_iff in HT. destruct (b_fit (b_nominal b' (remap nominal l)) xs (r_y f) (r_cl f) (r_k f)) as [b3|] eqn:EF; simpl in H; [|discriminate].
      injection H as <- <-. split; [|simpl; rewrite some_learnt_snoc, K, orb_true_r; reflexivity]. eapply sgrown_first; eauto. apply remap_ok.
    + destruct (b_fit b' xs (r_y f) (r_cl f) (r_k f)) as [b3|] eqn:EF; simpl in H; [|discriminate]. injection H as <- <-. split; [|simpl; rewrite some_learnt_snoc, K, orb_true_r; simpl; rewrite andb_false_r; reflexivity].
      eapply sgrown_row; eauto. right. symmetry in HT. apply andb_false_iff in HT. destruct HT as [HT|HT]; auto. right. apply negb_false_iff in HT. exact HT.
  - destruct (b_fit b' xs (r_y f) (r_cl f) (r_k f)) as [b3|] eqn:EF; simpl in H; [|discriminate]. injection H as <- <-. split; [|exact I]. eapply sgrown_row; eauto.
Qed.

(** A fresh estimator: the first one, or after a drift one that was reset or made at a warning *)
Definition sfresh (drifts : nat) (b : B) : Prop := match drifts with O => b = b_new base | S _ => (exists b', b = b_reset b') \/ exists b', b = b_new b' end.
Definition sorigin (m : smember) : nat := if Nat.eqb (sm_drifts m) 0 then 0 else sm_created m.
Definition stree_ok (fs : list fed) (ld : nat) (m : smember) : Prop := exists b told, sfresh (sm_drifts m) b /\ sgrown (sm_feats m) told b (since (sorigin m) fs) (sm_base m) /\
  tell_ok (sm_feats m) told (since (sorigin m) fs) (sm_tell m) /\ (told = can_tell \/ (told = false /\ 0 < sm_drifts m /\ sm_created m = ld /\ exists b', b = b_new b')).
Definition sbg_ok (fs : list fed) (ld lw : nat) (m : smember) : Prop := match sm_bg m with
  | None => lw <= ld
  | Some b => ld < lw /\ sb_created b = lw /\ (sm_feats m = None <-> sb_feats b = None) /\ no_background = false /\ tell_ok (sb_feats b) can_tell (since lw fs) (sb_tell b) /\
      exists b', sgrown (sb_feats b) can_tell (b_new b') (since lw fs) (sb_base b)
  end.
Definition snums_ok (fs : list fed) (ld lw : nat) (m : smember) : Prop :=
  lw <= length fs /\ ld <= length fs /\ sorigin m <= ld /\ (sm_drifts m = 0 <-> ld = 0) /\ (sm_warns m = 0 <-> lw = 0).

Lemma reset_subset_none feats n (g : G) r g' : reset_subset choice feats n g = Ok (r, g') -> (feats = None <-> r = None).
Proof.
  destruct feats as [l|]; simpl; [|intros H; injection H as <- <-; tauto]. destruct (Nat.ltb n (length l)); [discriminate|]. destruct (choice g n (length l)). intros H. injection H as <- <-. split; discriminate.
Qed.

Lemma slife_ok f0 fs ld lw m : slife f0 fs ld lw m -> stree_ok fs ld m /\ sbg_ok fs ld lw m /\ snums_ok fs ld lw m.
Proof.
  induction 1 as [n0|fs ld lw m f g m' g' HL IH Hn HR].
  - unfold stree_ok, sbg_ok, snums_ok, sorigin. simpl. split; [|repeat split; auto; lia]. exists (b_new base), can_tell. split; [reflexivity|]. split; [constructor|]. split; auto. destruct f0; simpl; auto. rewrite andb_true_r. auto.
  - destruct IH as (HT & HB & HN). pose proof (slife_numbered _ _ _ _ _ HL) as NU. assert (NU' : numbered (fs ++ [f])) by (apply numbered_snoc; auto).
    assert (LL : length (fs ++ [f]) = S (length fs)) by (rewrite app_length; simpl; lia).
    destruct HT as (b0 & told & HF & HG & HTL & HTO). destruct HN as (N1 & N2 & N3 & N4 & N5).
    assert (SO : since (sorigin m) (fs ++ [f]) = since (sorigin m) fs ++ [f]). { rewrite since_snoc. destruct (Nat.ltb_spec (sorigin m) (r_n f)); [auto|lia]. }
    assert (SW : since lw (fs ++ [f]) = since lw fs ++ [f]). { rewrite since_snoc. destruct (Nat.ltb_spec lw (r_n f)); [auto|lia]. }
    unfold srow in HR. destruct (answer m (r_x f)) as [p|]; simpl in HR; [|discriminate]. destruct (e_add _ _ _ _) as [e|]; simpl in HR; [|discriminate].
    destruct (Z.ltb_spec 0 (r_k f)) as [HK|HK].
    2: { injection HR as <- <-. simpl. rewrite !Nat.eqb_refl. assert (K : (0 <? r_k f)%Z = false) by (apply Z.ltb_ge; auto). split; [|split].
         - exists b0, told. unfold sorigin in *. simpl. split; auto. rewrite SO. split; [apply sgrown_skip; auto|]. split; auto. unfold tell_ok in *. destruct (sm_feats m); auto. rewrite some_learnt_snoc, K, orb_false_r. auto.
         - unfold sbg_ok in *. simpl. destruct (sm_bg m); auto. destruct HB as (H1 & H2 & H3 & H4 & H5 & b' & H6). repeat (split; [assumption|]). rewrite SW. split; [unfold tell_ok in *; destruct (sb_feats s); auto; rewrite some_learnt_snoc, K, orb_false_r; auto|]. exists b'. apply sgrown_skip; auto.
         - unfold snums_ok, sorigin in *. rewrite LL. simpl. repeat split; auto; try lia; try tauto. }
    assert (K : (0 <? r_k f)%Z = true) by (apply Z.ltb_lt; auto).
    unfold RandomPatches.smember_fit in HR. simpl in HR. destruct (base_fit (sm_base m) (sm_feats m) (sm_tell m) (r_x f) (r_y f) (r_cl f) (r_k f)) as [[b tell]|] eqn:EF; simpl in HR; [|discriminate].
    destruct (base_fit_ok _ _ _ _ _ _ _ _ _ HG HTL HK EF) as [HG' HTL']. rewrite <- SO in HG', HTL'.
    destruct (subset (sm_feats m) (r_x f)) as [xs|]; simpl in HR; [|discriminate]. destruct (b_predict b xs) as [q|]; simpl in HR; [|discriminate].
    set (bgr := match sm_bg m with None => _ | Some b => _ end) in HR.
    assert (HB' : forall bg, bgr = Ok bg -> match bg with
       | None => sm_bg m = None /\ lw <= ld
       | Some b => ld < lw /\ sb_created b = lw /\ (sm_feats m = None <-> sb_feats b = None) /\ no_background = false /\ tell_ok (sb_feats b) can_tell (since lw (fs ++ [f])) (sb_tell b) /\
          exists b', sgrown (sb_feats b) can_tell (b_new b') (since lw (fs ++ [f])) (sb_base b) end).
    { intros bg E0. unfold bgr in E0. unfold sbg_ok in HB. destruct (sm_bg m) as [b1|].
      - destruct HB as (H1 & H2 & H3 & H4 & H5 & b' & H6). destruct (base_fit (sb_base b1) (sb_feats b1) (sb_tell b1) (r_x f) (r_y f) (r_cl f) (r_k f)) as [[b2 t2]|] eqn:EF2; simpl in E0; [|discriminate].
        destruct (subset (sb_feats b1) (r_x f)) as [bxs|]; simpl in E0; [|discriminate]. destruct (b_predict b2 bxs); simpl in E0; [|discriminate]. injection E0 as <-. simpl.
        destruct (base_fit_ok _ _ _ _ _ _ _ _ _ H6 H5 HK EF2) as [A1 A2]. rewrite SW. repeat (split; [assumption|]). exists b'. auto.
      - injection E0 as <-. auto. }
    destruct bgr as [bg|] eqn:EBG; [|discriminate]. specialize (HB' _ eq_refl). simpl in HR. clear HB bgr EBG.
    set (m1 := mk_sm b e (sm_created m) (sm_feats m) (sm_drift m) (sm_warn m) bg tell (sm_drifts m) (sm_warns m)) in *.
    assert (T1 : stree_ok (fs ++ [f]) ld m1) by (exists b0, told; unfold sorigin; auto).
    assert (B1 : sbg_ok (fs ++ [f]) ld lw m1) by (unfold sbg_ok; simpl; destruct bg; tauto).
    assert (M1 : snums_ok (fs ++ [f]) ld lw m1) by (unfold snums_ok, sorigin in *; simpl; rewrite LL; repeat split; try lia; tauto).
    assert (TL : match sm_feats m1 with None => True | Some _ => sm_tell m1 = false end).
    { simpl. unfold tell_ok in HTL'. destruct (sm_feats m); auto. rewrite HTL', SO, some_learnt_snoc, K, orb_true_r. simpl. apply andb_false_r. }
    assert (BT : match sm_bg m1 with None => True | Some b => match sb_feats b with None => True | Some _ => sb_tell b = false end end).
    { simpl. destruct bg as [b1|]; auto. destruct HB' as (_ & _ & _ & _ & H5 & _). unfold tell_ok in H5. destruct (sb_feats b1); auto. rewrite H5, SW, some_learnt_snoc, K, orb_true_r. simpl. apply andb_false_r. }
    destruct no_drift.
    { injection HR as <- <-. unfold m1 at 1 4. simpl sm_drifts. simpl sm_warns. rewrite !Nat.eqb_refl. auto. }
    destruct (check_swarning b_new d_add d_change d_clone choice no_background nominal (negb (q =? r_y f)%Z) (length (r_x f)) (r_n f) m1 g) as [[m2 g2]|] eqn:EW; simpl in HR; [|discriminate].
    assert (A : exists lw2, lw2 = (if Nat.eqb (sm_warns m2) (sm_warns m) then lw else r_n f) /\ sm_drifts m2 = sm_drifts m /\ stree_ok (fs ++ [f]) ld m2 /\ sbg_ok (fs ++ [f]) ld lw2 m2 /\ snums_ok (fs ++ [f]) ld lw2 m2 /\
       match sm_feats m2 with None => True | Some _ => sm_tell m2 = false end /\ (match sm_bg m2 with None => True | Some b => match sb_feats b with None => True | Some _ => sb_tell b = false \/ lw2 = r_n f end end)).
    { clear HR. unfold check_swarning in EW. destruct no_background eqn:ENB.
      - injection EW as <- <-. exists lw. unfold m1 at 1 2. simpl sm_drifts. simpl sm_warns. rewrite Nat.eqb_refl. split; auto. split; auto. split; auto. split; auto. split; auto. split; auto. destruct (sm_bg m1) as [b1|]; auto. destruct (sb_feats b1); auto.
      - destruct (d_change (d_add (sm_warn m1) (negb (q =? r_y f)%Z))).
        + destruct (reset_subset choice (sm_feats m1) (length (r_x f)) g) as [[fe g3]|] eqn:ER; simpl in EW; [|discriminate]. injection EW as <- <-. simpl sm_drifts. simpl sm_warns. exists (r_n f).
          destruct (Nat.eqb_spec (S (sm_warns m)) (sm_warns m)); [lia|]. split; auto. split; auto. apply reset_subset_none in ER.
          unfold stree_ok, sbg_ok, snums_ok, sorigin in *. simpl in *. rewrite LL. split; [|split; [|split; [|split; [exact TL|]]]].
          * exists b0, told. auto.
          * assert (SN : since (r_n f) (fs ++ [f]) = []) by (apply since_all; auto; lia). rewrite SN. repeat split; auto; try lia; try tauto.
            -- unfold tell_ok. destruct fe; auto. rewrite andb_true_r. auto.
            -- exists b. constructor.
          * repeat split; try lia; tauto.
          * destruct fe; auto.
        + injection EW as <- <-. simpl sm_drifts. simpl sm_warns. rewrite Nat.eqb_refl. exists lw. split; auto. split; auto.
          unfold stree_ok, sbg_ok, snums_ok, sorigin in *. simpl in *. split; [exact T1|]. split; [exact B1|]. split; [exact M1|]. split; [exact TL|]. destruct bg as [b1|]; auto. destruct (sb_feats b1); auto. }
    destruct A as (lw2 & EL & ED & A1 & A2 & A3 & A4 & A5). clear EW T1 B1 M1 TL BT HB' HG' HTL' HTO HTL HG HF.
    assert (E2 : forall mm : smember, sm_warns mm = sm_warns m2 -> (if Nat.eqb (sm_warns mm) (sm_warns m) then lw else r_n f) = lw2) by (intros mm ->; auto).
    unfold check_sdrift in HR. destruct (d_change (d_add (sm_drift m2) (negb (q =? r_y f)%Z))).
    2: { injection HR as <- <-. rewrite E2 by reflexivity. simpl sm_drifts. rewrite ED, Nat.eqb_refl. unfold stree_ok, sbg_ok, snums_ok, sorigin in *. simpl. rewrite ED in *. auto. }
    unfold stree_ok in A1. destruct A3 as (Q1 & Q2 & Q3 & Q4 & Q5). destruct (sm_bg m2) as [b1|] eqn:EB.
    + unfold sbg_ok in A2. rewrite EB in A2. destruct A2 as (H1 & H2 & H3 & H4 & H5 & b' & H6). rewrite H4 in HR. injection HR as <- <-. rewrite E2 by reflexivity. simpl sm_drifts. rewrite ED.
      destruct (Nat.eqb_spec (S (sm_drifts m)) (sm_drifts m)); [lia|]. unfold stree_ok, sbg_ok, snums_ok, sorigin. simpl. rewrite H2, LL in *. split; [|split; [lia|repeat split; try lia; tauto]].
      destruct (Nat.eq_dec lw2 (r_n f)) as [E3|E3].
      * assert (SN : since lw2 (fs ++ [f]) = []) by (apply since_all; auto; lia). rewrite SN in *.
        exists (b_new b'), (match sb_feats b1 with None => can_tell | Some _ => false end). split; [right; eauto|]. destruct (sb_feats b1) as [l|] eqn:EFB.
        -- assert (sm_tell m2 = false). { destruct (sm_feats m2); auto. destruct H3 as [H3 _]. discriminate H3. reflexivity. }
           inversion H6; subst; try (destruct fs0; discriminate). split; [constructor|]. split; [simpl; auto|]. right. repeat split; auto; try lia. eauto.
        -- inversion H6; subst; try (destruct fs0; discriminate). split; [constructor|]. simpl. auto.
      * exists (b_new b'), can_tell. split; [right; eauto|]. split; auto. split; auto. unfold tell_ok in *. destruct (sb_feats b1) as [l|] eqn:EFB; auto.
        assert (sm_tell m2 = false). { destruct (sm_feats m2); auto. destruct H3 as [H3 _]. discriminate H3. reflexivity. }
        destruct A5 as [A5|A5]; [|lia]. congruence.
    + destruct (reset_subset choice (sm_feats m2) (length (r_x f)) g2) as [[fe g3]|]; simpl in HR; [|discriminate]. injection HR as <- <-. rewrite E2 by reflexivity. simpl sm_drifts. rewrite ED.
      destruct (Nat.eqb_spec (S (sm_drifts m)) (sm_drifts m)); [lia|]. unfold stree_ok, sbg_ok, snums_ok, sorigin. simpl. rewrite LL in *. split; [|split; [lia|repeat split; try lia; tauto]].
      assert (SN : since (r_n f) (fs ++ [f]) = []) by (apply since_all; auto; lia). rewrite SN in *.
      exists (b_reset (sm_base m2)), can_tell. split; [left; eauto|]. split; [constructor|]. split; auto. unfold tell_ok. destruct fe; auto. simpl. rewrite andb_true_r. auto.
Qed.

Lemma row_swarning wrong n seen (m m' : smember) g g' : check_swarning b_new d_add d_change d_clone choice no_background nominal wrong n seen m g = Ok (m', g') ->
  let warned := negb no_background && d_change (d_add (sm_warn m) wrong) in
  sm_base m' = sm_base m /\ sm_eval m' = sm_eval m /\ sm_created m' = sm_created m /\ sm_feats m' = sm_feats m /\ sm_drift m' = sm_drift m /\ sm_drifts m' = sm_drifts m /\
  sm_warns m' = (if warned then S (sm_warns m) else sm_warns m) /\ sm_warn m' = (if no_background then sm_warn m else if warned then d_clone (d_add (sm_warn m) wrong) else d_add (sm_warn m) wrong).
Proof.
  unfold check_swarning. destruct no_background; simpl; [intros H; injection H as <- <-; repeat split|]. destruct (d_change (d_add (sm_warn m) wrong)).
  - destruct (reset_subset choice (sm_feats m) n g) as [[fe g2]|]; simpl; [|discriminate]. intros H; injection H as <- <-; repeat split.
  - intros H; injection H as <- <-; repeat split.
Qed.
Lemma row_sdrift wrong n seen (m m' : smember) g g' : check_sdrift b_reset d_add d_change d_clone e_new choice no_background nominal wrong n seen m g = Ok (m', g') ->
  let drifts := d_change (d_add (sm_drift m) wrong) in
  sm_warns m' = sm_warns m /\ sm_drifts m' = (if drifts then S (sm_drifts m) else sm_drifts m) /\ sm_eval m' = (if drifts then e_new else sm_eval m) /\ (drifts = true -> sm_bg m' = None) /\
  (drifts = false -> sm_base m' = sm_base m /\ sm_feats m' = sm_feats m /\ sm_drift m' = d_add (sm_drift m) wrong /\ sm_warn m' = sm_warn m).
Proof.
  unfold check_sdrift. cbv zeta. destruct (d_change (d_add (sm_drift m) wrong)).
  - destruct (sm_bg m) as [b|].
    + destruct no_background; [discriminate|]. intros H; injection H as <- <-. repeat split; discriminate.
    + destruct (reset_subset choice (sm_feats m) n g) as [[fe g2]|]; simpl; [|discriminate]. intros H; injection H as <- <-. repeat split; discriminate.
  - intros H; injection H as <- <-. repeat split; discriminate.
Qed.
Lemma srow_detects f m g m' g' : srow f m g = Ok (m', g') -> exists p e, answer m (r_x f) = Ok p /\ e_add (sm_eval m) (r_y f) (Z.of_nat p) (r_w f) = Ok e /\
  if (0 <? r_k f)%Z && negb no_drift then
    exists b t xs q, base_fit (sm_base m) (sm_feats m) (sm_tell m) (r_x f) (r_y f) (r_cl f) (r_k f) = Ok (b, t) /\ subset (sm_feats m) (r_x f) = Ok xs /\ b_predict b xs = Ok q /\
     let wrong := negb (q =? r_y f)%Z in
     let drifts := d_change (d_add (sm_drift m) wrong) in
     let warned := negb no_background && d_change (d_add (sm_warn m) wrong) in
     sm_drifts m' = (if drifts then S (sm_drifts m) else sm_drifts m) /\ sm_warns m' = (if warned then S (sm_warns m) else sm_warns m) /\
     sm_eval m' = (if drifts then e_new else e) /\
     (drifts = true -> sm_bg m' = None) /\
     (drifts = false -> sm_base m' = b /\ sm_feats m' = sm_feats m /\ sm_drift m' = d_add (sm_drift m) wrong /\
        sm_warn m' = (if no_background then sm_warn m else if warned then d_clone (d_add (sm_warn m) wrong) else d_add (sm_warn m) wrong))
  else sm_drifts m' = sm_drifts m /\ sm_warns m' = sm_warns m /\ sm_eval m' = e /\ sm_feats m' = sm_feats m /\ sm_drift m' = sm_drift m /\ sm_warn m' = sm_warn m.
Proof.
  intros HR. unfold srow in HR. destruct (answer m (r_x f)) as [p|]; simpl in HR; [|discriminate]. destruct (e_add (sm_eval m) (r_y f) (Z.of_nat p) (r_w f)) as [e|] eqn:EE; simpl in HR; [|discriminate].
  exists p, e. split; auto. split; auto. destruct (0 <? r_k f)%Z; [|injection HR as <- <-; simpl; repeat split].
  unfold RandomPatches.smember_fit in HR. simpl in HR. destruct (base_fit (sm_base m) (sm_feats m) (sm_tell m) (r_x f) (r_y f) (r_cl f) (r_k f)) as [[b t]|]; simpl in HR; [|discriminate].
  destruct (subset (sm_feats m) (r_x f)) as [xs|]; simpl in HR; [|discriminate]. destruct (b_predict b xs) as [q|] eqn:EQ; simpl in HR; [|discriminate].
  match type of HR with bind ?a _ = _ => destruct a as [bg|]; simpl in HR; [|discriminate] end. destruct no_drift; simpl; [injection HR as <- <-; simpl; repeat split|].
  exists b, t, xs, q. split; auto. split; auto. split; auto. match type of HR with bind ?a _ = _ => destruct a as [[m2 g2]|] eqn:EW; simpl in HR; [|discriminate] end.
  apply row_swarning in EW. apply row_sdrift in HR. cbv zeta in *. simpl in EW. destruct EW as (W1 & W2 & W3 & W4 & W5 & W6 & W7 & W8). destruct HR as (D1 & D2 & D3 & D4 & D5).
  rewrite W5, W6 in D2. rewrite W5, W2 in D3. rewrite W5 in D4, D5. rewrite D1, W7. repeat (split; [assumption || reflexivity|]). intros Hd. destruct (D5 Hd) as (X1 & X2 & X3 & X4). rewrite X1, X2, X4, W1, W4, W8. auto.
Qed.

Definition seval_ok f0 (fs : list fed) (ld : nat) (m : smember) : Prop := exists ps, length ps = length fs /\
  (forall j f, nth_error fs j = Some f -> exists mj ldj lwj, slife f0 (firstn j fs) ldj lwj mj /\ answer mj (r_x f) = Ok (Z.to_nat (nth j ps 0%Z)) /\ (0 <= nth j ps 0)%Z) /\
  judged (fun e p y w => e_add e y p w) e_new (filter (fun pf => Nat.ltb ld (r_n (snd pf))) (combine ps fs)) (sm_eval m).
Lemma slife_eval f0 fs ld lw m : slife f0 fs ld lw m -> seval_ok f0 fs ld m.
Proof.
  induction 1 as [n0|fs ld lw m f g m' g' HL IH Hn HR].
  - exists []. split; auto. split; [intros [|i] f; discriminate|]. simpl. constructor.
  - destruct IH as (ps & L & HP & HJ). pose proof (slife_numbered _ _ _ _ _ HL) as NU. destruct (slife_ok _ _ _ _ _ HL) as (_ & _ & NO).
    destruct (srow_detects _ _ _ _ _ HR) as (p & e & P1 & P2 & P3). exists (ps ++ [Z.of_nat p]). split; [rewrite !app_length; simpl; lia|]. split.
    + intros i f1 Hi. destruct (Nat.lt_ge_cases i (length fs)) as [Lt|Ge].
      * rewrite nth_error_app1 in Hi by auto. destruct (HP i f1 Hi) as (mi & a & b & A & B'). exists mi, a, b. rewrite firstn_app.
        replace (i - length fs) with 0 by lia. simpl. rewrite app_nil_r. split; auto. rewrite app_nth1 by lia. auto.
      * assert (i = length fs). { assert (i < length (fs ++ [f])) by (apply nth_error_Some; congruence). rewrite app_length in *. simpl in *. lia. }
        subst i. rewrite nth_error_app2 in Hi by lia. rewrite Nat.sub_diag in Hi. injection Hi as <-. exists m, ld, lw. rewrite firstn_app, firstn_all, Nat.sub_diag. simpl. rewrite app_nil_r.
        split; auto. rewrite app_nth2 by lia. rewrite L, Nat.sub_diag. simpl. rewrite Nat2Z.id. split; auto. lia.
    + rewrite combine_snoc by auto. rewrite filter_app. simpl.
      assert (CASES : (sm_drifts m' = sm_drifts m /\ sm_eval m' = e) \/ (sm_drifts m' = S (sm_drifts m) /\ sm_eval m' = e_new)).
      { destruct (_ && _) in P3; [|tauto]. destruct P3 as (b & t & xs & q & _ & _ & _ & P3). cbv zeta in P3. destruct P3 as (Q1 & _ & Q2 & _). destruct (d_change _); auto. }
      destruct CASES as [[-> ->]|[-> ->]].
      * rewrite Nat.eqb_refl. destruct NO as (_ & N2 & _). destruct (Nat.ltb_spec ld (r_n f)); [|lia]. eapply judged_row; eauto.
      * destruct (Nat.eqb_spec (S (sm_drifts m)) (sm_drifts m)); [lia|]. rewrite Nat.ltb_irrefl. rewrite app_nil_r. rewrite filter_none; [constructor|]. intros [q h] I. apply in_combine_r in I. simpl.
        apply (in_map r_n) in I. rewrite NU in I. apply in_seq in I. destruct (Nat.ltb_spec (r_n f) (r_n h)); auto. lia.
Qed.

(** The features of a member *)
Definition feats_ok (k : option nat) (n : nat) (fe : option (list nat)) : Prop :=
  match k, fe with None, None => True | Some k, Some l => length l = k /\ NoDup l /\ Forall (fun i => i < n) l | _, _ => False end.
Definition choice_ok : Prop := forall g n k, k <= n -> let l := fst (choice g n k) in length l = k /\ NoDup l /\ Forall (fun i => i < n) l.
Lemma reset_feats k n fe g fe' g' : choice_ok -> feats_ok k n fe -> reset_subset choice fe n g = Ok (fe', g') -> feats_ok k n fe'.
Proof.
  intros CO. unfold feats_ok. destruct k as [k|], fe as [l|]; simpl; try tauto; intros H HR.
  - destruct (Nat.ltb_spec n (length l)); [discriminate|]. specialize (CO g n (length l) ltac:(lia)). cbv zeta in CO. destruct (choice g n (length l)) as [l' g1]. injection HR as <- <-. simpl in CO. intuition congruence.
  - injection HR as <- <-. auto.
Qed.
Lemma srow_feats k n f m g m' g' : choice_ok -> length (r_x f) = n -> srow f m g = Ok (m', g') ->
  feats_ok k n (sm_feats m) -> (forall b, sm_bg m = Some b -> feats_ok k n (sb_feats b)) -> feats_ok k n (sm_feats m') /\ (forall b, sm_bg m' = Some b -> feats_ok k n (sb_feats b)).
Proof.
  intros CO W HR F1 F2. unfold srow in HR. destruct (answer m (r_x f)) as [p|]; simpl in HR; [|discriminate]. destruct (e_add _ _ _ _) as [e|]; simpl in HR; [|discriminate].
  destruct (0 <? r_k f)%Z; [|injection HR as <- <-; simpl; auto].
  unfold RandomPatches.smember_fit in HR. simpl in HR. destruct (base_fit (sm_base m) (sm_feats m) (sm_tell m) (r_x f) (r_y f) (r_cl f) (r_k f)) as [[b t]|]; simpl in HR; [|discriminate].
  destruct (subset (sm_feats m) (r_x f)) as [xs|]; simpl in HR; [|discriminate]. destruct (b_predict b xs) as [q|]; simpl in HR; [|discriminate].
  match type of HR with bind ?a _ = _ => destruct a as [bg|] eqn:EBG; simpl in HR; [|discriminate] end.
  assert (F3 : forall b, bg = Some b -> feats_ok k n (sb_feats b)).
  { intros b2 ->. destruct (sm_bg m) as [b1|]; [|discriminate]. destruct (base_fit (sb_base b1) _ _ _ _ _ _) as [[b3 t3]|]; simpl in EBG; [|discriminate]. destruct (subset (sb_feats b1) (r_x f)); simpl in EBG; [|discriminate].
    destruct (b_predict b3 _); simpl in EBG; [|discriminate]. injection EBG as <-. simpl. auto. }
  clear EBG F2. destruct no_drift; [injection HR as <- <-; simpl; auto|]. rewrite W in HR.
  match type of HR with bind ?a _ = _ => destruct a as [[m2 g2]|] eqn:EW; simpl in HR; [|discriminate] end.
  assert (F4 : feats_ok k n (sm_feats m2) /\ (forall b, sm_bg m2 = Some b -> feats_ok k n (sb_feats b))).
  { unfold check_swarning in EW. destruct no_background; [injection EW as <- <-; simpl; auto|]. destruct (d_change _); [|injection EW as <- <-; simpl; auto]. simpl in EW.
    destruct (reset_subset choice (sm_feats m) n g) as [[fe g3]|] eqn:ER; simpl in EW; [|discriminate]. injection EW as <- <-. simpl. split; auto. intros b2 Hb. injection Hb as <-. simpl. eapply reset_feats; eauto. }
  destruct F4 as [F4 F5]. unfold check_sdrift in HR. destruct (d_change _); [|injection HR as <- <-; simpl; auto]. destruct (sm_bg m2) as [b1|].
  - destruct no_background; [discriminate|]. injection HR as <- <-. simpl. split; [auto|discriminate].
  - destruct (reset_subset choice (sm_feats m2) n g2) as [[fe g3]|] eqn:ER; simpl in HR; [|discriminate]. injection HR as <- <-. simpl. split; [eapply reset_feats; eauto|discriminate].
Qed.
Lemma slife_feats k n f0 fs ld lw m : choice_ok -> feats_ok k n f0 -> slife f0 fs ld lw m -> Forall (fun f => length (r_x f) = n) fs ->
  feats_ok k n (sm_feats m) /\ (forall b, sm_bg m = Some b -> feats_ok k n (sb_feats b)).
Proof.
  intros CO F0. induction 1 as [n0|fs ld lw m f g m' g' HL IH Hn HR]; intros FA.
  - simpl. split; auto. discriminate.
  - apply Forall_app in FA. destruct FA as [FA FB]. inversion FB; subst. destruct (IH FA). eapply srow_feats; eauto.
Qed.

(** Weights *)
Definition same_but_eval (m m' : smember) : Prop := sm_base m = sm_base m' /\ sm_created m = sm_created m' /\ sm_feats m = sm_feats m' /\ sm_drift m = sm_drift m' /\ sm_warn m = sm_warn m' /\ sm_bg m = sm_bg m' /\
  sm_tell m = sm_tell m' /\ sm_drifts m = sm_drifts m' /\ sm_warns m = sm_warns m'.
Lemma same_mk m m' : same_but_eval m m' -> exists e, m' = mk_sm (sm_base m) e (sm_created m) (sm_feats m) (sm_drift m) (sm_warn m) (sm_bg m) (sm_tell m) (sm_drifts m) (sm_warns m).
Proof. intros (A1 & A2 & A3 & A4 & A5 & A6 & A7 & A8 & A9). exists (sm_eval m'). destruct m'. simpl in *. congruence. Qed.
Lemma fit_same x y cl k n (m : smember) e e' g r r' g1 g1' :
  let w e := mk_sm (sm_base m) e (sm_created m) (sm_feats m) (sm_drift m) (sm_warn m) (sm_bg m) (sm_tell m) (sm_drifts m) (sm_warns m) in
  smember_fit x y cl k n (w e) g = Ok (r, g1) -> smember_fit x y cl k n (w e') g = Ok (r', g1') -> same_but_eval r r' /\ g1 = g1'.
Proof.
  cbv zeta. unfold RandomPatches.smember_fit. simpl. destruct (base_fit (sm_base m) (sm_feats m) (sm_tell m) x y cl k) as [[b t]|]; simpl; [|discriminate].
  destruct (subset (sm_feats m) x) as [xs|]; simpl; [|discriminate]. destruct (b_predict b xs) as [q|]; simpl; [|discriminate].
  match goal with |- bind ?a _ = _ -> _ => destruct a as [bg|]; simpl; [|discriminate] end. destruct no_drift.
  { intros H H'. injection H as <- <-. injection H' as <- <-. split; auto. repeat split. }
  unfold check_swarning, check_sdrift. simpl. destruct no_background.
  - simpl. destruct (d_change _).
    + destruct bg; [discriminate|]. destruct (reset_subset choice (sm_feats m) (length x) g) as [[fe g2]|]; simpl; [|discriminate]. intros H H'. injection H as <- <-. injection H' as <- <-. split; auto. repeat split.
    + intros H H'. injection H as <- <-. injection H' as <- <-. split; auto. repeat split.
  - destruct (d_change (d_add (sm_warn m) _)).
    + destruct (reset_subset choice (sm_feats m) (length x) g) as [[fe g2]|]; simpl; [|discriminate]. destruct (d_change _); simpl; intros H H'; injection H as <- <-; injection H' as <- <-; split; auto; repeat split.
    + simpl. destruct (d_change _); simpl.
      * destruct bg; [intros H H'; injection H as <- <-; injection H' as <- <-; split; auto; repeat split|]. destruct (reset_subset choice (sm_feats m) (length x) g) as [[fe g2]|]; simpl; [|discriminate].
        intros H H'. injection H as <- <-. injection H' as <- <-. split; auto. repeat split.
      * intros H H'. injection H as <- <-. injection H' as <- <-. split; auto. repeat split.
Qed.
End Life.

Section Ensemble.
Context {V T B D E G : Type} {N : Num T}.
Variables (b_fit : B -> list V -> Z -> option (list Z) -> Z -> res B) (b_predict : B -> list V -> res Z) (b_proba : B -> list V -> res (list T))
  (b_reset b_new : B -> B) (b_nominal : B -> option (list nat) -> B)
  (d_add : D -> bool -> D) (d_change : D -> bool) (d_clone : D -> D)
  (e_new : E) (e_add : E -> Z -> Z -> T -> res E) (e_accuracy : E -> res T)
  (poisson : G -> Z * G) (shuffled : G -> nat -> list nat * G) (choice : G -> nat -> nat -> list nat * G) (seed : G)
  (rsqrt : nat -> Z) (percent : Z -> nat -> Z)
  (base : B) (n_estimators : nat) (mode : smode) (size : Z) (drift warning : D) (unweighted no_drift no_background : bool) (nominal : list nat).
Notation smember := (smember B D E).
Notation srp := (srp B D E G).
Notation run := (srp_run b_fit b_predict b_proba b_reset b_new b_nominal d_add d_change d_clone e_new e_add e_accuracy poisson shuffled choice seed rsqrt percent base n_estimators mode size drift warning unweighted no_drift no_background nominal).
Notation step := (srp_step b_fit b_predict b_proba b_reset b_new b_nominal d_add d_change d_clone e_new e_add e_accuracy poisson shuffled choice seed rsqrt percent base n_estimators mode size drift warning unweighted no_drift no_background nominal).
Notation fit := (srp_fit b_fit b_predict b_proba b_reset b_new b_nominal d_add d_change d_clone e_new e_add poisson shuffled choice rsqrt percent base n_estimators mode size drift warning no_drift no_background nominal).
Notation row := (srp_row b_fit b_predict b_proba b_reset b_new b_nominal d_add d_change d_clone e_new e_add poisson shuffled choice rsqrt percent base n_estimators mode size drift warning no_drift no_background nominal).
Notation init_members := (init_members b_new d_clone e_new shuffled choice rsqrt percent base n_estimators mode size drift warning nominal).
Notation make_subspaces := (make_subspaces choice rsqrt percent n_estimators mode size).
Notation smember_row := (smember_row b_fit b_predict b_proba b_reset b_new b_nominal d_add d_change d_clone e_new e_add poisson choice no_drift no_background nominal).
Notation smembers_row := (smembers_row b_fit b_predict b_proba b_reset b_new b_nominal d_add d_change d_clone e_new e_add poisson choice no_drift no_background nominal).
Notation srow := (srow b_fit b_predict b_proba b_reset b_new b_nominal d_add d_change d_clone e_new e_add choice no_drift no_background nominal).
Notation slife := (slife b_fit b_predict b_proba b_reset b_new b_nominal d_add d_change d_clone e_new e_add choice base drift warning no_drift no_background nominal).
Notation lesson := (list V * Z * T * option (list Z))%type.
Notation fed := (fed (list V) T).

Lemma smember_row_ok mt x y w cl n m g m' g' : smember_row mt x y w cl n m g = Ok (m', g') ->
  exists k g1, srow (mk_fed n x y w cl k) m g1 = Ok (m', g') /\ match mt with Subspaces => k = 1%Z /\ g1 = g | _ => (k, g1) = poisson g end.
Proof.
  unfold RandomPatches.smember_row, RandomPatchesProofs.srow, answer. simpl. intros H.
  destruct (subset (sm_feats m) x) as [xs|]; simpl in *; [|discriminate]. destruct (b_proba (sm_base m) xs) as [ps|]; simpl in *; [|discriminate]. destruct (np_argmax ps) as [p|]; simpl in *; [|discriminate].
  destruct (e_add (sm_eval m) y (Z.of_nat p) w) as [e|]; simpl in *; [|discriminate].
  destruct mt; [exists 1%Z, g; auto| |]; destruct (poisson g) as [k g1]; exists k, g1; auto.
Qed.
(** What a member is to learn a row with *)
Definition drawn (mt : smethod) (k : Z) : Prop := match mt with Subspaces => k = 1%Z | _ => exists g, k = fst (poisson g) end.
Lemma smembers_row_ok mt x y w cl n : forall ms g ms' g', smembers_row mt x y w cl n ms g = Ok (ms', g') ->
  length ms' = length ms /\ forall i m', nth_error ms' i = Some m' -> exists m k g1 g2, nth_error ms i = Some m /\ srow (mk_fed n x y w cl k) m g1 = Ok (m', g2) /\ drawn mt k.
Proof.
  induction ms as [|m ms IH]; intros g ms' g' H; simpl in H.
  - injection H as <- <-. split; auto. intros [|i] m'; discriminate.
  - destruct (smember_row mt x y w cl n m g) as [[m1 g1]|] eqn:E1; simpl in H; [|discriminate]. destruct (smembers_row mt x y w cl n ms g1) as [[r g2]|] eqn:E2; simpl in H; [|discriminate]. injection H as <- <-.
    destruct (IH _ _ _ E2) as [L A]. split; [simpl; lia|]. intros [|i] m' Hi; simpl in *; [|apply A; auto]. injection Hi as <-.
    destruct (smember_row_ok _ _ _ _ _ _ _ _ _ _ E1) as (k & g3 & S1 & S2). exists m, k, g3, g1. repeat split; auto. unfold drawn. destruct mt; [tauto| |]; exists g; rewrite <- S2; reflexivity.
Qed.

(** The features members start with: those of the first [n_estimators] subspaces *)
Definition used_k (n : nat) : option nat :=
  let k := subspace_k rsqrt percent mode size n in
  if (k =? 0)%Z || (Z.of_nat n <=? k)%Z then None else Some (Z.to_nat (if (k =? 1)%Z && Nat.ltb 2 n then 2%Z else k)).
Definition starts (mt : smethod) (n : nat) (f0 : option (list nat)) : Prop :=
  match f0 with None => mt = Resampling | Some l => mt <> Resampling /\ exists k, used_k n = Some k /\ feats_ok (Some k) n f0 end.
Hypothesis choice_fine : choice_ok choice.
Hypothesis shuffled_fine : forall g n, Permutation (fst (shuffled g n)) (seq 0 n).

Lemma random_combs_ok k n : k <= n -> forall c g, length (fst (random_combs choice k n c g)) = c /\ Forall (fun l => feats_ok (Some k) n (Some l)) (fst (random_combs choice k n c g)).
Proof.
  clear shuffled_fine. intros Hk. induction c as [|c IH]; intros g; simpl; auto. pose proof (choice_fine g n k Hk) as CF. destruct (choice g n k) as [l g1]. specialize (IH g1). destruct (random_combs choice k n c g1) as [r g2]. simpl in *. destruct IH. split; [lia|]. constructor; auto.
Qed.
Lemma make_subspaces_ok fuel n g o g' : make_subspaces fuel n g = Ret (o, g') ->
  match o with None => used_k n = None | Some subs => exists k, used_k n = Some k /\ n_estimators <= length subs /\ Forall (fun l => feats_ok (Some k) n (Some l)) subs end.
Proof.
  clear shuffled_fine. unfold RandomPatches.make_subspaces, used_k. cbv zeta. set (k := subspace_k rsqrt percent mode size n). clearbody k.
  destruct (Z.eqb_spec k 0) as [K0|K0]; simpl; [intros H; injection H as <- <-; auto|]. destruct (Z.ltb_spec k (Z.of_nat n)) as [KN|KN]; [|intros H; injection H as <- <-; destruct (Z.leb_spec (Z.of_nat n) k); [auto|lia]].
  destruct (Z.leb_spec (Z.of_nat n) k) as [|_]; [lia|]. destruct (Nat.leb n 20 || (k <? 2)%Z) eqn:EB.
  - destruct (Z.ltb_spec k 0) as [|KP]; [discriminate|]. set (k2 := if (k =? 1)%Z && Nat.ltb 2 n then 2%Z else k).
    assert (K2 : (0 <= k2 <= Z.of_nat n)%Z). { unfold k2. destruct (Z.eqb_spec k 1), (Nat.ltb_spec 2 n); simpl; lia. }
    destruct (widen fuel 0 (combs (Z.to_nat k2) 0 n) n_estimators) as [subs| |] eqn:EW; try discriminate. intros H. injection H as <- <-. apply widen_ret in EW. destruct EW as [-> LE]. exists (Z.to_nat k2). split; auto. split; auto.
    apply Forall_forall. intros l I. apply (combs_in (Z.to_nat k2) (n - 0)) in I; auto. destruct I as (L & S1 & F). split; auto. split.
    + clear - S1. induction S1 as [|x l S IH F]; constructor; auto. intros I. rewrite Forall_forall in F. specialize (F x I). lia.
    + eapply Forall_impl; [|exact F]. simpl. intros; lia.
  - apply orb_false_iff in EB. destruct EB as [EB1 EB2]. apply Z.ltb_ge in EB2. destruct (random_combs choice (Z.to_nat k) n n_estimators g) as [subs g2] eqn:ER. intros H. injection H as <- <-. destruct (Z.eqb_spec k 1); [lia|]. simpl.
    destruct (random_combs_ok (Z.to_nat k) n ltac:(lia) n_estimators g) as [A1 A2]. rewrite ER in A1, A2. simpl in *. exists (Z.to_nat k). split; auto. split; auto. lia.
Qed.
Definition kinds (mt mt' : smethod) (n : nat) : Prop := mt' = mt \/ (mt' = Resampling /\ used_k n = None).
Lemma init_members_ok fuel n s ms s1 : init_members fuel n s = Ret (ms, s1) ->
  length ms = n_estimators /\ sr_members s1 = Some ms /\ sr_seen s1 = sr_seen s /\ kinds (sr_method s) (sr_method s1) n /\
  forall m, In m ms -> exists f0, starts (sr_method s1) n f0 /\ m = new_smember b_new d_clone e_new base drift warning nominal (sr_seen s) f0.
Proof.
  unfold RandomPatches.init_members. intros H.
  assert (R : forall g, Ret (repeat (new_smember b_new d_clone e_new base drift warning nominal (sr_seen s) None) n_estimators,
      mk_srp (Some (repeat (new_smember b_new d_clone e_new base drift warning nominal (sr_seen s) None) n_estimators)) (sr_seen s) Resampling g) = Ret (ms, s1) -> kinds (sr_method s) Resampling n ->
     length ms = n_estimators /\ sr_members s1 = Some ms /\ sr_seen s1 = sr_seen s /\ kinds (sr_method s) (sr_method s1) n /\
     forall m, In m ms -> exists f0, starts (sr_method s1) n f0 /\ m = new_smember b_new d_clone e_new base drift warning nominal (sr_seen s) f0).
  { intros g H2 KK. injection H2 as <- <-. simpl. rewrite repeat_length. repeat split; auto. intros m I. apply repeat_spec in I. exists None. split; [reflexivity|auto]. }
  assert (S1 : forall mt, mt <> Resampling -> sr_method s = mt -> match make_subspaces fuel n (sr_rng s) with
      | Ret (Some subs, g) => let (perm, g') := shuffled g n_estimators in let ms := map (fun i => new_smember b_new d_clone e_new base drift warning nominal (sr_seen s) (Some (nth i subs []))) perm in Ret (ms, mk_srp (Some ms) (sr_seen s) mt g')
      | Ret (None, g) => let ms := repeat (new_smember b_new d_clone e_new base drift warning nominal (sr_seen s) None) n_estimators in Ret (ms, mk_srp (Some ms) (sr_seen s) Resampling g)
      | Exc e => Exc e | Loop => Loop end = Ret (ms, s1) ->
     length ms = n_estimators /\ sr_members s1 = Some ms /\ sr_seen s1 = sr_seen s /\ kinds (sr_method s) (sr_method s1) n /\
     forall m, In m ms -> exists f0, starts (sr_method s1) n f0 /\ m = new_smember b_new d_clone e_new base drift warning nominal (sr_seen s) f0).
  { clear H. intros mt NR EM H. destruct (make_subspaces fuel n (sr_rng s)) as [[[subs|] g]| |] eqn:ES; try discriminate; apply make_subspaces_ok in ES.
    - destruct ES as (k & U & LE & FA). pose proof (shuffled_fine g n_estimators) as PE. destruct (shuffled g n_estimators) as [perm g']. simpl in PE. injection H as <- <-. simpl. split; [rewrite map_length, (Permutation_length PE), seq_length; auto|].
      repeat split; auto. { left. auto. } intros m I. apply in_map_iff in I. destruct I as (i & <- & I). exists (Some (nth i subs [])). split; auto. split; auto. exists k. split; auto.
      rewrite Forall_forall in FA. apply FA, nth_In. apply (Permutation_in _ PE) in I. apply in_seq in I. lia.
    - eapply R; [exact H|]. right. auto. }
  destruct (sr_method s) eqn:EM.
  - apply (S1 Subspaces); auto. discriminate.
  - eapply R; [exact H|]. left. auto.
  - apply (S1 Patches); auto. discriminate.
Qed.

(** The ensemble after the rows [L] with [n] features; [mt] is the training method chosen *)
Definition srp_ok (mt : smethod) (n : nat) (L : list lesson) (s : srp) : Prop :=
  sr_seen s = length L /\ kinds mt (sr_method s) n /\
  match sr_members s with
  | None => L = []
  | Some ms => length ms = n_estimators /\
      forall i m, nth_error ms i = Some m -> exists f0 ks ld lw, starts (sr_method s) n f0 /\ length ks = length L /\ Forall (drawn (sr_method s)) ks /\ slife f0 (feed 1 L ks) ld lw m
  end.
Lemma kinds_trans a b c n : kinds a b n -> kinds b c n -> kinds a c n.
Proof. clear. unfold kinds. intros [->|[-> H]] [->|[-> H2]]; auto. Qed.
Lemma srp_init_ok mt n fuel s ms s1 L d : srp_ok mt n L s -> srp_init b_new d_clone e_new shuffled choice rsqrt percent base n_estimators mode size drift warning nominal fuel n (mk_srp (sr_members s) (sr_seen s + d) (sr_method s) (sr_rng s)) = Ret (ms, s1) ->
  sr_members s1 = Some ms /\ sr_seen s1 = sr_seen s + d /\ kinds mt (sr_method s1) n /\ length ms = n_estimators /\
  forall i m, nth_error ms i = Some m -> exists f0 ks ld lw, starts (sr_method s1) n f0 /\ length ks = length L /\ Forall (drawn (sr_method s1)) ks /\ slife f0 (feed 1 L ks) ld lw m.
Proof.
  intros (A1 & A2 & A3) H. unfold srp_init in H. simpl in H. destruct (sr_members s) as [ms0|] eqn:EM.
  - injection H as <- <-. simpl. destruct A3. repeat split; auto.
  - apply init_members_ok in H. simpl in H. destruct H as (H1 & H2 & H3 & H4 & H5). repeat split; auto; [eapply kinds_trans; eauto|]. intros i m Hi. destruct (H5 m (nth_error_In _ _ Hi)) as (f0 & S1 & ->). subst L.
    exists f0, [], 0, 0. repeat split; auto. simpl. constructor.
Qed.
Lemma srp_row_ok mt n L s fuel x y w cl s' : srp_ok mt n L s -> length x = n -> row fuel (x, y, w) cl s = Ret s' -> srp_ok mt n (L ++ [(x, y, w, cl)]) s'.
Proof.
  intros HO W H. unfold srp_row in H. rewrite W in H. destruct (srp_init _ _ _ _ _ _ _ _ _ _ _ _ _ _ fuel n _) as [[ms s1]| |] eqn:EI; try discriminate. rewrite <- Nat.add_1_r in EI.
  destruct (srp_init_ok _ _ _ _ _ _ _ _ HO EI) as (A1 & A2 & A3 & A4 & A5). destruct (smembers_row (sr_method s1) x y w cl (sr_seen s1) ms (sr_rng s1)) as [[ms' g]|] eqn:ER; [|discriminate]. injection H as <-.
  destruct (smembers_row_ok _ _ _ _ _ _ _ _ _ _ ER) as [B1 B2]. destruct HO as (H1 & H2 & H3). unfold srp_ok. simpl. rewrite app_length. simpl. split; [lia|]. split; auto. split; [congruence|].
  intros i m' Hi. destruct (B2 i m' Hi) as (m & k & g1 & g2 & C1 & C2 & C3). destruct (A5 i m C1) as (f0 & ks & ld & lw & D1 & D2 & D3 & D4).
  exists f0, (ks ++ [k]). do 2 eexists. split; [exact D1|]. split; [rewrite app_length; simpl; lia|]. split; [apply Forall_app; split; auto|].
  rewrite feed_snoc by auto. eapply slife_row; [exact D4| |].
  - simpl. rewrite feed_len. lia.
  - rewrite A2, H1 in C2. replace (1 + length L) with (length L + 1) by lia. exact C2.
Qed.
Definition slessons1 (rows : list (list V * Z * T)) (cl : option (list Z)) : list lesson := map (fun r => (r, cl)) rows.
Lemma fit_cons fuel r rows cl s : fit fuel (r :: rows) cl s = match row fuel r cl s with Ret s1 => fit fuel rows cl s1 | Exc e => Exc e | Loop => Loop end.
Proof. clear. simpl. unfold obind. reflexivity. Qed.
Lemma srp_fit_ok mt n fuel cl : forall rows L s s', srp_ok mt n L s -> Forall (fun r => length (fst (fst r)) = n) rows -> fit fuel rows cl s = Ret s' -> srp_ok mt n (L ++ slessons1 rows cl) s'.
Proof.
  induction rows as [|[[x y] w] rows IH]; intros L s s' HO FA H.
  - simpl in H. injection H as <-. simpl. rewrite app_nil_r. auto.
  - rewrite fit_cons in H. inversion FA; subst. destruct (row fuel (x, y, w) cl s) as [s1| |] eqn:E1; try discriminate. simpl. replace (L ++ (x, y, w, cl) :: slessons1 rows cl) with ((L ++ [(x, y, w, cl)]) ++ slessons1 rows cl) by (rewrite <- app_assoc; reflexivity).
    eapply IH; [eapply srp_row_ok; eauto| |exact H]; auto.
Qed.
(** The rows since the last reset *)
Fixpoint slessons (L : list lesson) (os : list (srp_op V T)) : list lesson :=
  match os with
  | [] => L
  | SFit rows cl :: os => slessons (L ++ slessons1 rows cl) os
  | SAsk _ _ :: os => slessons L os
  | SAgain :: os => slessons [] os
  end.
(** All instances have [n] features *)
Definition op_width (n : nat) (o : srp_op V T) : Prop := match o with SFit rows _ => Forall (fun r => length (fst (fst r)) = n) rows | SAsk m _ => m = n | SAgain => True end.
Lemma srp_run_ok mt n fuel : forall os L s s', srp_ok mt n L s -> Forall (op_width n) os -> run fuel s os = Ret s' -> srp_ok mt n (slessons L os) s'.
Proof.
  induction os as [|o os IH]; intros L s s' HO FA H; simpl in H.
  - injection H as <-. auto.
  - inversion FA; subst. destruct (step fuel s o) as [s1| |] eqn:E1; try discriminate. destruct o as [rows cl|m xs|]; simpl in *.
    + eapply IH; [eapply srp_fit_ok; eauto| |exact H]; auto.
    + eapply IH; [|eassumption|exact H]. subst m. unfold srp_predict in E1. destruct (sr_members s) as [ms|] eqn:EM.
      * destruct (bind _ _) in E1; [|discriminate]. injection E1 as <-. auto.
      * destruct (srp_init _ _ _ _ _ _ _ _ _ _ _ _ _ _ fuel n s) as [[ms s2]| |] eqn:EI; try discriminate. injection E1 as <-.
        assert (ES : s = mk_srp (sr_members s) (sr_seen s + 0) (sr_method s) (sr_rng s)) by (rewrite Nat.add_0_r; destruct s; reflexivity). rewrite ES in EI.
        destruct (srp_init_ok _ _ _ _ _ _ _ _ HO EI) as (A1 & A2 & A3 & A4 & A5). destruct HO as (H4 & _). unfold srp_ok. rewrite A1. repeat split; auto. lia.
    + eapply IH; [|eassumption|exact H]. injection E1 as <-. destruct HO as (_ & HK & _). unfold srp_ok. simpl. auto.
Qed.
Lemma srp_new_ok mt n : srp_ok mt n [] (srp_new seed mt).
Proof. clear. unfold srp_ok, kinds. simpl. auto. Qed.

(** Weights *)
Notation same := (same_but_eval (B := B) (D := D) (E := E)).
Lemma smember_row_same mt x y w w' cl n m m' g r r' g1 g1' : same m m' -> answer b_proba m x = answer b_proba m' x -> smember_row mt x y w cl n m g = Ok (r, g1) -> smember_row mt x y w' cl n m' g = Ok (r', g1') -> same r r' /\ g1 = g1'.
Proof.
  clear shuffled_fine choice_fine. intros SM _ H H'. destruct (same_mk _ _ SM) as [e0 ->]. unfold RandomPatches.smember_row in *. simpl in *.
  destruct (subset (sm_feats m) x) as [xs|]; simpl in *; [|discriminate]. destruct (b_proba (sm_base m) xs) as [ps|]; simpl in *; [|discriminate]. destruct (np_argmax ps) as [p|]; simpl in *; [|discriminate].
  destruct (e_add (sm_eval m) y (Z.of_nat p) w) as [e|]; simpl in *; [|discriminate]. destruct (e_add e0 y (Z.of_nat p) w') as [e'|]; simpl in *; [|discriminate].
  destruct mt.
  - eapply fit_same; eauto.
  - destruct (poisson g) as [k g2]. destruct (0 <? k)%Z; [eapply fit_same; eauto|]. injection H as <- <-. injection H' as <- <-. split; [repeat split|reflexivity].
  - destruct (poisson g) as [k g2]. destruct (0 <? k)%Z; [eapply fit_same; eauto|]. injection H as <- <-. injection H' as <- <-. split; [repeat split|reflexivity].
Qed.
Lemma smembers_row_same mt x y w w' cl n : forall ms ms' g r r' g1 g1', Forall2 same ms ms' -> smembers_row mt x y w cl n ms g = Ok (r, g1) -> smembers_row mt x y w' cl n ms' g = Ok (r', g1') -> Forall2 same r r' /\ g1 = g1'.
Proof.
  clear shuffled_fine choice_fine. intros ms ms' g r r' g1 g1' F. revert g r r' g1 g1'. induction F as [|m m' ms ms' SM F IH]; intros g r r' g1 g1' H H'; simpl in *.
  - injection H as <- <-. injection H' as <- <-. auto.
  - destruct (smember_row mt x y w cl n m g) as [[a ga]|] eqn:E1; simpl in H; [|discriminate]. destruct (smember_row mt x y w' cl n m' g) as [[b gb]|] eqn:E2; simpl in H'; [|discriminate].
    destruct (smember_row_same _ _ _ _ _ _ _ _ _ _ _ _ _ _ SM ltac:(unfold answer; destruct (same_mk _ _ SM) as [e0 ->]; reflexivity) E1 E2) as [S1 <-].
    destruct (smembers_row mt x y w cl n ms ga) as [[c gc]|] eqn:E3; simpl in H; [|discriminate]. destruct (smembers_row mt x y w' cl n ms' ga) as [[d gd]|] eqn:E4; simpl in H'; [|discriminate].
    injection H as <- <-. injection H' as <- <-. destruct (IH _ _ _ _ _ E3 E4). auto.
Qed.
Definition same_srp (s s' : srp) : Prop := sr_seen s = sr_seen s' /\ sr_method s = sr_method s' /\ sr_rng s = sr_rng s' /\
  match sr_members s, sr_members s' with None, None => True | Some ms, Some ms' => Forall2 same ms ms' | _, _ => False end.
Lemma same_all_refl (ms : list smember) : Forall2 same ms ms.
Proof. induction ms; constructor; auto. repeat split. Qed.
Lemma same_srp_refl s : same_srp s s.
Proof. unfold same_srp. destruct (sr_members s); auto using same_all_refl. Qed.
Lemma srp_row_same fuel x y w w' cl s s' r r' : same_srp s s' -> row fuel (x, y, w) cl s = Ret r -> row fuel (x, y, w') cl s' = Ret r' -> same_srp r r'.
Proof.
  clear shuffled_fine choice_fine. intros (S1 & S2 & S3 & S4) H H'. unfold srp_row, srp_init in *. simpl in *. rewrite <- S1, <- S2, <- S3 in H'. destruct (sr_members s) as [ms|], (sr_members s') as [ms'|]; try contradiction; simpl in *.
  - destruct (smembers_row (sr_method s) x y w cl (S (sr_seen s)) ms (sr_rng s)) as [[a ga]|] eqn:E1; [|discriminate]. destruct (smembers_row (sr_method s) x y w' cl (S (sr_seen s)) ms' (sr_rng s)) as [[b gb]|] eqn:E2; [|discriminate].
    injection H as <-. injection H' as <-. destruct (smembers_row_same _ _ _ _ _ _ _ _ _ _ _ _ _ _ S4 E1 E2) as [A <-]. repeat split; auto.
  - destruct (init_members fuel (length x) _) as [[ms s1]| |]; try discriminate.
    destruct (smembers_row (sr_method s1) x y w cl (sr_seen s1) ms (sr_rng s1)) as [[a ga]|] eqn:E1; [|discriminate]. destruct (smembers_row (sr_method s1) x y w' cl (sr_seen s1) ms (sr_rng s1)) as [[b gb]|] eqn:E2; [|discriminate].
    injection H as <-. injection H' as <-. destruct (smembers_row_same _ _ _ _ _ _ _ _ _ _ _ _ _ _ (same_all_refl ms) E1 E2) as [A <-]. repeat split; auto.
Qed.
Lemma srp_fit_same fuel cl : forall rows rows' s s' r r', same_srp s s' -> map fst rows = map fst rows' -> fit fuel rows cl s = Ret r -> fit fuel rows' cl s' = Ret r' -> same_srp r r'.
Proof.
  clear shuffled_fine choice_fine. induction rows as [|[[x y] w] rows IH]; intros [|[[x' y'] w'] rows'] s s' r r' SS EM H H'; simpl in EM; try discriminate.
  - simpl in H, H'. injection H as <-. injection H' as <-. auto.
  - rewrite fit_cons in H, H'. injection EM as <- <- EM. destruct (row fuel (x, y, w) cl s) as [a| |] eqn:E1; try discriminate. destruct (row fuel (x, y, w') cl s') as [b| |] eqn:E2; try discriminate.
    eapply IH; [|exact EM|exact H|exact H']. eapply srp_row_same; eauto.
Qed.
End Ensemble.

(** *** Votes, over the reals *)
Local Open Scope R_scope.
Lemma padd_nth : forall a b c, nth c (padd (T := R) a b) 0 = nth c a 0 + nth c b 0.
Proof. induction a as [|x a IH]; intros [|y b] [|c]; simpl; try lra; try (cbv [nadd NumR]; lra). apply IH. Qed.
Lemma padd_len : forall a b : list R, length (padd a b) = Nat.max (length a) (length b).
Proof. induction a as [|x a IH]; intros [|y b]; simpl; auto. Qed.
Lemma fold_nadd_sum (l : list R) : fold_left nadd l n0 = Rsum l.
Proof. change (@nadd R NumR) with Rplus. change (@n0 R NumR) with 0. rewrite fold_symmetric; [reflexivity| |]; intros; ring. Qed.
Lemma l1_sum (l : list R) : (forall p, In p l -> 0 <= p) -> l1 l = Rsum l.
Proof.
  intros H. rewrite <- fold_nadd_sum. unfold l1. assert (A : forall l a, (forall p, In p l -> 0 <= p) -> fold_left (fun a p => (a + (if (p <? n0) then n0 - p else p))%num) l a = fold_left nadd l a).
  { clear. induction l as [|p l IH]; intros a H; simpl; auto. assert (0 <= p) by (apply H; left; auto). assert (EP : Rltb p 0 = false) by (apply Rltb_false; lra). change (@n0 R NumR) with 0. change (@nltb R NumR) with Rltb. cbv beta. rewrite EP. apply IH. intros; apply H; right; auto. }
  apply A. auto.
Qed.
Section Votes.
Context {V B D E : Type} (b_proba : B -> list V -> res (list R)) (e_accuracy : E -> res R) (unweighted : bool).
(** [sballot x m (ps, a)]: asked about [x], the member answers the probabilities [ps], none of them negative; its accuracy is [a] *)
Definition sballot (x : list V) (m : smember B D E) (b : list R * R) : Prop :=
  exists xs, subset (sm_feats m) x = Ok xs /\ b_proba (sm_base m) xs = Ok (fst b) /\ (forall p, In p (fst b) -> 0 <= p) /\ e_accuracy (sm_eval m) = Ok (snd b).
Lemma nth_map_scale (f : R -> R) l c : f 0 = 0 -> nth c (map f l) 0 = f (nth c l 0).
Proof. intros F0. rewrite <- F0 at 1. apply map_nth. Qed.
Lemma svotes_ok x : forall ms bs acc, Forall2 (sballot x) ms bs -> exists v, svotes (T := R) b_proba e_accuracy unweighted x ms acc = Ok v /\
  (forall c, nth c v 0 = nth c acc 0 + Rsum (map (fun b => svoice unweighted b c) bs)) /\
  length v = fold_left Nat.max (map (fun b => length (fst b)) (filter (fun b => Rltb 0 (Rsum (fst b))) bs)) (length acc).
Proof.
  intros ms bs acc F. revert acc. induction F as [|m [ps a] ms bs HB F IH]; intros acc; simpl.
  - exists acc. repeat split; auto. intros; lra.
  - destruct HB as (xs & E1 & E2 & P & E3). simpl in *. rewrite E1. simpl. rewrite E2. simpl. rewrite fold_nadd_sum. change (@n0 R NumR) with 0. destruct (Rltb 0 (Rsum ps)) eqn:ES.
    + apply Rltb_true in ES. rewrite E3. simpl. rewrite l1_sum by auto. change (@ndiv R NumR) with Rdiv. change (@nmul R NumR) with Rmult.
      set (q := if negb unweighted && Rltb 0 a then map (fun p => p * a) (map (fun p => p / Rsum ps) ps) else map (fun p => p / Rsum ps) ps).
      assert (Q : forall c, nth c q 0 = (if unweighted then 1 else if Rlt_dec 0 a then a else 1) * (nth c ps 0 / Rsum ps)).
      { intros c. unfold q. unfold Rltb. destruct unweighted; simpl; [|destruct (Rlt_dec 0 a)]; rewrite ?nth_map_scale; try (unfold Rdiv; ring); rewrite ?nth_map_scale; try (unfold Rdiv; ring). }
      assert (QL : length q = length ps) by (unfold q; destruct (_ && _); rewrite !map_length; auto).
      destruct (IH (padd acc q)) as (v & V1 & V2 & V3). exists v. split; auto. split.
      * intros c. rewrite V2, padd_nth, Q. unfold svoice at 2. unfold sweight. simpl. destruct (Rlt_dec 0 (Rsum ps)); [lra|contradiction].
      * rewrite V3. simpl. rewrite padd_len, QL. reflexivity.
    + apply Rltb_false in ES. destruct (IH acc) as (v & V1 & V2 & V3). exists v. split; auto. split; auto. intros c. rewrite V2. unfold svoice at 2. unfold sweight. simpl. destruct (Rlt_dec 0 (Rsum ps)); lra.
Qed.
End Votes.
