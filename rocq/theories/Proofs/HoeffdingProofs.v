(** The Hoeffding tree classifier meets the requirements of the skeleton, for any numbers. *)
From Coq Require Import List ZArith Bool Lia Permutation Sorted.
From Verif Require Import Base.Py Base.Num Base.Dict Model.Suggestion Model.GaussianObs Model.NominalObs Model.SplitTests
  Model.SplitCriteria Model.Knn Model.NaiveBayes Model.TreeSkeleton Model.HoeffdingTree Spec.TreeSpec Spec.HoeffdingSpec Proofs.SplitTestProofs Proofs.TreeProofs.
Import ListNotations.
Local Open Scope Z_scope.

(** ** Nominal observers: as many distributions as values *)
Section Generic.
Context {T : Type} {N : Num T}.
Lemma fold_set_keys l : forall d : list (Z * unit), NoDup (dkeys d) ->
  NoDup (dkeys (fold_left (fun d a => dset d a tt) l d)) /\ forall x, In x (dkeys (fold_left (fun d a => dset d a tt) l d)) <-> In x (dkeys d) \/ In x l.
Proof.
  induction l as [|a l IH]; intros d ND; cbn [fold_left]; [split; auto; intros x; cbn; tauto|].
  destruct (IH (dset d a tt) (NoDup_dset _ _ _ ND)) as [A B]. split; auto. intros x. rewrite B, In_dkeys_dset. cbn. intuition congruence.
Qed.
Lemma multi_inner i (inner : list (Z * T)) : forall res : list (Z * list (Z * T)), NoDup (dkeys res) ->
  let res' := fold_left (fun res q => dset res (fst q) (dadd (match dget res (fst q) with Some d => d | None => [] end) i (snd q))) inner res in
  NoDup (dkeys res') /\ forall x, In x (dkeys res') <-> In x (dkeys res) \/ In x (dkeys inner).
Proof.
  induction inner as [|[j v] inner IH]; intros res ND; cbn [fold_left fst snd]; [split; auto; intros x; cbn; tauto|].
  destruct (IH (dset res j (dadd (match dget res j with Some d => d | None => [] end) i v)) (NoDup_dset _ _ _ ND)) as [A B].
  split; auto. intros x. rewrite B, In_dkeys_dset. cbn. intuition congruence.
Qed.
Lemma multi_outer (D : list (Z * list (Z * T))) : forall res : list (Z * list (Z * T)), NoDup (dkeys res) ->
  let res' := fold_left (fun res p => let i := fst p in fold_left (fun res q => let j := fst q in dset res j (dadd (match dget res j with Some d => d | None => [] end) i (snd q))) (snd p) res) D res in
  NoDup (dkeys res') /\ forall x, In x (dkeys res') <-> In x (dkeys res) \/ In x (flat_map dkeys (dvals D)).
Proof.
  induction D as [|[i inner] D IH]; intros res ND; cbn [fold_left fst snd]; [split; auto; intros x; cbn; tauto|]. cbv zeta.
  destruct (multi_inner i inner res ND) as [A1 B1]. destruct (IH _ A1) as [A B]. split; [exact A|]. intros x. cbv zeta in B. rewrite (B x), (B1 x). cbn [dvals map snd flat_map]. rewrite in_app_iff. tauto.
Qed.
Lemma no_multiway_length (o : nobs (T := T)) : length (no_multiway o) = length (no_values o).
Proof.
  unfold no_multiway, no_values, sorted_set. cbv zeta.
  destruct (multi_outer (no_dist o) [] (NoDup_nil _)) as [A B]. cbv zeta in A, B.
  destruct (fold_set_keys (flat_map dkeys (dvals (no_dist o))) [] (NoDup_nil _)) as [C D].
  set (R1 := fold_left _ (no_dist o) []) in *. set (R2 := fold_left _ (flat_map _ _) []) in *.
  rewrite map_length. unfold dvals. rewrite map_length, <- (map_length fst). change (map fst (dsort R1)) with (dkeys (dsort R1)).
  rewrite <- (Permutation_length (dkeys_dsort_perm R1)), <- (Permutation_length (dkeys_dsort_perm R2)).
  apply Permutation_length, NoDup_Permutation; auto. intros x. rewrite B, D. tauto.
Qed.
Lemma branch_mapping_vals vals : dvals (branch_mapping vals) = map Z.of_nat (seq 0 (length vals)).
Proof.
  unfold branch_mapping, dvals. rewrite map_map. cbn [snd]. rewrite <- map_map. f_equal. generalize 0%nat.
  induction vals as [|v vals IH]; intros a; cbn; [reflexivity|]. now rewrite IH.
Qed.
Lemma no_binary_length (o : nobs (T := T)) v : length (no_binary o v) = 2%nat.
Proof. unfold no_binary. destruct (fold_left _ _ _). reflexivity. Qed.

(** ** Tests and their number of branches *)
Definition test_ok (t : htest T) (n : nat) : Prop :=
  match t with TMulti t => 0 <= mw_att t /\ dvals (mw_map t) = map Z.of_nat (seq 0 n) | TNum t => (0 <= nt_att t /\ nt_equal t = true) /\ n = 2%nat | TNom a _ => 0 <= a /\ n = 2%nat end.
Variables (k : T) (phi : T -> T) (key : T -> Z) (cfg : ht_config T).
Local Notation O := (ht_ops k phi key cfg).

Lemma dget_vals {V} (d : list (Z * V)) a v : dget d a = Some v -> In v (dvals d).
Proof. intros H. apply dget_In in H. apply in_map_iff. exists (a, v). auto. Qed.
Lemma branch_lt t n x b : test_ok t n -> o_branch O t x = Ok b -> b < Z.of_nat n.
Proof.
  cbn [o_branch ht_ops]. destruct t as [t|a v|t]; cbn [test_ok ht_branch].
  - intros [_ ->] H. unfold num_branch in H. destruct (no_attribute _ _); [injection H as <-; lia|]. apply bind_Ok in H as (u & _ & H).
    destruct (_ =? _)%num; injection H as <-; [destruct (nt_equal t); lia|destruct (_ <? _)%num; lia].
  - intros [_ ->] H. destruct (no_attribute _ _); [injection H as <-; lia|]. apply bind_Ok in H as (u & _ & H). injection H as <-. destruct (_ =? _)%Z; lia.
  - intros [_ K] H. unfold multi_branch in H. destruct (no_attribute _ _); [injection H as <-; lia|]. apply bind_Ok in H as (u & _ & H). injection H as <-.
    destruct (dget (mw_map t) u) as [b0|] eqn:E; [|lia]. apply dget_vals in E. rewrite K in E. apply in_map_iff in E as (i & <- & Hi). apply in_seq in Hi. lia.
Qed.
Lemma fold_max_seq n : forall a, fold_left Z.max (map Z.of_nat (seq (S a) n)) (Z.of_nat a) = Z.of_nat (a + n).
Proof.
  induction n as [|n IH]; intros a; [cbn; f_equal; lia|]. cbn [seq map fold_left]. replace (Z.max (Z.of_nat a) (Z.of_nat (S a))) with (Z.of_nat (S a)) by lia.
  rewrite (IH (S a)). f_equal. lia.
Qed.
Lemma dvals_app {V} (a b : list (Z * V)) : dvals (a ++ b) = dvals a ++ dvals b. Proof. apply map_app. Qed.
Lemma add_branch t n x b t' b' : test_ok t n -> o_multiway O t = true -> o_branch O t x = Ok b -> b < 0 -> o_add O t x = Ok (t', b') ->
  b' = Z.of_nat n /\ test_ok t' (n + 1) /\ forall x2 b2, o_branch O t x2 = Ok b2 -> 0 <= b2 -> o_branch O t' x2 = Ok b2.
Proof.
  cbn [o_branch o_add o_multiway ht_ops]. destruct t as [t|a v|t]; try discriminate. cbn [test_ok ht_branch ht_add]. intros [Pa K] _ HB Lb HA.
  apply bind_Ok in HA as (v & Ev & HA). apply bind_Ok in HA as ([t1 b1] & EA & HA). injection HA as <- <-. unfold multi_add in EA. rewrite K in EA.
  destruct n as [|n]; [discriminate|]. cbn [seq map] in EA. rewrite (fold_max_seq n 0) in EA. injection EA as <- <-.
  unfold multi_branch in HB. unfold no_attribute in HB. unfold at_index in Ev. destruct (Z.ltb_spec (mw_att t) 0) as [|_]; [lia|].
  destruct (Z.ltb_spec (mw_att t) 0) as [|_]; [lia|]. rewrite orb_false_r in HB. destruct (nth_error (map key x) (Z.to_nat (mw_att t))) as [v'|] eqn:En; [|discriminate]. injection Ev as ->.
  assert (Lx : mw_att t < Z.of_nat (length (map key x))). { assert (Hx : nth_error (map key x) (Z.to_nat (mw_att t)) <> None) by congruence. apply nth_error_Some in Hx. lia. }
  destruct (Z.ltb_spec (Z.of_nat (length (map key x))) (mw_att t)) as [|_]; [lia|]. rewrite (at_index_in _ _ _ Pa En) in HB. cbn [bind] in HB. injection HB as <-.
  assert (Nv : dget (mw_map t) v = None).
  { destruct (dget (mw_map t) v) as [b0|] eqn:E; auto. apply dget_vals in E. rewrite K in E. apply in_map_iff in E as (i & <- & Hi). lia. }
  split; [cbn; lia|]. split.
  - split; [exact Pa|]. cbn [mw_map]. rewrite dset_new by (now apply dget_None). rewrite dvals_app, K, Nat.add_1_r, (seq_S (S n)), map_app. cbn [dvals map snd]. do 2 f_equal. cbn. lia.
  - intros x2 b2 H2 L2. cbn [ht_branch]. unfold multi_branch in H2 |- *. cbn [mw_att mw_map]. destruct (no_attribute _ _); [injection H2 as <-; lia|].
    apply bind_Ok in H2 as (u & -> & H2). injection H2 as <-. cbn [bind]. rewrite dget_dset. destruct (Z.eqb_spec v u) as [<-|]; auto. rewrite Nv in L2. lia.
Qed.

(** ** Leaves *)
Definition ndk (d : list (Z * T)) : Prop := NoDup (dkeys d).
Definition keys_ok (l : leaf T) : Prop := (forall i, In i (dkeys (lf_obs l)) -> 0 <= i) /\ ndk (lf_stats l).
Lemma keys_new d : ndk d -> keys_ok (leaf_new d). Proof. intros H. split; [intros i []|exact H]. Qed.
Lemma update_stats_ndk d y w : ndk d -> ndk (update_stats d y w).
Proof. unfold ndk, update_stats. intros H. destruct (dget d y); [now apply NoDup_dset|now apply NoDup_dsort, NoDup_dset]. Qed.
(** Distributions of the suggestions have one entry per label *)
Lemma go_sides_ndk o items v : forall l r l' r', ndk l -> ndk r -> go_sides k phi o items v l r = Ok (l', r') -> ndk l' /\ ndk r'.
Proof.
  induction items as [|[c g] items IH]; intros l r l' r' Hl Hr H; cbn [go_sides] in H; [injection H as <- <-; auto|].
  destruct (dget (go_min o) c) as [mn|]; [|discriminate]. destruct (dget (go_max o) c) as [mx|]; [|discriminate].
  destruct (v <? mn)%num; [eapply IH; [| |exact H]; auto; now apply NoDup_dset|]. destruct (mx <=? v)%num; [eapply IH; [| |exact H]; auto; now apply NoDup_dset|].
  apply bind_Ok in H as ([[a b] d] & _ & H). eapply IH; [| |exact H]; now apply NoDup_dset.
Qed.
Lemma go_best_loop_ndk merit o vs : forall best s, (forall b, best = Some b -> ndk (fst (sg_dists b)) /\ ndk (snd (sg_dists b))) ->
  go_best_loop k phi merit o vs best = Ok (Some s) -> ndk (fst (sg_dists s)) /\ ndk (snd (sg_dists s)).
Proof.
  induction vs as [|v vs IH]; intros best s Hb H; cbn [go_best_loop] in H; [injection H as H; auto|]. apply bind_Ok in H as ([l r] & E & H).
  eapply IH; [|exact H]. intros b Eb. unfold go_split in E. apply go_sides_ndk in E; [|constructor|constructor]. unfold keep_best in Eb.
  destruct best as [b0|]; [destruct (mgt _ _)|]; injection Eb as <-; auto.
Qed.
Lemma dadd_ndk d i v : ndk d -> ndk (dadd d i v). Proof. unfold ndk, dadd. apply NoDup_dset. Qed.
Lemma no_binary_ndk (o : nobs (T := T)) v : Forall ndk (no_binary o v).
Proof.
  unfold no_binary. assert (H : forall D a b, ndk a -> ndk b -> let r := fold_left (fun acc p => let i := fst p in
      fold_left (fun acc q => if Z.eqb (fst q) v then (dadd (fst acc) i (snd q), snd acc) else (fst acc, dadd (snd acc) i (snd q))) (snd p) acc) D (a, b) in ndk (fst r) /\ ndk (snd r)).
  { induction D as [|[i inner] D IH]; intros a b Ha Hb; cbn [fold_left fst snd]; auto. cbv zeta in *.
    assert (Q : forall inner a b, ndk a -> ndk b -> let r := fold_left (fun acc q => if Z.eqb (fst q) v then (dadd (fst acc) i (snd q), snd acc) else (fst acc, dadd (snd acc) i (snd q))) inner (a, b) in ndk (fst r) /\ ndk (snd r)).
    { clear. induction inner as [|[j u] inner IH]; intros a b Ha Hb; cbn [fold_left fst snd]; auto. destruct (j =? v)%Z; apply IH; auto; now apply dadd_ndk. }
    specialize (Q inner a b Ha Hb). cbv zeta in Q. destruct (fold_left _ inner (a, b)) as [a1 b1]. apply IH; tauto. }
  specialize (H (no_dist o) [] [] (NoDup_nil _) (NoDup_nil _)). cbv zeta in H. destruct (fold_left _ _ _) as [a b]. destruct H. repeat constructor; auto.
Qed.
Lemma no_multiway_ndk (o : nobs (T := T)) : Forall ndk (no_multiway o).
Proof.
  unfold no_multiway. cbv zeta. set (good := fun res : list (Z * list (Z * T)) => forall j d, In (j, d) res -> ndk d).
  assert (In_dset : forall (res : list (Z * list (Z * T))) j d, good res -> ndk d -> good (dset res j d)).
  { intros res j d G Hd j' d' Hin. revert G Hin. induction res as [|[j1 d1] res IH]; cbn [dset]; intros G Hin; [destruct Hin as [[= <- <-]|[]]; auto|].
    destruct (j1 =? j)%Z; destruct Hin as [[= <- <-]|Hin]; auto; [eapply G; right; eauto|eapply G; left; eauto|]. apply IH; auto. intros a b Hab. eapply G. right. eauto. }
  assert (H : forall D res, good res -> good (fold_left (fun res p => let i := fst p in
      fold_left (fun res q => let j := fst q in dset res j (dadd (match dget res j with Some d => d | None => [] end) i (snd q))) (snd p) res) D res)).
  { induction D as [|[i inner] D IH]; intros res G; cbn [fold_left fst snd]; auto. apply IH. cbv zeta. clear IH. revert res G.
    induction inner as [|[j u] inner IH]; intros res G; cbn [fold_left fst snd]; auto. apply IH. apply In_dset; auto. apply dadd_ndk. destruct (dget res j) as [d|] eqn:E; [eapply G, dget_In; eauto|constructor]. }
  specialize (H (no_dist o) [] (fun _ _ F => match F with end)). set (res := fold_left _ _ _) in *. apply Forall_forall. intros d Hd. apply in_map_iff in Hd as (d0 & <- & Hd).
  apply NoDup_dsort. apply in_map_iff in Hd as ([j d1] & E & Hd). cbn in E. subst d1. eapply H. eapply Permutation_in; [apply Permutation_sym, dsort_perm|exact Hd].
Qed.
Lemma update_observers_keys f y w : forall x obs i obs', 0 <= i -> (forall j, In j (dkeys obs) -> 0 <= j) -> update_observers key f obs i x y w = Ok obs' -> forall j, In j (dkeys obs') -> 0 <= j.
Proof.
  induction x as [|a x IH]; intros obs i obs' Li H E; cbn [update_observers] in E; [injection E as <-; auto|].
  apply bind_Ok in E as (o' & _ & E). eapply IH; [|  |exact E]; [lia|]. intros j Hj. apply In_dkeys_dset in Hj as [->|Hj]; auto.
Qed.
Lemma keys_learn l x y w l' : keys_ok l -> o_learn O l x y w = Ok l' -> keys_ok l'.
Proof.
  cbn [o_learn ht_ops]. unfold leaf_learn. intros H E. apply bind_Ok in E as ([mc nb] & _ & E). apply bind_Ok in E as (obs & E1 & E). injection E as <-.
  destruct H as [H H']. split; [|now apply update_stats_ndk]. intros i Hi. cbn [lf_obs] in Hi. eapply (update_observers_keys _ _ _ _ _ 0); eauto; lia.
Qed.
Lemma disable_keys l a : keys_ok l -> keys_ok (disable cfg l a) /\ lf_stats (disable cfg l a) = lf_stats l.
Proof.
  intros H. unfold disable. destruct (h_kind cfg); auto. destruct (dmem (lf_obs l) a) eqn:E; auto. split; auto. destruct H as [H H']. split; auto. intros i Hi. cbn [lf_obs] in Hi. apply dmem_true in E.
  rewrite dset_old in Hi by auto. auto.
Qed.
Lemma disable_all p : forall l, keys_ok l -> keys_ok (fold_left (disable cfg) p l) /\ lf_stats (fold_left (disable cfg) p l) = lf_stats l.
Proof. induction p as [|a p IH]; intros l H; cbn [fold_left]; auto. destruct (disable_keys l a H) as [A B]. destruct (IH _ A) as [C D]. split; auto. congruence. Qed.
Lemma disable_all_stats p : forall l, lf_stats (fold_left (disable cfg) p l) = lf_stats l.
Proof. induction p as [|a p IH]; intros l; cbn [fold_left]; auto. rewrite IH. unfold disable. destruct (h_kind cfg); auto. destruct (dmem _ _); auto. Qed.

(** ** Suggestions *)
Local Notation sug := (suggestion (option (htest T)) (list (list (Z * T))) T).
Definition sug_ok (s : sug) : Prop := match sg_test s with Some t => test_ok t (length (sg_dists s)) /\ Forall ndk (sg_dists s) | None => True end.
Lemma keep_best_in {A D} (l : list (suggestion A D T)) : forall b s, fold_left keep_best l b = Some s -> In s l \/ b = Some s.
Proof.
  induction l as [|a l IH]; intros b s H; cbn [fold_left] in H; auto. apply IH in H as [H|H]; [left; now right|]. unfold keep_best in H.
  destruct b as [b|]; [destruct (mgt _ _)|]; try (injection H as ->; left; now left). auto.
Qed.
Lemma fold_keep {A D V} (g : V -> suggestion A D T) l : forall b, fold_left (fun best a => keep_best best (g a)) l b = fold_left keep_best (map g l) b.
Proof. induction l as [|a l IH]; intros b; cbn; auto. Qed.
Lemma best_of_ok pre i o s : 0 <= i -> best_of k phi cfg pre i o = Ok (Some s) -> sug_ok s.
Proof.
  intros Li. destruct o as [g|m|]; cbn [best_of]; [| |discriminate].
  - intros H. apply bind_Ok in H as ([b|] & E & H); [|discriminate]. injection H as <-. split; [cbn; auto|]. cbn [sg_dists]. unfold go_best in E. apply bind_Ok in E as (vs & _ & E). apply go_best_loop_ndk in E as [E1 E2]; [|discriminate]. repeat constructor; auto.
  - unfold no_best. cbv zeta. rewrite fold_keep. intros H. destruct (fold_left keep_best _ _) as [b|] eqn:E; [|discriminate]. injection H as <-. apply keep_best_in in E as [E|E].
    + apply in_map_iff in E as (a & <- & _). unfold sug_ok. cbn [sg_test sg_dists test_ok]. split; [split; [exact Li|apply no_binary_length]|apply no_binary_ndk].
    + destruct (h_binary cfg); [discriminate|]. injection E as <-. unfold sug_ok. cbn [sg_test sg_dists test_ok multi_new mw_att mw_map]. split; [|apply no_multiway_ndk]. split; auto. now rewrite branch_mapping_vals, no_multiway_length.
Qed.
Lemma mapM_in {A B} (f : A -> res B) l r : mapM f l = Ok r -> forall b, In b r -> exists a, In a l /\ f a = Ok b.
Proof.
  revert r. induction l as [|a l IH]; intros r H b Hb; cbn [mapM] in H; [injection H as <-; contradiction|].
  apply bind_Ok in H as (b0 & E0 & H). apply bind_Ok in H as (r0 & E1 & H). injection H as <-. destruct Hb as [<-|Hb]; [exists a; split; [now left|auto]|].
  destruct (IH _ E1 _ Hb) as (a' & Ha & E). exists a'. split; [now right|auto].
Qed.
Lemma suggestions_ok l bs : keys_ok l -> suggestions k phi cfg l = Ok bs -> Forall sug_ok bs.
Proof.
  intros K H. unfold suggestions in H. apply bind_Ok in H as (rs & E & H). injection H as <-. apply Forall_app. split.
  - destruct (h_no_preprune cfg); constructor; [exact Logic.I|constructor].
  - apply Forall_forall. intros s Hs. apply in_flat_map in Hs as ([s'|] & Hin & Hs); [|contradiction]. destruct Hs as [->|[]]. destruct K as [K _].
    destruct (mapM_in _ _ _ E _ Hin) as ([i o] & Hio & Eb). cbn [fst snd] in Eb. eapply best_of_ok; [|exact Eb]. apply K. apply in_map_iff. exists (i, o). auto.
Qed.
(** The decision: the best suggestion of the sorted list, if it wins *)
Lemma decide_cases l d : decide k phi cfg l = Ok d ->
  match d with Keep l' | NullWins l' | SplitOn l' _ _ => lf_stats l' = lf_stats l end /\
  match d with
  | SplitOn _ te ds => leaf_pure l = false /\ exists bs best, suggestions k phi cfg l = Ok bs /\ In best bs /\ sg_test best = Some te /\ sg_dists best = ds
  | _ => True
  end.
Proof.
  unfold decide. cbv zeta. destruct (leaf_pure l); [intros [= <-]; auto|]. intros H. apply bind_Ok in H as (bs & Eb & H).
  set (sorted := sort_stable _ bs) in H. assert (PS : forall s, In s (rev sorted) -> In s bs).
  { intros s Hs. apply in_rev in Hs. eapply Permutation_in; [apply Permutation_sym, sort_stable_perm|exact Hs]. }
  destruct (rev sorted) as [|best [|second rest]] eqn:Er.
  - injection H as <-. auto.
  - injection H as <-. destruct (sg_test best) as [te|] eqn:Et; auto. split; auto. split; auto. exists bs, best. repeat split; auto. apply PS. now left.
  - apply bind_Ok in H as (bound & _ & H). apply bind_Ok in H as (poor & _ & H). injection H as <-. destruct (_ || _).
    + destruct (sg_test best) as [te|] eqn:Et.
      * split; [apply disable_all_stats|]. split; auto. exists bs, best. repeat split; auto. apply PS. now left.
      * split; [apply disable_all_stats|auto].
    + split; [cbn; apply disable_all_stats|auto].
Qed.
Lemma decide_keys l d : keys_ok l -> decide k phi cfg l = Ok d -> match d with Keep l' | NullWins l' => keys_ok l' | _ => True end.
Proof.
  intros K. unfold decide. cbv zeta. destruct (leaf_pure l); [intros [= <-]; exact K|]. intros H. apply bind_Ok in H as (bs & Eb & H).
  destruct (rev _) as [|best [|second rest]] eqn:Er.
  - injection H as <-. exact K.
  - injection H as <-. destruct (sg_test best); auto.
  - apply bind_Ok in H as (bound & _ & H). apply bind_Ok in H as (poor & _ & H). injection H as <-. destruct (disable_all poor l K) as [A _]. destruct (_ || _); [destruct (sg_test best); auto|]. exact A.
Qed.
Lemma decide_split l l' te ds : keys_ok l -> o_decide O l = Ok (SplitOn l' te ds) -> test_ok te (length ds) /\ forall d, In d ds -> keys_ok (o_child O l' d).
Proof.
  intros K H. apply decide_cases in H as [_ (_ & bs & best & Eb & Hin & Et & <-)]. 
  pose proof (suggestions_ok l bs K Eb) as F. rewrite Forall_forall in F. specialize (F _ Hin). unfold sug_ok in F. rewrite Et in F. destruct F as [F1 F2]. split; auto. rewrite Forall_forall in F2. intros d Hd. apply keys_new. auto.
Qed.
End Generic.

Section Runs.
Context {T : Type} {N : Num T}.
Variables (k : T) (phi : T -> T) (key : T -> Z) (cfg : ht_config T) (sz : sizes T (leaf T) (list (Z * T)) (list (Z * T)) (htest T)).
Local Notation O := (ht_ops k phi key cfg).
Definition ht_good (t : tree T (leaf T) (list (Z * T)) (list (Z * T)) (htest T)) : Prop := good test_ok keys_ok ndk t.
Local Notation tr := (tree T (leaf T) (list (Z * T)) (list (Z * T)) (htest T)).
Lemma ht_keep l d : o_decide O l = Ok d -> match d with Keep l' | NullWins l' | SplitOn l' _ _ => o_stats O l' = o_stats O l end.
Proof. intros H. apply decide_cases in H as [H _]. exact H. Qed.
Lemma ht_fit_one t x y w t' : ht_good t -> fit_one O (h_memory cfg) sz t x y w = Ok t' ->
  ht_good t' /\ (t_decision t' = t_decision t \/ t_decision t' = t_decision t + 1 /\ t_growth t = true)%Z /\ (t_growth t' = t_growth t \/ t_growth t' = false) /\ t_weight t' = t_weight t /\
  exists p n n' r1 r', route O (root_or_new O t) x = Ok (p, Some n) /\ update_at (root_or_new O t) p (fun _ => Ok n') = Ok r1 /\ t_root t' = Some r' /\ same_stats O r1 r'
    /\ (c_period_due (h_memory cfg) (t_weight t) = false -> settled O (h_memory cfg) t r1 r') /\ learned O n x y w n'.
Proof.
  intros G H. refine (fit_one_ok O test_ok keys_ok ndk _ _ _ _ _ (h_memory cfg) sz _ (fun _ _ _ => True) _ _ _ _ _ _ t x y w t' Logic.I G H); cbn.
  - apply (branch_lt k phi key cfg).
  - intros l [_ K]; exact K.
  - intros; now apply keys_new.
  - reflexivity.
  - reflexivity.
  - apply (decide_split k phi key cfg).
  - apply keys_new. constructor.
  - intros l x0 y0 w0 l' K _ E. exact (keys_learn k phi key cfg l x0 y0 w0 l' K E).
  - intros i x0 y0 w0 i' K _ [= <-]. now apply update_stats_ndk.
  - intros l d K E. exact (decide_keys k phi cfg l d K E).
  - exact ht_keep.
  - exact (add_branch k phi key cfg).
Qed.
Lemma ht_frame t x y w t' p n x2 q m : ht_good t -> fit_one O (h_memory cfg) sz t x y w = Ok t' -> route O (root_or_new O t) x = Ok (p, n) ->
  route O (root_or_new O t) x2 = Ok (q, Some m) -> q <> p ->
  exists m' r', t_root t' = Some r' /\ route O r' x2 = Ok (q, Some m') /\ stats_of O m' = stats_of O m
    /\ (c_period_due (h_memory cfg) (t_weight t) = false -> room (h_memory cfg) t -> is_active m = true -> m' = m).
Proof.
  intros G H. refine (fit_one_frame O test_ok keys_ok ndk _ _ _ _ _ (h_memory cfg) sz _ (fun _ _ _ => True) _ _ _ _ _ _ t x y w t' p n x2 q m Logic.I G H); cbn.
  - apply (branch_lt k phi key cfg).
  - intros l [_ K]; exact K.
  - intros; now apply keys_new.
  - reflexivity.
  - reflexivity.
  - apply (decide_split k phi key cfg).
  - apply keys_new. constructor.
  - intros l x0 y0 w0 l' K _ E. exact (keys_learn k phi key cfg l x0 y0 w0 l' K E).
  - intros i x0 y0 w0 i' K _ [= <-]. now apply update_stats_ndk.
  - intros l d K E. exact (decide_keys k phi cfg l d K E).
  - exact ht_keep.
  - exact (add_branch k phi key cfg).
Qed.
Lemma ht_split_enforced t x y w t' : ht_good t -> fit_one O (h_memory cfg) sz t x y w = Ok t' -> c_period_due (h_memory cfg) (t_weight t) = false -> t_decision t' = t_decision t + 1 ->
  exists s1 r1, ht_good s1 /\ t_root s1 = Some r1 /\ t_active_size s1 = t_active_size t /\ t_inactive_size s1 = t_inactive_size t /\ t_overhead s1 = t_overhead t /\ enforce O (h_memory cfg) s1 = Ok t'.
Proof.
  intros G H. refine (split_enforced O test_ok keys_ok ndk _ _ _ _ _ (h_memory cfg) sz _ (fun _ _ _ => True) _ _ _ _ _ _ t x y w t' Logic.I G H); cbn.
  - apply (branch_lt k phi key cfg).
  - intros l [_ K]; exact K.
  - intros; now apply keys_new.
  - reflexivity.
  - reflexivity.
  - apply (decide_split k phi key cfg).
  - apply keys_new. constructor.
  - intros l x0 y0 w0 l' K _ E. exact (keys_learn k phi key cfg l x0 y0 w0 l' K E).
  - intros i x0 y0 w0 i' K _ [= <-]. now apply update_stats_ndk.
  - intros l d K E. exact (decide_keys k phi cfg l d K E).
  - exact ht_keep.
  - exact (add_branch k phi key cfg).
Qed.
Lemma ht_split_cause t x y w t' : ht_good t -> fit_one O (h_memory cfg) sz t x y w = Ok t' ->
  (t_decision t' = t_decision t + 1 <-> exists p l l' l2 te ds, route O (root_or_new O t) x = Ok (p, Some (Active l)) /\ o_learn O l x y w = Ok l' /\
     t_growth t = true /\ o_due O l' = true /\ o_decide O l' = Ok (SplitOn l2 te ds)) /\
  (forall p l l' l2 te ds, route O (root_or_new O t) x = Ok (p, Some (Active l)) -> o_learn O l x y w = Ok l' -> t_growth t = true -> o_due O l' = true -> o_decide O l' = Ok (SplitOn l2 te ds) ->
     exists r' ch, t_root t' = Some r' /\ node_at r' p = Some (Split te (o_stats O l') ch) /\ dkeys ch = map Z.of_nat (seq 0 (length ds)) /\
       map (fun c => stats_of O (snd c)) ch = map (fun d => o_stats O (o_child O l2 d)) ds /\ Forall (fun c => is_split (snd c) = false) ch).
Proof.
  intros G H. refine (split_cause O test_ok keys_ok ndk _ _ _ _ _ (h_memory cfg) sz _ (fun _ _ _ => True) _ _ _ _ _ _ t x y w t' Logic.I G H); cbn.
  - apply (branch_lt k phi key cfg).
  - intros l [_ K]; exact K.
  - intros; now apply keys_new.
  - reflexivity.
  - reflexivity.
  - apply (decide_split k phi key cfg).
  - apply keys_new. constructor.
  - intros l x0 y0 w0 l' K _ E. exact (keys_learn k phi key cfg l x0 y0 w0 l' K E).
  - intros i x0 y0 w0 i' K _ [= <-]. now apply update_stats_ndk.
  - intros l d K E. exact (decide_keys k phi cfg l d K E).
  - exact ht_keep.
  - exact (add_branch k phi key cfg).
Qed.
Lemma ht_never_inactive t x y w t' : ht_good t -> fit_one O (h_memory cfg) sz t x y w = Ok t' -> c_period_due (h_memory cfg) (t_weight t) = false -> room (h_memory cfg) t -> t_inactive t = 0 ->
  t_inactive t' = 0 /\ same_sizes t t'.
Proof.
  intros G H. refine (never_inactive O test_ok keys_ok ndk _ _ _ _ _ (h_memory cfg) sz _ (fun _ _ _ => True) _ _ _ _ _ _ t x y w t' Logic.I G H); cbn.
  - apply (branch_lt k phi key cfg).
  - intros l [_ K]; exact K.
  - intros; now apply keys_new.
  - reflexivity.
  - reflexivity.
  - apply (decide_split k phi key cfg).
  - apply keys_new. constructor.
  - intros l x0 y0 w0 l' K _ E. exact (keys_learn k phi key cfg l x0 y0 w0 l' K E).
  - intros i x0 y0 w0 i' K _ [= <-]. now apply update_stats_ndk.
  - intros l d K E. exact (decide_keys k phi cfg l d K E).
  - exact ht_keep.
  - exact (add_branch k phi key cfg).
Qed.
Lemma ht_split_children t x y w t' p l l' l2 te ds : ht_good t -> fit_one O (h_memory cfg) sz t x y w = Ok t' -> c_period_due (h_memory cfg) (t_weight t) = false -> room (h_memory cfg) t ->
  route O (root_or_new O t) x = Ok (p, Some (Active l)) -> o_learn O l x y w = Ok l' -> t_growth t = true -> o_due O l' = true -> o_decide O l' = Ok (SplitOn l2 te ds) ->
  exists r', t_root t' = Some r' /\ forall i d, nth_error ds i = Some d -> node_at r' (p ++ [Z.of_nat i]) = Some (Active (o_child O l2 d)).
Proof.
  intros G H. refine (split_children O test_ok keys_ok ndk _ _ _ _ (h_memory cfg) sz _ (fun _ _ _ => True) _ _ _ _ t x y w t' p l l' l2 te ds Logic.I G H); cbn.
  - intros l0 [_ K]; exact K.
  - intros; now apply keys_new.
  - reflexivity.
  - reflexivity.
  - apply (decide_split k phi key cfg).
  - apply keys_new. constructor.
  - intros l0 x0 y0 w0 l0' K _ E. exact (keys_learn k phi key cfg l0 x0 y0 w0 l0' K E).
  - intros l0 d K E. exact (decide_keys k phi cfg l0 d K E).
  - exact ht_keep.
Qed.
Lemma ht_fit_due t x y w t' : ht_good t -> fit_one O (h_memory cfg) sz t x y w = Ok t' -> c_period_due (h_memory cfg) (t_weight t) = true ->
  exists s1 r1, ht_good s1 /\ t_root s1 = Some r1 /\ t_weight s1 = t_weight t /\ estimate O (h_memory cfg) sz s1 = Ok t'.
Proof.
  intros G H. refine (fit_due O test_ok keys_ok ndk _ _ _ _ _ (h_memory cfg) sz _ (fun _ _ _ => True) _ _ _ _ _ _ t x y w t' Logic.I G H); cbn.
  - apply (branch_lt k phi key cfg).
  - intros l0 [_ K]; exact K.
  - intros; now apply keys_new.
  - reflexivity.
  - reflexivity.
  - apply (decide_split k phi key cfg).
  - apply keys_new. constructor.
  - intros l0 x0 y0 w0 l0' K _ E. exact (keys_learn k phi key cfg l0 x0 y0 w0 l0' K E).
  - intros i x0 y0 w0 i' K _ [= <-]. now apply update_stats_ndk.
  - intros l0 d K E. exact (decide_keys k phi cfg l0 d K E).
  - exact ht_keep.
  - exact (add_branch k phi key cfg).
Qed.
Lemma ht_enforce s r s' r' : (forall a b : T, (a <? b)%num = true -> (b <? a)%num = false) /\ (forall a b c : T, (a <? b)%num = false -> (b <? c)%num = false -> (a <? c)%num = false) ->
  ht_good s -> t_root s = Some r -> c_stop (h_memory cfg) = false -> enforce O (h_memory cfg) s = Ok s' -> t_root s' = Some r' ->
  t_active s' = Z.of_nat (budget (h_memory cfg) s r) /\ t_active s' + t_inactive s' = Z.of_nat (length (learning_nodes r)) /\
  forall p n q m, node_at r' p = Some n -> is_inactive n = true -> node_at r' q = Some m -> is_active m = true -> (promise (stats_of O m) <? promise (stats_of O n))%num = false.
Proof.
  intros [O1 O2] G Er Hs H Er'. split; [exact (enforce_count O test_ok keys_ok ndk (h_memory cfg) s r s' G Er Hs H)|]. split.
  - assert (G' : ht_good s' /\ exists r2, t_root s' = Some r2 /\ same_stats O r r2).
    { destruct (enforce_ok O test_ok keys_ok ndk (fun l K => proj2 K) keys_new (fun _ => eq_refl) (fun _ => eq_refl) (h_memory cfg) s r s' G Er H) as (G' & _ & r2 & A & B & _). eauto. }
    destruct G' as ([C W] & r2 & A & SS). rewrite Er' in A. injection A as <-. unfold counters_right in C. rewrite Er' in C, W. destruct C as (_ & -> & ->).
    assert (W0 := proj2 G). rewrite Er in W0.
    rewrite (count_learning test_ok keys_ok ndk is_active r'), (count_learning test_ok keys_ok ndk is_inactive r') by auto.
    assert (EL : length (learning_nodes r') = length (learning_nodes r)).
    { clear - SS W W0. revert r' SS W. induction r as [l|i|te st ch IH] using node_rect'; intros r' SS W.
      - inversion SS; subst. destruct r'; try discriminate; reflexivity.
      - inversion SS; subst. destruct r'; try discriminate; reflexivity.
      - inversion SS as [|? ? ? ch' F]; subst; [discriminate|]. rewrite (learning_split test_ok keys_ok ndk) by auto. rewrite (learning_split test_ok keys_ok ndk) by auto.
        inversion W as [| |? ? ? _ _ F1]; subst. inversion W0 as [| |? ? ? _ _ F0]; subst. clear SS W W0.
        induction F as [|[k1 a] [k2 a'] l l' [E1 E2] F IHF]; [reflexivity|]. inversion IH; subst. inversion F1; subst. inversion F0; subst. cbn [flat_map fst snd] in *. rewrite !app_length, !map_length. f_equal; auto. }
    rewrite <- EL, <- Nat2Z.inj_add. f_equal.
    assert (Q : forall pn, In pn (learning_nodes r') -> is_split (snd pn) = false). { intros [p n] Hin. apply (learning_in test_ok keys_ok ndk r' W) in Hin. tauto. }
    clear - Q. induction (learning_nodes r') as [|[p n] l IH]; [reflexivity|]. specialize (IH (fun pn Hpn => Q pn (or_intror Hpn))).
    specialize (Q (p, n) (or_introl eq_refl)). cbn [snd] in Q. cbn [filter snd length]. destruct n; [| |discriminate]; cbn [is_active is_inactive length]; lia.
  - intros p n q m Hp Hi Hq Ha.
    destruct (enforce_top O test_ok keys_ok ndk (fun l K => proj2 K) keys_new (fun _ => eq_refl) (fun _ => eq_refl) (h_memory cfg) s r s' r') with (p := p) (n := n) (q := q) (m := m) as (n0 & m0 & S1 & S2 & B & L1 & L2); auto.
    + cbn. intros [d1 a] [d2 b]. cbn [snd]. intros E. apply negb_false_iff in E. apply negb_true_iff. eauto.
    + cbn. intros [d1 a] [d2 b] [d3 c]. cbn [snd]. intros E1 E2. apply negb_true_iff in E1, E2. apply negb_true_iff. eauto.
    + cbn in B. apply negb_true_iff in B. rewrite <- S1, <- S2. destruct n0, m0; try discriminate; exact B.
Qed.
Definition add_weight (t : tr) (w : T) : tr := mk_tree (t_root t) (t_decision t) (t_active t) (t_inactive t) (t_inactive_size t) (t_active_size t) (t_overhead t) (t_growth t) (t_weight t + w)%num.
Lemma fit_weighted_cases t x y w t' : fit_weighted O (h_memory cfg) sz t x y w = Ok t' -> t' = t \/ (w =? n0)%num = false /\ fit_one O (h_memory cfg) sz (add_weight t w) x y w = Ok t'.
Proof. unfold fit_weighted. destruct (w =? n0)%num; [intros [= <-]; auto|intros H; right; auto]. Qed.
Lemma good_add t w : ht_good t -> ht_good (add_weight t w). Proof. intros [C W]. split; auto. Qed.
(** A property kept by every sample is kept by every call. *)
Lemma rows_preserve (P : tr -> tr -> Prop) : (forall t, P t t) -> (forall a b c, P a b -> P b c -> P a c) ->
  (forall t x y w t', ht_good t -> fit_weighted O (h_memory cfg) sz t x y w = Ok t' -> ht_good t' /\ P t t') ->
  forall rows ws t t', ht_good t -> ht_rows k phi key cfg sz t rows ws = Ok t' -> ht_good t' /\ P t t'.
Proof.
  intros R Tr St. induction rows as [|[x y] rows IH]; intros ws t t' G H; cbn [ht_rows] in H; [destruct ws; injection H as <-; auto|].
  destruct ws as [|w ws]; [injection H as <-; auto|]. apply bind_Ok in H as (t1 & E1 & H). destruct (St _ _ _ _ _ G E1) as [G1 P1]. destruct (IH _ _ _ G1 H) as [G2 P2]. split; auto. eauto.
Qed.
Lemma fit_weighted_good t x y w t' : ht_good t -> fit_weighted O (h_memory cfg) sz t x y w = Ok t' ->
  ht_good t' /\ (t_decision t' = t_decision t \/ t_decision t' = t_decision t + 1 /\ t_growth t = true)%Z /\ (t_growth t' = t_growth t \/ t_growth t' = false).
Proof.
  intros G H. apply fit_weighted_cases in H as [->|[_ H]]; [auto|]. destruct (ht_fit_one _ _ _ _ _ (good_add _ w G) H) as (A & B & C & _). auto.
Qed.
Lemma rows_good rows ws t t' : ht_good t -> ht_rows k phi key cfg sz t rows ws = Ok t' ->
  ht_good t' /\ (t_decision t <= t_decision t' /\ (t_growth t = false -> t_decision t' = t_decision t /\ t_growth t' = false))%Z.
Proof.
  intros G H. refine (rows_preserve (fun t t' => (t_decision t <= t_decision t' /\ (t_growth t = false -> t_decision t' = t_decision t /\ t_growth t' = false))%Z) _ _ _ rows ws t t' G H).
  - intros; split; [lia|auto].
  - intros a b c [A1 A2] [B1 B2]. split; [lia|]. intros F. destruct (A2 F) as [E1 F1]. destruct (B2 F1) as [E2 F2]. split; [lia|auto].
  - intros t0 x y w t1 G0 E. destruct (fit_weighted_good _ _ _ _ _ G0 E) as (G1 & D & Gr). split; auto. split; [lia|]. intros F. split; [destruct D as [D|[_ D]]; [auto|congruence]|destruct Gr; congruence].
Qed.
Lemma fit_good s rows c ws s' : ht_good (ht_tree s) -> ht_fit k phi key cfg sz s rows c ws = Ok s' ->
  ht_good (ht_tree s') /\ (t_decision (ht_tree s) <= t_decision (ht_tree s') /\ (t_growth (ht_tree s) = false -> t_decision (ht_tree s') = t_decision (ht_tree s) /\ t_growth (ht_tree s') = false))%Z.
Proof.
  intros G H. unfold ht_fit in H. cbv zeta in H. destruct (Nat.eqb _ _); [|discriminate]. apply bind_Ok in H as (t & E & H). injection H as <-. cbn [ht_tree]. eapply rows_good; eauto.
Qed.
Lemma run_good es : forall s s', ht_good (ht_tree s) -> ht_run k phi key cfg sz s es = Ok s' -> ht_good (ht_tree s').
Proof.
  induction es as [|e es IH]; intros s s' G H; cbn [ht_run] in H; [injection H as <-; auto|]. apply bind_Ok in H as (s1 & E & H). eapply IH; [|exact H].
  destruct e as [rows c ws|]; cbn [ht_step] in E; [eapply fit_good; eauto|]. injection E as <-. apply good_new.
Qed.
Lemma reached_good s : ht_reached k phi key cfg sz s -> ht_good (ht_tree s).
Proof. intros (es & H). eapply run_good; [|exact H]. apply good_new. Qed.
End Runs.
