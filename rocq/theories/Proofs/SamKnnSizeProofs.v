(** Proofs about the self adjusting memory: the size of the memories, the choice of the window, failures. *)
From Coq Require Import List ZArith Bool Arith Lia Reals Lra Sorting.Sorted Sorting.Permutation.
From Verif Require Import Base.Py Base.Num Spec.Lists Spec.ExpertSpec Model.Adwin Model.DataStream Model.Knn
  Proofs.ListFacts Proofs.StreamProofs Proofs.WindowedProofs Proofs.KnnProofs Proofs.ExpertRunProofs Proofs.NaiveBayesProofs Model.SamKnn Spec.SamKnnSpec Proofs.SamKnnProofs Proofs.SamKnnRunProofs.
Import ListNotations.

(** *** The dictionary of histories *)
Definition keys (h : hists) : list nat := map fst h.
Lemma hget_hset h k v j : hget (hset h k v) j = if Nat.eqb j k then Some v else hget h j.
Proof.
  induction h as [|[i x] h IH]; cbn.
  - rewrite Nat.eqb_sym. destruct (Nat.eqb_spec j k); auto.
  - destruct (Nat.eqb_spec i k) as [->|N]; cbn.
    + rewrite Nat.eqb_sym. destruct (Nat.eqb j k); auto.
    + destruct (Nat.eqb_spec i j) as [->|M]; [destruct (Nat.eqb_spec j k); [congruence|auto]|auto].
Qed.
Lemma hget_filter (P : nat -> bool) (h : hists) j : hget (filter (fun p => P (fst p)) h) j = if P j then hget h j else None.
Proof.
  induction h as [|[i x] h IH]; cbn; [destruct (P j); auto|]. destruct (P i) eqn:Pi; cbn; destruct (Nat.eqb_spec i j) as [->|M]; auto; rewrite ?Pi; auto. rewrite IH, Pi; auto.
Qed.
Lemma hget_hpop h k j : hget (hpop h k) j = if Nat.eqb j k then None else hget h j.
Proof. unfold hpop. rewrite (hget_filter (fun i => negb (Nat.eqb i k))). destruct (Nat.eqb j k); auto. Qed.
Lemma hget_key h k : In k (keys h) <-> hget h k <> None.
Proof.
  induction h as [|[i x] h IH]; cbn; [split; [intros []|congruence]|]. destruct (Nat.eqb_spec i k) as [->|N]; [split; [congruence|auto]|]. rewrite <- IH. split; [intros [H|H]; [congruence|auto]|auto].
Qed.
Lemma keys_filter_in (f : nat * list bool -> bool) h k : In k (keys (filter f h)) -> In k (keys h).
Proof. unfold keys. intros I. apply in_map_iff in I as (p & <- & I). apply filter_In in I as [I _]. apply in_map; auto. Qed.
Lemma keys_filter (f : nat * list bool -> bool) h : NoDup (keys h) -> NoDup (keys (filter f h)).
Proof. induction h as [|p h IH]; cbn; auto. intros D. inversion D; subst. destruct (f p); cbn; auto. constructor; auto. intros I. apply keys_filter_in in I. tauto. Qed.
Lemma keys_hset_in h k v j : In j (keys (hset h k v)) <-> j = k \/ In j (keys h).
Proof. rewrite !hget_key, hget_hset. destruct (Nat.eqb_spec j k); [split; [auto|congruence]|]. split; [auto|intros [H|H]; [congruence|auto]]. Qed.
Lemma keys_hset h k v : NoDup (keys h) -> NoDup (keys (hset h k v)).
Proof.
  induction h as [|[i x] h IH]; cbn; intros D; [repeat constructor; intros []|]. inversion D; subst. destruct (Nat.eqb_spec i k) as [->|N]; cbn; [constructor; auto|].
  constructor; auto. intros I. apply keys_hset_in in I as [I|I]; [congruence|tauto].
Qed.
(** *** The sorted keys *)
Lemma insert_perm v l : Permutation (insert_nat v l) (v :: l).
Proof. induction l as [|w l IH]; cbn; auto. destruct (Nat.leb v w); auto. rewrite IH. apply perm_swap. Qed.
Lemma insert_sorted v l : StronglySorted le l -> StronglySorted le (insert_nat v l).
Proof.
  induction 1 as [|w l S IH F]; cbn; [repeat constructor|]. destruct (Nat.leb_spec v w).
  - constructor; [constructor; auto|]. constructor; auto. rewrite Forall_forall in *. intros x I. specialize (F x I). lia.
  - constructor; auto. rewrite Forall_forall in *. intros x I. apply (Permutation_in _ (insert_perm v l)) in I as [<-|I]; [lia|auto].
Qed.
Lemma sorted_keys_perm h : Permutation (sorted_keys h) (keys h).
Proof. unfold sorted_keys, keys. induction (map fst h) as [|a l IH]; cbn; auto. rewrite insert_perm. auto. Qed.
Lemma sorted_keys_sorted h : StronglySorted le (sorted_keys h).
Proof. unfold sorted_keys. induction (map fst h) as [|a l IH]; cbn; [constructor|]. apply insert_sorted; auto. Qed.
Lemma sorted_keys_lt h : NoDup (keys h) -> StronglySorted lt (sorted_keys h).
Proof.
  intros D. pose proof (sorted_keys_sorted h) as S. assert (E : NoDup (sorted_keys h)) by (eapply Permutation_NoDup; [symmetry; apply sorted_keys_perm|auto]).
  induction S as [|a l S IH F]; constructor; inversion E; subst; auto. rewrite Forall_forall in *. intros x I. specialize (F x I). destruct (Nat.eq_dec a x); [subst; tauto|lia].
Qed.
Lemma adapt_fold h delta : 0 < delta -> forall rest done h1, StronglySorted lt rest -> (forall key, In key rest -> delta <= key) -> (forall a b, In a done -> In b rest -> a < b) ->
  (forall key, In key rest -> hget h key <> None) -> NoDup (keys h1) ->
  (forall key, In key rest -> hget h1 key = hget h key) -> (forall j, ~ In j rest -> hget h1 j = if existsb (Nat.eqb (j + delta)) done then hget h (j + delta) else None) ->
  exists h2, foldM (fun h key => match hget h key with None => Raise KeyError | Some v => Ok (hset (hpop h key) (key - delta) v) end) rest h1 = Ok h2
    /\ NoDup (keys h2) /\ forall j, hget h2 j = if existsb (Nat.eqb (j + delta)) (done ++ rest) then hget h (j + delta) else None.
Proof.
  intros Dp. induction rest as [|key rest IH]; intros done h1 S Ge Lt In_ ND Hr Hn.
  - exists h1. cbn. split; auto. split; auto. intros j. rewrite app_nil_r. apply Hn. auto.
  - apply StronglySorted_inv in S as [S1 S2]. rewrite Forall_forall in S2. cbn [foldM]. rewrite (Hr key (or_introl eq_refl)). destruct (hget h key) as [v|] eqn:Ev; [|exfalso; apply (In_ key (or_introl eq_refl)); auto].
    cbn [bind]. destruct (IH (done ++ [key]) (hset (hpop h1 key) (key - delta) v)) as (h2 & E & N2 & G); auto.
    + intros k' I. apply Ge; right; auto.
    + intros a b I J. apply in_app_iff in I as [I|[<-|[]]]; [apply Lt; [auto|right; auto]|auto].
    + intros k' I. apply In_; right; auto.
    + apply keys_hset, keys_filter; auto.
    + intros k' I. specialize (S2 k' I). pose proof (Ge key (or_introl eq_refl)). rewrite hget_hset, hget_hpop. destruct (Nat.eqb_spec k' (key - delta)); [lia|]. destruct (Nat.eqb_spec k' key); [lia|]. apply Hr; right; auto.
    + intros j Nj. pose proof (Ge key (or_introl eq_refl)) as G1. rewrite hget_hset, hget_hpop, existsb_app. cbn [existsb]. rewrite orb_false_r.
      destruct (Nat.eqb_spec j (key - delta)) as [->|N1].
      * replace (key - delta + delta) with key by lia. rewrite Nat.eqb_refl, orb_true_r. auto.
      * destruct (Nat.eqb_spec j key) as [->|N2].
        -- destruct (existsb (Nat.eqb (key + delta)) done) eqn:X; [apply existsb_eqb_In in X; specialize (Lt _ key X (or_introl eq_refl)); lia|]. destruct (Nat.eqb_spec (key + delta) key); [lia|]. auto.
        -- destruct (Nat.eqb_spec (j + delta) key); [lia|]. rewrite orb_false_r. apply Hn. intros [I|I]; [congruence|auto].
    + exists h2. split; auto. split; auto. intros j. rewrite G, <- app_assoc. reflexivity.
Qed.
Lemma adapt_one_spec h : NoDup (keys h) -> 2 <= length h -> exists h' k0 delta ks, sorted_keys h = k0 :: delta :: ks /\ adapt_one h = Ok h' /\ NoDup (keys h') /\ S (length h') = length h /\ forall j, hget h' j = hget h (j + delta).
Proof.
  intros D L. pose proof (sorted_keys_lt h D) as S. pose proof (sorted_keys_perm h) as P. pose proof (Permutation_length P) as PL. unfold keys in PL. rewrite map_length in PL.
  unfold adapt_one. destruct (sorted_keys h) as [|k0 [|delta ks]] eqn:E; [cbn in PL; lia|cbn in PL; lia|].
  apply StronglySorted_inv in S as [S S0]. rewrite Forall_forall in S0. pose proof (S0 delta (or_introl eq_refl)) as K0.
  assert (Sd : forall key, In key (delta :: ks) -> delta <= key). { apply StronglySorted_inv in S as [_ F]. rewrite Forall_forall in F. intros key [<-|I]; [lia|]. specialize (F key I). lia. }
  assert (Kin : forall key, In key (k0 :: delta :: ks) <-> hget h key <> None) by (intros key; rewrite <- hget_key; split; apply Permutation_in; [auto|symmetry; auto]).
  destruct (adapt_fold h delta ltac:(lia) (delta :: ks) [] (hpop h k0)) as (h' & E' & N' & G); auto.
  - intros a b [].
  - intros key I. apply Kin. right; auto.
  - apply keys_filter; auto.
  - intros key I. rewrite hget_hpop. specialize (S0 key I). destruct (Nat.eqb_spec key k0); [lia|auto].
  - intros j Nj. cbn [existsb]. rewrite hget_hpop. destruct (Nat.eqb_spec j k0); auto. destruct (hget h j) eqn:X; auto. exfalso. assert (Y : hget h j <> None) by congruence. apply Kin in Y as [Y|Y]; [congruence|auto].
  - assert (G' : forall j, hget h' j = hget h (j + delta)).
    { intros j. rewrite G. cbn [app]. destruct (existsb (Nat.eqb (j + delta)) (delta :: ks)) eqn:X; auto. destruct (hget h (j + delta)) eqn:Y; auto.
      exfalso. assert (Z : hget h (j + delta) <> None) by congruence. apply Kin in Z as [Z|Z]; [lia|]. apply existsb_eqb_In in Z. congruence. }
    exists h', k0, delta, ks. split; auto. split; auto. split; auto. split; auto.
    assert (LK : length (keys h') = length (delta :: ks)).
    { rewrite <- (map_length (fun x => x - delta) (delta :: ks)). apply Nat.le_antisymm; apply NoDup_incl_length; auto.
      - intros j I. apply hget_key in I. rewrite G' in I. apply Kin in I as [I|I]; [lia|]. apply in_map_iff. exists (j + delta). split; auto. lia.
      - clear -S Sd. induction (delta :: ks) as [|a l IH]; cbn; [constructor|]. apply StronglySorted_inv in S as [S1 F]. constructor; [|apply IH; auto; intros; apply Sd; right; auto].
        intros I. apply in_map_iff in I as (x & E & I). rewrite Forall_forall in F. specialize (F x I). pose proof (Sd x (or_intror I)). pose proof (Sd a (or_introl eq_refl)). lia.
      - intros j I. apply in_map_iff in I as (x & <- & I). apply hget_key. rewrite G'. specialize (Sd x I). replace (x - delta + delta) with x by lia. apply Kin. right; auto. }
    unfold keys in LK. rewrite map_length in LK. rewrite LK, <- PL. reflexivity.
Qed.
Lemma adapt_total b : forall h, NoDup (keys h) -> b < length h -> exists h', adapt b h = Ok h' /\ NoDup (keys h').
Proof.
  induction b as [|b IH]; intros h D L; cbn; [eauto|]. destruct (adapt_one_spec h D) as (h1 & k0 & delta & ks & _ & E & D1 & L1 & _); [lia|]. rewrite E. cbn. apply IH; auto. lia.
Qed.

(** *** Which windows are tried *)
Section Windows.
Context {T : Type} {N : Num T}.
Variable cfg : sam_config T.
Hypothesis min_pos : 1 <= m_min cfg.
Local Notation size n d := ((n + d - 1) / d) (only parsing).
Lemma index_half n d : 1 <= d -> 2 * d <= n -> index_of n d < index_of n (2 * d).
Proof.
  intros D L. unfold index_of. set (c1 := (n + d - 1) / d). set (c2 := (n + 2 * d - 1) / (2 * d)).
  assert (A1 : d * c1 <= n + d - 1) by (apply Nat.mul_div_le; lia).
  assert (A2 : n + d - 1 < d * S c1) by (apply Nat.mul_succ_div_gt; lia).
  assert (A3 : 2 * d * c2 <= n + 2 * d - 1) by (apply Nat.mul_div_le; lia).
  clearbody c1 c2. assert (c1 <= n) by nia. assert (c2 < c1) by nia. lia.
Qed.
Lemma divisors_in f : forall n d x, 1 <= d -> m_min cfg * d <= n -> In x (divisors cfg f n d) -> exists j, x = 2 ^ j * d /\ m_min cfg * x <= n.
Proof.
  induction f as [|f IH]; intros n d x D L I; cbn [divisors] in I; [destruct I as [<-|[]]; exists 0; cbn; split; [lia|auto]|].
  destruct (Nat.leb_spec (m_min cfg * (2 * d)) n) as [H|H]; destruct I as [<-|I]; [exists 0; cbn; split; [lia|auto]| |exists 0; cbn; split; [lia|auto]|destruct I].
  apply IH in I as (j & -> & I); [|lia|auto]. exists (S j). split; [cbn; lia|auto].
Qed.
Lemma divisors_all f : forall n d, n < d * 2 ^ f \/ n < 2 * d -> 1 <= d -> forall j x, x = 2 ^ j * d -> m_min cfg * x <= n -> nth_error (divisors cfg f n d) j = Some x.
Proof.
  induction f as [|f IH]; intros n d F D j x E L; cbn [divisors].
  - destruct j; [cbn in *; f_equal; lia|]. exfalso. rewrite E in L. rewrite Nat.pow_succ_r' in L. assert (P1 : 1 <= 2 ^ j) by (apply Nat.neq_0_lt_0, Nat.pow_nonzero; lia). rewrite Nat.pow_0_r in F. clear E. set (P := 2 ^ j) in *. clearbody P. assert (1 * (2 * 1 * d) <= m_min cfg * (2 * P * d)) by (apply Nat.mul_le_mono; [auto|]; apply Nat.mul_le_mono; lia). lia.
  - destruct (Nat.leb_spec (m_min cfg * (2 * d)) n) as [H|H].
    + destruct j; [cbn in *; f_equal; lia|]. cbn [nth_error]. apply IH; auto; [|lia|rewrite E, Nat.pow_succ_r'; lia]. destruct F as [F|F]; [left; rewrite Nat.pow_succ_r' in F; lia|]. exfalso. nia.
    + destruct j; [cbn in *; f_equal; lia|]. exfalso. rewrite E in L. rewrite Nat.pow_succ_r' in L. assert (P1 : 1 <= 2 ^ j) by (apply Nat.neq_0_lt_0, Nat.pow_nonzero; lia). clear E. set (P := 2 ^ j) in *. clearbody P. assert (m_min cfg * (2 * 1 * d) <= m_min cfg * (2 * P * d)) by (apply Nat.mul_le_mono; [auto|]; apply Nat.mul_le_mono; lia). lia.
Qed.
Lemma divisors_nth f : forall n d j x, nth_error (divisors cfg f n d) j = Some x -> x = 2 ^ j * d.
Proof.
  induction f as [|f IH]; intros n d j x E; cbn [divisors] in E.
  - destruct j as [|[|j]]; [cbn in *; injection E as <-; lia|discriminate|discriminate].
  - destruct (Nat.leb _ _); destruct j as [|j]; try (cbn in *; injection E as <-; lia); [|destruct j; discriminate]. cbn [nth_error] in E. apply IH in E. rewrite E, Nat.pow_succ_r'. lia.
Qed.
Lemma divisors_sorted f : forall n d, 1 <= d -> StronglySorted lt (map (index_of n) (divisors cfg f n d)) /\ (forall x, In x (map (index_of n) (divisors cfg f n d)) -> index_of n d <= x).
Proof.
  induction f as [|f IH]; intros n d D; cbn [divisors map]; [split; [repeat constructor|intros x [<-|[]]; lia]|].
  destruct (Nat.leb_spec (m_min cfg * (2 * d)) n) as [H|H]; cbn [map]; [|split; [repeat constructor|intros x [<-|[]]; lia]].
  destruct (IH n (2 * d) ltac:(lia)) as [I1 I2]. pose proof (index_half n d D ltac:(nia)) as K. split; [|intros x [<-|I]; [lia|apply I2 in I; lia]].
  constructor; auto. apply Forall_forall. intros x I. apply I2 in I. lia.
Qed.
Lemma divisors_nodup f n : NoDup (map (index_of n) (divisors cfg f n 1)).
Proof.
  destruct (divisors_sorted f n 1 (Nat.le_refl 1)) as [S _]. induction S as [|a l S IH F]; constructor; auto. intros I. rewrite Forall_forall in F. specialize (F _ I). lia.
Qed.
Lemma divisors_ne f n d : divisors cfg f n d <> [].
Proof. destruct f; cbn [divisors]; [discriminate|]. destruct (Nat.leb _ _); discriminate. Qed.

(** *** No failure *)
Lemma test_train_total d off labels start : m_k cfg <= start -> exists h, test_train cfg d off labels start = Ok h.
Proof.
  intros K. apply mapM_ok_of. intros i I. apply in_seq in I.
  destruct (get_label_total (m_dist cfg) (map (fun j => d (off + i) (off + j)) (seq 0 i)) (firstn i labels) (m_k cfg)) as (l & ->).
  - rewrite firstn_length, map_length, seq_length. lia.
  - rewrite map_length, seq_length. lia.
  - cbn; eauto.
Qed.
Lemma argmax_lt (l : list T) : forall best, exists c, np_argmax (best :: l) = Ok c /\ c < S (length l).
Proof.
  intros best. unfold np_argmax. eexists. split; [reflexivity|]. 
  enough (G : forall (r : list T) i b bi, bi < i -> argmax_from r i bi b < i + length r) by (apply (G l 1 best 0); lia).
  induction r as [|v r IH]; intros i b bi H; cbn; [lia|]. destruct (_ <? _)%num; (eapply Nat.lt_le_trans; [apply IH; lia|lia]).
Qed.
Lemma arg_max_total (l : list (option T)) : l <> [] -> exists c, arg_max l = Ok c /\ c < length l.
Proof.
  intros NE. unfold arg_max. destruct (first_nan l 0) as [i|] eqn:E.
  - exists i. split; auto. enough (G : forall o, first_nan l o = Some i -> i < o + length l) by (apply (G 0 E)). clear. induction l as [|[v|] l IH]; intros o E; cbn in *; [discriminate| |injection E as <-; lia]. apply IH in E. lia.
  - destruct l as [|a l]; [congruence|]. cbn [map]. destruct (argmax_lt (map (fun o => match o with Some v => v | None => n0 end) l) (match a with Some v => v | None => n0 end)) as (c & E1 & E2). exists c. split; auto. rewrite map_length in E2. exact E2.
Qed.
Lemma max_acc_total labels h d : NoDup (keys h) -> exists m h', max_acc cfg labels h d = Ok (m, h') /\ NoDup (keys h').
Proof.
  intros D. unfold max_acc. set (n := length labels). destruct (Nat.ltb_spec n (2 * m_min cfg)) as [H|H]; [eauto|].
  set (ds := divisors cfg n n 1). set (h0 := filter _ h). assert (D0 : NoDup (keys h0)) by (apply keys_filter; auto). cbv zeta.
  set (f := fun acc dv => _).
  assert (G : forall ds' h1 accs, NoDup (keys h1) -> exists h2 accs2, foldM f ds' (h1, accs) = Ok (h2, accs2) /\ NoDup (keys h2) /\ length accs2 = length accs + length ds'
     /\ (forall j, In j (keys h1) \/ In j (map (index_of n) ds') -> In j (keys h2))).
  { clear D0. clearbody h0. induction ds' as [|dv ds' IH]; intros h1 accs D1; [exists h1, accs; cbn; split; auto; split; auto; split; [lia|intros j [I|[]]; auto]|].
    cbn [foldM]. unfold f at 1. cbv zeta.
    assert (X : exists hist, match hget h1 (index_of n dv) with Some p => more <- test_train cfg d (index_of n dv) (skipn (index_of n dv) labels) (length p + m_k cfg) ;; Ok (p ++ more) | None => test_train cfg d (index_of n dv) (skipn (index_of n dv) labels) (m_k cfg) end = Ok hist).
    { destruct (hget h1 (index_of n dv)) as [p|]; [|apply test_train_total; lia]. destruct (test_train_total d (index_of n dv) (skipn (index_of n dv) labels) (length p + m_k cfg)) as (more & ->); [lia|]. cbn; eauto. }
    destruct X as (hist & ->). cbn [bind]. destruct (IH (hset h1 (index_of n dv) hist) (accs ++ [accuracy hist]) (keys_hset _ _ _ D1)) as (h2 & a2 & E & N2 & L2 & K2).
    exists h2, a2. split; auto. split; auto. rewrite app_length in L2. cbn [length] in *. split; [lia|]. intros j I. apply K2. rewrite keys_hset_in. cbn [map In] in I. intuition. }
  destruct (G ds h0 [] D0) as (h2 & accs & E & N2 & L2 & K2). match goal with |- context [foldM ?g ?a ?b] => replace (foldM g a b) with (Ok (h2, accs)) by (symmetry; exact E) end.
  cbn [bind]. cbn [length] in L2.
  destruct (arg_max_total (rounded cfg accs)) as (best & Eb & Lb).
  { intros C. apply (f_equal (@length _)) in C. unfold rounded in C. rewrite map_length, L2 in C. pose proof (divisors_ne n n 1) as NE. fold ds in NE. destruct ds; [congruence|discriminate C]. }
  rewrite Eb. cbn [bind]. unfold rounded in Lb. rewrite map_length, L2 in Lb. destruct (Nat.ltb 0 best); [|eauto].
  destruct (adapt_total best h2) as (h3 & E3 & N3); auto.
  - eapply Nat.lt_le_trans; [exact Lb|]. cbn. rewrite <- (map_length (index_of n) ds), <- (map_length fst h2). apply NoDup_incl_length; [apply divisors_nodup|]. intros j I. apply K2. auto.
  - rewrite E3. cbn. eauto.
Qed.
End Windows.

(** *** Sizes, over the reals *)
Section Sizes.
Local Open Scope R_scope.
Variable cfg : sam_config R.
Hypothesis std : standard cfg.
Lemma counted_R n : counted (T := R) n = INR n.
Proof. unfold counted. symmetry. apply INR_IZR_INZ. Qed.
Lemma maxLTM_R : maxLTM cfg = m_ltm cfg * INR (m_max cfg).
Proof. unfold maxLTM. rewrite INR_IZR_INZ. reflexivity. Qed.
Lemma maxBoth_R : nadd (maxSTM cfg) (maxLTM cfg) = INR (m_max cfg).
Proof. unfold maxSTM. rewrite maxLTM_R. change (@nadd R NumR) with Rplus. change (@nsub R NumR) with Rminus. change (@nofZ R NumR) with IZR. rewrite <- INR_IZR_INZ. lra. Qed.
Lemma over n : nltb (nadd (maxSTM cfg) (maxLTM cfg)) (counted n) = Nat.ltb (m_max cfg) n.
Proof.
  rewrite maxBoth_R, counted_R. change (@nltb R NumR) with Rltb. destruct (Nat.ltb_spec (m_max cfg) n) as [H|H]; [apply Rltb_true, lt_INR; auto|apply Rltb_false, le_INR; auto].
Qed.
(** The number of samples that leave the short-term memory *)
Lemma shifts_spec l : INR l <= m_ltm cfg * INR (m_max cfg) ->
  let n := Z.to_nat (m_trunc cfg (nadd (nsub (maxLTM cfg) (counted l)) n1)) in (1 <= n)%nat /\ m_ltm cfg * INR (m_max cfg) < INR (l + n) /\ (l + n <= m_max cfg + 1)%nat.
Proof.
  destruct std as (L & Tr & _). intros H. rewrite Tr, maxLTM_R, counted_R. change (@nadd R NumR) with Rplus. change (@nsub R NumR) with Rminus. change (@n1 R NumR) with 1. cbv zeta.
  set (a := m_ltm cfg * INR (m_max cfg)) in *. pose proof (pos_INR l) as P. unfold Rtrunc. destruct (Rle_dec 0 (a - INR l + 1)) as [_|C]; [|exfalso; apply C; lra].
  destruct (base_Int_part (a - INR l + 1)) as [B1 B2]. set (z := Int_part (a - INR l + 1)) in *.
  assert (Z1 : (1 <= z)%Z) by (assert (0 < IZR z) by lra; apply lt_IZR in H0; lia).
  assert (ZN : INR (Z.to_nat z) = IZR z) by (rewrite INR_IZR_INZ, Z2Nat.id by lia; auto).
  assert (A : a <= INR (m_max cfg)) by (unfold a; pose proof (pos_INR (m_max cfg)); nra).
  split; [lia|]. rewrite plus_INR, ZN. split; [lra|]. apply INR_le. rewrite !plus_INR, ZN. cbn. lra.
Qed.
Definition labelled (L : list Z) (s : sam R) : Prop := forall r, In r (s_stm s) \/ In r (s_ltm s) -> In (snd r) L.
Local Notation few := (few cfg).
Definition recorded (s : sam R) : Prop := length (s_hs s) = length (s_stm s) /\ length (s_hl s) = length (s_stm s) /\ length (s_hc s) = length (s_stm s).
Lemma skipn_in {A} n (l : list A) a : In a (skipn n l) -> In a l.
Proof. intros I. rewrite <- (firstn_skipn n l). apply in_app_iff; auto. Qed.
Lemma firstn_in {A} n (l : list A) a : In a (firstn n l) -> In a l.
Proof. intros I. rewrite <- (firstn_skipn n l). apply in_app_iff; auto. Qed.
(** The check with both memories *)
Lemma size_ltm_spec L s : few L -> labelled L s -> recorded s -> (length (s_stm s) + length (s_ltm s) <= m_max cfg + 1)%nat ->
  (adapts cfg = false /\ size_ltm cfg s = Raise AttributeError) \/
  exists s' b, size_ltm cfg s = Ok (s', b) /\ labelled L s' /\ recorded s' /\ (length (s_stm s') + length (s_ltm s') <= m_max cfg)%nat
    /\ (NoDup (keys (s_inter s)) -> NoDup (keys (s_inter s'))) /\ (length (s_stm s') <= length (s_stm s))%nat.
Proof.
  intros F Lb (R1 & R2 & R3) Sz. destruct std as (L01 & _ & Km). unfold size_ltm. rewrite over.
  destruct (Nat.ltb_spec (m_max cfg) (length (s_stm s) + length (s_ltm s))) as [Ov|Ov]; [|right; exists s, false; unfold recorded; auto 8].
  rewrite maxLTM_R, counted_R. change (@nltb R NumR) with Rltb. destruct (Rltb (m_ltm cfg * INR (m_max cfg)) (INR (length (s_ltm s)))) eqn:B.
  - apply Rltb_true in B. right. eexists _, _. split; [reflexivity|]. unfold recorded. cbn [s_stm s_ltm s_hs s_hl s_hc s_inter]. destruct (cluster_smaller cfg (s_ltm s) L Km) as [C1 C2]; [intros r I; apply Lb; auto|].
    assert (Lt : (length (nodup Z.eq_dec L) < length (s_ltm s))%nat) by (apply INR_lt; unfold few in F; lra). specialize (C2 Lt).
    split; [|repeat split; auto; lia]. intros r [I|I]; [apply Lb; auto|]. cbn [s_ltm] in I. apply cluster_labels in I as (r' & I & <-). apply Lb; auto.
  - apply Rltb_false in B. destruct (shifts_spec (length (s_ltm s)) B) as (N1 & N2 & N3). rewrite maxLTM_R, counted_R in *. set (n := Z.to_nat _) in *. clearbody n. cbv zeta.
    assert (Nn : (n <= length (s_stm s))%nat) by lia. rewrite (cut_total n (s_stm s) Nn). cbn [bind].
    unfold shift_dist. destruct (adapts cfg); [|left; auto]. right. rewrite skipn_length.
    destruct (Nat.leb_spec (length (s_stm s) - n + n) (S (m_max cfg))); [|lia]. cbn [bind]. rewrite !cut_total by lia. cbn [bind].
    eexists _, _. split; [reflexivity|]. unfold recorded. cbn [s_stm s_ltm s_hs s_hl s_hc s_inter]. rewrite !skipn_length.
    set (m := s_ltm s ++ firstn n (s_stm s)). assert (Lm : length m = (length (s_ltm s) + n)%nat) by (unfold m; rewrite app_length, firstn_length; lia).
    assert (Hm : forall r, In r m -> In (snd r) L) by (intros r I; unfold m in I; apply in_app_iff in I as [I|I]; [apply Lb; auto|apply firstn_in in I; apply Lb; auto]).
    destruct (cluster_smaller cfg m L Km Hm) as [C1 C2]. assert (Lt : (length (nodup Z.eq_dec L) < length m)%nat) by (rewrite Lm; apply INR_lt; unfold few in F; lra). specialize (C2 Lt).
    split; [|split; [lia|]; split; [lia|]; split; [intros _; constructor|lia]]. intros r [I|I]; cbn [s_stm s_ltm] in I; [apply skipn_in in I; apply Lb; auto|]. apply cluster_labels in I as (r' & I & <-). apply Hm; auto.
Qed.
Lemma size_ltm_idle s : (length (s_stm s) + length (s_ltm s) <= m_max cfg)%nat -> size_ltm cfg s = Ok (s, false).
Proof. intros H. unfold size_ltm. rewrite over. destruct (Nat.ltb_spec (m_max cfg) (length (s_stm s) + length (s_ltm s))); [lia|auto]. Qed.
Lemma fade_out_spec s : (length (s_stm s) <= m_max cfg + 1)%nat -> match fade_out cfg s with
  | Ok (s', b) => (length (s_stm s') <= m_max cfg)%nat /\ s_ltm s' = s_ltm s /\ (m_opt cfg = MaxACC -> NoDup (keys (s_inter s)) -> NoDup (keys (s_inter s')))
  | Raise e => m_opt cfg <> MaxACC
  end.
Proof.
  intros Sz. unfold fade_out. rewrite over. destruct (Nat.ltb_spec (m_max cfg) (length (s_stm s))) as [Ov|Ov]; [|auto].
  rewrite cut_total by lia. cbn [bind]. unfold shift_dist, adapts. rewrite skipn_length. destruct (m_opt cfg) eqn:O; [cbn [bind]; discriminate| | |];
  (destruct (Nat.leb_spec (length (s_stm s) - 1 + 1) (S (m_max cfg))); [|lia]); cbn [bind].
  - cbn [s_stm s_ltm s_inter]. rewrite skipn_length. split; [lia|]. split; [auto|]. constructor.
  - match goal with |- context [bind (bind ?a ?b) ?c] => destruct (bind a b) end; cbn [bind]; [|discriminate]. cbn [bind s_stm s_ltm]. rewrite skipn_length. split; [lia|]. split; [auto|discriminate].
  - cbn [s_stm s_ltm s_inter]. rewrite skipn_length. split; [lia|]. split; [auto|]. constructor.
Qed.
Lemma write_row_ok d row vs : (row <= m_max cfg)%nat -> exists d', write_row cfg d row vs = Ok d'.
Proof. intros H. unfold write_row. destruct (Nat.leb_spec row (m_max cfg)); [eauto|lia]. Qed.
Lemma shift_dist_ok d m b : adapts cfg = true -> (m + b <= S (m_max cfg))%nat -> exists d', shift_dist cfg d m b = Ok d'.
Proof. intros A H. unfold shift_dist. rewrite A. destruct (Nat.leb_spec (m + b) (S (m_max cfg))); [eauto|lia]. Qed.
(** What every state satisfies *)
Definition bounded (L : list Z) (s : sam R) : Prop :=
  (length (s_stm s) + length (s_ltm s) <= m_max cfg)%nat /\ (if m_use cfg then labelled L s /\ recorded s else s_ltm s = []).
Definition exact_mode : Prop := m_opt cfg = MaxACC /\ (1 <= m_min cfg)%nat.
Lemma new_size_ok labels h d : exact_mode -> NoDup (keys h) -> exists m h', new_size cfg labels h d = Ok (m, h') /\ NoDup (keys h').
Proof. intros [O M] D. unfold new_size. rewrite O. apply max_acc_total; auto. Qed.
(** One sample: the sizes stay within the bound, and nothing fails in the exact mode *)
Lemma learn_spec L s x y : (m_use cfg = true -> few L /\ In y L) -> bounded L s -> match sam_learn cfg s x y with
  | Ok s' => bounded L s' /\ (exact_mode -> NoDup (keys (s_inter s)) -> NoDup (keys (s_inter s')))
  | Raise _ => ~ (exact_mode /\ NoDup (keys (s_inter s)))
  end.
Proof.
  intros Hy (Sz & B). unfold sam_learn. destruct (m_use cfg) eqn:U.
  - destruct Hy as [F Iy]; auto. destruct B as [Lb (R1 & R2 & R3)]. destruct (all_memories_total cfg s x) as (v & ->). cbn [bind s_stm s_ltm s_dist s_inter s_hs s_hl s_hc].
    unfold size_check. rewrite U. set (s1 := mk_sam _ _ _ _ _ _ _).
    assert (Lb1 : labelled L s1) by (intros r [I|I]; [cbn in I; apply in_app_iff in I as [I|[<-|[]]]; [apply Lb; auto|auto]|apply Lb; auto]).
    assert (R' : recorded s1) by (unfold recorded, s1; cbn [s_stm s_hs s_hl s_hc]; rewrite !app_length; cbn [length]; lia).
    destruct (size_ltm_spec L s1 F Lb1 R') as [[A ->]|(s2 & sh & -> & Lb2 & (Q1 & Q2 & Q3) & Sz2 & N2 & Sm2)]; [unfold s1; cbn [s_stm s_ltm]; rewrite app_length; cbn [length]; lia| |].
    { cbn [bind]. intros [[O _] _]. unfold adapts in A. rewrite O in A. discriminate. }
    cbn [bind]. destruct (clean_samples_total cfg (s_stm s2) (s_ltm s2) true) as (ltm & Ec). rewrite Ec. pose proof (clean_samples_len cfg _ _ _ _ Ec) as [Lc Ic]. cbn [bind s_stm s_ltm s_dist s_inter s_hs s_hl s_hc].
    assert (Sz3 : (length (s_stm s2) + length ltm <= m_max cfg)%nat) by lia.
    assert (Lb3 : forall r, In r (s_stm s2) \/ In r ltm -> In (snd r) L) by (intros r [I|I]; apply Lb2; auto).
    destruct (adapts cfg) eqn:A; [|split; [split; [cbn; auto|rewrite U; split; [exact Lb3|unfold recorded; auto]]|cbn [s_inter]; unfold s1 in N2; cbn [s_inter] in N2; auto]].
    destruct (write_row_ok (s_dist s2) (length (s_stm s2) - 1) (if sh then distances x (firstn (length (s_stm s2) - 1) (s_stm s2)) else distances x (s_stm s))) as (d & ->); [lia|]. cbn [bind].
    destruct (new_size cfg (map snd (s_stm s2)) (s_inter s2) d) as [(m & h)|e] eqn:En; cbn [bind].
    2: { intros [X ND]. destruct (new_size_ok (map snd (s_stm s2)) (s_inter s2) d X (N2 ND)) as (m & h & E & _). congruence. }
    assert (Nh : exact_mode -> NoDup (keys (s_inter s)) -> NoDup (keys h)).
    { intros X ND. destruct (new_size_ok (map snd (s_stm s2)) (s_inter s2) d X (N2 ND)) as (m' & h' & E & N'). congruence. }
    destruct (Nat.ltb_spec m (length (s_stm s2))) as [Lm|Lm]; [|split; [split; [cbn; auto|rewrite U; split; [exact Lb3|unfold recorded; auto]]|cbn [s_inter]; auto]].
    destruct (shift_dist_ok d m (length (s_stm s2) - m) A) as (d2 & ->); [lia|]. cbn [bind]. rewrite !cut_total by lia. cbn [bind].
    destruct (clean_samples_total cfg (skipn (length (s_stm s2) - m) (s_stm s2)) (firstn (length (s_stm s2) - m) (s_stm s2)) false) as (old & Eo). rewrite Eo. pose proof (clean_samples_len cfg _ _ _ _ Eo) as [Lo Io]. cbn [bind].
    rewrite firstn_length in Lo. rewrite size_ltm_idle; [|cbn [s_stm s_ltm]; rewrite skipn_length, app_length; lia]. cbn [bind].
    split; [|auto]. split; [cbn [s_stm s_ltm]; rewrite skipn_length, app_length; lia|]. rewrite U. unfold recorded. cbn [s_stm s_ltm s_hs s_hl s_hc]. rewrite !skipn_length. split; [|lia].
    intros r [I|I]; cbn [s_stm s_ltm] in I; [apply skipn_in in I; auto|]. apply in_app_iff in I as [I|I]; [auto|]. apply Io, firstn_in in I. auto.
  - cbn [bind]. unfold size_check. rewrite U. set (s1 := mk_sam _ _ _ _ _ _ _). pose proof (fade_out_spec s1) as FS. rewrite B in Sz. cbn [length] in Sz.
    assert (S1 : (length (s_stm s1) <= m_max cfg + 1)%nat) by (unfold s1; cbn [s_stm]; rewrite app_length; cbn [length]; lia). specialize (FS S1).
    destruct (fade_out cfg s1) as [(s2 & sh)|e]; cbn [bind]; [|intros [[O _] _]; auto]. destruct FS as (Sz2 & Lt2 & N2). unfold s1 in Lt2, N2; cbn [s_ltm s_inter] in Lt2, N2.
    destruct (clean_samples_total cfg (s_stm s2) (s_ltm s2) true) as (ltm & Ec). rewrite Ec. rewrite Lt2, B in Ec. apply clean_nil in Ec as ->. cbn [bind s_stm s_ltm s_dist s_inter s_hs s_hl s_hc].
    destruct (adapts cfg) eqn:A; [|split; [split; [cbn; lia|rewrite U; auto]|intros [O _] ND; auto]].
    destruct (write_row_ok (s_dist s2) (length (s_stm s2) - 1) (if sh then distances x (firstn (length (s_stm s2) - 1) (s_stm s2)) else distances x (s_stm s))) as (d & ->); [lia|]. cbn [bind].
    destruct (new_size cfg (map snd (s_stm s2)) (s_inter s2) d) as [(m & h)|e] eqn:En; cbn [bind].
    2: { intros [X ND]. destruct (new_size_ok (map snd (s_stm s2)) (s_inter s2) d X (N2 (proj1 X) ND)) as (m & h & E & _). congruence. }
    assert (Nh : exact_mode -> NoDup (keys (s_inter s)) -> NoDup (keys h)).
    { intros X ND. destruct (new_size_ok (map snd (s_stm s2)) (s_inter s2) d X (N2 (proj1 X) ND)) as (m' & h' & E & N'). congruence. }
    destruct (Nat.ltb_spec m (length (s_stm s2))) as [Lm|Lm]; [|split; [split; [cbn; lia|rewrite U; auto]|cbn [s_inter]; auto]].
    destruct (shift_dist_ok d m (length (s_stm s2) - m) A) as (d2 & ->); [lia|]. cbn [bind]. split; [|auto]. split; [cbn [s_stm s_ltm length]; rewrite skipn_length; lia|]. rewrite U. auto.
Qed.
Lemma init_bounded L : bounded L sam_init.
Proof. split; [cbn; lia|]. destruct (m_use cfg); [|auto]. split; [intros r [[]|[]]|unfold recorded; auto]. Qed.
Lemma fit_bounded rows : (m_use cfg = true -> few (map snd rows)) -> match sam_fit cfg sam_init rows with
  | Ok s => bounded (map snd rows) s
  | Raise _ => ~ exact_mode
  end.
Proof.
  intros F. set (L := map snd rows) in *. enough (G : forall l s, incl l rows -> bounded L s -> match sam_fit cfg s l with Ok s' => bounded L s' /\ (exact_mode -> NoDup (keys (s_inter s)) -> NoDup (keys (s_inter s'))) | Raise _ => ~ (exact_mode /\ NoDup (keys (s_inter s))) end).
  { specialize (G rows sam_init (incl_refl _) (init_bounded L)). destruct (sam_fit cfg sam_init rows); [apply G|]. intros X. apply G. split; auto. constructor. }
  induction l as [|(x, y) l IH]; intros s I B; cbn [sam_fit foldM]; [auto|]. unfold sam_fit in *. cbn [foldM fst snd].
  pose proof (learn_spec L s x y) as Ls. assert (Iy : In y L) by (apply (in_map snd rows (x, y)), I; left; auto). specialize (Ls (fun U => conj (F U) Iy) B).
  destruct (sam_learn cfg s x y) as [s1|e]; cbn [bind]; [|auto]. destruct Ls as [B1 N1]. specialize (IH s1 (fun a H => I a (or_intror H)) B1).
  destruct (foldM _ l s1) as [s2|e]; [destruct IH as [B2 N2]; split; auto|]. intros [X ND]. apply IH. split; auto.
Qed.
End Sizes.
