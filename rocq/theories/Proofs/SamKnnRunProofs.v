(** Proofs about the self adjusting memory: what the memories contain, their sizes, failures. *)
From Coq Require Import List ZArith Bool Arith Lia Reals Lra Sorting.Sorted.
From Verif Require Import Base.Py Base.Num Spec.Lists Spec.ExpertSpec Model.Adwin Model.DataStream Model.Knn
  Proofs.ListFacts Proofs.StreamProofs Proofs.WindowedProofs Proofs.KnnProofs Proofs.ExpertRunProofs Proofs.NaiveBayesProofs Model.SamKnn Spec.SamKnnSpec Proofs.SamKnnProofs.
Import ListNotations.

Section AnyT.
Context {T : Type} {N : Num T}.
Local Notation sample := (list T * Z)%type.
Variable cfg : sam_config T.

Lemma cut_ok {A} n (l r : list A) : cut n l = Ok r -> r = skipn n l /\ n <= length l.
Proof. unfold cut. destruct (Nat.leb_spec n (length l)); intros E; [injection E as <-; auto|discriminate]. Qed.
Lemma cut_total {A} n (l : list A) : n <= length l -> cut n l = Ok (skipn n l).
Proof. unfold cut. intros H. destruct (Nat.leb_spec n (length l)); [auto|lia]. Qed.
Lemma size_check_stm (s s' : sam T) b : size_check cfg s = Ok (s', b) -> (exists n, s_stm s' = skipn n (s_stm s)) /\ (m_use cfg = false -> s_ltm s' = s_ltm s).
Proof.
  unfold size_check. destruct (m_use cfg).
  - unfold size_ltm. destruct (maxSTM cfg + maxLTM cfg <? _)%num; [|intros E; injection E as <- <-; split; [exists 0; auto|discriminate]].
    destruct (maxLTM cfg <? _)%num; [intros E; injection E as <- <-; split; [exists 0; auto|discriminate]|].
    intros E. apply bind_Ok in E as (stm & E1 & E). apply bind_Ok in E as (d & _ & E). apply bind_Ok in E as (hl & _ & E). apply bind_Ok in E as (hs & _ & E). apply bind_Ok in E as (hc & _ & E).
    injection E as <- <-. apply cut_ok in E1 as [E1 _]. cbn. split; [eauto|discriminate].
  - unfold fade_out. destruct (maxSTM cfg + maxLTM cfg <? _)%num; [|intros E; injection E as <- <-; split; [exists 0; auto|auto]].
    intros E. apply bind_Ok in E as (stm & E1 & E). apply bind_Ok in E as (d & _ & E). apply bind_Ok in E as (i & _ & E). injection E as <- <-. apply cut_ok in E1 as [E1 _]. cbn. eauto.
Qed.
Lemma skipn_suffix {A} n (l : list A) : suffix_of (skipn n l) l.
Proof. exists (firstn n l). symmetry. apply firstn_skipn. Qed.
Lemma suffix_trans {A} (a b c : list A) : suffix_of a b -> suffix_of b c -> suffix_of a c.
Proof. intros (p & ->) (q & ->). exists (q ++ p). apply app_assoc. Qed.
Lemma clean_nil stm b cl : clean_samples cfg stm [] b = Ok cl -> cl = [].
Proof. unfold clean_samples. rewrite andb_false_r. intros E; injection E as <-; auto. Qed.
(** The short-term memory: the last samples *)
Lemma learn_stm s x y s' : sam_learn cfg s x y = Ok s' -> suffix_of (s_stm s') (s_stm s ++ [(x, y)]) /\ (m_use cfg = false -> s_ltm s = [] -> s_ltm s' = []).
Proof.
  unfold sam_learn. intros E. apply bind_Ok in E as (s1 & E1 & E).
  assert (H1 : s_stm s1 = s_stm s /\ s_ltm s1 = s_ltm s).
  { destruct (m_use cfg); [|injection E1 as <-; auto]. apply bind_Ok in E1 as (v & _ & E1). injection E1 as <-. auto. }
  destruct H1 as [H1 H1']. apply bind_Ok in E as ((s2 & sh) & E2 & E). apply size_check_stm in E2 as ((n & E2) & E2'). cbn [s_stm s_ltm] in *. rewrite H1 in E2. rewrite H1' in E2'.
  apply bind_Ok in E as (ltm & E3 & E). cbn [s_stm s_ltm s_dist s_inter s_hs s_hl s_hc] in E.
  assert (S2 : suffix_of (s_stm s2) (s_stm s ++ [(x, y)])) by (rewrite E2; apply skipn_suffix).
  assert (L2 : m_use cfg = false -> s_ltm s = [] -> ltm = []).
  { intros U Z. rewrite (E2' U), Z in E3. apply clean_nil in E3. auto. }
  destruct (adapts cfg); [|injection E as <-; auto]. apply bind_Ok in E as (d & _ & E). apply bind_Ok in E as ((m & h) & _ & E).
  destruct (Nat.ltb m (length (s_stm s2))); [|injection E as <-; auto].
  apply bind_Ok in E as (d2 & _ & E). destruct (m_use cfg).
  - apply bind_Ok in E as (hs & _ & E). apply bind_Ok in E as (hl & _ & E). apply bind_Ok in E as (hc & _ & E). apply bind_Ok in E as (old & _ & E).
    apply bind_Ok in E as ((s3 & sh3) & E4 & E). injection E as <-. apply size_check_stm in E4 as ((n4 & E4) & _). cbn in E4. split; [|discriminate].
    rewrite E4. eapply suffix_trans; [apply skipn_suffix|]. eapply suffix_trans; [apply skipn_suffix|auto].
  - injection E as <-. cbn. split; auto. eapply suffix_trans; [apply skipn_suffix|auto].
Qed.
Lemma suffix_snoc {A} (a b : list A) c : suffix_of a b -> suffix_of (a ++ [c]) (b ++ [c]).
Proof. intros (p & ->). exists p. symmetry; apply app_assoc. Qed.
Lemma fit_suffix rows : forall s s' pre, sam_fit cfg s rows = Ok s' -> suffix_of (s_stm s) pre -> suffix_of (s_stm s') (pre ++ rows).
Proof.
  unfold sam_fit. induction rows as [|[x y] rows IH]; intros s s' pre E H; cbn in E; [injection E as <-; rewrite app_nil_r; auto|].
  apply bind_Ok in E as (s1 & E1 & E). cbn [fst snd] in E1. apply learn_stm in E1 as [E1 _]. replace (pre ++ (x, y) :: rows) with ((pre ++ [(x, y)]) ++ rows) by (rewrite <- app_assoc; auto).
  eapply IH; [exact E|]. eapply suffix_trans; [exact E1|]. apply suffix_snoc; auto.
Qed.
Lemma fit_no_ltm rows s s' : m_use cfg = false -> s_ltm s = [] -> sam_fit cfg s rows = Ok s' -> s_ltm s' = [].
Proof.
  intros U H E. eapply (foldM_inv (fun s : sam T => s_ltm s = [])); [|exact H|exact E]. intros s1 r s2 H1 _ E1. apply learn_stm in E1 as [_ E1]. auto.
Qed.
Lemma fit_app a b s : sam_fit cfg s (a ++ b) = (s' <- sam_fit cfg s a ;; sam_fit cfg s' b).
Proof. apply foldM_app. Qed.

(** Cleaning *)
Lemma combine_seq_in {A} (l : list A) : forall o p, In p (combine (seq o (length l)) l) -> nth_error l (fst p - o) = Some (snd p) /\ o <= fst p < o + length l.
Proof.
  induction l as [|a l IH]; intros o p I; cbn in I; [destruct I|]. destruct I as [<-|I]; cbn [fst snd length]; [rewrite Nat.sub_diag; split; [auto|lia]|].
  apply IH in I as [I1 I2]. split; [|lia]. replace (fst p - o) with (S (fst p - S o)) by lia. exact I1.
Qed.
Lemma filter_combine_sorted {A} (f : nat * A -> bool) (l : list A) : forall o, StronglySorted lt (map fst (filter f (combine (seq o (length l)) l))) /\ forall i, In i (map fst (filter f (combine (seq o (length l)) l))) -> o <= i.
Proof.
  induction l as [|a l IH]; intros o; cbn; [split; [constructor|intros i []]|]. destruct (IH (S o)) as [I1 I2]. destruct (f (o, a)).
  - cbn. split; [constructor; auto; apply Forall_forall; intros i Hi; apply I2 in Hi; lia|]. intros i [<-|Hi]; [lia|]. apply I2 in Hi. lia.
  - split; auto. intros i Hi. apply I2 in Hi. lia.
Qed.
Lemma without_leaves {A} idx (l : list A) : leaves (fun i => In i idx) l (without idx l).
Proof.
  set (f := fun p : nat * A => negb (existsb (Nat.eqb (fst p)) idx)). exists (map fst (filter f (combine (seq 0 (length l)) l))). split; [apply filter_combine_sorted|]. split.
  - intros i. rewrite in_map_iff. split.
    + intros ((j & a) & <- & H). apply filter_In in H as [H1 H2]. apply combine_seq_in in H1 as [_ H1]. cbn in *. split; [lia|]. intros I. apply existsb_eqb_In in I. unfold f in H2; cbn in H2. rewrite I in H2. discriminate.
    + intros [H1 H2]. destruct (nth_error l i) as [a|] eqn:E; [|apply nth_error_None in E; lia]. exists (i, a). split; auto. apply filter_In. split.
      * clear -E. revert i E. enough (G : forall i o, nth_error l i = Some a -> In (o + i, a) (combine (seq o (length l)) l)) by (intros i E; apply (G i 0 E)).
        induction l as [|b l IH]; intros [|i] o E; cbn in *; try discriminate; [injection E as ->; left; f_equal; lia|]. right. replace (o + S i) with (S o + i) by lia. apply IH; auto.
      * unfold f; cbn. destruct (existsb (Nat.eqb i) idx) eqn:X; auto. apply existsb_eqb_In in X. tauto.
  - unfold without. fold f. rewrite !map_map. apply map_ext_in. intros p H. apply filter_In in H as [H _]. apply combine_seq_in in H as [H _]. rewrite Nat.sub_0_r in H. exact H.
Qed.
Lemma sublist_leaves_len {A} P (l l' : list A) : leaves P l l' -> length l' <= length l /\ incl l' l.
Proof.
  intros (idx & S & I & E). assert (L : length idx = length l') by (rewrite <- (map_length (fun i => nth_error l i) idx), E, map_length; auto). split.
  - rewrite <- L, <- (seq_length (length l) 0). apply NoDup_incl_length.
    + clear -S. induction S as [|a r S IH F]; constructor; auto. intros J. rewrite Forall_forall in F. specialize (F _ J). lia.
    + intros i J. apply I in J as [J _]. apply in_seq; lia.
  - intros a J. apply (in_map Some) in J. rewrite <- E in J. apply in_map_iff in J as (i & J & _). eapply nth_error_In; eauto.
Qed.
Lemma clean_one_len stm cl i cl' : clean_one cfg stm cl i = Ok cl' -> length cl' <= length cl /\ incl cl' cl.
Proof.
  unfold clean_one. destruct (nth_error stm i) as [(x & y)|]; [|discriminate]. cbv zeta. intros E. apply bind_Ok in E as (nn & _ & E). apply bind_Ok in E as (nl & _ & E).
  destruct (filter _ nn) as [|j js]; injection E as <-; [split; [lia|apply incl_refl]|]. eapply sublist_leaves_len, without_leaves.
Qed.
Lemma clean_samples_len stm cl b cl' : clean_samples cfg stm cl b = Ok cl' -> length cl' <= length cl /\ incl cl' cl.
Proof.
  unfold clean_samples. destruct (_ && _)%bool; [|intros E; injection E as <-; split; [lia|apply incl_refl]]. generalize (if b then [length stm - 1] else seq 0 (length stm)) as is_.
  intros is_. intros E. eapply (foldM_inv (fun c => length c <= length cl /\ incl c cl)); [|split; [apply Nat.le_refl|apply incl_refl]|exact E].
  intros c i c' [H1 H2] _ E1. destruct c as [|a c]; [injection E1 as <-; auto|]. apply clean_one_len in E1 as [E1 E2]. split; [lia|eapply incl_tran; eauto].
Qed.
Lemma clean_one_total stm cl i : m_k cfg < length stm -> i < length stm -> exists cl', clean_one cfg stm cl i = Ok cl'.
Proof.
  intros K I. unfold clean_one. destruct (nth_error stm i) as [(x & y)|] eqn:E; [|apply nth_error_None in E; lia]. cbv zeta.
  destruct (nearest_total (m_k cfg) (distances x (firstn i stm ++ skipn (S i) stm))) as (nn & -> & _).
  { rewrite distances_len, app_length, firstn_length, skipn_length. lia. }
  destruct (nearest_total (Nat.min (length (distances x cl)) (m_k cfg)) (distances x cl)) as (nl & -> & _); [lia|]. cbn. destruct (filter _ nn); eauto.
Qed.
Lemma clean_samples_total stm cl b : exists cl', clean_samples cfg stm cl b = Ok cl'.
Proof.
  unfold clean_samples. destruct (Nat.ltb_spec (m_k cfg) (length stm)) as [H|H]; [|cbn; eauto]. destruct (Nat.eqb_spec (length cl) 0); cbn [negb andb]; [eauto|].
  destruct (foldM_total (fun _ : list sample => True) (fun cl i => match cl with [] => Ok [] | _ => clean_one cfg stm cl i end) (if b then [length stm - 1] else seq 0 (length stm))) with (s := cl) as (c & E & _); [|exact I|exists c; exact E].
  intros c i _ Hi. destruct c as [|a c]; [eauto|]. destruct (clean_one_total stm (a :: c) i) as (c' & E); [auto| |eauto].
  destruct b; [destruct Hi as [<-|[]]; lia|apply in_seq in Hi; lia].
Qed.

(** Clustering *)
Lemma count_sum (l : list sample) us : NoDup us -> (forall s, In s l -> In (snd s) us) -> length l = list_sum (map (fun u => length (filter (fun s => Z.eqb (snd s) u) l)) us).
Proof.
  intros D. induction l as [|a l IH]; intros H.
  - clear. induction us; cbn; auto.
  - cbn [length]. rewrite IH; [|intros; apply H; right; auto]. specialize (H a (or_introl eq_refl)). clear IH. revert H. induction D as [|u us Nu D IH]; intros I; [destruct I|].
    cbn [map list_sum fold_right filter]. destruct (Z.eqb_spec (snd a) u) as [E|E].
    + cbn [length]. change (fold_right Init.Nat.add 0) with list_sum. rewrite Nat.add_succ_l. f_equal. f_equal. f_equal. apply map_ext_in. intros u' I'. cbn. destruct (Z.eqb_spec (snd a) u'); [|auto]. subst. congruence.
    + change (fold_right Init.Nat.add 0) with list_sum. destruct I as [I|I]; [congruence|]. specialize (IH I). cbn [filter] in IH. lia.
Qed.
Lemma cluster_len (l : list sample) : (forall X n, 1 <= n <= length X -> length (m_kmeans cfg X n) = n) ->
  length (cluster_down cfg l) = list_sum (map (fun u => Nat.max (length (filter (fun s => Z.eqb (snd s) u) l) / 2) 1) (np_unique (map snd l))).
Proof.
  intros K. unfold cluster_down. set (us := np_unique (map snd l)). assert (H : forall u, In u us -> 1 <= length (filter (fun s => Z.eqb (snd s) u) l)).
  { intros u I. apply (proj1 (proj2 (np_unique_spec (map snd l)) u)) in I. apply in_map_iff in I as (s & E & I). assert (J : In s (filter (fun s => Z.eqb (snd s) u) l)) by (apply filter_In; split; auto; apply Z.eqb_eq; auto). destruct (filter _ l); [destruct J|cbn; lia]. }
  clearbody us. induction us as [|u us IH]; [reflexivity|]. cbn [flat_map map list_sum fold_right]. change (fold_right Init.Nat.add 0) with list_sum. rewrite app_length, map_length, K.
  - rewrite map_length. f_equal. apply IH. intros; apply H; right; auto.
  - rewrite map_length. specialize (H u (or_introl eq_refl)). pose proof (Nat.div_lt_upper_bound (length (filter (fun s => Z.eqb (snd s) u) l)) 2 (length (filter (fun s => Z.eqb (snd s) u) l))). lia.
Qed.
Lemma list_sum_le {A} (f g : A -> nat) l : (forall a, In a l -> f a <= g a) -> list_sum (map f l) <= list_sum (map g l) /\ ((exists a, In a l /\ f a < g a) -> list_sum (map f l) < list_sum (map g l)).
Proof.
  induction l as [|a l IH]; intros H; cbn; [split; [lia|intros (a & [] & _)]|]. change (fold_right Init.Nat.add 0) with list_sum. destruct IH as [I1 I2]; [intros; apply H; right; auto|].
  specialize (H a (or_introl eq_refl)). split; [lia|]. intros (b & [<-|I] & L); [lia|]. assert (list_sum (map f l) < list_sum (map g l)) by (apply I2; eauto). lia.
Qed.
Lemma cluster_smaller (l : list sample) L : (forall X n, 1 <= n <= length X -> length (m_kmeans cfg X n) = n) ->
  (forall s, In s l -> In (snd s) L) -> length (cluster_down cfg l) <= length l /\ (length (nodup Z.eq_dec L) < length l -> length (cluster_down cfg l) < length l).
Proof.
  intros K H. rewrite (cluster_len l K). set (us := np_unique (map snd l)). set (c := fun u => length (filter (fun s : sample => Z.eqb (snd s) u) l)).
  assert (D : NoDup us) by apply np_unique_nodup.
  assert (U : forall s, In s l -> In (snd s) us) by (intros s I; apply (proj2 (proj2 (np_unique_spec (map snd l)) (snd s))), in_map; auto).
  assert (UL : incl us (nodup Z.eq_dec L)).
  { intros u I. apply (proj1 (proj2 (np_unique_spec (map snd l)) u)) in I. apply in_map_iff in I as (s & <- & I). apply nodup_In, H; auto. }
  assert (P : forall u, In u us -> 1 <= c u).
  { intros u I. apply (proj1 (proj2 (np_unique_spec (map snd l)) u)) in I. apply in_map_iff in I as (s & E & I). unfold c. assert (J : In s (filter (fun s => Z.eqb (snd s) u) l)) by (apply filter_In; split; auto; apply Z.eqb_eq; auto). destruct (filter _ l); [destruct J|cbn; lia]. }
  pose proof (count_sum l us D U) as S. fold c in S.
  assert (M : forall n, 1 <= n -> Nat.max (n / 2) 1 <= n /\ (2 <= n -> Nat.max (n / 2) 1 < n)).
  { intros n Hn. pose proof (Nat.div_lt_upper_bound n 2 n). split; lia. }
  destruct (list_sum_le (fun u => Nat.max (c u / 2) 1) c us) as [L1 L2]; [intros u I; apply M, P; auto|]. split.
  - rewrite S. exact L1.
  - intros Lt. rewrite S. apply L2. destruct (existsb (fun u => Nat.leb 2 (c u)) us) eqn:X; [apply existsb_exists in X as (u & I & X); apply Nat.leb_le in X; exists u; split; auto; apply M; auto; lia|].
    exfalso. assert (length l <= length us).
    { rewrite S. replace (length us) with (list_sum (map (fun _ => 1) us)) by (clear; induction us; cbn; auto). apply (list_sum_le c (fun _ => 1) us). intros u I.
      destruct (Nat.leb_spec 2 (c u)) as [G|G]; [|lia]. assert (existsb (fun u => Nat.leb 2 (c u)) us = true) by (apply existsb_exists; exists u; split; auto; apply Nat.leb_le; auto). congruence. }
    apply NoDup_incl_length in UL; auto. lia.
Qed.
Lemma cluster_labels (l : list sample) s : In s (cluster_down cfg l) -> exists s', In s' l /\ snd s' = snd s.
Proof.
  unfold cluster_down. intros I. apply in_flat_map in I as (u & I & J). apply in_map_iff in J as (c & <- & _). apply (proj1 (proj2 (np_unique_spec (map snd l)) u)) in I. apply in_map_iff in I as (s' & E & I). eauto.
Qed.
End AnyT.
