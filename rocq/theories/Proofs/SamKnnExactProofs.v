(** Proofs about the self adjusting memory: cleaning, the accuracy of the windows, the records of the memories. *)
From Coq Require Import List ZArith Bool Arith Lia Reals Lra Sorting.Sorted.
From Verif Require Import Base.Py Base.Num Spec.Lists Spec.ExpertSpec Model.Adwin Model.DataStream Model.Knn
  Proofs.ListFacts Proofs.StreamProofs Proofs.WindowedProofs Proofs.KnnProofs Proofs.ExpertRunProofs Proofs.NaiveBayesProofs Model.SamKnn Spec.SamKnnSpec Proofs.SamKnnProofs Proofs.SamKnnRunProofs Proofs.SamKnnSizeProofs.
Import ListNotations.

Lemma mapM_iff {A B} (f : A -> res B) l r : mapM f l = Ok r <-> map f l = map Ok r.
Proof.
  revert r. induction l as [|a l IH]; intros r; cbn.
  - split; [intros E; injection E as <-; auto|destruct r; [auto|discriminate]].
  - split.
    + intros E. apply bind_Ok in E as (b & E1 & E). apply bind_Ok in E as (bs & E2 & E). injection E as <-. cbn. rewrite E1. f_equal. apply IH; auto.
    + destruct r as [|b r]; [discriminate|]. cbn. intros E. injection E as E1 E2. apply IH in E2. rewrite E1, E2. auto.
Qed.
Lemma firstn_nth {A} (l : list A) d : forall i, i <= length l -> firstn i l = map (fun j => nth j l d) (seq 0 i).
Proof.
  induction l as [|a l IH]; intros [|i] H; cbn in *; try lia; auto. f_equal. rewrite IH by lia. rewrite <- seq_shift, map_map. auto.
Qed.
Lemma skipn_add {A} a b (l : list A) : skipn a (skipn b l) = skipn (b + a) l.
Proof. revert l. induction b as [|b IH]; intros l; cbn; auto. destruct l; [apply skipn_nil|apply IH]. Qed.
Lemma nth_skipn {A} (l : list A) d : forall a i, nth i (skipn a l) d = nth (a + i) l d.
Proof. induction l as [|x l IH]; intros [|a] i; cbn [skipn Nat.add]; auto; destruct i; cbn; auto. Qed.
Lemma app_inv_len {A} (a b c d : list A) : a ++ b = c ++ d -> length a = length c -> a = c /\ b = d.
Proof.
  revert c. induction a as [|x a IH]; intros [|y c] E L; cbn in *; try discriminate; auto. injection E as -> E. apply IH in E as [-> ->]; [auto|lia].
Qed.

(** *** Windows and tests *)
Section Tests.
Context {T : Type} {N : Num T}.
Variable cfg : sam_config T.
Definition test_of (win : list (list T * Z)) (i : nat) : res bool :=
  let s := nth i win ([], 0%Z) in p <- get_label (m_dist cfg) (distances (fst s) (firstn i win)) (map snd (firstn i win)) (m_k cfg) ;; Ok (Z.eqb p (snd s)).
Lemma tested_eq win : tested (m_dist cfg) (m_k cfg) win = map (test_of win) (seq (m_k cfg) (length win - m_k cfg)).
Proof. reflexivity. Qed.
Lemma test_train_eq d stm idx start : measured d stm -> test_train cfg d idx (skipn idx (map snd stm)) start = mapM (test_of (skipn idx stm)) (seq start (length (skipn idx stm) - start)).
Proof.
  intros M. unfold test_train. rewrite skipn_map, map_length. apply mapM_ext_in. intros i I. apply in_seq in I. unfold test_of. rewrite skipn_length in I.
  assert (D : map (fun j => d (idx + i) (idx + j)) (seq 0 i) = distances (fst (nth i (skipn idx stm) ([], 0%Z))) (firstn i (skipn idx stm))).
  { unfold distances. rewrite (firstn_nth (skipn idx stm) ([], 0%Z)) by (rewrite skipn_length; lia). rewrite map_map. apply map_ext_in. intros j J. apply in_seq in J. rewrite !nth_skipn. apply M. lia. }
  rewrite D, firstn_map. destruct (get_label _ _ _ _); cbn; auto. do 2 f_equal. change 0%Z with (snd (@nil T, 0%Z)). apply map_nth.
Qed.
Lemma first_tests_len win p : first_tests (m_dist cfg) (m_k cfg) win p -> length p <= length win - m_k cfg.
Proof. intros (rest & E). apply (f_equal (@length _)) in E. rewrite tested_eq, app_length, !map_length, seq_length in E. lia. Qed.
Lemma extend_tests win p more : first_tests (m_dist cfg) (m_k cfg) win p -> mapM (test_of win) (seq (length p + m_k cfg) (length win - (length p + m_k cfg))) = Ok more ->
  all_tests (m_dist cfg) (m_k cfg) win (p ++ more).
Proof.
  intros F E. pose proof (first_tests_len win p F) as L. destruct F as (rest & F). unfold all_tests. rewrite map_app. rewrite F. f_equal. apply mapM_iff in E. rewrite <- E.
  rewrite tested_eq in F. replace (length win - m_k cfg) with (length p + (length win - (length p + m_k cfg))) in F by lia. rewrite seq_app, map_app in F.
  assert (X : map Ok p = map (test_of win) (seq (m_k cfg) (length p)) /\ rest = map (test_of win) (seq (m_k cfg + length p) (length win - (length p + m_k cfg)))).
  { apply app_inv_len in F as [F1 F2]; [|rewrite !map_length, seq_length; auto]. split; auto. }
  destruct X as [_ ->]. do 2 f_equal. lia.
Qed.
(** The histories after a choice of the window *)
Lemma max_acc_fold d stm : measured d stm -> forall ds h accs h' accs', (forall key p, hget h key = Some p -> first_tests (m_dist cfg) (m_k cfg) (skipn key stm) p) ->
  foldM (fun acc dv => let '(h, accs) := acc in
      hist <- match hget h (index_of (length stm) dv) with
              | Some p => more <- test_train cfg d (index_of (length stm) dv) (skipn (index_of (length stm) dv) (map snd stm)) (length p + m_k cfg) ;; Ok (p ++ more)
              | None => test_train cfg d (index_of (length stm) dv) (skipn (index_of (length stm) dv) (map snd stm)) (m_k cfg)
              end ;;
      Ok (hset h (index_of (length stm) dv) hist, accs ++ [accuracy hist])) ds (h, accs) = Ok (h', accs') ->
  (forall key p, hget h' key = Some p -> first_tests (m_dist cfg) (m_k cfg) (skipn key stm) p)
  /\ exists new, accs' = accs ++ new /\ Forall2 (fun dv a => exists hist, all_tests (m_dist cfg) (m_k cfg) (skipn (index_of (length stm) dv) stm) hist /\ a = accuracy hist) ds new.
Proof.
  intros M. induction ds as [|dv ds IH]; intros h accs h' accs' H E; cbn [foldM] in E.
  - injection E as <- <-. split; auto. exists []. rewrite app_nil_r. auto.
  - apply bind_Ok in E as ((h1 & a1) & E1 & E). apply bind_Ok in E1 as (hist & Eh & E1). injection E1 as <- <-.
    assert (A : all_tests (m_dist cfg) (m_k cfg) (skipn (index_of (length stm) dv) stm) hist).
    { destruct (hget h (index_of (length stm) dv)) as [p|] eqn:G.
      - apply bind_Ok in Eh as (more & Eh & X). injection X as <-. rewrite test_train_eq in Eh by auto. eapply extend_tests; eauto.
      - rewrite test_train_eq in Eh by auto. apply (extend_tests _ [] hist); [exists (tested (m_dist cfg) (m_k cfg) (skipn (index_of (length stm) dv) stm)); auto|exact Eh]. }
    apply IH in E as (I1 & new & -> & I2).
    + split; auto. exists (accuracy hist :: new). rewrite <- app_assoc. split; [reflexivity|]. constructor; eauto.
    + intros key p G. rewrite hget_hset in G. destruct (Nat.eqb_spec key (index_of (length stm) dv)) as [->|Ne]; [|auto]. injection G as <-. exists []. rewrite app_nil_r. exact A.
Qed.
(** The distances in the matrix are those of the samples of the short-term memory *)
Lemma shift_dist_eq d m b d' : shift_dist cfg d m b = Ok d' -> forall i j, i < m -> j < m -> d' i j = d (i + b) (j + b).
Proof.
  unfold shift_dist. destruct (adapts cfg); [|discriminate]. destruct (Nat.leb _ _); [|discriminate]. intros E. injection E as <-. intros i j Hi Hj.
  destruct (Nat.ltb_spec i m), (Nat.ltb_spec j m); try lia. auto.
Qed.
Lemma shift_measured d n stm d' k : shift_dist cfg d (length (skipn n stm)) n = Ok d' ->
  (forall i j, j < i < k -> i < length stm -> d i j = get_distance (fst (nth i stm ([], 0%Z))) (fst (nth j stm ([], 0%Z)))) ->
  forall i j, j < i < k - n -> i < length (skipn n stm) -> d' i j = get_distance (fst (nth i (skipn n stm) ([], 0%Z))) (fst (nth j (skipn n stm) ([], 0%Z))).
Proof.
  intros E H i j L Li. rewrite (shift_dist_eq _ _ _ _ E) by lia. rewrite !nth_skipn. rewrite skipn_length in Li. rewrite !(Nat.add_comm n). apply H; lia.
Qed.
Lemma size_check_dist s s' b : size_check cfg s = Ok (s', b) ->
  (forall i j, j < i < length (s_stm s) - 1 -> s_dist s i j = get_distance (fst (nth i (s_stm s) ([], 0%Z))) (fst (nth j (s_stm s) ([], 0%Z)))) ->
  (forall i j, j < i < length (s_stm s') - 1 -> s_dist s' i j = get_distance (fst (nth i (s_stm s') ([], 0%Z))) (fst (nth j (s_stm s') ([], 0%Z))))
  /\ (b = false -> s_stm s' = s_stm s /\ s_dist s' = s_dist s).
Proof.
  intros E H. assert (X : (s_stm s' = s_stm s /\ s_dist s' = s_dist s) \/ (b = true /\ exists n, s_stm s' = skipn n (s_stm s) /\ shift_dist cfg (s_dist s) (length (s_stm s')) n = Ok (s_dist s'))).
  { unfold size_check in E. destruct (m_use cfg).
    - unfold size_ltm in E. destruct (maxSTM cfg + maxLTM cfg <? _)%num; [|injection E as <- <-; auto]. destruct (maxLTM cfg <? _)%num; [injection E as <- <-; auto|].
      apply bind_Ok in E as (stm & E1 & E). apply bind_Ok in E as (d & Ed & E). apply bind_Ok in E as (hl & _ & E). apply bind_Ok in E as (hs & _ & E). apply bind_Ok in E as (hc & _ & E).
      injection E as <- <-. apply cut_ok in E1 as [-> _]. right. split; auto. cbn [s_stm s_dist]. eauto.
    - unfold fade_out in E. destruct (maxSTM cfg + maxLTM cfg <? _)%num; [|injection E as <- <-; auto].
      apply bind_Ok in E as (stm & E1 & E). apply bind_Ok in E as (d & Ed & E). apply bind_Ok in E as (i & _ & E). injection E as <- <-. apply cut_ok in E1 as [-> _]. right. split; auto. cbn [s_stm s_dist]. eauto. }
  destruct X as [[X1 X2]|(-> & n & X1 & X2)]; [rewrite X1, X2; auto|]. split; [|discriminate]. rewrite X1 in *. intros i j L. eapply (shift_measured _ n _ _ (length (s_stm s) - 1)); [exact X2|intros i' j' L' _; apply H; auto|rewrite skipn_length in L; lia|lia].
Qed.
Lemma learn_dist s x y s' : adapts cfg = true -> sam_learn cfg s x y = Ok s' -> measured (s_dist s) (s_stm s) -> measured (s_dist s') (s_stm s').
Proof.
  intros A E M. unfold sam_learn in E. apply bind_Ok in E as (s1 & E1 & E).
  assert (H1 : s_stm s1 = s_stm s /\ s_dist s1 = s_dist s).
  { destruct (m_use cfg); [|injection E1 as <-; auto]. apply bind_Ok in E1 as (v & _ & E1). injection E1 as <-. auto. }
  destruct H1 as [H1 H1']. apply bind_Ok in E as ((s2 & sh) & E2 & E). pose proof (size_check_stm cfg _ _ _ E2) as [(n0' & Sk) _]. apply size_check_dist in E2 as [D2 B2].
  2: { cbn [s_stm s_dist]. rewrite H1, H1'. rewrite app_length. cbn [length]. intros i j L. rewrite !app_nth1 by lia. apply M. lia. }
  cbn [s_stm s_dist] in *. rewrite H1 in *. rewrite H1' in *. apply bind_Ok in E as (ltm & _ & E). cbn [s_stm s_ltm s_dist s_inter s_hs s_hl s_hc] in E. rewrite A in E. apply bind_Ok in E as (d & Ed & E).
  assert (Md : measured d (s_stm s2)).
  { unfold write_row in Ed. destruct (Nat.leb _ _); [|discriminate]. injection Ed as <-. intros i j L. destruct (Nat.eqb_spec i (length (s_stm s2) - 1)) as [->|Ne]; cbn [andb].
    - destruct (Nat.ltb_spec j (length (s_stm s2) - 1)); [|lia].
      assert (Last : nth (length (s_stm s2) - 1) (s_stm s2) ([], 0%Z) = (x, y)).
      { rewrite Sk in L |- *. rewrite skipn_length, app_length in *. cbn [length] in *. rewrite nth_skipn. rewrite app_nth2; [|lia]. replace (_ - length (s_stm s)) with 0 by lia. auto. }
      rewrite Last. cbn [fst]. destruct sh.
      + change (n0 : T) with (@n0 T N). unfold distances. rewrite (firstn_nth (s_stm s2) ([], 0%Z)) by lia. rewrite map_map. rewrite (nth_indep _ _ (get_distance x (fst (nth 0 (s_stm s2) ([], 0%Z))))) by (rewrite map_length, seq_length; lia).
        rewrite (map_nth (fun j => get_distance x (fst (nth j (s_stm s2) ([], 0%Z)))) (seq 0 (length (s_stm s2) - 1)) 0). rewrite seq_nth by lia. auto.
      + destruct (B2 eq_refl) as [B3 _]. rewrite B3 in *. rewrite app_length in *. cbn [length] in *. rewrite app_nth1 by lia. unfold distances.
        rewrite (nth_indep _ _ ((fun s : list T * Z => get_distance x (fst s)) ([], 0%Z))) by (rewrite map_length; lia). rewrite (map_nth (fun s : list T * Z => get_distance x (fst s))). auto.
    - apply D2. lia. }
  apply bind_Ok in E as ((m & h) & _ & E). destruct (Nat.ltb_spec m (length (s_stm s2))) as [Lm|Lm]; [|injection E as <-; exact Md].
  apply bind_Ok in E as (d2 & Ed2 & E).
  assert (Md2 : measured d2 (skipn (length (s_stm s2) - m) (s_stm s2))).
  { intros i j L. apply (shift_measured d (length (s_stm s2) - m) (s_stm s2) d2 (length (s_stm s2))); [|intros; apply Md; lia|rewrite skipn_length in L; lia|lia].
    rewrite skipn_length. replace (length (s_stm s2) - (length (s_stm s2) - m)) with m by lia. exact Ed2. }
  destruct (m_use cfg); [|injection E as <-; exact Md2].
  apply bind_Ok in E as (hs & _ & E). apply bind_Ok in E as (hl & _ & E). apply bind_Ok in E as (hc & _ & E). apply bind_Ok in E as (old & _ & E). apply bind_Ok in E as ((s3 & b3) & E3 & E). injection E as <-.
  assert (X : (s_stm s3 = skipn (length (s_stm s2) - m) (s_stm s2) /\ s_dist s3 = d2) \/ exists n, s_stm s3 = skipn n (skipn (length (s_stm s2) - m) (s_stm s2)) /\ shift_dist cfg d2 (length (s_stm s3)) n = Ok (s_dist s3)).
  { unfold size_check in E3. destruct (m_use cfg).
    - unfold size_ltm in E3. cbn [s_stm s_ltm s_dist s_inter s_hs s_hl s_hc] in E3. destruct (maxSTM cfg + maxLTM cfg <? _)%num; [|injection E3 as <- <-; auto]. destruct (maxLTM cfg <? _)%num; [injection E3 as <- <-; auto|].
      apply bind_Ok in E3 as (stm & Ex & E3). apply bind_Ok in E3 as (d3 & Ed3 & E3). apply bind_Ok in E3 as (? & _ & E3). apply bind_Ok in E3 as (? & _ & E3). apply bind_Ok in E3 as (? & _ & E3).
      injection E3 as <- <-. apply cut_ok in Ex as [-> _]. right. cbn [s_stm s_dist]. eauto.
    - unfold fade_out in E3. cbn [s_stm s_ltm s_dist s_inter s_hs s_hl s_hc] in E3. destruct (maxSTM cfg + maxLTM cfg <? _)%num; [|injection E3 as <- <-; auto].
      apply bind_Ok in E3 as (stm & Ex & E3). apply bind_Ok in E3 as (d3 & Ed3 & E3). apply bind_Ok in E3 as (? & _ & E3). injection E3 as <- <-. apply cut_ok in Ex as [-> _]. right. cbn [s_stm s_dist]. eauto. }
  destruct X as [[-> ->]|(n & X1 & X2)]; [exact Md2|]. rewrite X1 in *. intros i j L. 
  apply (shift_measured d2 n _ _ (n + length (skipn n (skipn (length (s_stm s2) - m) (s_stm s2)))) X2); [|lia|lia]. intros i' j' L' L''. apply Md2. lia.
Qed.
Lemma fit_measured rows s : adapts cfg = true -> sam_fit cfg sam_init rows = Ok s -> measured (s_dist s) (s_stm s).
Proof.
  intros A E. refine (foldM_inv (fun s : sam T => measured (s_dist s) (s_stm s)) _ rows _ sam_init s _ E); [|intros i j L; cbn in L; lia]. intros s1 r s2 M _ E1. eapply learn_dist; eauto.
Qed.
(** *** The records *)
Lemma size_check_records s s' b : m_use cfg = true -> size_check cfg s = Ok (s', b) ->
  exists n, s_stm s' = skipn n (s_stm s) /\ s_hs s' = skipn n (s_hs s) /\ s_hl s' = skipn n (s_hl s) /\ s_hc s' = skipn n (s_hc s).
Proof.
  intros U E. unfold size_check in E. rewrite U in E. unfold size_ltm in E. destruct (maxSTM cfg + maxLTM cfg <? _)%num; [|injection E as <- <-; exists 0; auto]. destruct (maxLTM cfg <? _)%num; [injection E as <- <-; exists 0; auto|].
  apply bind_Ok in E as (stm & E1 & E). apply bind_Ok in E as (d & _ & E). apply bind_Ok in E as (hl & E2 & E). apply bind_Ok in E as (hs & E3 & E). apply bind_Ok in E as (hc & E4 & E).
  injection E as <- <-. apply cut_ok in E1 as [-> _]. apply cut_ok in E2 as [-> _]. apply cut_ok in E3 as [-> _]. apply cut_ok in E4 as [-> _]. cbn. eauto.
Qed.
Lemma learn_records s x y s' : m_use cfg = true -> sam_learn cfg s x y = Ok s' -> exists v n, all_memories cfg s x = Ok v /\ s_stm s' = skipn n (s_stm s ++ [(x, y)])
  /\ s_hs s' = skipn n (s_hs s ++ [Z.eqb (v_stm v) y]) /\ s_hl s' = skipn n (s_hl s ++ [Z.eqb (v_ltm v) y]) /\ s_hc s' = skipn n (s_hc s ++ [Z.eqb (v_both v) y]).
Proof.
  intros U E. unfold sam_learn in E. rewrite U in E. apply bind_Ok in E as (s1 & E1 & E). apply bind_Ok in E1 as (v & Ev & E1). injection E1 as <-. exists v.
  apply bind_Ok in E as ((s2 & sh) & E2 & E). apply size_check_records in E2 as (n & K1 & K2 & K3 & K4); auto. cbn [s_stm s_ltm s_dist s_inter s_hs s_hl s_hc] in *.
  apply bind_Ok in E as (ltm & _ & E). destruct (adapts cfg); [|injection E as <-; exists n; auto]. apply bind_Ok in E as (d & _ & E). apply bind_Ok in E as ((m & h) & _ & E).
  destruct (Nat.ltb m (length (s_stm s2))); [|injection E as <-; exists n; auto]. apply bind_Ok in E as (d2 & _ & E).
  apply bind_Ok in E as (hs & X1 & E). apply bind_Ok in E as (hl & X2 & E). apply bind_Ok in E as (hc & X3 & E). apply bind_Ok in E as (old & _ & E). apply bind_Ok in E as ((s3 & b3) & E3 & E). injection E as <-.
  apply cut_ok in X1 as [-> _]. apply cut_ok in X2 as [-> _]. apply cut_ok in X3 as [-> _]. apply size_check_records in E3 as (n3 & G1 & G2 & G3 & G4); auto. cbn [s_stm s_ltm s_dist s_inter s_hs s_hl s_hc] in *.
  rewrite G1, G2, G3, G4. remember (length (s_stm s2) - m) as k0 eqn:Ek. clear Ek. rewrite K1, K2, K3, K4. rewrite !skipn_add. exists (n + (k0 + n3)). rewrite !Nat.add_assoc. auto.
Qed.
Definition kept (rows : list (list T * Z)) (which : votes -> Z) (n : nat) : list (option bool) := map (right_at cfg rows which) (seq (length rows - n) n).
Lemma fit_records rows : m_use cfg = true -> forall s, sam_fit cfg sam_init rows = Ok s -> length (s_stm s) <= length rows /\
  map Some (s_hs s) = kept rows v_stm (length (s_stm s)) /\ map Some (s_hl s) = kept rows v_ltm (length (s_stm s)) /\ map Some (s_hc s) = kept rows v_both (length (s_stm s)).
Proof.
  intros U. induction rows as [|(x, y) rows IH] using rev_ind; intros s E; [injection E as <-; auto|].
  rewrite fit_app in E. apply bind_Ok in E as (s0 & E0 & E). destruct (IH s0 E0) as (L & K1 & K2 & K3). cbn [sam_fit foldM fst snd] in E. apply bind_Ok in E as (s1 & E & X). injection X as ->.
  destruct (learn_records _ _ _ _ U E) as (v & n & Ev & G1 & G2 & G3 & G4).
  assert (W : forall which h h', map Some h = kept rows which (length (s_stm s0)) -> h' = skipn n (h ++ [Z.eqb (which v) y]) -> map Some h' = kept (rows ++ [(x, y)]) which (length (s_stm s))).
  { intros which h h' K ->. rewrite G1, skipn_length, app_length. cbn [length]. rewrite <- skipn_map, map_app, K. cbn [map]. unfold kept. rewrite app_length. cbn [length].
    set (m := length (s_stm s0)) in *. replace (map (right_at cfg rows which) (seq (length rows - m) m) ++ [Some (Z.eqb (which v) y)]) with (map (right_at cfg (rows ++ [(x, y)]) which) (seq (length rows - m) (m + 1))).
    - rewrite skipn_map. f_equal. destruct (Nat.le_gt_cases n (m + 1)) as [Ln|Ln].
      + replace (m + 1) with (n + (m + 1 - n)) at 1 by lia. rewrite seq_app, skipn_app, seq_length, Nat.sub_diag, skipn_all2 by (rewrite seq_length; lia). cbn [skipn app]. f_equal. lia.
      + rewrite skipn_all2 by (rewrite seq_length; lia). replace (m + 1 - n) with 0 by lia. auto.
    - rewrite seq_app, map_app. replace (length rows - m + m) with (length rows) by lia. cbn [seq map]. f_equal.
      + apply map_ext_in. intros i I. apply in_seq in I. unfold right_at. rewrite nth_error_app1 by lia. rewrite firstn_app. replace (i - length rows) with 0 by lia. rewrite firstn_O, app_nil_r. auto.
      + unfold right_at. rewrite nth_error_app2, Nat.sub_diag by lia. cbn [nth_error]. rewrite firstn_app, Nat.sub_diag, firstn_O, app_nil_r, firstn_all, E0, Ev. auto. }
  split; [rewrite G1, skipn_length, !app_length; cbn; lia|]. split; [eapply W; eauto|]. split; eapply W; eauto.
Qed.
End Tests.

(** *** Over the reals *)
Local Open Scope R_scope.
Section Real.
Variable cfg : sam_config R.
Lemma accuracy_R h : accuracy (T := R) h = share_right h.
Proof. unfold accuracy, share_right. destruct h; auto. rewrite !counted_R. reflexivity. Qed.
Lemma first_nan_spec (l : list (option R)) : forall o, match first_nan l o with
  | Some i => (o <= i)%nat /\ nth_error l (i - o) = Some None /\ forall j, (j < i - o)%nat -> exists v, nth_error l j = Some (Some v)
  | None => exists vs, l = map Some vs
  end.
Proof.
  induction l as [|[v|] l IH]; intros o; cbn.
  - exists []. auto.
  - specialize (IH (S o)). destruct (first_nan l (S o)) as [i|].
    + destruct IH as (H1 & H2 & H3). split; [lia|]. replace (i - o)%nat with (S (i - S o))%nat by lia. split; auto. intros [|j] L; cbn; [eauto|]. apply H3. lia.
    + destruct IH as (vs & ->). exists (v :: vs). auto.
  - split; [lia|]. rewrite Nat.sub_diag. split; auto. intros j L. lia.
Qed.
Lemma arg_max_R (l : list (option R)) c : arg_max l = Ok c -> best_at l c.
Proof.
  unfold arg_max. pose proof (first_nan_spec l 0) as F. destruct (first_nan l 0) as [i|].
  - intros E. injection E as <-. left. rewrite Nat.sub_0_r in F. tauto.
  - destruct F as (vs & ->). rewrite map_map, map_id. intros E. right. exists vs. split; auto. destruct vs as [|v vs]; [discriminate|].
    destruct (np_argmax_ok (v :: vs)) as (c' & E' & M); [discriminate|]. rewrite E' in E. injection E as <-. exact M.
Qed.
Lemma max_acc_best (stm : list (list R * Z)) h d m h' : (1 <= m_min cfg)%nat -> (2 * m_min cfg <= length stm)%nat -> measured d stm ->
  (forall key p, hget h key = Some p -> first_tests (m_dist cfg) (m_k cfg) (skipn key stm) p) ->
  max_acc cfg (map snd stm) h d = Ok (m, h') ->
  exists accs c, (forall j a, nth_error accs j = Some a <-> (m_min cfg * 2 ^ j <= length stm)%nat
       /\ exists hist, all_tests (m_dist cfg) (m_k cfg) (skipn (length stm - (length stm + 2 ^ j - 1) / 2 ^ j) stm) hist /\ a = option_map (m_rnd cfg) (share_right hist))
    /\ best_at accs c /\ m = (length stm / 2 ^ c)%nat.
Proof.
  intros Mn Ln Md Ht E. unfold max_acc in E. rewrite map_length in E. set (n := length stm) in *. destruct (Nat.ltb_spec n (2 * m_min cfg)); [lia|]. cbv zeta in E.
  apply bind_Ok in E as ((h2 & accs) & Ef & E). apply (max_acc_fold cfg d stm Md) in Ef.
  2: { intros key p G. rewrite (hget_filter (stays n (divisors cfg n n 1))) in G. destruct (stays _ _ _); [auto|discriminate]. }
  destruct Ef as (_ & new & Ea & F2). cbn [app] in Ea. subst accs. fold n in F2. apply bind_Ok in E as (c & Ec & E). apply arg_max_R in Ec. set (ds := divisors cfg n n 1) in *.
  assert (Fl : (n < 1 * 2 ^ n \/ n < 2 * 1)%nat) by (left; rewrite Nat.mul_1_l; apply Nat.pow_gt_lin_r; lia).
  assert (Dn : forall j, (m_min cfg * 2 ^ j <= n)%nat <-> nth_error ds j = Some (2 ^ j)%nat).
  { intros j. split.
    - intros L. apply (divisors_all cfg Mn n n 1 Fl (Nat.le_refl 1) j); [lia|auto].
    - intros X. apply nth_error_In in X. apply divisors_in in X as (_ & _ & X); auto; lia. }
  exists (rounded cfg new), c. split; [|split; [exact Ec|]].
  - intros j a. rewrite Dn. unfold rounded. assert (G : forall j, match nth_error ds j, nth_error new j with Some dv, Some a => exists hist, all_tests (m_dist cfg) (m_k cfg) (skipn (index_of n dv) stm) hist /\ a = accuracy hist | None, None => True | _, _ => False end).
    { clear -F2. induction F2 as [|dv a ds new H F IH]; intros [|j]; cbn; auto. apply IH. }
    specialize (G j). rewrite nth_error_map. split.
    + intros X. destruct (nth_error new j) as [a'|]; [|discriminate]. cbn in X. injection X as <-. destruct (nth_error ds j) as [dv|] eqn:Ed; [|destruct G]. pose proof (divisors_nth cfg Mn n n 1 j dv Ed) as Ev. rewrite Nat.mul_1_r in Ev. subst dv.
      split; auto. destruct G as (hist & G1 & ->). exists hist. split; [exact G1|]. rewrite accuracy_R. auto.
    + intros [Ed (hist & A & ->)]. rewrite Ed in G. destruct (nth_error new j) as [a'|]; [|destruct G]. destruct G as (hist' & A' & ->). cbn. unfold all_tests in *. unfold index_of in A'. rewrite A in A'.
      assert (hist = hist') as ->. { revert A'. clear. revert hist'. induction hist as [|b l IH]; intros [|b' l'] E; try discriminate; auto. injection E as -> E. f_equal; auto. }
      rewrite accuracy_R. auto.
  - destruct c as [|c]; cbn [Nat.ltb Nat.leb] in E.
    + injection E as <- <-. rewrite Nat.pow_0_r, Nat.div_1_r. auto.
    + apply bind_Ok in E as (h3 & _ & E). injection E as <- <-. f_equal. 
      assert (Lc : (S c < length ds)%nat).
      { assert (LL : length (rounded cfg new) = length ds) by (unfold rounded; rewrite map_length; clear -F2; induction F2; cbn; auto). rewrite <- LL. destruct Ec as [[Ec _]|(vs & -> & Ec & _)]; [apply nth_error_Some; congruence|rewrite map_length; auto]. }
      destruct (nth_error ds (S c)) as [dv|] eqn:Ed; [|apply nth_error_None in Ed; lia]. rewrite (nth_error_nth _ _ _ Ed). apply (divisors_nth cfg Mn) in Ed. lia.
Qed.
(** *** Cleaning *)
Lemma maximum_le v (l : list R) t : t <= maximum v l <-> exists w, In w (v :: l) /\ t <= w.
Proof.
  unfold maximum. revert v. induction l as [|a l IH]; intros v; cbn [fold_left].
  - split; [intros H; exists v; split; [left; auto|auto]|intros (w & [<-|[]] & H); auto].
  - rewrite IH. change (@nltb R NumR) with Rltb. destruct (Rltb v a) eqn:L.
    + apply Rltb_true in L. split.
      * intros (w & [<-|I] & H); [exists a; split; [right; left; auto|auto]|exists w; split; [right; right; auto|auto]].
      * intros (w & [<-|[<-|I]] & H); [exists a; split; [left; auto|lra]|exists a; split; [left; auto|auto]|exists w; split; [right; auto|auto]].
    + apply Rltb_false in L. split.
      * intros (w & [<-|I] & H); [exists v; split; [left; auto|auto]|exists w; split; [right; right; auto|auto]].
      * intros (w & [<-|[<-|I]] & H); [exists v; split; [left; auto|auto]|exists v; split; [left; auto|lra]|exists w; split; [right; auto|auto]].
Qed.
Lemma distances_R x (l : list (list R * Z)) : distances x l = map (fun s => sq_dist x (fst s)) l.
Proof. apply map_ext. intros s. apply get_distance_R. Qed.
Lemma nth_dist x (l : list (list R * Z)) j : (j < length l)%nat -> nth j (distances x l) 0 = sq_dist x (fst (nth j l ([], 0%Z))).
Proof.
  intros H. rewrite distances_R. rewrite (nth_indep _ _ (sq_dist x (fst (@nil R, 0%Z)))) by (rewrite map_length; auto). rewrite (map_nth (fun s : list R * Z => sq_dist x (fst s))). auto.
Qed.
Lemma n_least_unique n ds a b : n_least n ds a -> n_least n ds b -> forall i, In i a -> In i b.
Proof.
  intros (La & Da & Ra & Ba & _) (Lb & Db & Rb & Bb & _) i I. destruct (in_dec Nat.eq_dec i b) as [|Ni]; auto. exfalso.
  assert (X : exists j, In j b /\ ~ In j a).
  { destruct (existsb (fun j => negb (existsb (Nat.eqb j) a)) b) eqn:Y.
    - apply existsb_exists in Y as (j & J & Y). exists j. split; auto. intros K. apply existsb_eqb_In in K. rewrite K in Y. discriminate.
    - exfalso. assert (Inc : incl b a).
      { intros j J. destruct (existsb (Nat.eqb j) a) eqn:K; [apply existsb_eqb_In; auto|]. assert (existsb (fun j => negb (existsb (Nat.eqb j) a)) b = true) by (apply existsb_exists; exists j; rewrite K; auto). congruence. }
      apply Ni. assert (incl a b); [|auto]. apply NoDup_length_incl; auto. lia. }
  destruct X as (j & Jb & Ja). specialize (Ba i j I (Rb j Jb) Ja). specialize (Bb j i Jb (Ra i I) Ni). unfold before in *. destruct Ba as [Ba|[Ba Ba']], Bb as [Bb|[Bb Bb']]; try lra. lia.
Qed.
Lemma clean_one_spec stm cl i cl' x y : nth_error stm i = Some (x, y) -> clean_one cfg stm cl i = Ok cl' ->
  leaves (contradicts (m_k cfg) (firstn i stm ++ skipn (S i) stm) cl x y) cl cl'.
Proof.
  intros En E. unfold clean_one in E. rewrite En in E. cbv zeta in E. set (others := firstn i stm ++ skipn (S i) stm) in *.
  apply bind_Ok in E as (nn & E1 & E). apply bind_Ok in E as (nl & E2 & E). apply n_arg_min_least in E1, E2. rewrite distances_len in E2. rewrite distances_R in E1, E2.
  assert (In1 : forall j, In j nn -> (j < length others)%nat) by (destruct E1 as (_ & _ & R & _); intros j J; apply R in J; rewrite map_length in J; auto).
  assert (In2 : forall j, In j nl -> (j < length cl)%nat) by (destruct E2 as (_ & _ & R & _); intros j J; apply R in J; rewrite map_length in J; auto).
  assert (C : forall j, contradicts (m_k cfg) others cl x y j <-> In j nl /\ snd (nth j cl ([], 0%Z)) <> y /\ exists i, In i nn /\ snd (nth i others ([], 0%Z)) = y /\ sq_dist x (fst (nth j cl ([], 0%Z))) <= sq_dist x (fst (nth i others ([], 0%Z)))).
  { intros j. split.
    - intros (near & ncl & N1 & N2 & J & Ny & i' & I' & Y' & D'). split; [exact (n_least_unique _ _ _ _ N2 E2 j J)|]. split; [exact Ny|]. exists i'. split; [exact (n_least_unique _ _ _ _ N1 E1 i' I')|auto].
    - intros (J & Ny & X). exists nn, nl. auto. }
  assert (Lv : forall P Q (l l' : list (list R * Z)), (forall i, P i <-> Q i) -> leaves P l l' -> leaves Q l l').
  { intros P Q l l' PQ (idx & S & I & Em). exists idx. split; auto. split; auto. intros k. rewrite I, PQ. tauto. }
  destruct (filter (fun j => Z.eqb (label_at others j) y) nn) as [|j js] eqn:Fl.
  - injection E as <-. apply (Lv (fun i => In i [])); [|replace cl with (without [] cl) at 2; [apply without_leaves|]].
    + intros j. split; [intros []|]. rewrite C. intros (_ & _ & i' & I' & Y' & _). assert (K : In i' (filter (fun j => Z.eqb (label_at others j) y) nn)) by (apply filter_In; split; auto; apply Z.eqb_eq; auto). rewrite Fl in K. auto.
    + unfold without. cbn [existsb negb]. replace (filter (fun _ => true) (combine (seq 0 (length cl)) cl)) with (combine (seq 0 (length cl)) cl) by (clear; induction (combine (seq 0 (length cl)) cl) as [|a l IH]; cbn; [auto|f_equal; auto]).
      clear. generalize 0%nat. induction cl as [|a l IH]; intros o; cbn; auto. f_equal; auto.
  - injection E as <-. eapply Lv; [|apply without_leaves]. intros t. rewrite C. rewrite filter_In. change (@nleb R NumR) with Rleb. change (@n0 R NumR) with 0. rewrite Rleb_true, filter_In. unfold label_at at 1.
    assert (Fj : forall z, In z (j :: js) <-> In z nn /\ snd (nth z others ([], 0%Z)) = y).
    { intros z. rewrite <- Fl, filter_In. unfold label_at. rewrite Z.eqb_eq. tauto. }
    split.
    + intros ((J & Ny) & Th). split; auto. split; [intros K; rewrite K, Z.eqb_refl in Ny; discriminate|]. rewrite (nth_dist x cl t (In2 t J)) in Th. apply maximum_le in Th as (w & Iw & Lw).
      assert (W : exists z, In z (j :: js) /\ w = nth z (distances x others) 0) by (destruct Iw as [<-|Iw]; [exists j; split; [left; auto|auto]|apply in_map_iff in Iw as (z & <- & Iz); exists z; split; [right; auto|auto]]).
      destruct W as (z & Iz & ->). apply Fj in Iz as [Iz Yz]. exists z. split; auto. split; auto. rewrite nth_dist in Lw by auto. auto.
    + intros (J & Ny & z & Iz & Yz & Dz). split; [split; auto; destruct (Z.eqb_spec (snd (nth t cl ([], 0%Z))) y); [congruence|auto]|]. rewrite (nth_dist x cl t (In2 t J)). apply maximum_le.
      exists (nth z (distances x others) 0). split; [|rewrite nth_dist by auto; auto]. assert (K : In z (j :: js)) by (apply Fj; auto). destruct K as [<-|K]; [left; auto|right; apply in_map_iff; eauto].
Qed.
End Real.
