(** Self adjusting memory: neighbours and votes, what the memories contain, their sizes, the choice of the window, failures. *)
From Coq Require Import List ZArith QArith Bool Arith Reals Lia Lra Sorting.Sorted.
From Verif Require Import Base.Py Base.Num Spec.Lists Spec.ExpertSpec Model.Adwin Model.DataStream Model.Knn Proofs.StreamProofs Proofs.KnnProofs Proofs.ExpertRunProofs
  Model.SamKnn Spec.SamKnnSpec Proofs.SamKnnProofs Proofs.SamKnnRunProofs Proofs.SamKnnSizeProofs Proofs.SamKnnExactProofs.
Import ListNotations.
Local Open Scope nat_scope.

(** C259: without a long-term memory, predict answers 0 before the first sample and then what the nearest samples of the short-term memory
    elect, all of them while they are fewer than n_neighbors. *)
Theorem sam_stm_answer : forall cfg (s : sam R) x ys, m_use cfg = false -> (1 <= m_k cfg)%nat -> sam_predict cfg s [x] = Ok ys ->
  (s_stm s = [] /\ ys = [0%Z]) \/ (exists l, ys = [l] /\ elects (m_dist cfg) (Nat.min (m_k cfg) (length (s_stm s))) (s_stm s) x l).
Proof.
  intros cfg s x ys U K E. unfold sam_predict in E. rewrite U in E. cbn [mapM] in E. apply bind_Ok in E as (l & E & X). cbn [bind] in X. injection X as <-. unfold by_stm in E.
  destruct (s_stm s) as [|r rs] eqn:S; [injection E as <-; auto|]. rewrite <- S in *. right. exists l. split; auto. apply get_label_elects; auto. rewrite S. cbn [length]. lia.
Qed.
(** With labels from -128 to 127 the answer is the label of a sample; the code keeps eight bits of the labels. *)
Theorem sam_answer_is_label : forall b n memory x l, (forall r, In r memory -> (-128 <= snd r <= 127)%Z) -> elects b n memory x l -> exists r, In r memory /\ snd r = l.
Proof.
  intros b n memory x l H (idx & (_ & _ & I & _) & (W & _)). cbn in W. apply in_map_iff in W as ((d & l') & E & W). cbn in E. subst l'. apply in_map_iff in W as (i & E & J). injection E as _ <-.
  apply I in J. rewrite map_length in J. exists (nth i memory ([], 0%Z)). split; [apply nth_In; auto|]. specialize (H _ (nth_In memory ([], 0%Z) J)). unfold int8. rewrite Z.mod_small by lia. lia.
Qed.
Definition q_int (q : Q) : Z := Z.quot (Qnum q) (Zpos (Qden q)).
Definition q_sam (use_ltm : bool) (o : size_option) (mx : nat) (mn k : nat) : sam_config Q := mk_samc false k mx (1 # 2)%Q mn o use_ltm (fun X n => firstn n X) (fun x => x) q_int.
Theorem sam_answer_is_label_refuted : exists s, sam_fit (q_sam false MaxACC 10 5 1) sam_init [([1%Q], 200%Z); ([2%Q], 200%Z)] = Ok s /\ sam_predict (q_sam false MaxACC 10 5 1) s [[1%Q]] = Ok [(-56)%Z].
Proof. eexists. split; vm_compute; reflexivity. Qed.

(** C260: with both memories, n_neighbors samples of each and of their union elect three labels; the answer is that of the memory whose
    predictions of the samples of the short-term memory, each made when the sample arrived, were most often right: the short-term
    memory if it is as good as the others, then the long-term memory. *)
Theorem sam_best_memory : forall cfg rows (s : sam R) x v, m_use cfg = true -> (1 <= m_k cfg <= length (s_stm s))%nat -> (m_k cfg <= length (s_ltm s))%nat ->
  sam_fit cfg sam_init rows = Ok s -> all_memories cfg s x = Ok v ->
  elects (m_dist cfg) (m_k cfg) (s_stm s) x (v_stm v) /\ elects (m_dist cfg) (m_k cfg) (s_ltm s) x (v_ltm v) /\ elects (m_dist cfg) (m_k cfg) (s_stm s ++ s_ltm s) x (v_both v)
  /\ let n := length (s_stm s) in
     let right := fun which => length (filter (fun o => match o with Some true => true | _ => false end) (map (right_at cfg rows which) (seq (length rows - n) n))) in
     sam_predict cfg s [x] = Ok [if (Nat.leb (right v_ltm) (right v_stm) && Nat.leb (right v_both) (right v_stm))%bool then v_stm v else if Nat.leb (right v_both) (right v_ltm) then v_ltm v else v_both v].
Proof.
  intros cfg rows s x v U [K1 K2] K3 F E. destruct (fit_records cfg rows U s F) as (_ & R1 & R2 & R3).
  assert (C : forall h which, map Some h = kept cfg rows which (length (s_stm s)) -> correct h = length (filter (fun o => match o with Some true => true | _ => false end) (map (right_at cfg rows which) (seq (length rows - length (s_stm s)) (length (s_stm s)))))).
  { intros h which X. unfold kept in X. rewrite <- X. unfold correct. clear. induction h as [|[|] h IH]; cbn; auto. }
  cbv beta zeta. rewrite <- (C _ _ R1), <- (C _ _ R2), <- (C _ _ R3). clear C R1 R2 R3. unfold sam_predict. cbn [mapM]. rewrite U, E. cbn [bind]. unfold all_memories in E.
  destruct (Nat.eqb_spec (length (s_stm s)) 0); [lia|]. destruct (Nat.ltb_spec (length (s_stm s)) (m_k cfg)); [lia|]. destruct (Nat.leb_spec (m_k cfg) (length (s_ltm s))); [|lia].
  apply bind_Ok in E as (ps & E1 & E). apply bind_Ok in E as (pb & E2 & E). apply bind_Ok in E as (pl & E3 & E). injection E as <-. cbn [v_stm v_ltm v_both v_answer].
  split; [apply get_label_elects; auto|]. split; [apply get_label_elects; auto|]. split.
  { apply get_label_elects; auto. unfold distances in *. rewrite !map_app. exact E2. }
  do 2 f_equal. unfold choice. destruct (Nat.ltb_spec (correct (s_hs s)) (correct (s_hl s))), (Nat.leb_spec (correct (s_hl s)) (correct (s_hs s))); try lia; cbn [andb];
  destruct (Nat.ltb_spec (correct (s_hl s)) (correct (s_hc s))), (Nat.leb_spec (correct (s_hc s)) (correct (s_hl s))); try lia;
  destruct (Nat.ltb_spec (correct (s_hs s)) (correct (s_hc s))), (Nat.leb_spec (correct (s_hc s)) (correct (s_hs s))); try lia; reflexivity.
Qed.

Section Any.
Context {T : Type} {N : Num T} (cfg : sam_config T).
(** C261: the short-term memory holds the last samples of the stream, in order; without use_ltm the long-term memory stays empty; splitting
    the stream in batches changes nothing. *)
Theorem sam_stm_is_recent : forall rows (s : sam T), sam_fit cfg sam_init rows = Ok s -> exists old, rows = old ++ s_stm s.
Proof. intros rows s E. destruct (fit_suffix cfg rows sam_init s [] E) as (p & X); [exists []; auto|]. exists p. exact X. Qed.
Theorem sam_without_ltm : forall rows (s : sam T), m_use cfg = false -> sam_fit cfg sam_init rows = Ok s -> s_ltm s = [].
Proof. intros rows s U E. eapply fit_no_ltm; eauto. reflexivity. Qed.
Theorem sam_batches : forall a b (s : sam T), sam_fit cfg s (a ++ b) = (s' <- sam_fit cfg s a ;; sam_fit cfg s' b).
Proof. intros a b s. apply fit_app. Qed.
(** C262: predict never fails, whatever the classifier was trained on, and answers one label per row, each as if it were alone. *)
Theorem sam_predict_total : forall (s : sam T) xs, exists ys, sam_predict cfg s xs = Ok ys /\ length ys = length xs.
Proof. intros s xs. destruct (predict_total cfg s xs) as (ys & E). exists ys. split; auto. eapply mapM_ok_len; eauto. Qed.
Theorem sam_predict_rows : forall (s : sam T) a b, sam_predict cfg s (a ++ b) = (x <- sam_predict cfg s a ;; y <- sam_predict cfg s b ;; Ok (x ++ y)).
Proof. intros s a b. apply mapM_app. Qed.
End Any.

(** C263: both memories together hold at most max_window_size samples, if the number of different labels is at most the share of the
    long-term memory; without long-term memory that condition is not needed. *)
Theorem sam_size_bounded_partial : forall cfg rows s, standard cfg -> (m_use cfg = true -> few cfg (map snd rows)) -> sam_fit cfg sam_init rows = Ok s ->
  (length (s_stm s) + length (s_ltm s) <= m_max cfg)%nat.
Proof. intros cfg rows s St F E. pose proof (fit_bounded cfg St rows F) as B. rewrite E in B. apply B. Qed.
Definition numbered (n : nat) : list (list Q * Z) := map (fun i => ([inject_Z (Z.of_nat i * Z.of_nat i)], Z.of_nat i)) (seq 0 n).
Theorem sam_size_bounded_refuted : exists s, sam_fit (q_sam true MaxACC 4 10 1) sam_init (numbered 8) = Ok s /\ m_max (q_sam true MaxACC 4 10 1) = 4%nat /\ (length (s_stm s) + length (s_ltm s) = 8)%nat
  /\ sam_fit (q_sam true MaxACC 4 10 1) sam_init (numbered 9) = Raise IndexError.
Proof. eexists. split; [vm_compute; reflexivity|]. split; [reflexivity|]. split; vm_compute; reflexivity. Qed.
(** C264: under the same condition training never fails with stm_size_option='maxACC' and min_stm_size at least 1. *)
Theorem sam_fit_total_partial : forall cfg rows, standard cfg -> (m_use cfg = true -> few cfg (map snd rows)) -> m_opt cfg = MaxACC -> (1 <= m_min cfg)%nat ->
  exists s, sam_fit cfg sam_init rows = Ok s.
Proof. intros cfg rows St F O M. pose proof (fit_bounded cfg St rows F) as B. destruct (sam_fit cfg sam_init rows) as [s|e]; [eauto|]. exfalso. apply B. split; auto. Qed.
(** With stm_size_option=None, documented as a fixed sliding window, training fails on the sample after max_window_size. *)
Theorem sam_fixed_window_refuted : forall (cfg : sam_config R) rows, (0 <= m_ltm cfg <= 1)%R -> m_trunc cfg = Rtrunc -> m_opt cfg = NoAdaption ->
  if Nat.leb (length rows) (m_max cfg) then exists s, sam_fit cfg sam_init rows = Ok s /\ s_stm s = rows else sam_fit cfg sam_init rows = Raise AttributeError.
Proof.
  intros cfg rows L01 Tr O. assert (A : adapts cfg = false) by (unfold adapts; rewrite O; auto).
  set (Q := fun (rows : list (list R * Z)) (s : sam R) => s_stm s = rows /\ s_ltm s = [] /\ (m_use cfg = true -> recorded s)).
  enough (G : forall rows, if Nat.leb (length rows) (m_max cfg) then exists s, sam_fit cfg sam_init rows = Ok s /\ Q rows s else sam_fit cfg sam_init rows = Raise AttributeError).
  { specialize (G rows). destruct (Nat.leb _ _); auto. destruct G as (s & E & (H & _)). eauto. }
  clear rows. intros rows. induction rows as [|(x, y) rows IH] using rev_ind; [cbn; eexists; split; [reflexivity|]; repeat split; auto|].
  rewrite app_length. cbn [length]. rewrite fit_app. destruct (Nat.leb_spec (length rows) (m_max cfg)) as [Lr|Lr]; [|destruct (Nat.leb_spec (length rows + 1) (m_max cfg)); [lia|]; rewrite IH; reflexivity].
  destruct IH as (s & -> & S1 & S2 & S3). cbn [bind sam_fit foldM fst snd]. unfold sam_learn. set (a := if m_use cfg then _ else _).
  assert (Ha : exists s1, a = Ok s1 /\ s_stm s1 = rows /\ s_ltm s1 = [] /\ (m_use cfg = true -> length (s_hs s1) = S (length rows) /\ length (s_hl s1) = S (length rows) /\ length (s_hc s1) = S (length rows))).
  { unfold a. destruct (m_use cfg) eqn:U; [|exists s; repeat split; auto; discriminate]. destruct (all_memories_total cfg s x) as (v & ->). cbn [bind]. eexists. split; [reflexivity|]. cbn [s_stm s_ltm s_hs s_hl s_hc].
    destruct (S3 eq_refl) as (R1 & R2 & R3). split; auto. split; auto. intros _. rewrite !app_length, R1, R2, R3, S1. cbn. lia. }
  destruct Ha as (s1 & -> & T1 & T2 & T3). cbn [bind]. unfold size_check.
  assert (Idle : (length rows + 1 <= m_max cfg)%nat -> forall s2, s_stm s2 = rows ++ [(x, y)] -> s_ltm s2 = [] -> (if m_use cfg then size_ltm cfg s2 else fade_out cfg s2) = Ok (s2, false)).
  { intros L s2 X1 X2. destruct (m_use cfg); [apply size_ltm_idle|unfold fade_out; rewrite over]; rewrite X1, ?X2, app_length; cbn [length]; [lia|]. destruct (Nat.ltb_spec (m_max cfg) (length rows + 1)); [lia|auto]. }
  destruct (Nat.leb_spec (length rows + 1) (m_max cfg)) as [L|L].
  - rewrite (Idle L); [|cbn [s_stm]; rewrite T1; auto|cbn [s_ltm]; auto]. cbn [bind s_stm s_ltm]. destruct (clean_samples_total cfg (s_stm s1 ++ [(x, y)]) (s_ltm s1) true) as (cl & Ec). rewrite Ec. rewrite T2 in Ec. apply clean_nil in Ec as ->. cbn [bind]. rewrite A. cbn [bind].
    eexists. split; [reflexivity|]. split; [cbn; rewrite T1; auto|]. split; [auto|]. intros U. destruct (T3 U) as (H1 & H2 & H3). unfold recorded. cbn [s_stm s_hs s_hl s_hc]. rewrite H1, H2, H3, app_length, T1. cbn. lia.
  - assert (Lm : length rows = m_max cfg) by lia. destruct (m_use cfg) eqn:U.
    + unfold size_ltm. rewrite over. cbn [s_stm s_ltm]. rewrite T1, T2, app_length. cbn [length]. destruct (Nat.ltb_spec (m_max cfg) (length rows + 1 + 0)); [|lia].
      rewrite maxLTM_R, counted_R. change (@nltb R NumR) with Rltb. destruct (Rltb (m_ltm cfg * INR (m_max cfg))%R (INR 0)) eqn:B; [apply Rltb_true in B; cbn in B; pose proof (pos_INR (m_max cfg)); nra|].
      cbv zeta. set (n := Z.to_nat _). assert (Hn : (n <= m_max cfg + 1)%nat).
      { unfold n. rewrite Tr. change (@nadd R NumR) with Rplus. change (@nsub R NumR) with Rminus. change (@n1 R NumR) with 1%R. cbn [INR]. unfold Rtrunc. pose proof (pos_INR (m_max cfg)).
        set (q := (m_ltm cfg * INR (m_max cfg))%R) in *. assert (q <= INR (m_max cfg))%R by (unfold q; nra). assert (0 <= q)%R by (unfold q; nra). destruct (Rle_dec 0 (q - 0 + 1)) as [_|C]; [|exfalso; lra].
        destruct (base_Int_part (q - 0 + 1)) as [B1 _]. apply INR_le. rewrite plus_INR. cbn [INR]. rewrite INR_IZR_INZ. destruct (Z_le_gt_dec 0 (Int_part (q - 0 + 1))); [rewrite Z2Nat.id by lia; lra|]. replace (Z.to_nat (Int_part (q - 0 + 1))) with 0%nat by lia. cbn. lra. }
      clearbody n. rewrite cut_total by (rewrite app_length; cbn; lia). cbn [bind]. unfold shift_dist. rewrite A. reflexivity.
    + unfold fade_out. rewrite over. cbn [s_stm]. rewrite T1, app_length. cbn [length]. destruct (Nat.ltb_spec (m_max cfg) (length rows + 1)); [|lia]. rewrite cut_total by (rewrite app_length; cbn; lia). cbn [bind]. unfold shift_dist. rewrite A. reflexivity.
Qed.

(** C265: a sample of the short-term memory removes those samples of a list that contradict it, and no others. *)
Theorem sam_cleaning : forall cfg (stm cl cl' : list (list R * Z)) i x y, nth_error stm i = Some (x, y) -> clean_one cfg stm cl i = Ok cl' ->
  leaves (contradicts (m_k cfg) (firstn i stm ++ skipn (S i) stm) cl x y) cl cl'.
Proof. intros. eapply clean_one_spec; eauto. Qed.
(** When a sample was learned and the memories were not too large, the long-term memory is what the new sample leaves of it. *)
Theorem sam_cleans_ltm : forall cfg (s : sam R) x y s', standard cfg -> m_use cfg = true -> (m_k cfg <= length (s_stm s))%nat -> (length (s_stm s) + length (s_ltm s) < m_max cfg)%nat ->
  sam_learn cfg s x y = Ok s' -> length (s_stm s') = S (length (s_stm s)) -> leaves (contradicts (m_k cfg) (s_stm s) (s_ltm s) x y) (s_ltm s) (s_ltm s').
Proof.
  intros cfg s x y s' St U K Sz E Ls. unfold sam_learn in E. rewrite U in E. destruct (all_memories_total cfg s x) as (v & Ev). rewrite Ev in E. cbn [bind s_stm s_ltm s_dist s_inter s_hs s_hl s_hc] in E.
  unfold size_check in E. rewrite U in E. rewrite size_ltm_idle in E by (cbn [s_stm s_ltm]; rewrite app_length; cbn [length]; lia). cbn [bind s_stm s_ltm s_dist s_inter s_hs s_hl s_hc] in E.
  apply bind_Ok in E as (ltm & Ec & E). assert (Hl : s_ltm s' = ltm).
  { destruct (adapts cfg); [|injection E as <-; auto]. apply bind_Ok in E as (d & _ & E). apply bind_Ok in E as ((m & h) & _ & E). destruct (Nat.ltb_spec m (length (s_stm s ++ [(x, y)]))) as [Lm|Lm]; [|injection E as <-; auto].
    exfalso. apply bind_Ok in E as (d2 & _ & E). apply bind_Ok in E as (hs & _ & E). apply bind_Ok in E as (hl & _ & E). apply bind_Ok in E as (hc & _ & E). apply bind_Ok in E as (old & _ & E).
    apply bind_Ok in E as ((s3 & b3) & E3 & E). injection E as <-. assert (X : exists n, s_stm s3 = skipn n (skipn (length (s_stm s ++ [(x, y)]) - m) (s_stm s ++ [(x, y)]))).
    { match type of E3 with size_ltm cfg ?a = _ => assert (E4 : size_check cfg a = Ok (s3, b3)) by (unfold size_check; rewrite U; exact E3) end. apply size_check_stm in E4 as [X _]. exact X. }
    destruct X as (n & X). rewrite X, !skipn_length, app_length in Ls. rewrite app_length in Lm. cbn [length] in *. lia. }
  rewrite Hl. unfold clean_samples in Ec. rewrite app_length in Ec. cbn [length] in Ec. destruct (Nat.ltb_spec (m_k cfg) (length (s_stm s) + 1)); [|lia]. cbn [andb] in Ec.
  destruct (Nat.eqb_spec (length (s_ltm s)) 0) as [Z|Z]; cbn [negb] in Ec.
  - injection Ec as <-. destruct (s_ltm s); [|discriminate]. exists []. split; [constructor|]. split; [|reflexivity]. intros i. cbn. split; [intros []|intros [L _]; lia].
  - cbn [foldM] in Ec. destruct (s_ltm s) as [|r rs] eqn:El; [cbn in Z; lia|]. rewrite <- El in *. apply bind_Ok in Ec as (c & Ec & X). injection X as <-.
    replace (length (s_stm s) + 1 - 1)%nat with (length (s_stm s)) in Ec by lia. assert (En : nth_error (s_stm s ++ [(x, y)]) (length (s_stm s)) = Some (x, y)) by (rewrite nth_error_app2, Nat.sub_diag by lia; auto).
    pose proof (clean_one_spec cfg _ _ _ _ _ _ En Ec) as P. rewrite firstn_app, Nat.sub_diag, firstn_O, app_nil_r, firstn_all in P. rewrite skipn_all2 in P by (rewrite app_length; cbn; lia). rewrite app_nil_r in P. exact P.
Qed.

(** C266: the new window has n/1, n/2, n/4, ... samples, at least min_stm_size, the first one with the best share of right
    interleaved tests; the distances and the results kept from earlier calls must be those of the window. *)
Theorem sam_window_choice_partial : forall cfg (stm : list (list R * Z)) h d m h', (1 <= m_min cfg)%nat -> (2 * m_min cfg <= length stm)%nat -> measured d stm ->
  (forall key p, hget h key = Some p -> first_tests (m_dist cfg) (m_k cfg) (skipn key stm) p) ->
  max_acc cfg (map snd stm) h d = Ok (m, h') ->
  exists accs c, (forall j a, nth_error accs j = Some a <-> (m_min cfg * 2 ^ j <= length stm)%nat
       /\ exists hist, all_tests (m_dist cfg) (m_k cfg) (skipn (length stm - (length stm + 2 ^ j - 1) / 2 ^ j) stm) hist /\ a = option_map (m_rnd cfg) (share_right hist))
    /\ best_at accs c /\ m = (length stm / 2 ^ c)%nat.
Proof. intros. eapply max_acc_best; eauto. Qed.
Theorem sam_distances_kept : forall T (N : Num T) (cfg : sam_config T) rows s, m_opt cfg <> NoAdaption -> sam_fit cfg sam_init rows = Ok s -> measured (s_dist s) (s_stm s).
Proof. intros T N cfg rows s O E. eapply fit_measured; eauto. unfold adapts. destruct (m_opt cfg); congruence. Qed.
(** Kept results need not belong to the window: after an odd number of samples was halved, the window is cut to two samples although all
    its three interleaved tests are right. *)
Definition halved : list (list Q * Z) := [([0%Q], 0%Z); ([0%Q], 1%Z); ([10%Q], 2%Z); ([20%Q], 1%Z); ([20%Q], 1%Z); ([20%Q], 1%Z)].
Theorem sam_window_choice_refuted : exists s s', let cfg := q_sam false MaxACC 20 2 1 in
  sam_fit cfg sam_init halved = Ok s /\ sam_learn cfg s [20%Q] 1%Z = Ok s'
  /\ all_tests false 1 (s_stm s ++ [([20%Q], 1%Z)]) [true; true; true] /\ length (s_stm s') = 2%nat.
Proof. eexists _, _. cbv zeta. split; [vm_compute; reflexivity|]. split; [vm_compute; reflexivity|]. split; vm_compute; reflexivity. Qed.

(** C267: with min_stm_size m at most n_neighbors (and n_neighbors below 2m) the short-term memory never has 2m samples: the accuracy of m
    samples is not a number and wins. *)
Section Nan.
Context {T : Type} {N : Num T} (cfg : sam_config T).
Hypothesis (O : m_opt cfg = MaxACC) (M1 : 1 <= m_min cfg) (M2 : m_min cfg <= m_k cfg < 2 * m_min cfg).
Definition plain_hist (h : hists) : Prop := h = [] \/ exists p, h = [(0, p)].
Lemma nan_size labels h d : plain_hist h -> length labels <= 2 * m_min cfg -> exists m' h', new_size cfg labels h d = Ok (m', h') /\ plain_hist h' /\ (if Nat.ltb (length labels) (2 * m_min cfg) then m' = length labels else m' = m_min cfg).
Proof.
  intros P L. unfold new_size. rewrite O. unfold max_acc. set (n := length labels) in *. destruct (Nat.ltb_spec n (2 * m_min cfg)) as [Lt|Ge]; [eauto|]. assert (En : n = 2 * m_min cfg) by lia. cbv zeta.
  assert (Ds : divisors cfg n n 1 = [1; 2]).
  { destruct n as [|n']; [lia|]. cbn [divisors]. destruct (Nat.leb_spec (m_min cfg * (2 * 1)) (S n')); [|lia]. f_equal. destruct n' as [|n'']; [lia|]. cbn [divisors]. destruct (Nat.leb_spec (m_min cfg * (2 * (2 * 1))) (S (S n''))); [lia|]. reflexivity. }
  rewrite Ds. assert (I1 : index_of n 1 = 0) by (unfold index_of; rewrite Nat.div_1_r; lia). assert (I2 : index_of n 2 = m_min cfg).
  { unfold index_of. replace (n + 2 - 1) with (1 + m_min cfg * 2) by lia. rewrite Nat.div_add by lia. cbn. lia. }
  set (h0 := filter _ h). assert (P0 : plain_hist h0).
  { unfold h0. destruct P as [->|(p & ->)]; [left; auto|]. cbn [filter fst]. destruct (stays n [1; 2] 0); [right; eauto|left; auto]. }
  clearbody h0. cbn [foldM]. rewrite I1, I2.
  assert (H0 : exists hist, match hget h0 0 with Some p => more <- test_train cfg d 0 (skipn 0 labels) (length p + m_k cfg) ;; Ok (p ++ more) | None => test_train cfg d 0 (skipn 0 labels) (m_k cfg) end = Ok hist /\ hist <> []).
  { assert (TT : exists t, test_train cfg d 0 (skipn 0 labels) (m_k cfg) = Ok t /\ t <> []).
    { destruct (test_train_total cfg M1 d 0 (skipn 0 labels) (m_k cfg)) as (t & Et); [lia|]. exists t. split; auto. unfold test_train in Et. apply mapM_ok_len in Et. rewrite seq_length in Et. cbn [skipn] in Et. fold n in Et. destruct t; [cbn in Et; lia|discriminate]. }
    destruct P0 as [->|(p & ->)]; cbn [hget Nat.eqb]; [exact TT|]. destruct p as [|b p].
    - cbn [length Nat.add app]. destruct TT as (t & -> & Nt). cbn [bind]. eauto.
    - destruct (test_train_total cfg M1 d 0 (skipn 0 labels) (length (b :: p) + m_k cfg)) as (t & ->); [lia|]. cbn [bind app]. eexists. split; [reflexivity|discriminate]. }
  destruct H0 as (hist & -> & Nh). cbn [bind]. assert (S0 : hset h0 0 hist = [(0, hist)]) by (destruct P0 as [->|(p & ->)]; reflexivity). rewrite S0. cbn [hget].
  destruct (Nat.eqb_spec 0 (m_min cfg)); [lia|]. replace (test_train cfg d (m_min cfg) (skipn (m_min cfg) labels) (m_k cfg)) with (Ok (@nil bool)).
  2: { unfold test_train. rewrite skipn_length. fold n. replace (n - m_min cfg - m_k cfg) with 0 by lia. reflexivity. }
  cbn [bind app hset]. destruct (Nat.eqb_spec 0 (m_min cfg)); [lia|]. destruct hist as [|b hist]; [congruence|]. cbn [accuracy rounded map option_map].
  unfold arg_max. cbn [first_nan bind]. cbn [Nat.ltb Nat.leb adapt]. unfold adapt_one, sorted_keys. cbn [map fst fold_right insert_nat Nat.leb foldM]. cbn [hpop filter fst Nat.eqb negb].
  destruct (Nat.eqb_spec (m_min cfg) 0); [lia|]. cbn [negb hget]. rewrite Nat.eqb_refl. cbn [bind hpop filter fst]. rewrite Nat.eqb_refl. cbn [negb hset bind nth]. eexists _, _. split; [reflexivity|]. split; [right; rewrite Nat.sub_diag; eauto|].
  rewrite En, Nat.mul_comm. apply Nat.div_mul. lia.
Qed.
Theorem sam_small_min_size_refuted : forall rows (s : sam T), sam_fit cfg sam_init rows = Ok s -> length (s_stm s) < 2 * m_min cfg.
Proof.
  intros rows s E. enough (G : length (s_stm s) < 2 * m_min cfg /\ plain_hist (s_inter s)) by apply G.
  refine (foldM_inv (fun s : sam T => length (s_stm s) < 2 * m_min cfg /\ plain_hist (s_inter s)) _ rows _ sam_init s _ E); [|cbn; split; [lia|left; auto]].
  clear s E. intros s (x, y) s' [L P] _ E. cbn [fst snd] in E. unfold sam_learn in E. assert (Ad : adapts cfg = true) by (unfold adapts; rewrite O; auto). apply bind_Ok in E as (s1 & E1 & E).
  assert (H1 : s_stm s1 = s_stm s /\ s_inter s1 = s_inter s).
  { destruct (m_use cfg); [|injection E1 as <-; auto]. apply bind_Ok in E1 as (v & _ & E1). injection E1 as <-. auto. }
  destruct H1 as [H1 H1'].
  assert (SC : forall a a' b, size_check cfg a = Ok (a', b) -> length (s_stm a') <= length (s_stm a) /\ (plain_hist (s_inter a) -> plain_hist (s_inter a'))).
  { intros a a' b Ea. split; [pose proof (size_check_stm cfg _ _ _ Ea) as [(k & ->) _]; rewrite skipn_length; lia|]. intros Pa. unfold size_check in Ea. destruct (m_use cfg).
    - unfold size_ltm in Ea. destruct (maxSTM cfg + maxLTM cfg <? _)%num; [|injection Ea as <- <-; auto]. destruct (maxLTM cfg <? _)%num; [injection Ea as <- <-; auto|].
      repeat (apply bind_Ok in Ea as (? & _ & Ea)). injection Ea as <- <-. left; auto.
    - unfold fade_out in Ea. destruct (maxSTM cfg + maxLTM cfg <? _)%num; [|injection Ea as <- <-; auto]. rewrite O in Ea. apply bind_Ok in Ea as (? & _ & Ea). apply bind_Ok in Ea as (? & _ & Ea). cbn [bind] in Ea. injection Ea as <- <-. left; auto. }
  apply bind_Ok in E as ((s2 & sh) & E2 & E). apply SC in E2 as [L2 P2]. cbn [s_stm s_inter] in L2, P2. rewrite H1, app_length in L2. rewrite H1' in P2. cbn [length] in L2. specialize (P2 P).
  apply bind_Ok in E as (ltm & _ & E). cbn [s_stm s_ltm s_dist s_inter s_hs s_hl s_hc] in E. rewrite Ad in E. apply bind_Ok in E as (d & _ & E).
  destruct (nan_size (map snd (s_stm s2)) (s_inter s2) d P2) as (m' & h' & En & Ph & Hm); [rewrite map_length; lia|]. rewrite En in E. cbn [bind] in E. rewrite map_length in Hm.
  destruct (Nat.ltb_spec m' (length (s_stm s2))) as [Lm|Lm].
  - apply bind_Ok in E as (d2 & _ & E). assert (Lk : length (skipn (length (s_stm s2) - m') (s_stm s2)) < 2 * m_min cfg) by (rewrite skipn_length; destruct (Nat.ltb_spec (length (s_stm s2)) (2 * m_min cfg)); lia).
    destruct (m_use cfg) eqn:U; [|injection E as <-; cbn [s_stm s_inter]; auto].
    apply bind_Ok in E as (? & _ & E). apply bind_Ok in E as (? & _ & E). apply bind_Ok in E as (? & _ & E). apply bind_Ok in E as (? & _ & E). apply bind_Ok in E as ((s3 & b3) & E3 & E). injection E as <-.
    apply SC in E3 as [L3 P3]. cbn [s_stm s_inter] in L3, P3. split; [lia|auto].
  - injection E as <-. cbn [s_stm s_inter]. split; auto. destruct (Nat.ltb_spec (length (s_stm s2)) (2 * m_min cfg)); lia.
Qed.
End Nan.

(** Non-vacuity *)
Definition two_classes (n : nat) : list (list Q * Z) := map (fun i => ([inject_Z (Z.of_nat (i mod 7)); inject_Z (Z.of_nat (i mod 3))], Z.of_nat (i mod 2))) (seq 0 n).
Example sam_runs : exists s, sam_fit (q_sam true MaxACC 10 3 2) sam_init (two_classes 30) = Ok s /\ length (s_stm s) + length (s_ltm s) = 7 /\ 0 < length (s_ltm s).
Proof. eexists. split; [vm_compute; reflexivity|]. vm_compute. split; [reflexivity|lia]. Qed.
Example sam_nan_runs : exists s, sam_fit (q_sam false MaxACC 10 3 3) sam_init (two_classes 30) = Ok s /\ length (s_stm s) = 3.
Proof. eexists. split; [vm_compute; reflexivity|]. vm_compute. reflexivity. Qed.
Example sam_standard : exists cfg, standard cfg /\ m_use cfg = true /\ m_opt cfg = MaxACC /\ few cfg [0%Z; 1%Z; 0%Z; 1%Z].
Proof.
  exists (mk_samc true 5 5000 (4 / 10)%R 50 MaxACC true (fun X n => firstn n X) (fun x => x) Rtrunc). split; [|split; [auto|split; [auto|]]].
  - split; [cbn; lra|]. split; [auto|]. intros X n H. cbn. rewrite firstn_length. lia.
  - unfold few. cbn [m_ltm m_max]. replace (length (nodup Z.eq_dec [0%Z; 1%Z; 0%Z; 1%Z])) with 2%nat by reflexivity. rewrite !INR_IZR_INZ. cbn. lra.
Qed.
Print Assumptions sam_stm_answer. Print Assumptions sam_best_memory. Print Assumptions sam_stm_is_recent. Print Assumptions sam_predict_total. Print Assumptions sam_size_bounded_partial.
Print Assumptions sam_size_bounded_refuted. Print Assumptions sam_fit_total_partial. Print Assumptions sam_fixed_window_refuted. Print Assumptions sam_cleaning. Print Assumptions sam_cleans_ltm. Print Assumptions sam_window_choice_partial.
Print Assumptions sam_distances_kept. Print Assumptions sam_window_choice_refuted. Print Assumptions sam_small_min_size_refuted. Print Assumptions sam_answer_is_label.
