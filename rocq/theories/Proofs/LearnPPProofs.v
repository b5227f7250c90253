(** Proofs about Learn++ (Model/LearnPP.v). *)
From Coq Require Import List ZArith Bool Arith Lia Reals Lra Psatz.
From Verif Require Import Base.Py Base.Num Model.Adwin Model.Knn Model.Generators Model.Bagging Model.Windowed Model.LearnPP
  Spec.Lists Spec.NaiveBayesSpec Spec.WindowedSpec Spec.LearnPPSpec Proofs.ListFacts Proofs.KnnProofs Proofs.WindowedProofs.
From Verif Require Proofs.MetricsScores.
Import ListNotations.
Local Open Scope R_scope.

Lemma F2_snoc_inv {A C} (P : A -> C -> Prop) l a l' : Forall2 P (l ++ [a]) l' -> exists k c, l' = k ++ [c] /\ Forall2 P l k /\ P a c.
Proof. intros H. apply Forall2_app_inv_l in H. destruct H as (k & k' & H1 & H2 & ->). inversion H2 as [|? c ? ? Pc H3]; subst. inversion H3; subst. eauto. Qed.
Lemma nonneg_sum l : Forall (fun d => 0 <= d) l -> 0 <= Rsum l.
Proof. induction 1; cbn [Rsum]; lra. Qed.
Lemma fold_sum_R (l : list R) : fold_left nadd l n0 = Rsum l.
Proof. rewrite (MetricsScores.fold_nadd_R l). unfold n0; cbn [nofZ NumR]. lra. Qed.
Lemma tiny_R : @tiny R NumR = 1 / 10 ^ 50.
Proof. unfold tiny, n1; cbn [nofZ ndiv NumR]. rewrite (pow_IZR 10 50). reflexivity. Qed.
Lemma compute_error_R D ys ps : compute_error D ys ps = weighted_error D ys ps.
Proof.
  unfold compute_error, weighted_error. rewrite !fold_sum_R. cbn [ndiv NumR]. f_equal. f_equal. apply map_ext. intros [d [y p]]; cbn [fst snd].
  destruct (Z.eqb_spec y p), (Z.eq_dec y p); try contradiction; reflexivity.
Qed.
Lemma weighted_error_nonneg D ys ps : Forall (fun d => 0 <= d) D -> 0 <= weighted_error D ys ps.
Proof.
  intros F. unfold weighted_error. assert (0 <= Rsum D) by (apply nonneg_sum; exact F).
  assert (0 <= Rsum (map (fun dyp : R * (Z * Z) => if Z.eq_dec (fst (snd dyp)) (snd (snd dyp)) then 0 else fst dyp) (combine D (combine ys ps)))).
  { apply nonneg_sum. rewrite Forall_map. apply Forall_forall. intros [d [y p]] I; cbn [fst snd]. apply in_combine_l in I. rewrite Forall_forall in F; specialize (F d I). destruct (Z.eq_dec y p); lra. }
  destruct (Req_dec (Rsum D) 0) as [E|E]; [rewrite E; unfold Rdiv; rewrite Rinv_0; lra|]. apply Rmult_le_pos; [assumption|]. left; apply Rinv_0_lt_compat; lra.
Qed.
Lemma at_index_ok {A} (l : list A) idx sub : at_index l idx = Ok sub -> length sub = length idx /\ Forall2 (fun i v => nth_error l i = Some v) idx sub.
Proof.
  unfold at_index. revert sub; induction idx as [|i idx IH]; intros sub H; cbn [mapM] in H; [injection H as <-; split; [reflexivity|constructor]|].
  apply bind_Ok in H; destruct H as [r [E H]]. apply bind_Ok in H; destruct H as [rs [E2 H]]. injection H as <-.
  destruct (IH _ E2) as [H1 H2]. split; [cbn [length]; congruence|]. constructor; [|exact H2]. destruct (nth_error l i); [injection E as ->; reflexivity|discriminate].
Qed.
Lemma at_index_total {A} (l : list A) idx : Forall (fun i => (i < length l)%nat) idx -> exists sub, at_index l idx = Ok sub.
Proof.
  induction 1 as [|i idx H F [sub IH]]; [exists []; reflexivity|]. unfold at_index in *; cbn [mapM].
  destruct (nth_error l i) as [r|] eqn:E; [|apply nth_error_None in E; lia]. cbn [bind]. rewrite IH; cbn [bind]. eauto.
Qed.
Lemma at_index_in {A} (l : list A) idx sub : at_index l idx = Ok sub -> forall r, In r sub -> In r l.
Proof.
  intros H r I. apply at_index_ok in H; destruct H as [_ H]. induction H as [|i v idx sub E F IH]; [contradiction|]. destruct I as [<-|I]; [eapply nth_error_In; exact E|auto].
Qed.

Section Votes.
Context {X B : Type} (L : wlearner X R B).
Lemma py_get_nonneg {A} (l : list A) c v : (0 <= c)%Z -> py_get l c = Ok v -> (c < Z.of_nat (length l))%Z.
Proof.
  intros H E. unfold py_get, py_index in E. destruct (Z.leb_spec 0 c); [|lia]. destruct (Z.ltb_spec c (Z.of_nat (length l))); [assumption|]. cbn [andb] in E.
  destruct (Z.ltb_spec c 0); [lia|]. discriminate.
Qed.
Definition tally_from (K : nat) (members : list (B * R)) (answers : list Z) (row0 row : list R) : Prop := length row = K /\
  forall j, (j < K)%nat -> nth j row 0 = nth j row0 0 + Rsum (map (fun ba => if Z.eq_dec (snd ba) (Z.of_nat j) then vote_weight (snd (fst ba)) else 0) (combine members answers)).
Lemma lp_votes_ok K x members : nonneg_answers L -> forall row0 row, length row0 = K -> lp_votes L members x row0 = Ok row ->
  exists answers, Forall2 (fun be a => wl_predict L (fst be) [x] = Ok [a] /\ (0 <= a < Z.of_nat K)%Z) members answers /\ tally_from K members answers row0 row.
Proof.
  intros NN; unfold lp_votes; induction members as [|[b e] members IH]; intros row0 row Lr H; cbn [foldM] in H.
  - injection H as <-. exists []; split; [constructor|]. split; [exact Lr|]. intros j _; cbn [combine map Rsum]; lra.
  - apply bind_Ok in H; destruct H as [row1 [H1 H]]. apply bind_Ok in H1; destruct H1 as [p [Ep H1]]. cbn [fst snd] in *.
    unfold labels_of in Ep. apply bind_Ok in Ep; destruct Ep as [q [Eq Ep]]. destruct (Nat.eqb_spec (length q) (length [x])) as [G|G]; [|discriminate]. injection Ep as <-.
    destruct q as [|c [|? ?]]; try discriminate. specialize (NN b [x] [c] Eq). inversion NN as [|? ? Nc _]; subst.
    apply bind_Ok in H1; destruct H1 as [v [Ev H1]]. assert (Hc := py_get_nonneg _ _ _ Nc Ev).
    rewrite (py_get_in _ _ 0) in Ev by lia. injection Ev as <-. rewrite py_set_in in H1 by lia. injection H1 as <-.
    apply IH in H; [|rewrite set_nth_len; reflexivity]. destruct H as (answers & F & Lr & V).
    exists (c :: answers). split; [constructor; [split; [exact Eq|lia]|exact F]|]. split; [exact Lr|]. intros j Hj. rewrite V by exact Hj.
    rewrite set_nth_nth by lia. cbn [combine map Rsum fst snd].
    unfold vote_weight. unfold tiny, n1; cbn [nadd ndiv nln nofZ NumR]. rewrite (pow_IZR 10 50). change (10 ^ Z.of_nat 50)%Z with (Z.pow_pos 10 50).
    change (10 ^ 50)%Z with (Z.pow_pos 10 50).
    destruct (Nat.eqb_spec (Z.to_nat c) j) as [E|E], (Z.eq_dec c (Z.of_nat j)) as [E2|E2]; try lia; [subst j|]; lra.
Qed.
Lemma nth_no_votes K j : nth j (@no_votes R NumR K) 0 = 0.
Proof.
  unfold no_votes. destruct (Nat.lt_ge_cases j K) as [H|H]; [|apply nth_overflow; rewrite repeat_length; exact H].
  rewrite (nth_indep _ 0 (@n0 R NumR)) by (rewrite repeat_length; exact H). rewrite nth_repeat. reflexivity.
Qed.
Lemma votes_voted K x members row c : nonneg_answers L -> lp_votes L members x (no_votes K) = Ok row -> np_argmax row = Ok c -> voted L K members x c.
Proof.
  intros NN H A. apply (lp_votes_ok K) in H; [|exact NN|apply repeat_length]. destruct H as (answers & F & Lr & V). exists answers, row. split; [exact F|]. split.
  - split; [exact Lr|]. intros j Hj; rewrite V, nth_no_votes by exact Hj. lra.
  - destruct row as [|v r]; [discriminate|]. destruct (np_argmax_ok (v :: r)) as (c' & A' & Fm); [discriminate|]. rewrite A in A'; injection A' as <-. exact Fm.
Qed.
Lemma majority_ok K members xs c : nonneg_answers L -> majority L K members xs = Ok c -> exists cs, c = map Z.of_nat cs /\ Forall2 (voted L K members) xs cs.
Proof.
  intros NN; unfold majority. revert c; induction xs as [|x xs IH]; intros c H; cbn [mapM] in H; [injection H as <-; exists []; split; [reflexivity|constructor]|].
  apply bind_Ok in H; destruct H as [l [H1 H]]. apply bind_Ok in H; destruct H as [ls [H2 H]]. injection H as <-.
  apply bind_Ok in H1; destruct H1 as [row [E1 H1]]. apply bind_Ok in H1; destruct H1 as [a [E2 H1]]. injection H1 as <-.
  destruct (IH _ H2) as (cs & -> & F). exists (a :: cs); split; [reflexivity|]. constructor; [|exact F]. eapply votes_voted; eauto.
Qed.
Lemma below_nonneg {T} (L' : wlearner X T B) K : answers_below L' K -> nonneg_answers L'.
Proof. intros [_ H] b xs p E. destruct (H b xs) as (q & E2 & _ & F). rewrite E in E2; injection E2 as <-. eapply Forall_impl; [|exact F]; cbn; intros; lia. Qed.
Lemma lp_votes_total K x members : answers_below L K -> forall row0, length row0 = K -> exists row, lp_votes L members x row0 = Ok row /\ length row = K.
Proof.
  intros [_ A]; unfold lp_votes; induction members as [|[b e] members IH]; intros row0 Lr; cbn [foldM]; [eauto|].
  destruct (A b [x]) as (p & E & Lp & F). cbn [fst snd]. rewrite (labels_of_ok L b [x] p E Lp); cbn [bind]. destruct p as [|c p]; [discriminate|]. inversion F as [|? ? Hc _]; subst.
  rewrite (py_get_in _ _ 0) by lia. cbn [bind]. rewrite py_set_in by lia. apply IH. rewrite set_nth_len; reflexivity.
Qed.
Lemma majority_total K members xs : (0 < K)%nat -> answers_below L K -> exists c, majority L K members xs = Ok c /\ length c = length xs.
Proof.
  intros HK A. unfold majority. induction xs as [|x xs (c & IH & Lc)]; [exists []; split; reflexivity|]. cbn [mapM].
  destruct (lp_votes_total K x members A (no_votes K) (repeat_length _ _)) as (row & -> & Lr). cbn [bind].
  destruct (np_argmax_ok row) as (a & -> & _); [destruct row; cbn in Lr; [lia|discriminate]|]. cbn [bind]. rewrite IH; cbn [bind]. eexists; split; [reflexivity|cbn [length]; congruence].
Qed.
End Votes.

Section Fit.
Context {X B G : Type} (L : wlearner X R B) (base : B) (threshold : R) (n_estimators n_ensembles w : nat) (seed : G) (choose : list R -> nat -> G -> res (list nat * G)).
Hypothesis Fair : fair_choice choose.
Definition nonneg (D : list R) := Forall (fun d => 0 <= d) D.
Lemma draw_ok {A} (rows : list A) D n g idx g' sub : distribution D -> length D = length rows -> choose D n g = Ok (idx, g') -> at_index rows idx = Ok sub ->
  length sub = n /\ forall Dt, at_index D idx = Ok Dt -> length Dt = n /\ Forall (fun d => 0 < d) Dt.
Proof.
  intros Di Ld C H. destruct (Fair D n g Di) as (i2 & g2 & C2 & Ln & F). rewrite C in C2; injection C2 as <- <-.
  apply at_index_ok in H; destruct H as [H1 _]. split; [congruence|]. intros Dt Ht. apply at_index_ok in Ht; destruct Ht as [T1 T2]. split; [congruence|].
  clear - T2 F. induction T2 as [|i v idx sub E T2 IH]; [constructor|]. inversion F as [|? ? [Fa Fb] F2]; subst. constructor; [|auto].
  rewrite (nth_error_nth _ _ 0 E) in Fb; exact Fb.
Qed.
Lemma attempt_ok K rows last done cur D g cur' D' total g' : nonneg_answers L -> threshold <= 1 -> distribution D -> length D = length rows ->
  attempt L threshold choose K rows last done cur D g = Ok (cur', D', total, g') ->
  (threshold <= total /\ D' = D) \/
  (total < threshold /\ tested L threshold rows cur' /\ approved L threshold K rows (done ++ [cur']) /\ nonneg D' /\ length D' = length rows).
Proof.
  intros NN Th Di Ld H. unfold attempt in H; cbv zeta in H. apply bind_Ok in H; destruct H as [[tri g1] [C1 H]]. apply bind_Ok in H; destruct H as [[tei g2] [C2 H]].
  apply bind_Ok in H; destruct H as [train [E1 H]]. apply bind_Ok in H; destruct H as [test [E2 H]]. apply bind_Ok in H; destruct H as [b [E3 H]].
  apply bind_Ok in H; destruct H as [p [E4 H]]. apply bind_Ok in H; destruct H as [Dt [E5 H]].
  destruct (draw_ok rows D _ _ _ _ _ Di Ld C2 E2) as [Lt Dts]. destruct (Dts Dt E5) as [LDt PDt].
  unfold labels_of in E4. apply bind_Ok in E4; destruct E4 as [q [E4 Eq]]. destruct (Nat.eqb_spec (length q) (length (map fst test))) as [Lq|Lq]; [|discriminate]. injection Eq as ->. rewrite map_length in Lq.
  rewrite !compute_error_R in H. set (E := weighted_error Dt (map snd test) p) in *. cbn [nltb NumR] in H. revert H; rdes; intros H; [|injection H as <- <- <- <-; left; split; [lra|reflexivity]].
  apply bind_Ok in H; destruct H as [c [Em H]]. rewrite !compute_error_R in H. set (E' := weighted_error D (map snd rows) c) in *. 
  assert (Ts : tested L threshold rows (b, (E / (1 - E)))).
  { exists Dt, test, p, E. cbn [fst snd]. split; [exact Lt|]. split; [congruence|]. split; [exact PDt|]. split; [apply (at_index_in _ _ _ E2)|]. split; [exact E4|]. split; [exact Lq|].
    split; [reflexivity|]. split; [split; [|assumption]|reflexivity]. apply weighted_error_nonneg. eapply Forall_impl; [|exact PDt]; cbn; intros; lra. }
  revert H; rdes; intros H; injection H as <- <- <- <-; [right|left; split; [lra|reflexivity]]. split; [lra|]. split; [exact Ts|].
  cbn [ndiv nsub NumR n1] in Em. unfold n1 in Em; cbn [nofZ NumR] in Em.
  apply majority_ok in Em; [|exact NN]. destruct Em as (cs & Ec & Fv). split.
  - exists D, cs. split; [exact Di|]. split; [exact Ld|]. split; [|unfold E' in *; rewrite Ec in *; assumption].
    clear - Fv. remember (map fst rows) as xs eqn:Ex. revert rows Ex. induction Fv as [|x l xs cs Hv Fv IH]; intros [|r rows] Ex; try discriminate; [constructor|]. cbn [map] in Ex; injection Ex as -> ->. constructor; [exact Hv|apply IH; reflexivity].
  - destruct last; [split; [apply Di|exact Ld]|]. destruct Di as [Dn _]. assert (0 <= E') by (apply weighted_error_nonneg; exact Dn).
    assert (Fl : 0 <= E' / (1 - E')) by (apply Rmult_le_pos; [lra|left; apply Rinv_0_lt_compat; lra]).
    split.
    + unfold nonneg. rewrite Forall_map. apply Forall_forall. intros [d [y q]] I; cbn [fst snd]. apply in_combine_l in I. unfold nonneg in Dn; rewrite Forall_forall in Dn; specialize (Dn d I). cbn beta in Dn.
      cbn [ndiv nsub nmul NumR n1]. unfold n1; cbn [nofZ NumR]. destruct (Z.eqb y q); [apply Rmult_le_pos; assumption|exact Dn].
    + assert (Lc : length c = length rows) by (rewrite Ec, map_length; rewrite <- (F2_len _ _ _ Fv); apply map_length).
      rewrite map_length, !combine_length, map_length, Lc. lia.
Qed.
Lemma attempts_ok fuel K rows last done : nonneg_answers L -> threshold <= 1 -> forall cur D g patience cur' D' g', distribution D -> length D = length rows ->
  attempts L threshold choose fuel K rows last done cur D g patience = Ret (cur', D', g') ->
  tested L threshold rows cur' /\ approved L threshold K rows (done ++ [cur']) /\ nonneg D' /\ length D' = length rows.
Proof.
  intros NN Th; induction fuel as [|fuel IH]; intros cur D g patience cur' D' g' Di Ld H; cbn [attempts] in H; [discriminate|].
  destruct (attempt L threshold choose K rows last done cur D g) as [[[[cur1 D1] total] g1]|] eqn:E; [|discriminate].
  apply attempt_ok in E; auto. cbv zeta in H. destruct (Nat.ltb 1000 _); [discriminate|]. cbn [nleb NumR] in H. revert H; rdes; intros H.
  - destruct E as [[_ ->]|[Ht _]]; [|lra]. eapply IH; eauto.
  - destruct E as [[Ht _]|(_ & E)]; [lra|]. injection H as <- <- <-. exact E.
Qed.
Lemma scale_distribution D : nonneg D -> Rsum D <> 0 -> distribution (map (fun d => d / Rsum D) D).
Proof.
  intros Nn Ne. assert (0 < Rsum D) by (pose proof (nonneg_sum D Nn); lra). split.
  - rewrite Forall_map. eapply Forall_impl; [|exact Nn]. cbn. intros d Hd. apply Rmult_le_pos; [exact Hd|left; apply Rinv_0_lt_compat; lra].
  - assert (Q : forall l k, Rsum (map (fun d => d / k) l) = Rsum l / k) by (intros l k; induction l as [|a l IH]; cbn [map Rsum]; [unfold Rdiv; lra|rewrite IH; unfold Rdiv; lra]).
    rewrite Q. field; exact Ne.
Qed.
Lemma members_ok fuel K rows : nonneg_answers L -> forall todo done D g ens g', nonneg D -> length D = length rows ->
  (forall k be, nth_error done k = Some be -> tested L threshold rows be /\ approved L threshold K rows (firstn (S k) done)) ->
  members_loop L base threshold choose fuel K rows todo done D g = Ret (ens, g') ->
  (length ens <= length done + todo)%nat /\ forall k be, nth_error ens k = Some be -> tested L threshold rows be /\ approved L threshold K rows (firstn (S k) ens).
Proof.
  intros NN; induction todo as [|todo IH]; intros done D g ens g' Nn Ld Hd H; cbn [members_loop] in H; [injection H as <- <-; split; [lia|exact Hd]|].
  cbv zeta in H. rewrite fold_sum_R in H. unfold n0 in H; cbn [neqb nofZ NumR] in H. revert H; rdes; intros H; [injection H as <- <-; split; [lia|exact Hd]|].
  unfold n1 in H; cbn [nleb nofZ NumR ndiv] in H.
  assert (Di : distribution (map (fun d => d / Rsum D) D)) by (apply scale_distribution; assumption).
  revert H; rdes; intros H.
  - destruct (attempts _ _ _ _ _ _ _ _ _ _ _ _) as [[[cur' D'] g1]| |] eqn:Ea; [|discriminate|discriminate].
    apply attempts_ok in Ea; auto; [|rewrite map_length; exact Ld]. destruct Ea as (T1 & A1 & N1 & L1).
    apply IH in H; auto.
    + destruct H as [H1 H2]; split; [rewrite app_length in H1; cbn [length] in H1; lia|exact H2].
    + intros k be Hk. destruct (Nat.lt_ge_cases k (length done)) as [Hl|Hl].
      * rewrite nth_error_app1 in Hk by exact Hl. rewrite firstn_app. replace (S k - length done)%nat with 0%nat by lia. rewrite firstn_O, app_nil_r. apply Hd; exact Hk.
      * rewrite nth_error_app2 in Hk by exact Hl. destruct (k - length done)%nat as [|n] eqn:Ek; [|destruct n; discriminate]. cbn in Hk; injection Hk as <-.
        split; [exact T1|]. rewrite firstn_all2; [exact A1|rewrite app_length; cbn [length]; lia].
  - apply IH in H; auto; [|apply Di|rewrite map_length; exact Ld]. destruct H as [H1 H2]; split; [lia|exact H2].
Qed.
Lemma attempt_trained K rows last done cur D g cur' D' total g' : distribution D -> length D = length rows -> fst cur = base \/ half_trained L base rows (fst cur) ->
  attempt L threshold choose K rows last done cur D g = Ok (cur', D', total, g') -> half_trained L base rows (fst cur').
Proof.
  intros Di Ld Hc H. unfold attempt in H; cbv zeta in H. apply bind_Ok in H; destruct H as [[tri g1] [C1 H]]. apply bind_Ok in H; destruct H as [[tei g2] [C2 H]].
  apply bind_Ok in H; destruct H as [train [E1 H]]. apply bind_Ok in H; destruct H as [test [E2 H]]. apply bind_Ok in H; destruct H as [b [E3 H]].
  pose proof (draw_ok rows D _ _ _ _ _ Di Ld C1 E1) as [Lt _]. pose proof (at_index_in _ _ _ E1) as It.
  assert (Tb : half_trained L base rows b) by (destruct Hc as [Hc|Hc]; [rewrite Hc in E3; exact (trained_first L base rows train b Lt It E3)|exact (trained_again L base rows train (fst cur) b Hc Lt It E3)]).
  apply bind_Ok in H; destruct H as [p [E4 H]]. apply bind_Ok in H; destruct H as [Dt [E5 H]]. destruct (_ <? threshold)%num; [|injection H as <- <- <- <-; exact Tb].
  apply bind_Ok in H; destruct H as [c [Em H]]. destruct (_ <? threshold)%num; injection H as <- <- <- <-; exact Tb.
Qed.
Lemma attempts_trained fuel K rows last done : nonneg_answers L -> threshold <= 1 -> forall cur D g patience cur' D' g', distribution D -> length D = length rows -> fst cur = base \/ half_trained L base rows (fst cur) ->
  attempts L threshold choose fuel K rows last done cur D g patience = Ret (cur', D', g') -> half_trained L base rows (fst cur').
Proof.
  intros NN Th; induction fuel as [|fuel IH]; intros cur D g patience cur' D' g' Di Ld Hc H; cbn [attempts] in H; [discriminate|].
  destruct (attempt L threshold choose K rows last done cur D g) as [[[[cur1 D1] total] g1]|] eqn:E; [|discriminate]. pose proof (attempt_trained _ _ _ _ _ _ _ _ _ _ _ Di Ld Hc E) as T1.
  apply attempt_ok in E; auto. cbv zeta in H. destruct (Nat.ltb 1000 _); [discriminate|]. cbn [nleb NumR] in H. revert H; rdes; intros H.
  - destruct E as [[_ ->]|[Ht _]]; [|lra]. eapply IH; [exact Di|exact Ld|right; exact T1|exact H].
  - injection H as <- <- <-. exact T1.
Qed.
Lemma members_trained fuel K rows : nonneg_answers L -> forall todo done D g ens g', nonneg D -> length D = length rows -> Forall (fun be => half_trained L base rows (fst be)) done ->
  members_loop L base threshold choose fuel K rows todo done D g = Ret (ens, g') -> Forall (fun be => half_trained L base rows (fst be)) ens.
Proof.
  intros NN; induction todo as [|todo IH]; intros done D g ens g' Nn Ld Hd H; cbn [members_loop] in H; [injection H as <- <-; exact Hd|].
  cbv zeta in H. rewrite fold_sum_R in H. unfold n0 in H; cbn [neqb nofZ NumR] in H. revert H; rdes; intros H; [injection H as <- <-; exact Hd|].
  unfold n1 in H; cbn [nleb nofZ NumR ndiv] in H.
  assert (Di : distribution (map (fun d => d / Rsum D) D)) by (apply scale_distribution; assumption). assert (Ld' : length (map (fun d => d / Rsum D) D) = length rows) by (rewrite map_length; exact Ld).
  revert H; rdes; intros H; [|eapply IH in H; [exact H|apply Di|exact Ld'|exact Hd]].
  destruct (attempts _ _ _ _ _ _ _ _ _ _ _ _) as [[[cur' D'] g1]| |] eqn:Ea; [|discriminate|discriminate].
  pose proof (attempts_ok _ _ _ _ _ NN ltac:(assumption) _ _ _ _ _ _ _ Di Ld' Ea) as (_ & _ & N1 & L1). apply attempts_trained in Ea; auto.
  eapply IH in H; eauto. apply Forall_app; split; [exact Hd|]. constructor; [exact Ea|constructor].
Qed.
Lemma fit_batch_ok fuel K rows g ens g' : nonneg_answers L -> fit_batch L base threshold n_estimators choose fuel K rows g = Ret (ens, g') -> built L base threshold n_estimators K rows ens.
Proof.
  intros NN H. unfold fit_batch in H.
  assert (U : nonneg (map (fun _ => (n1 / nofZ (Z.of_nat (length rows)))%num) rows)).
  { unfold nonneg. rewrite Forall_map. apply Forall_forall; intros r I. unfold n1; cbn [nofZ ndiv NumR]. assert (0 <= IZR (Z.of_nat (length rows))) by (apply IZR_le; lia).
    destruct (Req_dec (IZR (Z.of_nat (length rows))) 0) as [E|E]; [rewrite E; unfold Rdiv; rewrite Rinv_0; lra|]. apply Rmult_le_pos; [lra|left; apply Rinv_0_lt_compat; lra]. }
  pose proof (members_trained _ _ _ NN _ _ _ _ _ _ U (map_length _ _) (Forall_nil _) H) as Tr. apply members_ok in H; auto; [|apply map_length|intros k be Hk; destruct k; discriminate].
  destruct H as [H1 H2]. split; [exact H1|]. split; [exact Tr|exact H2].
Qed.
(** *** The windows *)
Hypothesis W : (0 < w)%nat.
Definition lpp_ok (rows : list (X * Z)) (s : lpp X R B G) : Prop := exists ws, cut w rows ws (lp_win s) /\
  match lp_classes s with None => rows = [] /\ lp_ens s = [] | Some cl => Forall2 (built L base threshold n_estimators (length cl)) (lastn n_ensembles ws) (lp_ens s) end.
Lemma lastn_snoc {A} n (l : list A) a : lastn n (l ++ [a]) = match n with O => [] | S k => lastn k l ++ [a] end.
Proof.
  destruct n as [|n]; [apply lastn_0|]. rewrite (lastn_app_l (S n) l [a]) by (cbn [length]; lia). cbn [length]. rewrite Nat.sub_succ, Nat.sub_0_r. reflexivity.
Qed.
Lemma tl_lastn {A} n (l : list A) : (n < length l)%nat -> tl (lastn (S n) l) = lastn n l.
Proof.
  intros H; unfold lastn. replace (length l - n)%nat with (S (length l - S n)) by lia. generalize (length l - S n)%nat; intros i; clear H. revert l; induction i as [|i IH]; intros [|a l]; cbn [skipn tl]; auto. destruct l; reflexivity || apply IH.
Qed.
Lemma F2_tl {A C} (P : A -> C -> Prop) l l' : Forall2 P l l' -> Forall2 P (tl l) (tl l').
Proof. intros []; cbn [tl]; auto. Qed.
Lemma evict_ok {A C} (P : A -> C -> Prop) n ws win (l : list C) x : Forall2 P (lastn n ws) l -> P win x ->
  Forall2 P (lastn n (ws ++ [win])) (if Nat.ltb n (length (l ++ [x])) then tl (l ++ [x]) else l ++ [x]).
Proof.
  intros F Px. pose proof (F2_len _ _ _ F) as Lf; rewrite lastn_length in Lf. rewrite app_length; cbn [length].
  assert (F2 : Forall2 P (lastn n ws ++ [win]) (l ++ [x])) by (apply F2_app; [exact F|constructor; [exact Px|constructor]]).
  destruct (Nat.ltb_spec n (length l + 1)) as [Hg|Hg].
  - assert (E : (n <= length ws)%nat) by lia. replace (lastn n (ws ++ [win])) with (tl (lastn n ws ++ [win])); [apply F2_tl; exact F2|].
    rewrite lastn_snoc. destruct n as [|n]; [rewrite lastn_0; reflexivity|]. destruct (lastn (S n) ws) as [|y r] eqn:Ey; [apply (f_equal (@length _)) in Ey; rewrite lastn_length in Ey; cbn [length] in Ey; lia|].
    cbn [app tl]. f_equal. rewrite <- tl_lastn by lia. rewrite Ey; reflexivity.
  - rewrite lastn_all by (rewrite app_length; cbn [length]; lia). rewrite lastn_all in F2 by lia. exact F2.
Qed.
Lemma lpp_rows_ok fuel cl rows2 : nonneg_answers L -> forall rows s s', lp_classes s = Some cl -> lpp_ok rows s ->
  lpp_rows L base threshold n_estimators n_ensembles w choose fuel (length cl) rows2 s = (s', Done) -> lpp_ok (rows ++ rows2) s' /\ lp_classes s' = Some cl.
Proof.
  intros NN; induction rows2 as [|row rows2 IH]; intros rows s s' Ec (ws & C & K0) H; cbn [lpp_rows] in H; [injection H as <-; rewrite app_nil_r; split; [exists ws; auto|exact Ec]|].
  cbv zeta in H. rewrite Ec in K0. destruct (Nat.eqb_spec (length (lp_win s ++ [row])) w) as [E|E].
  - destruct (fit_batch _ _ _ _ _ _ _ _ _) as [[ens g]| |] eqn:Ef; [|discriminate|discriminate].
    apply (IH (rows ++ [row])) in H; [rewrite <- app_assoc in H; exact H|exact Ec|]. exists (ws ++ [lp_win s ++ [row]]). split; [apply cut_full; auto|]. cbn [lp_classes lp_ens]. rewrite Ec.
    apply evict_ok; [exact K0|]. eapply fit_batch_ok; eauto.
  - apply (IH (rows ++ [row])) in H; [rewrite <- app_assoc in H; exact H|exact Ec|]. exists ws; split; [apply cut_more; auto|]. cbn [lp_classes lp_ens]. rewrite Ec. exact K0.
Qed.
Lemma lpp_fit_ok fuel rows rows2 classes s s' : nonneg_answers L -> lpp_ok rows s ->
  lpp_partial_fit L base threshold n_estimators n_ensembles w choose fuel rows2 classes s = (s', Done) -> lpp_ok (rows ++ rows2) s'.
Proof.
  intros NN K0 H. unfold lpp_partial_fit in H. destruct (lp_classes s) as [cl|] eqn:Ec.
  - assert (H1 : lpp_rows L base threshold n_estimators n_ensembles w choose fuel (length cl) rows2 s = (s', Done)) by (destruct classes; [destruct (same_set _ _); [exact H|discriminate]|exact H]).
    eapply lpp_rows_ok in H1; [apply H1|exact NN|exact Ec|exact K0].
  - destruct classes as [cl|]; [|discriminate]. eapply lpp_rows_ok in H; [apply H|exact NN|reflexivity|]. destruct K0 as (ws & C & K0). rewrite Ec in K0. destruct K0 as [-> Ee].
    exists ws; split; [exact C|]. cbn [lp_classes lp_ens]. rewrite Ee. destruct C as (C1 & C2 & _). destruct ws as [|a ws]; [unfold lastn; cbn; constructor|].
    apply Forall_inv in C2. destruct a; [cbn in C2; lia|discriminate].
Qed.
Lemma lpp_reset_ok s : lpp_ok [] (lpp_reset seed s).
Proof. exists []; split; [apply cut_nil; exact W|]. cbn [lpp_reset lp_classes lp_ens]. destruct (lp_classes s); [unfold lastn; cbn; constructor|auto]. Qed.
Lemma lpp_run_ok fuel os : nonneg_answers L -> forall rows s s' fs, lpp_ok rows s ->
  lpp_run L base threshold n_estimators n_ensembles w seed choose fuel s os = (s', fs) -> Forall (fun f => f = Done) fs -> lpp_ok (lpp_given rows os) s'.
Proof.
  intros NN; induction os as [|o os IH]; intros rows s s' fs K0 H F; cbn [lpp_run lpp_given] in *; [injection H as <- _; exact K0|].
  destruct (lpp_step L base threshold n_estimators n_ensembles w seed choose fuel s o) as [s1 f] eqn:E. destruct f as [| |].
  - destruct (lpp_run _ _ _ _ _ _ _ _ _ _ _) as [s2 fs2] eqn:Er; injection H as <- <-. inversion F as [|? ? _ F2]; subst.
    destruct o as [rs cl|]; cbn [lpp_step] in E.
    + eapply IH; [|exact Er|exact F2]. eapply lpp_fit_ok; eauto.
    + injection E as <-. eapply IH; [apply lpp_reset_ok|exact Er|exact F2].
  - destruct (lpp_run _ _ _ _ _ _ _ _ _ _ _) as [s2 fs2]; injection H as <- <-. inversion F; discriminate.
  - injection H as <- <-. inversion F; discriminate.
Qed.
End Fit.

(** *** Prediction *)
Lemma const_pos {C} (l : list C) (v : R) : 0 < v -> l <> [] -> 0 < Rsum (map (fun _ => v) l).
Proof. intros Hv. induction l as [|c l IH]; [congruence|]. intros _. cbn [map Rsum]. destruct l as [|c' l]; [cbn [map Rsum]; lra|]. specialize (IH ltac:(discriminate)). lra. Qed.
Lemma uniform_nonneg {C} (rows : list C) : nonneg (map (fun _ => (n1 / nofZ (Z.of_nat (length rows)))%num) rows).
Proof.
  unfold nonneg. rewrite Forall_map. apply Forall_forall; intros r I. unfold n1; cbn [nofZ ndiv NumR]. assert (0 <= IZR (Z.of_nat (length rows))) by (apply IZR_le; lia).
  destruct (Req_dec (IZR (Z.of_nat (length rows))) 0) as [E|E]; [rewrite E; unfold Rdiv; rewrite Rinv_0; lra|]. apply Rmult_le_pos; [lra|left; apply Rinv_0_lt_compat; lra].
Qed.
Section Predict.
Context {X B G : Type} (L : wlearner X R B).
Lemma map_add_nth (a b : list R) : length a = length b -> forall j, (j < length a)%nat -> nth j (map (fun ab => fst ab + snd ab) (combine a b)) 0 = nth j a 0 + nth j b 0.
Proof.
  revert b; induction a as [|x a IH]; intros [|y b] H [|j] Hj; cbn [length] in *; try lia; cbn [combine map nth fst snd]; [reflexivity|]. apply IH; lia.
Qed.
Lemma combine_app_eq {A C} (a a' : list A) (b b' : list C) : length a = length b -> combine (a ++ a') (b ++ b') = combine a b ++ combine a' b'.
Proof. revert b; induction a as [|x a IH]; intros [|y b] H; cbn [length app combine] in *; try lia; [reflexivity|]. f_equal; apply IH; lia. Qed.
Lemma Rsum_app l l' : Rsum (l ++ l') = Rsum l + Rsum l'.
Proof. induction l as [|x l IH]; cbn [app Rsum]; lra. Qed.
Lemma proba_row_ok K x (ens : list (list (B * R))) : nonneg_answers L -> forall row0 row, length row0 = K ->
  foldM (fun votes ens => v <- lp_votes L ens x (no_votes K) ;; Ok (map (fun ab => (fst ab + snd ab)%num) (combine votes v))) ens row0 = Ok row ->
  exists answers, Forall2 (fun be a => wl_predict L (fst be) [x] = Ok [a] /\ (0 <= a < Z.of_nat K)%Z) (concat ens) answers /\ tally_from K (concat ens) answers row0 row.
Proof.
  intros NN; induction ens as [|e ens IH]; intros row0 row Lr H; cbn [foldM concat] in *.
  - injection H as <-. exists []; split; [constructor|]. split; [exact Lr|]. intros; cbn [combine map Rsum]; lra.
  - apply bind_Ok in H; destruct H as [row1 [H1 H]]. apply bind_Ok in H1; destruct H1 as [v [Ev H1]]. injection H1 as <-.
    apply (lp_votes_ok L K) in Ev; [|exact NN|apply repeat_length]. destruct Ev as (a1 & F1 & L1 & V1). cbn [nadd NumR] in H.
    apply IH in H; [|rewrite map_length, combine_length; lia]. destruct H as (a2 & F2 & L2 & V2).
    exists (a1 ++ a2). split; [apply F2_app; assumption|]. split; [exact L2|]. intros j Hj. rewrite V2, map_add_nth, V1, nth_no_votes by lia.
    rewrite combine_app_eq by (apply (F2_len _ _ _ F1)). rewrite map_app, Rsum_app. lra.
Qed.
Lemma predict_voted (s : lpp X R B G) cl xs cs : nonneg_answers L -> lp_classes s = Some cl -> lpp_predict L s xs = Ok cs ->
  Forall2 (voted L (length cl) (concat (lp_ens s))) xs cs.
Proof.
  intros NN Ec H. unfold lpp_predict, lpp_proba in H. rewrite Ec in H. apply bind_Ok in H; destruct H as [P [HP H]].
  revert P HP cs H; induction xs as [|x xs IH]; intros P HP cs H; cbn [mapM] in HP; [injection HP as <-; injection H as <-; constructor|].
  apply bind_Ok in HP; destruct HP as [row [H1 HP]]. apply bind_Ok in HP; destruct HP as [P2 [H2 HP]]. injection HP as <-.
  cbn [mapM] in H. apply bind_Ok in H; destruct H as [c [A H]]. apply bind_Ok in H; destruct H as [cs2 [H3 H]]. injection H as <-.
  constructor; [|eapply IH; eauto].
  apply (proba_row_ok (length cl)) in H1; [|exact NN|apply repeat_length]. destruct H1 as (answers & F & Lr & V). exists answers, row. split; [exact F|]. split.
  - split; [exact Lr|]. intros j Hj; rewrite V, nth_no_votes by exact Hj. lra.
  - destruct row as [|v r]; [discriminate|]. destruct (np_argmax_ok (v :: r)) as (c' & A' & Fm); [discriminate|]. rewrite A in A'; injection A' as <-. exact Fm.
Qed.
Lemma predict_total (s : lpp X R B G) cl xs : (0 < length cl)%nat -> answers_below L (length cl) -> lp_classes s = Some cl -> exists cs, lpp_predict L s xs = Ok cs.
Proof.
  intros HK A Ec. unfold lpp_predict, lpp_proba. rewrite Ec.
  assert (Rw : forall x ens row0, length row0 = length cl -> exists row, foldM (fun votes ens => v <- lp_votes L ens x (no_votes (length cl)) ;; Ok (map (fun ab => (fst ab + snd ab)%num) (combine votes v))) ens row0 = Ok row /\ length row = length cl).
  { intros x; induction ens as [|e ens IH]; intros row0 Lr; cbn [foldM]; [eauto|]. destruct (lp_votes_total L (length cl) x e A (no_votes (length cl)) (repeat_length _ _)) as (v & -> & Lv). cbn [bind].
    apply IH. rewrite map_length, combine_length; lia. }
  assert (M : exists P, mapM (fun x => foldM (fun votes ens => v <- lp_votes L ens x (no_votes (length cl)) ;; Ok (map (fun ab => (fst ab + snd ab)%num) (combine votes v))) (lp_ens s) (no_votes (length cl))) xs = Ok P /\ Forall (fun r => r <> []) P).
  { induction xs as [|x xs (P & IH & FP)]; [exists []; split; [reflexivity|constructor]|]. cbn [mapM]. destruct (Rw x (lp_ens s) (no_votes (length cl)) (repeat_length _ _)) as (row & -> & Lr). cbn [bind]. rewrite IH; cbn [bind].
    eexists; split; [reflexivity|]. constructor; [destruct row; [cbn in Lr; lia|discriminate]|exact FP]. }
  destruct M as (P & -> & FP); cbn [bind]. clear -FP. induction FP as [|r P Hr FP (cs & IH)]; [exists []; reflexivity|]. cbn [mapM]. destruct (np_argmax_ok r Hr) as (c & -> & _). cbn [bind]. rewrite IH; cbn [bind]; eauto.
Qed.
End Predict.

(** *** Failures and endless calls *)
Section Total.
Context {X B G : Type} (L : wlearner X R B) (base : B) (threshold : R) (n_estimators n_ensembles w : nat) (seed : G) (choose : list R -> nat -> G -> res (list nat * G)) (K : nat).
Hypothesis (Fair : fair_choice choose) (HK : (0 < K)%nat) (A : answers_below L K).
Lemma attempt_total rows last done cur D g : distribution D -> length D = length rows -> exists r, attempt L threshold choose K rows last done cur D g = Ok r.
Proof.
  intros Di Ld. unfold attempt; cbv zeta. destruct (Fair D (Nat.div (length rows) 2) g Di) as (i1 & g1 & -> & _ & F1). cbn [bind]. destruct (Fair D (Nat.div (length rows) 2) g1 Di) as (i2 & g2 & -> & _ & F2). cbn [bind].
  assert (Lt : forall i, Forall (fun i => (i < length D)%nat /\ 0 < nth i D 0) i -> Forall (fun i => (i < length rows)%nat) i) by (intros i F; eapply Forall_impl; [|exact F]; cbn; intros; lia).
  destruct (at_index_total rows i1 (Lt _ F1)) as [train ->]. cbn [bind]. destruct (at_index_total rows i2 (Lt _ F2)) as [test ->]. cbn [bind].
  destruct A as [Af Ap]. destruct (Af (fst cur) train) as [b ->]. cbn [bind]. destruct (Ap b (map fst test)) as (p & Ep & Lp & _). rewrite (labels_of_ok L b _ p Ep Lp). cbn [bind].
  destruct (at_index_total D i2) as [Dt ->]; [eapply Forall_impl; [|exact F2]; cbn; intros; lia|]. cbn [bind].
  destruct (_ <? threshold)%num; [|eauto]. match goal with |- context [majority L K ?m ?xs] => destruct (majority_total L K m xs HK A) as (c & -> & _) end. cbn [bind].
  destruct (_ <? threshold)%num; eauto.
Qed.
Lemma attempts_fates fuel rows last done : threshold <= 1 -> forall cur D g patience, distribution D -> length D = length rows ->
  match attempts L threshold choose fuel K rows last done cur D g patience with Exc e => e = RuntimeError | _ => True end.
Proof.
  intros Th; induction fuel as [|fuel IH]; intros cur D g patience Di Ld; cbn [attempts]; [exact I|].
  destruct (attempt_total rows last done cur D g Di Ld) as [[[[cur1 D1] total] g1] E]. rewrite E. cbv zeta. destruct (Nat.ltb 1000 _); [reflexivity|].
  cbn [nleb NumR]. rdes; [|exact I]. apply attempt_ok in E; auto; [|eapply below_nonneg; exact A]. destruct E as [[_ ->]|[Ht _]]; [|lra]. apply IH; auto.
Qed.
Lemma members_fates fuel rows : forall todo done D g, nonneg D -> length D = length rows ->
  match members_loop L base threshold choose fuel K rows todo done D g with Exc e => e = RuntimeError | _ => True end.
Proof.
  induction todo as [|todo IH]; intros done D g Nn Ld; cbn [members_loop]; [exact I|]. cbv zeta. rewrite fold_sum_R. unfold n0; cbn [neqb nofZ NumR]. rdes; [exact I|].
  unfold n1; cbn [nleb nofZ NumR ndiv]. assert (Di : distribution (map (fun d => d / Rsum D) D)) by (apply scale_distribution; assumption).
  assert (Ld' : length (map (fun d => d / Rsum D) D) = length rows) by (rewrite map_length; exact Ld).
  rdes; [|apply IH; [apply Di|exact Ld']].
  match goal with |- context [attempts L threshold choose fuel K rows ?l done ?c ?D' g 0] => pose proof (attempts_fates fuel rows l done ltac:(assumption) c D' g 0 Di Ld') as Fa;
    destruct (attempts L threshold choose fuel K rows l done c D' g 0) as [[[cur1 D1] g1]|e|] eqn:Ea end; [|exact Fa|exact I].
  apply attempts_ok in Ea; auto; [|eapply below_nonneg; exact A]. apply IH; apply Ea.
Qed.
Definition fine (f : fate) : Prop := f = Done \/ f = Failed RuntimeError \/ f = Endless.
Lemma rows_fates fuel rows : forall s, fine (snd (lpp_rows L base threshold n_estimators n_ensembles w choose fuel K rows s)).
Proof.
  induction rows as [|row rows IH]; intros s; cbn [lpp_rows]; [left; reflexivity|]. cbv zeta. destruct (Nat.eqb _ w); [|apply IH].
  pose proof (members_fates fuel (lp_win s ++ [row]) n_estimators [] (map (fun _ => (n1 / nofZ (Z.of_nat (length (lp_win s ++ [row]))))%num) (lp_win s ++ [row])) (lp_rng s)
    (uniform_nonneg _) (map_length _ _)) as Fm. unfold fit_batch.
  destruct (members_loop _ _ _ _ _ _ _ _ _ _ _) as [[ens g]|e|]; [apply IH|right; left; cbn [snd]; congruence|right; right; reflexivity].
Qed.
Lemma rows_classes fuel k rows : forall s, lp_classes (fst (lpp_rows L base threshold n_estimators n_ensembles w choose fuel k rows s)) = lp_classes s.
Proof.
  induction rows as [|row rows IH]; intros s; cbn [lpp_rows]; [reflexivity|]. cbv zeta. destruct (Nat.eqb _ w); [|rewrite IH; reflexivity].
  destruct (fit_batch _ _ _ _ _ _ _ _ _) as [[ens g]|e|]; [rewrite IH; reflexivity|reflexivity|reflexivity].
Qed.
End Total.
(** Termination *)
Section Stops.
Context {X B G : Type} (L : wlearner X R B) (base : B) (threshold : R) (n_estimators n_ensembles w : nat) (choose : list R -> nat -> G -> res (list nat * G)) (K : nat).
Variable ok : X * Z -> Prop.
Hypothesis No : forall rows last done cur D g cur' D' total g', Forall ok rows -> attempt L threshold choose K rows last done cur D g = Ok (cur', D', total, g') -> total <> threshold.
Lemma attempts_stop fuel rows last done : Forall ok rows -> forall cur D g patience, (1000 < fuel + patience)%nat ->  attempts L threshold choose fuel K rows last done cur D g patience = Loop -> (patience <= 1000)%nat -> False.
Proof.
  intros Ok0; induction fuel as [|fuel IH]; intros cur D g patience Hf H Hp; cbn [attempts] in H; [lia|].
  destruct (attempt L threshold choose K rows last done cur D g) as [[[[cur1 D1] total] g1]|] eqn:E; [|discriminate]. apply No in E; [|exact Ok0]. cbv zeta in H. cbn [nltb nleb NumR] in H.
  revert H; destruct (Rltb threshold total) eqn:E1; rcase; intros H.
  - destruct (Nat.ltb_spec 1000 (S patience)) as [Hl|Hl]; [discriminate|]. revert H; rdes; intros H; [|discriminate]. eapply IH; [|exact H|]; lia.
  - cbn [Nat.ltb Nat.leb] in H. revert H; rdes; intros H; [|discriminate]. lra.
Qed.
Lemma members_stop fuel rows : (1001 <= fuel)%nat -> Forall ok rows -> forall todo done D g, members_loop L base threshold choose fuel K rows todo done D g <> Loop.
Proof.
  intros Hf Ok0; induction todo as [|todo IH]; intros done D g; cbn [members_loop]; [discriminate|]. cbv zeta. destruct (_ =? n0)%num; [discriminate|]. destruct (threshold <=? n1)%num; [|apply IH].
  match goal with |- context [attempts L threshold choose fuel K rows ?l done ?c ?D' g 0] => destruct (attempts L threshold choose fuel K rows l done c D' g 0) as [[[cur1 D1] g1]|e|] eqn:Ea end; [apply IH|discriminate|].
  exfalso. eapply attempts_stop in Ea; [exact Ea|exact Ok0| |]; lia.
Qed.
Lemma rows_stop fuel rows : (1001 <= fuel)%nat -> Forall ok rows -> forall s, Forall ok (lp_win s) -> 
  snd (lpp_rows L base threshold n_estimators n_ensembles w choose fuel K rows s) <> Endless /\ Forall ok (lp_win (fst (lpp_rows L base threshold n_estimators n_ensembles w choose fuel K rows s))).
Proof.
  intros Hf Fr; induction Fr as [|row rows Hr Fr IH]; intros s Hs; cbn [lpp_rows]; [split; [discriminate|exact Hs]|]. cbv zeta.
  assert (Fw : Forall ok (lp_win s ++ [row])) by (apply Forall_app; split; [exact Hs|constructor; [exact Hr|constructor]]).
  destruct (Nat.eqb _ w); [|apply IH; exact Fw].
  destruct (fit_batch L base threshold n_estimators choose fuel K (lp_win s ++ [row]) (lp_rng s)) as [[ens g]|e|] eqn:E; [apply IH; constructor|split; [discriminate|exact Fw]|].
  exfalso. revert E. apply members_stop; assumption.
Qed.
End Stops.

(** *** A member that knows everything: early stop *)
Section Perfect.
Context {X B G : Type} (L : wlearner X R B) (base : B) (threshold : R) (n_estimators : nat) (choose : list R -> nat -> G -> res (list nat * G)) (K : nat).
Hypothesis (Fair : fair_choice choose).
Lemma no_error D ys : Forall (fun d => 0 <= d) D -> weighted_error D ys ys = 0.
Proof.
  intros F; unfold weighted_error. replace (Rsum (map _ _)) with 0; [unfold Rdiv; lra|]. clear F. revert ys; induction D as [|d D IH]; intros [|y ys]; cbn [combine map Rsum fst snd]; try reflexivity.
  destruct (Z.eq_dec y y); [|congruence]. rewrite <- IH. lra.
Qed.
Lemma vote_weight_0 : 0 < vote_weight 0.
Proof.
  unfold vote_weight. rewrite Rplus_0_l. assert (H : 1 < 10 ^ 50) by (apply Rlt_pow_R1; [lra|lia]).
  replace (1 / (1 / 10 ^ 50)) with (10 ^ 50) by (field; lra). pose proof (ln_increasing 1 (10 ^ 50) ltac:(lra) H) as I. rewrite ln_1 in I. exact I.
Qed.
Lemma argmax_single K' c (v : R) : (0 <= c < Z.of_nat K')%Z -> 0 < v -> np_argmax (set_nth (@no_votes R NumR K') (Z.to_nat c) v) = Ok (Z.to_nat c).
Proof.
  intros Hc Hv. set (row := set_nth _ _ _). assert (Lr : length row = K') by (unfold row; rewrite set_nth_len; apply repeat_length).
  destruct (np_argmax_ok row) as (a & -> & Ha & Mx & _); [destruct row; cbn in Lr; [lia|discriminate]|]. f_equal.
  destruct (Nat.eq_dec a (Z.to_nat c)) as [|D]; [assumption|exfalso]. specialize (Mx (Z.to_nat c)). rewrite Lr in *. specialize (Mx ltac:(lia)).
  unfold row in Mx. rewrite !set_nth_nth in Mx by (unfold no_votes; rewrite repeat_length; lia). rewrite Nat.eqb_refl in Mx. destruct (Nat.eqb_spec (Z.to_nat c) a); [lia|]. rewrite nth_no_votes in Mx. lra.
Qed.
Lemma majority_perfect b (rows : list (X * Z)) : Forall (fun r => (0 <= snd r < Z.of_nat K)%Z /\ wl_predict L b [fst r] = Ok [snd r]) rows ->
  majority L K ([] ++ [(b, 0)]) (map fst rows) = Ok (map snd rows).
Proof.
  induction 1 as [|[x y] rows [Hy Hp] F IH]; [reflexivity|]. unfold majority in *; cbn [map mapM fst snd app] in *. unfold lp_votes at 1; cbn [foldM fst snd].
  unfold labels_of at 1; rewrite Hp; cbn [bind length Nat.eqb]. rewrite (py_get_in _ _ 0) by (unfold no_votes; rewrite repeat_length; lia). cbn [bind].
  rewrite py_set_in by (unfold no_votes; rewrite repeat_length; lia). cbn [bind]. rewrite argmax_single; [cbn [bind]|exact Hy|].
  - rewrite IH; cbn [bind]. rewrite Z2Nat.id by lia. reflexivity.
  - rewrite nth_no_votes. pose proof vote_weight_0 as V. unfold vote_weight in V. unfold n1; cbn [nadd ndiv nln nofZ NumR]. change (@tiny R NumR) with (@tiny R NumR). rewrite tiny_R. lra.
Qed.
Lemma early_stop fuel rows g : rows <> [] -> (0 < n_estimators)%nat -> (0 < fuel)%nat -> 0 < threshold <= 1 -> Forall (fun r => (0 <= snd r < Z.of_nat K)%Z) rows -> learns_all L rows ->
  exists b g', fit_batch L base threshold n_estimators choose fuel K rows g = Ret ([(b, 0)], g') /\ forall test, (forall r, In r test -> In r rows) -> wl_predict L b (map fst test) = Ok (map snd test).
Proof.
  intros Ne Hn Hf Th Fl La. unfold fit_batch. destruct n_estimators as [|n]; [lia|]. cbn [members_loop]. cbv zeta. rewrite fold_sum_R.
  set (D0 := map (fun _ => _) rows). assert (Nn : nonneg D0) by apply uniform_nonneg.
  assert (Sp : 0 < Rsum D0).
  { assert (Hp : 0 < (n1 / nofZ (Z.of_nat (length rows)))%num).
    { unfold n1; cbn [nofZ ndiv NumR]. apply Rmult_lt_0_compat; [lra|]. apply Rinv_0_lt_compat. apply IZR_lt. destruct rows; [contradiction|cbn [length]; lia]. }
    unfold D0. apply const_pos; assumption. }
  unfold n0; cbn [neqb nofZ NumR]. destruct (Reqb (Rsum D0) 0) eqn:E0; rcase; [lra|]. unfold n1; cbn [nleb nofZ NumR ndiv]. destruct (Rleb threshold 1) eqn:E1; rcase; [|lra].
  assert (Di : distribution (map (fun d => d / Rsum D0) D0)) by (apply scale_distribution; [assumption|lra]). set (D := map (fun d => d / Rsum D0) D0) in *.
  assert (Ld : length D = length rows) by (unfold D, D0; rewrite !map_length; reflexivity). destruct fuel as [|fuel]; [lia|]. cbn [attempts].
  assert (At : exists b D' g', attempt L threshold choose K rows (Nat.eqb n 0) [] (base, 1) D g = Ok ((b, 0), D', 0, g') /\ ((0 < n)%nat -> Rsum D' = 0) /\ forall test, (forall r, In r test -> In r rows) -> wl_predict L b (map fst test) = Ok (map snd test)).
  { unfold attempt; cbv zeta. destruct (Fair D (Nat.div (length rows) 2) g Di) as (i1 & g1 & -> & _ & F1). cbn [bind]. destruct (Fair D (Nat.div (length rows) 2) g1 Di) as (i2 & g2 & -> & _ & F2). cbn [bind].
    assert (Lt : forall i, Forall (fun i => (i < length D)%nat /\ 0 < nth i D 0) i -> Forall (fun i => (i < length rows)%nat) i) by (intros i F; eapply Forall_impl; [|exact F]; cbn; intros; lia).
    destruct (at_index_total rows i1 (Lt _ F1)) as [train Et]. rewrite Et; cbn [bind]. destruct (at_index_total rows i2 (Lt _ F2)) as [test Ee]. rewrite Ee; cbn [bind].
    destruct (La base train (at_index_in _ _ _ Et)) as (b & Eb & Pb). cbn [fst]. rewrite Eb; cbn [bind]. rewrite (labels_of_ok L b _ _ (Pb test (at_index_in _ _ _ Ee))) by (rewrite !map_length; reflexivity). cbn [bind].
    destruct (at_index_total D i2) as [Dt EDt]; [eapply Forall_impl; [|exact F2]; cbn; intros; lia|]. rewrite EDt; cbn [bind]. rewrite !compute_error_R.
    assert (NDt : Forall (fun d => 0 <= d) Dt). { apply Forall_forall; intros d I. apply (at_index_in _ _ _ EDt) in I. destruct Di as [Dn _]. rewrite Forall_forall in Dn; auto. }
    rewrite no_error by exact NDt. cbn [nltb NumR]. destruct (Rltb 0 threshold) eqn:E2; rcase; [|lra].
    replace (0 / (n1 - 0))%num with 0 by (unfold n1; cbn [ndiv nsub nofZ NumR]; unfold Rdiv; lra).
    rewrite majority_perfect.
    - cbn [bind]. rewrite !compute_error_R, no_error by apply Di. cbn [nltb NumR]. destruct (Rltb 0 threshold) eqn:E3; rcase; [|lra].
      exists b. do 2 eexists. split; [reflexivity|]. split; [|exact Pb]. intros Hp. destruct (Nat.eqb_spec n 0); [lia|]. 
      clear - Ld. revert Ld. generalize D as Dx; clear D. induction rows as [|[x y] rows IH]; intros [|d D] Ld; cbn [length] in *; try lia; [reflexivity|]. cbn [map combine Rsum fst snd].
      rewrite Z.eqb_refl. rewrite IH by lia. cbn [nmul ndiv nsub NumR]. unfold n1; cbn [nofZ NumR]. unfold Rdiv; lra.
    - rewrite Forall_forall in Fl |- *. intros r I. split; [apply Fl; exact I|]. specialize (Pb [r]). cbn [map] in Pb. apply Pb. intros r' [<-|[]]; exact I. }
  destruct At as (b & D' & g' & -> & Sz & Pb). cbv zeta. cbn [nltb nleb NumR]. destruct (Rltb threshold 0) eqn:E4; rcase; [lra|]. cbn [Nat.ltb Nat.leb]. destruct (Rleb threshold 0) eqn:E5; rcase; [lra|].
  exists b, g'. split; [|exact Pb]. destruct n as [|n]; [reflexivity|]. cbn [members_loop]. cbv zeta. rewrite fold_sum_R, Sz by lia. unfold n0; cbn [neqb nofZ NumR]. destruct (Reqb 0 0) eqn:E6; rcase; [reflexivity|congruence].
Qed.
End Perfect.
