(** Proofs about the ensembles trained on windows (Model/Windowed.v). *)
From Coq Require Import List ZArith Bool Arith Lia Permutation Sorted Reals Lra Psatz.
From Verif Require Import Base.Py Base.Num Base.Dict Model.Adwin Model.Knn Model.DataStream Model.Windowed Spec.Lists Spec.WindowedSpec
  Proofs.ListFacts Proofs.StreamProofs Proofs.NaiveBayesProofs.
From Verif Require Proofs.MetricsScores Proofs.ExpertRunProofs Proofs.NominalProofs.
Import ListNotations.

Ltac rdes := match goal with
  | |- context [Rltb ?a ?b] => let E := fresh "E" in destruct (Rltb a b) eqn:E; rcase
  | |- context [Rleb ?a ?b] => let E := fresh "E" in destruct (Rleb a b) eqn:E; rcase
  | |- context [Reqb ?a ?b] => let E := fresh "E" in destruct (Reqb a b) eqn:E; rcase end.
(** *** Cutting rows into windows *)
Lemma cut_nil {A} w (rest : list A) : length rest < w -> cut w rest [] rest.
Proof. intros H; split; [reflexivity|]; split; [constructor|exact H]. Qed.
Lemma cut_more {A} w (rows : list A) ws rest row : cut w rows ws rest -> length (rest ++ [row]) <> w -> cut w (rows ++ [row]) ws (rest ++ [row]).
Proof.
  intros (E & F & H) D; rewrite app_length in D; cbn [length] in D. split; [rewrite E, app_assoc; reflexivity|]. split; [exact F|].
  rewrite app_length; cbn [length]; lia.
Qed.
Lemma cut_full {A} w (rows : list A) ws rest row : 0 < w -> cut w rows ws rest -> length (rest ++ [row]) = w -> cut w (rows ++ [row]) (ws ++ [rest ++ [row]]) [].
Proof.
  intros W (E & F & H) D. split; [rewrite E, concat_app; cbn [concat]; rewrite !app_nil_r, app_assoc; reflexivity|].
  split; [apply Forall_app; split; [exact F|constructor; [exact D|constructor]]|cbn [length]; lia].
Qed.

(** *** BatchIncrementalClassifier *)
Section Batch.
Context {X T B : Type} {N : Num T} (L : wlearner X T B) (base : B) (w m : nat) (W : 0 < w) (M : 0 < m).
Definition trained (win : list (X * Z)) (h : B) : Prop := wl_fit L base win None = Ok h.
Definition bi_ok (rows : list (X * Z)) (s : batch X B) : Prop :=
  exists ws, cut w rows ws (bi_win s) /\ Forall2 trained (lastn m ws) (bi_ens s).
Lemma F2_len {A C} (P : A -> C -> Prop) l l' : Forall2 P l l' -> length l = length l'.
Proof. induction 1; cbn [length]; congruence. Qed.
Lemma F2_app {A C} (P : A -> C -> Prop) l l' k k' : Forall2 P l l' -> Forall2 P k k' -> Forall2 P (l ++ k) (l' ++ k').
Proof. induction 1; cbn [app]; intros; auto. Qed.
Lemma bi_row_ok rows s s' row : bi_ok rows s -> bi_row L base w m None s row = (s', None) -> bi_ok (rows ++ [row]) s'.
Proof.
  intros (ws & C & F) H; unfold bi_row in H. destruct (Nat.leb_spec w (length (bi_win s))) as [G|G]; [discriminate|]. cbn [truth] in H; cbv zeta in H.
  destruct (Nat.eqb_spec (length (bi_win s ++ [row])) w) as [E|E]; [|injection H as <-; exists ws; split; [apply cut_more; auto|exact F]].
  destruct (if Nat.leb m (length (bi_ens s)) then _ else _) as [ens|] eqn:P; [|discriminate].
  replace (if wl_weighted L then None else None) with (@None (list T)) in H by (destruct (wl_weighted L); reflexivity).
  destruct (wl_fit L base (bi_win s ++ [row]) None) as [h|e] eqn:Fh; [|discriminate]. injection H as <-.
  exists (ws ++ [bi_win s ++ [row]]); split; [apply cut_full; auto|]. cbn [bi_ens].
  rewrite (lastn_app_l m ws [bi_win s ++ [row]]) by (cbn [length]; lia). cbn [length].
  apply F2_app; [|constructor; [exact Fh|constructor]].
  pose proof (F2_len _ _ _ F) as Lf; rewrite lastn_length in Lf.
  destruct (Nat.leb_spec m (length (bi_ens s))) as [G2|G2].
  - destruct (bi_ens s) as [|h0 r] eqn:Es; [discriminate|]. injection P as <-. cbn [length] in *.
    assert (Q : lastn m ws = nth (length ws - m) ws [] :: lastn (m - 1) ws).
    { unfold lastn. replace (length ws - (m - 1)) with (S (length ws - m)) by lia.
      assert (Hi : length ws - m < length ws) by lia. revert Hi; generalize (length ws - m); clear. intros i; revert ws.
      induction i as [|i IH]; intros [|a ws] Hi; cbn [length] in *; try lia; [reflexivity|]. cbn [skipn nth]; apply IH; lia. }
    rewrite Q in F; inversion F; subst; assumption.
  - injection P as <-. rewrite lastn_all in F by lia. rewrite lastn_all by lia. exact F.
Qed.
Lemma bi_fit_ok rows2 : forall rows s s', bi_ok rows s -> bi_partial_fit L base w m None rows2 s = (s', None) -> bi_ok (rows ++ rows2) s'.
Proof.
  induction rows2 as [|row rows2 IH]; intros rows s s' K H; cbn [bi_partial_fit] in H; [injection H as <-; rewrite app_nil_r; exact K|].
  destruct (bi_row L base w m None s row) as [s1 [e|]] eqn:E; [discriminate|]. apply (bi_row_ok rows) in E; auto.
  apply (IH (rows ++ [row])) in H; auto. rewrite <- app_assoc in H; exact H.
Qed.
Lemma bi_init_ok : bi_ok [] (mk_batch [] []).
Proof. exists []; split; [apply cut_nil; exact W|]. unfold lastn; cbn; constructor. Qed.
Lemma bi_run_ok os : forall rows s s' es, Forall unweighted os -> bi_ok rows s -> bi_run L base w m s os = (s', es) -> Forall (fun e => e = None) es -> bi_ok (given_rows rows os) s'.
Proof.
  induction os as [|o os IH]; intros rows s s' es U K H F; cbn [bi_run given_rows] in *; [injection H as <- _; exact K|].
  destruct (bi_step L base w m s o) as [s1 e] eqn:E, (bi_run L base w m s1 os) as [s2 es2] eqn:Er; injection H as <- <-.
  inversion F as [|? ? -> F2]; subst; inversion U as [|? ? U1 U2]; subst.
  destruct o as [rs [sw|]|]; cbn [bi_step unweighted] in *; [contradiction| |].
  - eapply IH; [exact U2| |exact Er|exact F2]. eapply bi_fit_ok; eauto.
  - injection E as <-. eapply IH; [exact U2| |exact Er|exact F2]. apply bi_init_ok.
Qed.
Lemma bi_row_total rows s row : (forall win, exists h, wl_fit L base win None = Ok h) -> bi_ok rows s -> snd (bi_row L base w m None s row) = None.
Proof.
  intros Ft (ws & (E & _ & H) & F); unfold bi_row. destruct (Nat.leb_spec w (length (bi_win s))) as [G|G]; [lia|]. cbn [truth]; cbv zeta.
  destruct (Nat.eqb _ _); [|reflexivity].
  replace (if wl_weighted L then None else None) with (@None (list T)) by (destruct (wl_weighted L); reflexivity).
  destruct (Ft (bi_win s ++ [row])) as [h ->].
  destruct (Nat.leb_spec m (length (bi_ens s))) as [G2|G2]; [|reflexivity]. destruct (bi_ens s); [cbn [length] in G2; lia|reflexivity].
Qed.
Lemma bi_fit_total rows2 : (forall win, exists h, wl_fit L base win None = Ok h) -> forall rows s, bi_ok rows s -> snd (bi_partial_fit L base w m None rows2 s) = None.
Proof.
  intros Ft; induction rows2 as [|row rows2 IH]; intros rows s K; cbn [bi_partial_fit]; [reflexivity|].
  pose proof (bi_row_total rows s row Ft K) as T0. destruct (bi_row L base w m None s row) as [s1 e] eqn:E; cbn [snd] in T0; subst e.
  eapply IH. eapply bi_row_ok; eauto.
Qed.
Lemma bi_run_total os : (forall win, exists h, wl_fit L base win None = Ok h) -> forall rows s s' es, Forall unweighted os -> bi_ok rows s -> bi_run L base w m s os = (s', es) -> Forall (fun e => e = None) es.
Proof.
  intros Ft; induction os as [|o os IH]; intros rows s s' es U K H; cbn [bi_run] in *; [injection H as _ <-; constructor|].
  destruct (bi_step L base w m s o) as [s1 e] eqn:E, (bi_run L base w m s1 os) as [s2 es2] eqn:Er; injection H as <- <-.
  inversion U as [|? ? U1 U2]; subst.
  destruct o as [rs [sw|]|]; cbn [bi_step unweighted] in *; [contradiction| |].
  - pose proof (bi_fit_total rs Ft rows s K) as T0; rewrite E in T0; cbn [snd] in T0; subst e. constructor; [reflexivity|].
    eapply IH; [exact U2| |exact Er]. eapply bi_fit_ok; eauto.
  - injection E as <- <-. constructor; [reflexivity|]. eapply IH; [exact U2| |exact Er]. apply bi_init_ok.
Qed.
End Batch.

(** *** Votes of the batch-incremental ensemble, over the real numbers *)
Section Votes.
Context {X B : Type} (L : wlearner X R B).
Local Open Scope R_scope.
Lemma labels_of_ok {T} (L' : wlearner X T B) b xs p : wl_predict L' b xs = Ok p -> length p = length xs -> labels_of L' b xs = Ok p.
Proof. intros H E; unfold labels_of; rewrite H; cbn [bind]; rewrite E, Nat.eqb_refl; reflexivity. Qed.
Lemma combine_map_nth (k : R) (v : list R) : forall p : list Z, length v = length p -> forall i, (i < length v)%nat ->
  nth i (map (fun vp => fst vp + k * IZR (snd vp)) (combine v p)) 0 = nth i v 0 + k * IZR (nth i p 0%Z).
Proof.
  induction v as [|a v IH]; intros [|b p] H i Hi; cbn [length] in *; try lia. destruct i as [|i]; [reflexivity|]. cbn [combine map nth]. apply IH; lia.
Qed.
Lemma bi_fold (k : R) xs ens A : Forall2 (fun h p => wl_predict L h xs = Ok p /\ length p = length xs) ens A -> forall v, length v = length xs ->
  exists v', foldM (fun votes h => p <- labels_of L h xs ;; Ok (map (fun vp => fst vp + k * IZR (snd vp)) (combine votes p))) ens v = Ok v' /\
    length v' = length xs /\ forall i, (i < length xs)%nat -> nth i v' 0 = nth i v 0 + k * Rsum (map (fun p => IZR (nth i p 0%Z)) A).
Proof.
  induction 1 as [|h p ens A [H1 H2] F IH]; intros v Hv; cbn [foldM].
  - exists v; split; [reflexivity|]. split; [exact Hv|]. intros; cbn [map Rsum]; lra.
  - rewrite (labels_of_ok L h xs p H1 H2); cbn [bind].
    destruct (IH (map (fun vp => fst vp + k * IZR (snd vp)) (combine v p))) as (v' & E & Lv & V); [rewrite map_length, combine_length; lia|].
    exists v'; split; [exact E|]. split; [exact Lv|]. intros i Hi. rewrite V by exact Hi. rewrite combine_map_nth by lia. cbn [map Rsum]. lra.
Qed.
Lemma ones_sum (l : list Z) : Forall (fun v => v = 0%Z \/ v = 1%Z) l -> Rsum (map IZR l) = INR (count_occ Z.eq_dec l 1%Z).
Proof.
  induction 1 as [|v l [-> | ->] F IH]; cbn [map Rsum count_occ]; [reflexivity| |].
  - destruct (Z.eq_dec 0 1) as [E|E]; [discriminate|]. rewrite IH; lra.
  - destruct (Z.eq_dec 1 1) as [E|E]; [|congruence]. rewrite S_INR, IH; lra.
Qed.
End Votes.

(** *** AccuracyWeightedEnsembleClassifier *)
Section Awe.
Context {X T B : Type} {N : Num T} (L : wlearner X T B) (base : B) (w K n_kept n_splits : nat) (kfold : nat -> nat -> res (list (list nat * list nat))).
Local Notation fit := (awe_partial_fit L base w n_kept n_splits kfold).
Local Notation chunk := (awe_chunk L base n_kept n_splits kfold).
Lemma awe_fit_app a b s : fit (a ++ b) s = (s' <- fit a s ;; fit b s').
Proof.
  revert s; induction a as [|r a IH]; intros s; cbn [awe_partial_fit app]; [reflexivity|].
  destruct (Nat.leb w (length (aw_win s))); [reflexivity|]. cbv zeta. destruct (Nat.eqb _ w); [|apply IH].
  destruct (chunk (aw_win s ++ [r]) (aw_pool s)); cbn [bind]; [apply IH|reflexivity].
Qed.
Lemma least_from_idx (l : list (clf T B)) : forall i best v j u, least_from l i best v = (j, u) -> j = best \/ i <= j < i + length l.
Proof.
  induction l as [|c l IH]; intros i best v j u H; cbn [least_from length] in *; [injection H as <- _; auto|].
  destruct (cl_weight c <? v)%num; apply IH in H; lia.
Qed.
Lemma drop_at_length {A} i (l : list A) : i < length l -> length (drop_at i l) = length l - 1.
Proof. intros H; unfold drop_at; rewrite app_length, firstn_length, skipn_length; lia. Qed.
Lemma awe_chunk_len rows pool pool' : chunk rows pool = Ok pool' -> length pool <= n_kept -> length pool' <= n_kept.
Proof.
  unfold awe_chunk; cbv zeta; intros H Hl. apply bind_Ok in H; destruct H as [b [_ H]]. apply bind_Ok in H; destruct H as [f [_ H]].
  apply bind_Ok in H; destruct H as [s [_ H]]. apply bind_Ok in H; destruct H as [p2 [E H]].
  assert (Lp : length p2 = length pool) by (eapply ExpertRunProofs.mapM_length; exact E).
  destruct (Nat.ltb_spec (length p2) n_kept) as [G|G]; [injection H as <-; rewrite app_length; cbn [length]; lia|].
  destruct p2 as [|c r]; [discriminate|]. destruct (least_from r 1 0 (cl_weight c)) as [i v] eqn:El.
  destruct (v <? _)%num; [|injection H as <-; lia].
  injection H as <-. rewrite app_length, drop_at_length; [cbn [length] in *; lia|]. apply least_from_idx in El; cbn [length] in *; lia.
Qed.
(** The pool is what the full windows made it. *)
Definition awe_ok (rows : list (X * Z)) (s : awe X T B) : Prop :=
  exists ws, cut w rows ws (aw_win s) /\ foldM (fun pool win => chunk win pool) ws [] = Ok (aw_pool s).
Lemma foldM_snoc {S A} (f : S -> A -> res S) l a s : foldM f (l ++ [a]) s = (s' <- foldM f l s ;; f s' a).
Proof.
  revert s; induction l as [|x l IH]; intros s; cbn [foldM app]; [cbn [bind]; destruct (f s a); reflexivity|]. destruct (f s x); cbn [bind]; [apply IH|reflexivity].
Qed.
Hypothesis W : 0 < w.
Lemma awe_fit_ok rows2 : forall rows s s', awe_ok rows s -> fit rows2 s = Ok s' -> awe_ok (rows ++ rows2) s'.
Proof.
  induction rows2 as [|row rows2 IH]; intros rows s s' (ws & C & P) H; cbn [awe_partial_fit] in H; [injection H as <-; rewrite app_nil_r; exists ws; auto|].
  destruct (Nat.leb_spec w (length (aw_win s))) as [G|G]; [discriminate|]. cbv zeta in H.
  destruct (Nat.eqb_spec (length (aw_win s ++ [row])) w) as [E|E].
  - apply bind_Ok in H; destruct H as [pool [Ep H]]. apply (IH (rows ++ [row])) in H; [rewrite <- app_assoc in H; exact H|].
    exists (ws ++ [aw_win s ++ [row]]); split; [apply cut_full; auto|]. cbn [aw_pool]. rewrite foldM_snoc, P. exact Ep.
  - apply (IH (rows ++ [row])) in H; [rewrite <- app_assoc in H; exact H|]. exists ws; split; [apply cut_more; auto|exact P].
Qed.
Lemma awe_init_ok : awe_ok [] awe_init.
Proof. exists []; split; [apply cut_nil; exact W|reflexivity]. Qed.
Lemma awe_run_ok_from os : forall rows s s', awe_ok rows s -> foldM (awe_step L base w n_kept n_splits kfold) os s = Ok s' -> awe_ok (awe_rows rows os) s'.
Proof.
  induction os as [|o os IH]; intros rows s s' K0 H; cbn [foldM awe_rows] in *; [injection H as <-; exact K0|].
  apply bind_Ok in H; destruct H as [s1 [E H]]. destruct o as [rs|]; cbn [awe_step] in E; [|injection E as <-].
  - eapply IH; [|exact H]. eapply awe_fit_ok; eauto.
  - eapply IH; [|exact H]. apply awe_init_ok.
Qed.
Lemma awe_run_ok os s : awe_run L base w n_kept n_splits kfold os = Ok s -> awe_ok (awe_rows [] os) s.
Proof. apply awe_run_ok_from, awe_init_ok. Qed.
Lemma chunks_len ws : forall pool pool', foldM (fun pool win => chunk win pool) ws pool = Ok pool' -> length pool <= n_kept -> length pool' <= n_kept.
Proof.
  induction ws as [|a ws IH]; intros pool pool' H Hl; cbn [foldM] in H; [injection H as <-; exact Hl|].
  apply bind_Ok in H; destruct H as [p1 [E H]]. apply awe_chunk_len in E; eauto.
Qed.
Lemma mapM_const_ok {A C} (c : C) (l : list A) : mapM (fun _ => Ok c) l = Ok (map (fun _ => c) l).
Proof. induction l as [|a l IH]; cbn [mapM map]; [reflexivity|]. cbn [bind]. rewrite IH; reflexivity. Qed.
Lemma awe_same s xs ys : awe_predict L K s xs = Ok ys -> exists c, ys = map (fun _ => c) xs.
Proof.
  unfold awe_predict; cbv zeta. destruct (aw_pool s); [intros H; injection H as <-; exists 0%Z; reflexivity|].
  intros H. apply bind_Ok in H; destruct H as [d [_ H]]. destruct xs as [|x xs]; [exists 0%Z; injection H as <-; reflexivity|].
  destruct (best_label d) as [k|e]; [|discriminate]. rewrite mapM_const_ok in H. injection H as <-; exists k; reflexivity.
Qed.
End Awe.

(** *** The weights of the classifiers, over the real numbers *)
Section Weights.
Context {X B : Type} (L : wlearner X R B) (base : B) (w K n_kept n_splits : nat) (kfold : nat -> nat -> res (list (list nat * list nat))).
Local Open Scope R_scope.
Lemma fold_nadd_R (l : list R) : forall a, fold_left nadd l a = a + Rsum l.
Proof. exact (MetricsScores.fold_nadd_R l). Qed.
Lemma np_unique_nodup l : NoDup (np_unique l).
Proof.
  destruct (np_unique_spec l) as [H _]. induction (np_unique l) as [|a r IH]; [constructor|]. apply StronglySorted_inv in H; destruct H as [H1 H2].
  constructor; [|auto]. intros I; rewrite Forall_forall in H2; specialize (H2 _ I); lia.
Qed.
Lemma unique_perm ys : Permutation (np_unique ys) (nodup Z.eq_dec ys).
Proof.
  apply NoDup_Permutation; [apply np_unique_nodup|apply NoDup_nodup|]. intros x. rewrite nodup_In. apply np_unique_spec.
Qed.
Lemma baseline_R ys : baseline ys = random_error ys.
Proof.
  unfold baseline, random_error. rewrite fold_nadd_R. cbv zeta.
  rewrite <- (Rsum_perm _ _ (Permutation_map (fun c => share ys c * (1 - share ys c) ^ 2) (unique_perm ys))).
  replace (n0 + _) with (Rsum (map (fun c => share ys c * (1 - share ys c) ^ 2) (np_unique ys))); [reflexivity|].
  change (@n0 R NumR) with (IZR 0). rewrite Rplus_0_l. f_equal. apply map_ext; intros c.
  unfold share, n1. cbn [nofZ ndiv nmul nsub NumR]. rewrite !INR_IZR_INZ. ring.
Qed.
Lemma where_is_prob labels : forall p c i v, where_is c labels = Some i -> nth_error p i = Some v -> prob_of labels p c = v.
Proof.
  induction labels as [|l ls IH]; intros p c i v H1 H2; cbn [where_is] in H1; [discriminate|].
  destruct (Z.eqb_spec l c) as [->|D]; [injection H1 as <-|].
  - destruct p as [|q p]; [discriminate|]. cbn in H2; injection H2 as ->. cbn [prob_of]; rewrite Z.eqb_refl; reflexivity.
  - destruct (where_is c ls) as [j|] eqn:E; [|discriminate]. injection H1 as <-. destruct p as [|q p]; [discriminate|]. cbn [nth_error prob_of] in *.
    destruct (Z.eqb_spec l c); [contradiction|]. eapply IH; eauto.
Qed.
Lemma where_is_none labels : forall p c, where_is c labels = None -> prob_of labels p c = 0.
Proof.
  induction labels as [|l ls IH]; intros p c H; cbn [where_is] in H; [destruct p; reflexivity|]. destruct (Z.eqb_spec l c) as [->|D]; [discriminate|].
  destruct (where_is c ls) eqn:E; [discriminate|]. destruct p as [|q p]; cbn [prob_of]; [reflexivity|]. destruct (Z.eqb_spec l c); [contradiction|]. apply IH; exact E.
Qed.
Lemma square_error_R labels p c e : square_error labels p c = Ok e -> e = (1 - prob_of labels p c) ^ 2.
Proof.
  unfold square_error. destruct (where_is c labels) as [i|] eqn:E.
  - destruct (nth_error p i) as [v|] eqn:E2; [|discriminate]. intros H; injection H as <-. rewrite (where_is_prob _ _ _ _ _ E E2).
    unfold n1; cbn [nofZ nsub nmul NumR]; ring.
  - intros H; injection H as <-. rewrite (where_is_none _ _ _ E). unfold n1; cbn [nofZ NumR]; ring.
Qed.
Lemma score_R b labels (rows : list (X * Z)) s : score L b labels rows = Ok s -> exists P, wl_proba L b (map fst rows) = Ok P /\ length P = length rows /\ s = mse labels P rows.
Proof.
  unfold score; intros H. apply bind_Ok in H; destruct H as [P [E H]]. exists P; split; [exact E|].
  destruct (Nat.eqb_spec (length P) (length rows)) as [G|G]; [|discriminate]. split; [exact G|].
  apply bind_Ok in H; destruct H as [es [Em H]]. unfold mse.
  assert (Q : es = map (fun pr => (1 - prob_of labels (fst pr) (snd (snd pr))) ^ 2) (combine P rows)).
  { clear -Em. revert es Em. induction (combine P rows) as [|pr l IH]; intros es Em; cbn [mapM map] in *; [injection Em as <-; reflexivity|].
    apply bind_Ok in Em; destruct Em as [e [E1 Em]]. apply bind_Ok in Em; destruct Em as [es2 [E2 Em]]. injection Em as <-.
    rewrite (IH _ E2). f_equal. apply square_error_R; exact E1. }
  rewrite Q in H. clear Q Em. unfold pydiv in H. destruct (_ =? n0)%num; [discriminate|]. injection H as <-.
  rewrite fold_nadd_R. unfold Rmean. rewrite map_length, combine_length, G, Nat.min_id, INR_IZR_INZ. unfold n0; cbn [nofZ ndiv NumR]. rewrite Rplus_0_l; reflexivity.
Qed.
Lemma weight_of_R a b : weight_of a b = Rmax 0 (a - b).
Proof.
  unfold weight_of, py_max. unfold n0; cbn [nofZ nsub NumR nltb]. rdes; unfold Rmax; destruct (Rle_dec _ _); try lra.
Qed.
Lemma least_from_R (l : list (clf R B)) : forall i best v j u, least_from l i best v = (j, u) ->
  u <= v /\ Forall (fun c => u <= cl_weight c) l /\ ((j = best /\ u = v) \/ exists k c, nth_error l k = Some c /\ j = (i + k)%nat /\ u = cl_weight c).
Proof.
  induction l as [|c l IH]; intros i best v j u H; cbn [least_from] in H; [injection H as <- <-; split; [lra|]; split; [constructor|auto]|].
  cbn [nltb NumR] in H. revert H; rdes; intros H; apply IH in H; destruct H as (H1 & H2 & H3).
  - split; [lra|]. split; [constructor; [lra|exact H2]|]. right. destruct H3 as [[-> ->]|(k & d & D1 & -> & ->)]; [exists O, c; cbn; auto|exists (S k), d; cbn [nth_error]; split; [exact D1|split; [lia|reflexivity]]].
  - split; [lra|]. split; [constructor; [lra|exact H2]|]. destruct H3 as [[-> ->]|(k & d & D1 & -> & ->)]; [left; auto|right; exists (S k), d; cbn [nth_error]; split; [exact D1|split; [lia|reflexivity]]].
Qed.
Lemma chunk_R rows (pool pool' : list (clf R B)) : awe_chunk L base n_kept n_splits kfold rows pool = Ok pool' -> exists new updated,
  wl_fit L base rows None = Ok (cl_est new) /\ (forall c, In c (cl_seen new) <-> In c (map snd rows)) /\ 0 <= cl_weight new /\
  Forall2 (reweighted L rows) pool updated /\ admitted n_kept new updated pool'.
Proof.
  unfold awe_chunk; cbv zeta; intros H. apply bind_Ok in H; destruct H as [b [Eb H]]. apply bind_Ok in H; destruct H as [f [_ H]].
  apply bind_Ok in H; destruct H as [s [_ H]]. apply bind_Ok in H; destruct H as [p2 [E H]].
  set (new := mk_clf b (weight_of (baseline (map snd rows)) s) (np_unique (map snd rows))) in *.
  exists new, p2. split; [exact Eb|]. split; [intros c; apply np_unique_spec|]. split; [cbn [new cl_weight]; rewrite weight_of_R; apply Rmax_l|].
  split.
  - clear H. revert p2 E. induction pool as [|c pool IH]; intros p2 E; cbn [mapM] in E; [injection E as <-; constructor|].
    apply bind_Ok in E; destruct E as [c' [E1 E]]. apply bind_Ok in E; destruct E as [p3 [E2 E]]. injection E as <-.
    constructor; [|apply IH; exact E2]. apply bind_Ok in E1; destruct E1 as [sc [Es E1]]. injection E1 as <-.
    split; [reflexivity|]. split; [reflexivity|]. apply score_R in Es; destruct Es as (P & P1 & P2 & ->). exists P; split; [exact P1|]. split; [exact P2|].
    cbn [cl_weight]. rewrite weight_of_R, baseline_R; reflexivity.
  - destruct (Nat.ltb_spec (length p2) n_kept) as [G|G]; [left; split; [exact G|injection H as <-; reflexivity]|]. right; split; [exact G|].
    destruct p2 as [|c r]; [discriminate|]. destruct (least_from r 1 0 (cl_weight c)) as [i v] eqn:El. apply least_from_R in El; destruct El as (H1 & H2 & H3).
    assert (Q : exists a d b0, c :: r = a ++ d :: b0 /\ length a = i /\ v = cl_weight d).
    { destruct H3 as [[-> ->]|(k & d & D1 & -> & ->)]; [exists [], c, r; auto|].
      apply nth_error_split in D1; destruct D1 as (a & b0 & -> & <-). exists (c :: a), d, b0; auto. }
    destruct Q as (a & d & b0 & Q1 & Q2 & ->). exists a, d, b0. split; [exact Q1|]. split; [constructor; assumption|].
    cbn [nltb NumR] in H. revert H; rdes; intros H; injection H as <-; [left|right; split; [lra|reflexivity]]. split; [lra|].
    rewrite Q1; unfold drop_at. rewrite <- Q2, firstn_app, Nat.sub_diag, firstn_all; cbn [firstn]. rewrite app_nil_r.
    change (S (length a)) with (1 + length a)%nat. replace (skipn (1 + length a) (a ++ d :: b0)) with b0; [rewrite <- app_assoc; reflexivity|].
    clear. induction a as [|y a IH]; [reflexivity|exact IH].
Qed.
Lemma admitted_nonneg k new (pool pool' : list (clf R B)) : admitted k new pool pool' -> 0 <= cl_weight new -> Forall (fun c => 0 <= cl_weight c) pool -> Forall (fun c => 0 <= cl_weight c) pool'.
Proof.
  intros [[_ ->]|(_ & a & c & b & -> & _ & [[_ ->]|[_ ->]])] Hn F; [|rewrite app_assoc|exact F]; apply Forall_app; split; auto.
  apply Forall_app in F; destruct F as [F1 F2]; inversion F2; subst; apply Forall_app; auto.
Qed.
Lemma reweighted_nonneg rows (pool pool' : list (clf R B)) : Forall2 (reweighted L rows) pool pool' -> Forall (fun c => 0 <= cl_weight c) pool'.
Proof. induction 1 as [|c c' p p' (_ & _ & P & _ & _ & E) F IH]; constructor; [rewrite E; apply Rmax_l|exact IH]. Qed.
Lemma chunks_nonneg ws : forall pool pool', foldM (fun pool win => awe_chunk L base n_kept n_splits kfold win pool) ws pool = Ok pool' ->
  Forall (fun c => 0 <= cl_weight c) pool -> Forall (fun c => 0 <= cl_weight c) pool'.
Proof.
  induction ws as [|a ws IH]; intros pool pool' H F; cbn [foldM] in H; [injection H as <-; exact F|].
  apply bind_Ok in H; destruct H as [p1 [E H]]. apply chunk_R in E; destruct E as (new & up & _ & _ & N0 & F2 & Ad).
  eapply IH; [exact H|]. eapply admitted_nonneg; [exact Ad|exact N0|]. eapply reweighted_nonneg; exact F2.
Qed.
(** Ranking *)
Lemma insert_perm (c : clf R B) l : Permutation (insert_clf c l) (c :: l).
Proof. induction l as [|d l IH]; cbn [insert_clf]; [reflexivity|]. destruct (_ <=? _)%num; [reflexivity|]. rewrite IH; apply perm_swap. Qed.
Lemma ranking_perm (l : list (clf R B)) : Permutation (ranking l) l.
Proof. induction l as [|c l IH]; cbn [ranking fold_right]; [reflexivity|]. change (Permutation (insert_clf c (ranking l)) (c :: l)). rewrite insert_perm; constructor; exact IH. Qed.
Definition heavier (a b : clf R B) : Prop := cl_weight b <= cl_weight a.
Lemma insert_sorted (c : clf R B) l : StronglySorted heavier l -> StronglySorted heavier (insert_clf c l).
Proof.
  induction l as [|d l IH]; intros S; cbn [insert_clf]; [repeat constructor|]. apply StronglySorted_inv in S; destruct S as [S F].
  cbn [nleb NumR]. rdes.
  - constructor; [constructor; assumption|]. constructor; [assumption|]. eapply Forall_impl; [|exact F]. unfold heavier; intros; lra.
  - constructor; [auto|]. apply (Permutation_Forall (Permutation_sym (insert_perm c l))). constructor; [unfold heavier; lra|exact F].
Qed.
Lemma ranking_sorted (l : list (clf R B)) : StronglySorted heavier (ranking l).
Proof. induction l as [|c l IH]; [constructor|]. change (StronglySorted heavier (insert_clf c (ranking l))). apply insert_sorted, IH. Qed.
Lemma sorted_split (l : list (clf R B)) k a b : StronglySorted heavier l -> In a (firstn k l) -> In b (skipn k l) -> heavier a b.
Proof.
  intros S; revert k; induction S as [|c l S IH F]; intros [|k] Ha Hb; cbn [firstn skipn] in *; [contradiction|contradiction|contradiction|].
  destruct Ha as [<-|Ha]; [|eapply IH; eauto]. rewrite Forall_forall in F; apply F. rewrite <- (firstn_skipn k l). apply in_or_app; auto.
Qed.
Lemma top_ranking (pool : list (clf R B)) : top K pool (firstn K (ranking pool)).
Proof.
  split; [rewrite firstn_length, (Permutation_length (ranking_perm pool)); reflexivity|]. exists (skipn K (ranking pool)). split; [rewrite firstn_skipn; symmetry; apply ranking_perm|].
  intros a b. apply sorted_split, ranking_sorted.
Qed.
(** Votes *)
Definition dval (d : list (Z * R)) (l : Z) : R := match dget d l with Some v => v | None => 0 end.
Lemma vote_val d l v k : dval (vote d l v) k = dval d k + (if Z.eqb l k then v else 0).
Proof.
  unfold dval, vote. rewrite dget_dset. destruct (Z.eqb_spec l k) as [->|D]; [|destruct (dget d k); lra].
  destruct (dget d k); cbn [nadd NumR]; lra.
Qed.
Lemma best_from_R d : forall k v, exists u, In (best_from d k v, u) ((k, v) :: d) /\ Forall (fun kv => snd kv <= u) ((k, v) :: d).
Proof.
  induction d as [|[k' v'] d IH]; intros k v; cbn [best_from]; [exists v; split; [left; reflexivity|constructor; [cbn; lra|constructor]]|].
  cbn [nltb NumR]. rdes.
  - destruct (IH k' v') as (u & H1 & H2). exists u; split; [right; exact H1|]. constructor; [|exact H2]. inversion H2 as [|? ? H3 _]; subst; cbn [snd] in *; lra.
  - destruct (IH k v) as (u & H1 & H2). inversion H2 as [|? ? H3 H4]; subst; cbn [snd] in *.
    exists u; split; [destruct H1 as [H1|H1]; [left; exact H1|right; right; exact H1]|]. constructor; [exact H3|]. constructor; [cbn [snd]; lra|exact H4].
Qed.
Lemma best_label_R d k : NoDup (dkeys d) -> best_label d = Ok k -> In k (dkeys d) /\ forall k', In k' (dkeys d) -> dval d k' <= dval d k.
Proof.
  intros ND H. destruct d as [|[k0 v0] d]; [discriminate|]. cbn [best_label] in H; injection H as <-. destruct (best_from_R d k0 v0) as (u & H1 & H2).
  assert (G : dget ((k0, v0) :: d) (best_from d k0 v0) = Some u) by (apply In_dget; assumption).
  split; [apply dget_Some; eauto|]. intros k' Hk. apply dget_Some in Hk; destruct Hk as [v' Hv]. unfold dval; rewrite G, Hv.
  rewrite Forall_forall in H2. apply dget_In in Hv. exact (H2 _ Hv).
Qed.
Lemma votes_fold (sum : R) x (ens : list (clf R B)) : forall d d',
  foldM (fun d c => p <- labels_of L (cl_est c) [x] ;; Ok (fold_left (fun d label => vote d label (cl_weight c / sum)) p d)) ens d = Ok d' -> NoDup (dkeys d) ->
  exists answers, Forall2 (fun c a => wl_predict L (cl_est c) [x] = Ok [a]) ens answers /\ NoDup (dkeys d') /\
    (forall k, In k (dkeys d') <-> In k (dkeys d) \/ In k answers) /\ forall k, dval d' k = dval d k + support ens answers k / sum.
Proof.
  induction ens as [|c ens IH]; intros d d' H ND; cbn [foldM] in H.
  - injection H as <-. exists []; split; [constructor|]. split; [exact ND|]. split; [cbn; tauto|]. intros k; unfold support; cbn [combine map Rsum]; unfold Rdiv; lra.
  - apply bind_Ok in H; destruct H as [d1 [E H]]. apply bind_Ok in E; destruct E as [p [Ep E]]. injection E as <-.
    unfold labels_of in Ep. apply bind_Ok in Ep; destruct Ep as [q [Eq Ep]]. destruct (Nat.eqb_spec (length q) (length [x])) as [G|G]; [|discriminate].
    injection Ep as <-. destruct q as [|a [|? ?]]; try discriminate. cbn [fold_left] in H.
    destruct (IH _ _ H) as (answers & F & ND' & Ks & V); [unfold vote; apply NoDup_dset; exact ND|].
    exists (a :: answers). split; [constructor; assumption|]. split; [exact ND'|]. split.
    + intros k; rewrite Ks; unfold vote; rewrite In_dkeys_dset; cbn [In]; intuition.
    + intros k; rewrite V, vote_val. unfold support; cbn [combine map Rsum fst snd]. cbn [ndiv NumR]. destruct (Z.eqb a k); unfold Rdiv; lra.
Qed.
Lemma sum_abs_nonneg (l : list (clf R B)) : 0 <= Rsum (map (fun c => nabs (cl_weight c)) l).
Proof.
  assert (A : forall v : R, 0 <= nabs v) by (intros v; unfold nabs, n0; cbn [nltb nofZ NumR nsub]; rdes; lra).
  induction l as [|c l IH]; cbn [map Rsum]; [lra|]. specialize (A (cl_weight c)); lra.
Qed.
Lemma predict_R (s : awe X R B) x c : awe_predict L K s [x] = Ok [c] ->
  (aw_pool s = [] /\ c = 0%Z) \/
  exists ens answers, top K (aw_pool s) ens /\ Forall2 (fun m a => wl_predict L (cl_est m) [x] = Ok [a]) ens answers /\
    In c answers /\ forall l, In l answers -> support ens answers l <= support ens answers c.
Proof.
  unfold awe_predict; cbv zeta. destruct (aw_pool s) as [|c0 pool] eqn:Es; [intros H; injection H as <-; left; auto|].
  rewrite <- Es. intros H; right. set (ens := firstn K (ranking (aw_pool s))) in *.
  set (sum := if (_ =? n0)%num then n1 else _) in H.
  assert (Sp : 0 < sum).
  { unfold sum. rewrite fold_nadd_R. pose proof (sum_abs_nonneg ens). unfold n0, n1; cbn [neqb nofZ NumR]. rdes; lra. }
  apply bind_Ok in H; destruct H as [d [Ed H]]. cbn [mapM] in H. apply bind_Ok in H; destruct H as [k [Ek H]]. cbn [bind] in H; injection H as <-.
  destruct (votes_fold sum x ens [] d Ed) as (answers & F & ND & Ks & V); [constructor|].
  exists ens, answers. split; [apply top_ranking|]. split; [exact F|]. apply best_label_R in Ek; [|exact ND]. destruct Ek as [I M].
  split; [apply Ks in I; destruct I as [[]|I]; exact I|]. intros l Il. specialize (M l). rewrite !V in M.
  assert (Hl : In l (dkeys d)) by (apply Ks; right; exact Il). specialize (M Hl). unfold dval in M; cbn in M.
  apply Rmult_le_reg_r with (/ sum); [apply Rinv_0_lt_compat; exact Sp|]. unfold Rdiv in M; lra.
Qed.
End Weights.

(** *** The weight of a new classifier *)
Section New.
Context {X B : Type} (L : wlearner X R B) (base : B) (w K n_kept n_splits : nat) (kfold : nat -> nat -> res (list (list nat * list nat))).
Local Open Scope R_scope.
Lemma rows_at_picked {A : Type} (rows : list (A * Z)) idx sub : rows_at rows idx = Ok sub -> picked rows idx sub.
Proof.
  unfold rows_at, picked. revert sub; induction idx as [|i idx IH]; intros sub H; cbn [mapM] in H; [injection H as <-; constructor|].
  apply bind_Ok in H; destruct H as [r [E H]]. apply bind_Ok in H; destruct H as [rs [E2 H]]. injection H as <-.
  constructor; [|apply IH; exact E2]. destruct (nth_error rows i); [injection E as ->; reflexivity|discriminate].
Qed.
Lemma cross_R rows labels folds : starts_anew L -> forall b acc s, cross L n_splits rows labels folds b acc = Ok s ->
  exists es, Forall2 (fold_error L base labels rows) folds es /\ s = acc + Rsum es / INR n_splits.
Proof.
  intros An; induction folds as [|[tr te] folds IH]; intros b acc s H; cbn [cross] in H.
  - injection H as <-. exists []; split; [constructor|cbn [Rsum]; unfold Rdiv; lra].
  - apply bind_Ok in H; destruct H as [train [E1 H]]. apply bind_Ok in H; destruct H as [test [E2 H]]. apply bind_Ok in H; destruct H as [b1 [E3 H]].
    apply bind_Ok in H; destruct H as [sc [E4 H]]. apply IH in H; destruct H as (es & F & ->). apply score_R in E4; destruct E4 as (P & P1 & P2 & ->).
    exists (mse labels P test :: es). split.
    + constructor; [|exact F]. exists train, test, b1, P. cbn [fst snd]. rewrite (An base b). split; [apply rows_at_picked; exact E1|]. split; [apply rows_at_picked; exact E2|]. auto.
    + cbn [nadd ndiv nofZ NumR Rsum]. rewrite <- INR_IZR_INZ. unfold Rdiv; lra.
Qed.
Lemma new_weight rows (pool pool' : list (clf R B)) : starts_anew L -> awe_chunk L base n_kept n_splits kfold rows pool = Ok pool' ->
  exists new updated folds labels es, admitted n_kept new updated pool' /\ length updated = length pool /\ wl_fit L base rows None = Ok (cl_est new) /\
    kfold n_splits (length rows) = Ok folds /\ StronglySorted Z.lt labels /\ (forall c, In c labels <-> In c (map snd rows)) /\
    Forall2 (fold_error L base labels rows) folds es /\ cl_weight new = Rmax 0 (random_error (map snd rows) - Rsum es / INR n_splits).
Proof.
  intros An H. assert (H0 := H). unfold awe_chunk in H; cbv zeta in H. apply bind_Ok in H; destruct H as [b [Eb H]]. apply bind_Ok in H; destruct H as [f [Ef H]].
  apply bind_Ok in H; destruct H as [s [Ec H]]. apply bind_Ok in H; destruct H as [p2 [E H]].
  apply cross_R in Ec; [|exact An]. destruct Ec as (es & Fe & Es).
  exists (mk_clf b (weight_of (baseline (map snd rows)) s) (np_unique (map snd rows))), p2, f, (np_unique (map snd rows)), es.
  assert (Ad : admitted n_kept (mk_clf b (weight_of (baseline (map snd rows)) s) (np_unique (map snd rows))) p2 pool').
  { clear - H. cbn [cl_weight] in H. revert H. generalize (weight_of (baseline (map snd rows)) s) as v0, (np_unique (map snd rows)) as ls; intros v0 ls H.
    destruct (Nat.ltb_spec (length p2) n_kept) as [G|G]; [left; split; [exact G|injection H as <-; reflexivity]|]. right; split; [exact G|].
    destruct p2 as [|c r]; [discriminate|]. destruct (least_from r 1 0 (cl_weight c)) as [i v] eqn:El. apply least_from_R in El; destruct El as (H1 & H2 & H3).
    assert (Q : exists a d b0, c :: r = a ++ d :: b0 /\ length a = i /\ v = cl_weight d).
    { destruct H3 as [[-> ->]|(k & d & D1 & -> & ->)]; [exists [], c, r; auto|].
      apply nth_error_split in D1; destruct D1 as (a & b0 & -> & <-). exists (c :: a), d, b0; auto. }
    destruct Q as (a & d & b0 & Q1 & Q2 & ->). exists a, d, b0. split; [exact Q1|]. split; [constructor; assumption|].
    cbn [nltb NumR] in H. cbn [cl_weight]. revert H; rdes; intros H; injection H as <-; [left|right; split; [lra|reflexivity]]. split; [lra|].
    rewrite Q1; unfold drop_at. rewrite <- Q2, firstn_app, Nat.sub_diag, firstn_all; cbn [firstn]. rewrite app_nil_r.
    change (S (length a)) with (1 + length a)%nat. replace (skipn (1 + length a) (a ++ d :: b0)) with b0; [rewrite <- app_assoc; reflexivity|].
    clear. induction a as [|y a IH]; [reflexivity|exact IH]. }
  split; [exact Ad|]. split; [eapply ExpertRunProofs.mapM_length; exact E|]. split; [exact Eb|]. split; [exact Ef|].
  destruct (np_unique_spec (map snd rows)) as [U1 U2]. split; [exact U1|]. split; [exact U2|]. split; [exact Fe|].
  cbn [cl_weight]. rewrite weight_of_R, baseline_R, Es. change (@n0 R NumR) with 0. rewrite Rplus_0_l; reflexivity.
Qed.
End New.

(** *** No failure *)
Lemma where_is_lt c labels i : where_is c labels = Some i -> i < length labels.
Proof.
  revert i; induction labels as [|l ls IH]; intros i H; cbn [where_is] in H; [discriminate|]. destruct (Z.eqb l c); [injection H as <-; cbn; lia|].
  destruct (where_is c ls) as [j|]; [|discriminate]. injection H as <-. specialize (IH j eq_refl). cbn [length]; lia.
Qed.
Section Total.
Context {X T B : Type} {N : Num T} (L : wlearner X T B) (base : B) (w K n_kept n_splits C : nat) (kfold : nat -> nat -> res (list (list nat * list nat))).
Hypothesis (W : 0 < w) (Kp : 0 < K) (Np : 0 < n_kept) 
  (Pos : forall n, (nofZ (Z.of_nat (S n)) =? n0)%num = false) (So : sound L C).
Lemma score_total b labels rows : rows <> [] -> length labels <= C -> exists s, score L b labels rows = Ok s.
Proof.
  intros Ne Hl. destruct So as (_ & _ & Sp). destruct (Sp b (map fst rows)) as (P & E & Lp & F). rewrite map_length in Lp.
  unfold score; rewrite E; cbn [bind]. rewrite Lp, Nat.eqb_refl.
  assert (M : exists es, mapM (fun pr => square_error labels (fst pr) (snd (snd pr))) (combine P rows) = Ok es).
  { assert (Fc : Forall (fun pr : list T * (X * Z) => C <= length (fst pr)) (combine P rows)).
    { rewrite Forall_forall in F |- *. intros [p r] I. apply in_combine_l in I. apply F; exact I. }
    clear - Fc Hl. induction Fc as [|[p r] l H F IH]; [exists []; reflexivity|]. destruct IH as [es IH]. cbn [mapM fst snd] in *.
    assert (exists e, square_error labels p (snd r) = Ok e) as [e ->].
    { unfold square_error. destruct (where_is (snd r) labels) as [i|] eqn:Ei; [|eauto]. apply where_is_lt in Ei.
      destruct (nth_error p i) eqn:En; [eauto|]. apply nth_error_None in En. lia. }
    cbn [bind]. rewrite IH; cbn [bind]; eauto. }
  destruct M as [es ->]; cbn [bind]. destruct rows as [|r rows]; [contradiction|]. unfold pydiv. cbn [length]. rewrite Pos. eauto.
Qed.
Lemma rows_at_total (rows : list (X * Z)) idx : Forall (fun i => i < length rows) idx -> exists sub, rows_at rows idx = Ok sub /\ length sub = length idx.
Proof.
  induction 1 as [|i idx H F (sub & IH & Li)]; [exists []; split; reflexivity|]. unfold rows_at in *; cbn [mapM].
  destruct (nth_error rows i) as [r|] eqn:E; [|apply nth_error_None in E; lia]. cbn [bind]. rewrite IH; cbn [bind]. exists (r :: sub); cbn [length]; auto.
Qed.
Lemma cross_total rows labels folds : sound_folds (length rows) folds -> length labels <= C -> forall b acc, exists s, cross L n_splits rows labels folds b acc = Ok s.
Proof.
  intros F Hl; induction F as [|[tr te] folds (F1 & F2 & F3) F IH]; intros b acc; cbn [cross]; [eauto|]. cbn [fst snd] in *.
  destruct (rows_at_total rows tr F1) as (train & -> & _). destruct (rows_at_total rows te F2) as (test & -> & Lt). cbn [bind].
  destruct So as (Sf & _). destruct (Sf b train) as [b1 ->]; cbn [bind].
  destruct (score_total b1 labels test) as [sc ->]; [destruct te, test; cbn in *; congruence|exact Hl|]. cbn [bind]. apply IH.
Qed.
Lemma below_len ys : Forall (fun y => (0 <= y < Z.of_nat C)%Z) ys -> length (np_unique ys) <= C.
Proof.
  intros F. assert (I : incl (np_unique ys) (map Z.of_nat (seq 0 C))).
  { intros y Iy. apply (proj2 (np_unique_spec ys)) in Iy. rewrite Forall_forall in F; specialize (F y Iy). apply in_map_iff. exists (Z.to_nat y). split; [lia|]. apply in_seq; lia. }
  apply NoDup_incl_length in I; [rewrite map_length, seq_length in I; exact I|apply np_unique_nodup].
Qed.
Lemma chunk_total rows pool : sound_folds (length rows) (match kfold n_splits (length rows) with Ok f => f | Raise _ => [] end) -> (exists f, kfold n_splits (length rows) = Ok f) ->
  rows <> [] -> Forall (fun r => (0 <= snd r < Z.of_nat C)%Z) rows -> Forall (fun c => length (cl_seen c) <= C) pool ->
  exists pool', awe_chunk L base n_kept n_splits kfold rows pool = Ok pool' /\ Forall (fun c => length (cl_seen c) <= C) pool'.
Proof.
  intros Sf [f Ef] Ne Fr Fp. rewrite Ef in Sf. unfold awe_chunk; cbv zeta. destruct So as (Sft & _). destruct (Sft base rows) as [b ->]; cbn [bind]. rewrite Ef; cbn [bind].
  assert (Hu : length (np_unique (map snd rows)) <= C) by (apply below_len; rewrite Forall_map; exact Fr).
  destruct (cross_total rows (np_unique (map snd rows)) f Sf Hu base n0) as [s ->]; cbn [bind].
  assert (M : exists p2, mapM (fun c => s <- score L (cl_est c) (cl_seen c) rows ;; Ok (mk_clf (cl_est c) (weight_of (baseline (map snd rows)) s) (cl_seen c))) pool = Ok p2 /\ Forall (fun c => length (cl_seen c) <= C) p2).
  { clear - W Kp Np Fp Ne So Pos. induction Fp as [|c pool H F (p2 & IH & F2)]; [exists []; split; [reflexivity|constructor]|]. cbn [mapM].
    destruct (score_total (cl_est c) (cl_seen c) rows Ne H) as [sc ->]; cbn [bind]. rewrite IH; cbn [bind]. eexists; split; [reflexivity|]. constructor; [exact H|exact F2]. }
  destruct M as (p2 & -> & F2); cbn [bind].
  destruct (Nat.ltb_spec (length p2) n_kept) as [G|G]; [eexists; split; [reflexivity|]; apply Forall_app; split; [exact F2|constructor; [exact Hu|constructor]]|].
  destruct p2 as [|c r]; [cbn [length] in G; lia|]. destruct (least_from r 1 0 (cl_weight c)) as [i v]. destruct (v <? _)%num; [|eexists; split; [reflexivity|exact F2]].
  eexists; split; [reflexivity|]. apply Forall_app; split; [|constructor; [exact Hu|constructor]]. unfold drop_at. rewrite Forall_forall in F2.
  apply Forall_app; split; apply Forall_forall; intros d I; apply F2; [rewrite <- (firstn_skipn i (c :: r))|rewrite <- (firstn_skipn (S i) (c :: r))]; apply in_or_app; auto.
Qed.
Hypothesis Kf : exists f, kfold n_splits w = Ok f /\ sound_folds w f.
Definition awe_fine (s : awe X T B) : Prop := length (aw_win s) < w /\ Forall (fun r => (0 <= snd r < Z.of_nat C)%Z) (aw_win s) /\ Forall (fun c => length (cl_seen c) <= C) (aw_pool s).
Lemma awe_fit_total rows : Forall (fun r => (0 <= snd r < Z.of_nat C)%Z) rows -> forall s, awe_fine s -> exists s', awe_partial_fit L base w n_kept n_splits kfold rows s = Ok s' /\ awe_fine s'.
Proof.
  induction 1 as [|row rows Hr F IH]; intros s (H1 & H2 & H3); cbn [awe_partial_fit]; [exists s; repeat split; assumption|].
  destruct (Nat.leb_spec w (length (aw_win s))) as [G|G]; [lia|]. cbv zeta.
  assert (F2 : Forall (fun r => (0 <= snd r < Z.of_nat C)%Z) (aw_win s ++ [row])) by (apply Forall_app; split; [exact H2|constructor; [exact Hr|constructor]]).
  destruct (Nat.eqb_spec (length (aw_win s ++ [row])) w) as [E|E].
  - destruct Kf as (f & Ef & Sf). destruct (chunk_total (aw_win s ++ [row]) (aw_pool s)) as (p & -> & Fp); [rewrite E, Ef; exact Sf|rewrite E; eauto|destruct (aw_win s); discriminate|exact F2|exact H3|].
    cbn [bind]. apply IH. split; [exact W|]. split; [constructor|exact Fp].
  - apply IH. rewrite app_length in E; cbn [length] in E. split; [cbn [aw_win]; rewrite app_length; cbn [length]; lia|]. split; [exact F2|exact H3].
Qed.
Lemma awe_run_total os : Forall (labels_below C) os -> forall s, awe_fine s -> exists s', foldM (awe_step L base w n_kept n_splits kfold) os s = Ok s' /\ awe_fine s'.
Proof.
  induction 1 as [|o os Ho F IH]; intros s Fs; cbn [foldM]; [exists s; auto|]. destruct o as [rows|]; cbn [awe_step labels_below] in *.
  - destruct (awe_fit_total rows Ho s Fs) as (s1 & -> & F1); cbn [bind]; auto.
  - cbn [bind]. apply IH. split; [exact W|]. split; constructor.
Qed.
Lemma insert_len (c : clf T B) l : length (insert_clf c l) = S (length l).
Proof. induction l as [|d l IH]; cbn [insert_clf length]; [reflexivity|]. destruct (_ <=? _)%num; cbn [length]; congruence. Qed.
Lemma ranking_len (l : list (clf T B)) : length (ranking l) = length l.
Proof. induction l as [|c l IH]; [reflexivity|]. change (length (insert_clf c (ranking l)) = S (length l)). rewrite insert_len, IH; reflexivity. Qed.
Lemma vote_nonempty (d : list (Z * T)) l v : vote d l v <> [].
Proof. unfold vote; apply NominalProofs.dset_nonempty. Qed.
Lemma votes_fold_nonempty v p : forall d : list (Z * T), p <> [] \/ d <> [] -> fold_left (fun d label => vote d label v) p d <> [].
Proof. induction p as [|a p IH]; intros d [H|H]; cbn [fold_left]; try congruence; apply IH; right; apply vote_nonempty. Qed.
Lemma awe_predict_total (s : awe X T B) xs : exists ys, awe_predict L K s xs = Ok ys /\ length ys = length xs.
Proof.
  unfold awe_predict; cbv zeta. destruct (aw_pool s) as [|c0 pool] eqn:Es; [eexists; split; [reflexivity|apply map_length]|]. rewrite <- Es.
  set (sum := if (_ =? n0)%num then n1 else _). clearbody sum.
  assert (Ne : firstn K (ranking (aw_pool s)) <> []).
  { intros E. apply (f_equal (@length _)) in E. rewrite firstn_length, ranking_len, Es in E. cbn [length] in E; lia. }
  destruct So as (_ & Sp & _).
  assert (M : forall l d, (l <> [] \/ d <> [] \/ xs = []) -> exists d', foldM (fun d c => p <- labels_of L (cl_est c) xs ;; Ok (fold_left (fun d label => vote d label (cl_weight c / sum)%num) p d)) l d = Ok d' /\ (d' <> [] \/ xs = [])).
  { induction l as [|c l IH]; intros d H; cbn [foldM]; [exists d; split; [reflexivity|tauto]|]. destruct (Sp (cl_est c) xs) as (p & Ep & Lp).
    rewrite (labels_of_ok L (cl_est c) xs p Ep Lp); cbn [bind]. apply IH. destruct xs as [|x xs]; [auto|]. right; left. apply votes_fold_nonempty. destruct p; [discriminate|left; discriminate]. }
  destruct (M (firstn K (ranking (aw_pool s))) [] (or_introl Ne)) as (d & -> & Hd); cbn [bind].
  destruct Hd as [Hd| ->]; [|exists []; split; reflexivity]. destruct d as [|[k v] d]; [contradiction|]. cbn [best_label].
  rewrite mapM_const_ok. eexists; split; [reflexivity|apply map_length].
Qed.
End Total.
