(** Proofs about the multi-output estimators (Model/Chains.v). *)
From Coq Require Import List ZArith Bool Arith Lia Permutation Sorted Reals Lra Psatz.
From Verif Require Import Base.Py Base.Num Model.Adwin Model.Knn Model.Chains Spec.ChainSpec.
Import ListNotations.

(** *** Loops over members *)
Lemma each_seq {B} (f : nat -> B -> B * option exc) g k : forall a l, each k a f (map g (seq a k)) = (l, None) ->
  l = map (fun i => fst (f i (g i))) (seq a k).
Proof.
  induction k as [|k IH]; intros a l H; cbn [each seq map] in *; [congruence|].
  destruct (f a (g a)) as [b' [e|]] eqn:F; [discriminate|].
  destruct (each k (S a) f (map g (seq (S a) k))) as [l2 e2] eqn:E; injection H as H1 H2; subst.
  apply IH in E; subst. reflexivity.
Qed.
Lemma each_seq_total {B} (f : nat -> B -> B * option exc) g k : (forall i b, snd (f i b) = None) -> forall a, snd (each k a f (map g (seq a k))) = None.
Proof.
  intros H; induction k as [|k IH]; intros a; cbn [each seq map]; [reflexivity|].
  specialize (H a (g a)); destruct (f a (g a)) as [b' [e|]]; cbn [snd] in H; [discriminate|].
  specialize (IH (S a)); destruct (each k (S a) f (map g (seq (S a) k))) as [l2 e2]; exact IH.
Qed.
Lemma repeat_seq {B} (b : B) k : forall a, repeat b k = map (fun _ => b) (seq a k).
Proof. induction k as [|k IH]; intros a; cbn [repeat seq map]; [reflexivity|]; rewrite (IH (S a)); reflexivity. Qed.

(** *** Columns and rows *)
Section Rows.
Context {T : Type} {N : Num T}.
Lemma rows_of_len n (cs : list (list T)) : length (rows_of n cs) = n.
Proof. unfold rows_of; rewrite map_length, seq_length; reflexivity. Qed.
Lemma rows_of_width n (cs : list (list T)) : Forall (fun r => length r = length cs) (rows_of n cs).
Proof. unfold rows_of; apply Forall_forall; intros r I; apply in_map_iff in I; destruct I as [i [<- _]]; apply map_length. Qed.
Lemma nth_seq_map (l : list T) : map (fun i => nth i l n0) (seq 0 (length l)) = l.
Proof.
  apply nth_ext with n0 n0; [rewrite map_length, seq_length; reflexivity|].
  intros i Hi; rewrite map_length, seq_length in Hi.
  rewrite (nth_indep _ n0 (nth (length l) l n0)) by (rewrite map_length, seq_length; lia).
  rewrite (map_nth (fun i => nth i l n0) (seq 0 (length l)) (length l)), seq_nth by lia; reflexivity.
Qed.
Lemma col_rows_of n (cs : list (list T)) j : j < length cs -> length (nth j cs []) = n -> col j (rows_of n cs) = nth j cs [].
Proof.
  intros Hj Hn; unfold col, rows_of; rewrite map_map.
  transitivity (map (fun i => nth i (nth j cs []) n0) (seq 0 n)); [|rewrite <- Hn; apply nth_seq_map].
  apply map_ext; intros i.
  rewrite (nth_indep _ n0 (nth i [] n0)) by (rewrite map_length; lia).
  rewrite (map_nth (fun c => nth i c n0)); reflexivity.
Qed.
End Rows.

Lemma column_ok {A} n (v c : list A) : column n v = Ok c -> c = v /\ length v = n.
Proof. unfold column; destruct (Nat.eqb_spec (length v) n); [|discriminate]; intros H; injection H as <-; auto. Qed.

(** *** MultiOutputLearner *)
Section Multi.
Context {X T B : Type} {N : Num T} (L : tlearner X T B) (base : B).

Definition mo_state (k : nat) st : multi B :=
  match st with None => mk_multi None None | Some c => mk_multi (Some k) (Some (map (fun j => alone L base j c) (seq 0 k))) end.

Lemma passing_ok tc tw (m : B -> list (X * T) -> option (list Z) -> option (list T) -> B * option exc) b rows c w : (tc = true -> tw = true) ->
  passing tc tw m b rows c w = m b rows (if tc then c else None) (if tw then w else None).
Proof. intros H; unfold passing; destruct tc, tw; auto; discriminate (H eq_refl). Qed.

Lemma mo_fit_ok k rows c w s s' : usual_signatures L -> mo_fit L base k rows c w s = (s', None) -> s' = mo_state k (Some ((rows, c, w), [])).
Proof.
  intros [U _] H; unfold mo_fit in H; rewrite (repeat_seq base k 0) in H.
  destruct (each _ _ _ _) as [l e] eqn:E; injection H as <- ->.
  apply each_seq in E; subst l; cbn [mo_state]; do 2 f_equal.
  apply map_ext; intros j; rewrite passing_ok by exact U; reflexivity.
Qed.
Lemma mo_partial_ok k rows c w st s' : usual_signatures L -> mo_partial_fit L base k rows c w (mo_state k st) = (s', None) ->
  s' = mo_state k (match st with None => Some ((rows, c, w), []) | Some (f, r) => Some (f, r ++ [(rows, c, w)]) end).
Proof.
  intros U H; destruct st as [[f r]|]; unfold mo_partial_fit in H; cbn [mo_state mo_n mo_ens] in H; [|apply mo_fit_ok in H; auto].
  destruct (each _ _ _ _) as [l e] eqn:E; injection H as <- ->.
  apply each_seq in E; subst l; cbn [mo_state]; do 2 f_equal.
  apply map_ext; intros j; rewrite passing_ok by apply U; unfold alone; cbn [fst snd]; rewrite fold_left_app; reflexivity.
Qed.
Lemma mo_run_ok k : usual_signatures L -> forall os st s es, Forall (m_columns k) os -> mo_run L base (mo_state k st) os = (s, es) -> Forall (fun e => e = None) es ->
  s = mo_state k (epoch st (map mkind os)).
Proof.
  intros U; induction os as [|o os IH]; intros st s es C H F; cbn [mo_run map epoch] in *; [congruence|].
  destruct (mo_step L base (mo_state k st) o) as [s1 e] eqn:E, (mo_run L base s1 os) as [s2 es2] eqn:Er; injection H as <- <-.
  inversion F as [|? ? -> F2]; subst; inversion C as [|? ? C1 C2]; subst.
  destruct o as [k' rows c w|k' rows c w|]; cbn [mo_step mkind epoch m_columns] in *; [destruct C1 as [-> _]..|].
  - apply mo_fit_ok in E; [|exact U]; subst s1; eapply IH; eauto.
  - apply mo_partial_ok in E; [|exact U]; subst s1; eapply IH; eauto.
  - injection E as <-; eapply (IH None); eauto.
Qed.
Lemma mo_run_total k : usual_signatures L -> sound L -> forall os st s es, Forall (m_columns k) os -> mo_run L base (mo_state k st) os = (s, es) -> Forall (fun e => e = None) es.
Proof.
  intros U (S1 & S2 & _); induction os as [|o os IH]; intros st s es C H; cbn [mo_run] in *; [injection H as _ <-; constructor|].
  destruct (mo_step L base (mo_state k st) o) as [s1 e] eqn:E, (mo_run L base s1 os) as [s2 es2] eqn:Er; injection H as <- <-.
  inversion C as [|? ? C1 C2]; subst.
  assert (Fit : forall rows c w s, snd (mo_fit L base k rows c w s) = None).
  { intros rows c w s0; unfold mo_fit; rewrite (repeat_seq base k 0).
    match goal with |- context [each k 0 ?f (map ?g _)] => pose proof (each_seq_total f g k) as T0 end.
    specialize (T0 (fun i b => eq_trans (f_equal snd (passing_ok _ _ _ b _ c w (proj1 U))) (S1 _ _ _ _)) 0).
    destruct (each _ _ _ _); exact T0. }
  assert (e = None).
  { destruct o as [k' rows c w|k' rows c w|]; cbn [mo_step m_columns] in *; [destruct C1 as [-> _]..|].
    - specialize (Fit rows c w (mo_state k st)); rewrite E in Fit; exact Fit.
    - destruct st as [[f r]|]; [|unfold mo_partial_fit in E; cbn [mo_state mo_n] in E; specialize (Fit rows c w (mk_multi None None)); rewrite E in Fit; exact Fit].
      unfold mo_partial_fit in E; cbn [mo_state mo_n mo_ens] in E.
      match type of E with context [each k 0 ?f (map ?g _)] => pose proof (each_seq_total f g k) as T0 end.
      specialize (T0 (fun i b => eq_trans (f_equal snd (passing_ok _ _ _ b _ c w (proj2 U))) (S2 _ _ _ _)) 0).
      destruct (each _ _ _ _); injection E as <- <-; exact T0.
    - injection E as _ <-; reflexivity. }
  subst e; constructor; [reflexivity|].
  destruct o as [k' rows c w|k' rows c w|]; cbn [mo_step m_columns] in *; [destruct C1 as [-> _]..|].
  - apply mo_fit_ok in E; [|exact U]; subst s1; eapply IH; eauto.
  - apply mo_partial_ok in E; [|exact U]; subst s1; eapply IH; eauto.
  - injection E as <-; eapply (IH None); eauto.
Qed.

Lemma mo_cols_ok (ask : B -> res (list T)) n g k : forall a cs, mo_cols ask n k (map g (seq a k)) = Ok cs ->
  length cs = k /\ forall j, j < k -> ask (g (a + j)) = Ok (nth j cs []) /\ length (nth j cs []) = n.
Proof.
  induction k as [|k IH]; intros a cs H; cbn [mo_cols seq map] in H; [injection H as <-; split; [reflexivity|lia]|].
  apply bind_Ok in H; destruct H as [v [V H]]; apply bind_Ok in H; destruct H as [c [C H]]; apply bind_Ok in H; destruct H as [cs2 [R H]]; injection H as <-.
  apply column_ok in C; destruct C as [-> C]; apply IH in R; destruct R as [R1 R2]; split; [cbn [length]; congruence|].
  intros [|j] Hj; cbn [nth]; [rewrite Nat.add_0_r; auto|].
  rewrite Nat.add_succ_r, <- Nat.add_succ_l; apply R2; lia.
Qed.
Lemma mo_cols_total (ask : B -> res (list T)) n g k : forall a, (forall j, j < k -> exists v, ask (g (a + j)) = Ok v /\ length v = n) -> exists cs, mo_cols ask n k (map g (seq a k)) = Ok cs.
Proof.
  induction k as [|k IH]; intros a H; cbn [mo_cols seq map]; [eauto|].
  destruct (H 0 ltac:(lia)) as [v [V W]]; rewrite Nat.add_0_r in V; rewrite V; cbn [bind].
  unfold column; rewrite W, Nat.eqb_refl; cbn [bind].
  destruct (IH (S a)) as [cs E]; [intros j Hj; specialize (H (S j) ltac:(lia)); rewrite Nat.add_succ_r in H; exact H|].
  rewrite E; cbn [bind]; eauto.
Qed.
Lemma mo_predict_ok k c xs P : mo_predict L (mo_state k (Some c)) xs = Ok P ->
  length P = length xs /\ Forall (fun r => length r = k) P /\ forall j, j < k -> tl_predict L (alone L base j c) xs = Ok (col j P).
Proof.
  unfold mo_predict; cbn [mo_state mo_n mo_ens]; intros H; apply bind_Ok in H; destruct H as [cs [C H]]; injection H as <-.
  apply (mo_cols_ok _ _ _ k 0) in C; destruct C as [C1 C2]; split; [apply rows_of_len|]; split; [rewrite <- C1; apply rows_of_width|].
  intros j Hj; destruct (C2 j Hj) as [D1 D2]; cbn [Nat.add] in D1; rewrite col_rows_of by (auto; lia); exact D1.
Qed.
Lemma mo_predict_total k c xs : sound L -> exists P, mo_predict L (mo_state k (Some c)) xs = Ok P.
Proof.
  intros (_ & _ & S3); unfold mo_predict; cbn [mo_state mo_n mo_ens].
  destruct (mo_cols_total (fun b => tl_predict L b xs) (length xs) (fun j => alone L base j c) k 0) as [cs E]; [intros j _; apply S3|].
  rewrite E; cbn [bind]; eauto.
Qed.
(** predict_proba *)
Lemma mo_proba_ok k c xs P : mo_proba L (mo_state k (Some c)) xs = Ok P ->
  length P = length xs /\ Forall (fun r => length r = k) P /\
  forall j, j < k -> exists m, tl_proba L (alone L base j c) xs = Ok m /\ second m = Ok (col j P).
Proof.
  unfold mo_proba; cbn [mo_state mo_n mo_ens]; intros H; apply bind_Ok in H; destruct H as [cs [C H]]; injection H as <-.
  apply (mo_cols_ok _ _ _ k 0) in C; destruct C as [C1 C2]; split; [apply rows_of_len|]; split; [rewrite <- C1; apply rows_of_width|].
  intros j Hj; destruct (C2 j Hj) as [D1 D2]; cbn [Nat.add] in D1; rewrite col_rows_of by (auto; lia); apply bind_Ok in D1; exact D1.
Qed.
(** A column depends on its own output only *)
Lemma alone_same j os os' : Forall2 (same_output j) os os' -> forall st st',
  match st, st' with None, None => True | Some c, Some c' => alone L base j c = alone L base j c' | _, _ => False end ->
  match epoch st (map mkind os), epoch st' (map mkind os') with None, None => True | Some c, Some c' => alone L base j c = alone L base j c' | _, _ => False end.
Proof.
  induction 1 as [|o o' os os' S F IH]; intros st st' Hs; cbn [map epoch]; [exact Hs|].
  destruct o as [k rows c w|k rows c w|], o' as [k' rows' c' w'|k' rows' c' w'|]; cbn [same_output] in S; try contradiction; cbn [mkind epoch]; apply IH; clear IH F.
  - destruct S as (S & -> & ->); unfold alone; cbn [fst snd fold_left]; rewrite S; reflexivity.
  - destruct S as (S & -> & ->); destruct st as [[f r]|], st' as [[f' r']|]; try contradiction; unfold alone in *; cbn [fst snd fold_left] in *.
    + rewrite !fold_left_app; cbn [fold_left]; rewrite Hs, S; reflexivity.
    + rewrite S; reflexivity.
  - exact I.
Qed.
End Multi.

(** *** argsort of a permutation is its inverse *)
Lemma insert_perm v l : Permutation (v :: l) (insert_by v l).
Proof.
  induction l as [|w r IH]; cbn [insert_by]; [reflexivity|]. destruct (Nat.leb (fst v) (fst w)); [reflexivity|].
  rewrite perm_swap; apply perm_skip, IH.
Qed.
Lemma isort_perm l : Permutation l (fold_right insert_by [] l).
Proof. induction l as [|v l IH]; cbn [fold_right]; [reflexivity|]; rewrite <- insert_perm; apply perm_skip, IH. Qed.
Lemma insert_sorted v l : StronglySorted le (map fst l) -> StronglySorted le (map fst (insert_by v l)).
Proof.
  induction l as [|w r IH]; cbn [insert_by map]; intros S; [constructor; constructor|].
  inversion S as [|? ? S1 S2]; subst; destruct (Nat.leb_spec (fst v) (fst w)) as [H|H]; cbn [map].
  - constructor; [exact S|]; constructor; [exact H|]. eapply Forall_impl; [|exact S2]; intros; lia.
  - constructor; [apply IH, S1|]. eapply Permutation_Forall; [apply Permutation_map, insert_perm|].
    cbn [map]; constructor; [lia|exact S2].
Qed.
Lemma isort_sorted l : StronglySorted le (map fst (fold_right insert_by [] l)).
Proof. induction l as [|v l IH]; cbn [fold_right map]; [constructor|]; apply insert_sorted, IH. Qed.
Lemma sorted_unique l : forall l', StronglySorted le l -> StronglySorted le l' -> Permutation l l' -> l = l'.
Proof.
  induction l as [|a l IH]; intros l' S S' P; [apply Permutation_nil in P; congruence|].
  destruct l' as [|b l']; [apply Permutation_sym, Permutation_nil in P; discriminate|].
  inversion S as [|? ? S1 S2]; inversion S' as [|? ? S1' S2']; subst.
  assert (a = b).
  { assert (A : In a (b :: l')) by (eapply Permutation_in; [exact P|left; reflexivity]).
    assert (C : In b (a :: l)) by (eapply Permutation_in; [apply Permutation_sym; exact P|left; reflexivity]).
    rewrite Forall_forall in S2, S2'. destruct A as [A|A]; [auto|]. destruct C as [C|C]; [auto|].
    specialize (S2' _ A); specialize (S2 _ C); lia. }
  subst b; f_equal; apply IH; auto. eapply Permutation_cons_inv; exact P.
Qed.
Lemma seq_sorted k : forall a, StronglySorted le (seq a k).
Proof.
  induction k as [|k IH]; intros a; cbn [seq]; constructor; [apply IH|].
  apply Forall_forall; intros x I; apply in_seq in I; lia.
Qed.
Lemma combine_seq_in (c : list nat) v p : In (v, p) (combine c (seq 0 (length c))) -> p < length c /\ nth p c O = v.
Proof.
  assert (G : forall (d : list nat) a v p, In (v, p) (combine d (seq a (length d))) -> a <= p /\ p - a < length d /\ nth (p - a) d O = v).
  { induction d as [|x d IH]; intros a w q I; cbn [combine length seq] in I; [destruct I|]. destruct I as [I|I].
    - injection I as -> ->; rewrite Nat.sub_diag; cbn [length nth]; split; [lia|]; split; [lia|reflexivity].
    - apply IH in I; destruct I as (I1 & I2 & I3); cbn [length]; replace (q - a) with (S (q - S a)) by lia; cbn [nth]; split; [lia|]; split; [lia|exact I3]. }
  intros I; apply G in I; rewrite Nat.sub_0_r in I; tauto.
Qed.
Lemma map_fst_combine {A C} (a : list A) : forall b : list C, length a = length b -> map fst (combine a b) = a.
Proof. induction a as [|x a IH]; intros [|y b] H; cbn in *; try discriminate; [reflexivity|]; f_equal; apply IH; lia. Qed.
Lemma map_snd_combine {A C} (a : list A) : forall b : list C, length a = length b -> map snd (combine a b) = b.
Proof. induction a as [|x a IH]; intros [|y b] H; cbn in *; try discriminate; [reflexivity|]; f_equal; apply IH; lia. Qed.
Lemma argsort_perm c : Permutation (argsort c) (seq 0 (length c)).
Proof.
  unfold argsort; rewrite <- (map_snd_combine c (seq 0 (length c))) at 2 by (rewrite seq_length; reflexivity).
  apply Permutation_map, Permutation_sym, isort_perm.
Qed.
Lemma argsort_inverse k c : Permutation c (seq 0 k) -> forall j, j < k -> nth (nth j c O) (argsort c) O = j.
Proof.
  intros P j Hj. assert (Lc : length c = k) by (apply Permutation_length in P; rewrite seq_length in P; exact P).
  assert (M : map (fun p => nth p c O) (argsort c) = seq 0 k).
  { transitivity (map fst (fold_right insert_by [] (combine c (seq 0 (length c))))).
    - unfold argsort; rewrite map_map; apply map_ext_in; intros [v p] I.
      eapply Permutation_in in I; [|apply Permutation_sym, isort_perm]; apply combine_seq_in in I; exact (proj2 I).
    - apply sorted_unique; [apply isort_sorted|apply seq_sorted|].
      etransitivity; [apply Permutation_map, Permutation_sym, isort_perm|]. rewrite map_fst_combine by (rewrite seq_length; reflexivity); exact P. }
  assert (La : length (argsort c) = k) by (rewrite (Permutation_length (argsort_perm c)), seq_length; exact Lc).
  assert (Hc : nth j c O < k).
  { assert (I : In (nth j c O) (seq 0 k)) by (eapply Permutation_in; [exact P|apply nth_In; lia]). apply in_seq in I; lia. }
  assert (Q : nth (nth (nth j c O) (argsort c) O) c O = nth j c O).
  { pose proof (f_equal (fun l => nth (nth j c O) l (nth O c O)) M) as F; cbn beta in F.
    rewrite (map_nth (fun p => nth p c O)) in F; rewrite F, (nth_indep _ _ O), seq_nth by (try rewrite seq_length; lia); reflexivity. }
  assert (D : NoDup c) by (eapply Permutation_NoDup; [apply Permutation_sym; exact P|apply seq_NoDup]).
  assert (Hp : nth (nth j c O) (argsort c) O < k).
  { assert (I : In (nth (nth j c O) (argsort c) O) (seq 0 (length c))) by (eapply Permutation_in; [apply argsort_perm|apply nth_In; lia]). apply in_seq in I; lia. }
  rewrite NoDup_nth in D; apply D in Q; auto; lia.
Qed.

(** *** Chains *)
Section Chain.
Context {T B G : Type} {N : Num T} (L : tlearner (list T) T B) (base : B) (random : bool) (seed : G) (shuffle : list nat -> G -> list nat * G).

Lemma reorder_ok order y : Forall (fun i => i < length y) order -> reorder order y = Ok (map (fun i => nth i y n0) order).
Proof.
  induction order as [|i order IH]; intros F; [reflexivity|]; inversion F as [|? ? F1 F2]; subst.
  unfold reorder in *; cbn [mapM map]. destruct (nth_error y i) as [v|] eqn:E; [|apply nth_error_None in E; lia].
  cbn [bind]; rewrite IH by exact F2; cbn [bind]; rewrite (nth_error_nth _ _ n0 E); reflexivity.
Qed.
Lemma reorder_rows k order (rows : list (list T * list T)) : Permutation order (seq 0 k) -> Forall (fun r => length (snd r) = k) rows ->
  mapM (fun r => y <- reorder order (snd r) ;; Ok (fst r, y)) rows = Ok (map (fun r => (fst r, map (fun i => nth i (snd r) n0) order)) rows).
Proof.
  intros P; induction rows as [|r rows IH]; intros F; [reflexivity|]; inversion F as [|? ? F1 F2]; subst.
  cbn [mapM map]. rewrite reorder_ok; cbn [bind]; [rewrite IH by exact F2; reflexivity|].
  apply Forall_forall; intros i I. eapply Permutation_in in I; [|exact P]. apply in_seq in I; lia.
Qed.
Lemma link_lesson k order j (rows : list (list T * list T)) : length order = k -> j < k ->
  link j (map (fun r => (fst r, map (fun i => nth i (snd r) n0) order)) rows) = lesson order j rows.
Proof.
  intros Lo Hj; unfold link, lesson, extended; rewrite map_map; apply map_ext; intros r; cbn [fst snd].
  rewrite firstn_map; f_equal.
  rewrite (nth_indep _ n0 (nth O (snd r) n0)) by (rewrite map_length; lia). rewrite (map_nth (fun i => nth i (snd r) n0)); reflexivity.
Qed.

(** The state after calls without exceptions *)
Definition ch_ok (k : nat) (st : option (list (list T * list T) * list (list (list T * list T)))) (s : chain B G) : Prop :=
  match st with
  | None => ch_ens s = None /\ ch_k s = None
  | Some c => exists order, ch_order s = Some order /\ Permutation order (seq 0 k) /\ (random = false -> order = seq 0 k) /\
      ch_ens s = Some (members L base order k c) /\ ch_k s = Some k
  end.
Lemma existsb_perm order k : Permutation order (seq 0 k) -> existsb (fun i => Nat.leb k i) order = false.
Proof.
  intros P; apply not_true_is_false; intros H; apply existsb_exists in H; destruct H as [i [I H]]. apply Nat.leb_le in H.
  eapply Permutation_in in I; [|exact P]; apply in_seq in I; lia.
Qed.
Lemma ch_fit_ok k rows s s' : permutes shuffle -> Forall (fun r => length (snd r) = k) rows -> ch_fit L base random shuffle k rows s = (s', None) -> ch_ok k (Some (rows, [])) s'.
Proof.
  intros Sh F H; unfold ch_fit in H.
  destruct (if random then shuffle (seq 0 k) (ch_rng s) else (seq 0 k, ch_rng s)) as [order g] eqn:O.
  assert (P : Permutation order (seq 0 k)).
  { destruct random; [|injection O as <- _; reflexivity]. apply Permutation_sym; specialize (Sh (seq 0 k) (ch_rng s)); rewrite O in Sh; exact Sh. }
  rewrite (reorder_rows k) in H by auto. rewrite (repeat_seq base k 0) in H.
  destruct (each _ _ _ _) as [l e] eqn:E; injection H as <- ->.
  apply each_seq in E; subst l; exists order; cbn [ch_order ch_ens ch_k]; split; [reflexivity|]; split; [exact P|].
  split; [intros ->; congruence|]. split; [|reflexivity].
  f_equal; unfold members; apply map_ext_in; intros j Ij; apply in_seq in Ij; unfold member; cbn [fst snd fold_left].
  rewrite (link_lesson k) by (try (apply Permutation_length in P; rewrite seq_length in P); lia); reflexivity.
Qed.
Lemma ch_partial_ok k rows st s s' : permutes shuffle -> ch_ok k st s -> Forall (fun r => length (snd r) = k) rows ->
  ch_partial_fit L base random shuffle k rows s = (s', None) ->
  ch_ok k (match st with None => Some (rows, []) | Some (f, r) => Some (f, r ++ [rows]) end) s'.
Proof.
  intros Sh K F H; destruct st as [[f r]|]; cbn [ch_ok] in K.
  - destruct K as (order & O & P & D & E & _). unfold ch_partial_fit in H; rewrite E, O in H; cbn [ch_order ch_k ch_rng] in H.
    assert (Lo : length order = k) by (apply Permutation_length in P; rewrite seq_length in P; exact P).
    rewrite (existsb_perm _ _ P) in H. replace (Nat.ltb (length order) (k - 1)) with false in H by (symmetry; apply Nat.ltb_ge; lia). cbn [andb] in H.
    rewrite (reorder_rows k) in H by auto.
    unfold members in H; destruct (each _ _ _ _) as [l e] eqn:Ee; injection H as <- ->.
    apply each_seq in Ee; subst l; exists order; cbn [ch_order ch_ens ch_k]; split; [reflexivity|]; split; [exact P|]; split; [exact D|]; split; [|reflexivity].
    f_equal; unfold members; apply map_ext_in; intros j Ij; apply in_seq in Ij; unfold member; cbn [fst snd]; rewrite fold_left_app; cbn [fold_left].
    rewrite (link_lesson k) by (auto; lia); reflexivity.
  - destruct K as [E _]; unfold ch_partial_fit in H; rewrite E in H; eapply ch_fit_ok; eauto.
Qed.
Lemma ch_run_ok k : permutes shuffle -> forall os st s0 s es, Forall (c_columns k) os -> ch_ok k st s0 -> ch_run L base random seed shuffle s0 os = (s, es) -> Forall (fun e => e = None) es ->
  ch_ok k (epoch st (map ckind os)) s.
Proof.
  intros Sh; induction os as [|o os IH]; intros st s0 s es C K H F; cbn [ch_run map epoch] in *; [injection H as <- _; exact K|].
  destruct (ch_step L base random seed shuffle s0 o) as [s1 e] eqn:E, (ch_run L base random seed shuffle s1 os) as [s2 es2] eqn:Er; injection H as <- <-.
  inversion F as [|? ? -> F2]; subst; inversion C as [|? ? C1 C2]; subst.
  destruct o as [k' rows|k' rows|]; cbn [ch_step ckind epoch c_columns] in *; [destruct C1 as [-> C1]..|].
  - eapply IH; [exact C2| |exact Er|exact F2]. eapply ch_fit_ok; eauto.
  - eapply IH; [exact C2| |exact Er|exact F2]. eapply ch_partial_ok; eauto.
  - injection E as <-; eapply (IH None); [exact C2| |exact Er|exact F2]. split; reflexivity.
Qed.
Lemma ch_fit_total k rows s : sound L -> permutes shuffle -> Forall (fun r => length (snd r) = k) rows -> snd (ch_fit L base random shuffle k rows s) = None.
Proof.
  intros (S1 & S2 & _) Sh F; unfold ch_fit.
  destruct (if random then shuffle (seq 0 k) (ch_rng s) else (seq 0 k, ch_rng s)) as [order g] eqn:O.
  assert (P : Permutation order (seq 0 k)).
  { destruct random; [|injection O as <- _; reflexivity]. apply Permutation_sym; specialize (Sh (seq 0 k) (ch_rng s)); rewrite O in Sh; exact Sh. }
  rewrite (reorder_rows k) by auto. rewrite (repeat_seq base k 0).
  match goal with |- context [each k 0 ?f (map ?g _)] => pose proof (each_seq_total f g k (fun i b => S1 _ _ _ _) 0) as T0 end.
  destruct (each _ _ _ _); exact T0.
Qed.
Lemma ch_partial_total k rows st s : sound L -> permutes shuffle -> ch_ok k st s -> Forall (fun r => length (snd r) = k) rows ->
  snd (ch_partial_fit L base random shuffle k rows s) = None.
Proof.
  intros Sd Sh K F; destruct st as [[f r]|]; cbn [ch_ok] in K.
  - destruct K as (order & O & P & D & E & _). unfold ch_partial_fit; rewrite E, O; cbn [ch_order ch_k ch_rng].
    assert (Lo : length order = k) by (apply Permutation_length in P; rewrite seq_length in P; exact P).
    rewrite (existsb_perm _ _ P). replace (Nat.ltb (length order) (k - 1)) with false by (symmetry; apply Nat.ltb_ge; lia). cbn [andb].
    rewrite (reorder_rows k) by auto. unfold members. destruct Sd as (_ & S2 & _).
    match goal with |- context [each k 0 ?f (map ?g _)] => pose proof (each_seq_total f g k (fun i b => S2 _ _ _ _) 0) as T0 end.
    destruct (each _ _ _ _); exact T0.
  - destruct K as [E _]; unfold ch_partial_fit; rewrite E; apply ch_fit_total; auto.
Qed.
Lemma ch_run_total k : sound L -> permutes shuffle -> forall os st s0 s es, Forall (c_columns k) os -> ch_ok k st s0 -> ch_run L base random seed shuffle s0 os = (s, es) ->
  Forall (fun e => e = None) es.
Proof.
  intros Sd Sh; induction os as [|o os IH]; intros st s0 s es C K H; cbn [ch_run] in *; [injection H as _ <-; constructor|].
  destruct (ch_step L base random seed shuffle s0 o) as [s1 e] eqn:E, (ch_run L base random seed shuffle s1 os) as [s2 es2] eqn:Er; injection H as <- <-.
  inversion C as [|? ? C1 C2]; subst.
  destruct o as [k' rows|k' rows|]; cbn [ch_step c_columns] in *; [destruct C1 as [-> C1]..|].
  - pose proof (ch_fit_total k rows s0 Sd Sh C1) as T0; rewrite E in T0; cbn [snd] in T0; subst e; constructor; [reflexivity|].
    eapply IH; [exact C2| |exact Er]. eapply ch_fit_ok; eauto.
  - pose proof (ch_partial_total k rows st s0 Sd Sh K C1) as T0; rewrite E in T0; cbn [snd] in T0; subst e; constructor; [reflexivity|].
    eapply IH; [exact C2| |exact Er]. eapply ch_partial_ok; eauto.
  - injection E as <- <-; constructor; [reflexivity|]. eapply (IH None); [exact C2| |exact Er]. split; reflexivity.
Qed.

(** *** Predictions *)
Definition ext (xs cs : list (list T)) (j : nat) : list (list T) := map (fun i => nth i xs [] ++ map (fun c => nth i c n0) (firstn j cs)) (seq 0 (length xs)).
Lemma stack_len (xs : list (list T)) c : length c = length xs -> length (stack xs c) = length xs.
Proof. intros H; unfold stack; rewrite map_length, combine_length; lia. Qed.
Lemma stack_nth (xs : list (list T)) : forall c i, length c = length xs -> i < length xs -> nth i (stack xs c) [] = nth i xs [] ++ [nth i c n0].
Proof.
  induction xs as [|x xs IH]; intros [|v c] i H Hi; cbn [length] in *; try lia.
  destruct i as [|i]; [reflexivity|]. unfold stack in *; cbn [combine map nth]; apply IH; lia.
Qed.
Lemma ext_stack xs c cs j : length c = length xs -> ext (stack xs c) cs j = ext xs (c :: cs) (S j).
Proof.
  intros H; unfold ext; rewrite stack_len by exact H; apply map_ext_in; intros i I; apply in_seq in I.
  rewrite stack_nth by (auto; lia). cbn [firstn map]; rewrite <- app_assoc; reflexivity.
Qed.
Lemma ext_0 xs cs : ext xs cs 0 = xs.
Proof.
  unfold ext; cbn [firstn map]. apply nth_ext with [] []; [rewrite map_length, seq_length; reflexivity|].
  intros i Hi; rewrite map_length, seq_length in Hi.
  rewrite (nth_indep _ [] (nth (length xs) xs [] ++ [])) by (rewrite map_length, seq_length; lia).
  rewrite (map_nth (fun i => nth i xs [] ++ []) (seq 0 (length xs)) (length xs)), seq_nth by lia; rewrite app_nil_r; reflexivity.
Qed.
Lemma ch_cols_ok (ask : B -> list (list T) -> res (list T)) g k : forall a xs cs, ch_cols ask k (map g (seq a k)) xs = Ok cs ->
  length cs = k /\ forall j, j < k -> ask (g (a + j)) (ext xs cs j) = Ok (nth j cs []) /\ length (nth j cs []) = length xs.
Proof.
  induction k as [|k IH]; intros a xs cs H; cbn [ch_cols seq map] in H; [injection H as <-; split; [reflexivity|lia]|].
  apply bind_Ok in H; destruct H as [v [V H]]; apply bind_Ok in H; destruct H as [c [C H]]; apply bind_Ok in H; destruct H as [cs2 [R H]]; injection H as <-.
  apply column_ok in C; destruct C as [-> C]; apply IH in R; destruct R as [R1 R2]; split; [cbn [length]; congruence|].
  intros [|j] Hj; cbn [nth]; [rewrite Nat.add_0_r, ext_0; auto|].
  rewrite Nat.add_succ_r, <- Nat.add_succ_l. destruct (R2 j ltac:(lia)) as [R3 R4]. rewrite ext_stack in R3 by exact C. rewrite stack_len in R4 by exact C. auto.
Qed.
Lemma ch_cols_total (ask : B -> list (list T) -> res (list T)) g k : (forall b xs, exists p, ask b xs = Ok p /\ length p = length xs) -> forall a xs, exists cs, ch_cols ask k (map g (seq a k)) xs = Ok cs.
Proof.
  intros H; induction k as [|k IH]; intros a xs; cbn [ch_cols seq map]; [eauto|].
  destruct (H (g a) xs) as [v [V W]]; rewrite V; cbn [bind]. unfold column; rewrite W, Nat.eqb_refl; cbn [bind].
  destruct (IH (S a) (stack xs v)) as [cs E]; rewrite E; cbn [bind]; eauto.
Qed.
Lemma pick_ok {A} (cs : list A) d (idx : list nat) : Forall (fun i => i < length cs) idx ->
  mapM (fun i => match nth_error cs i with Some c => Ok c | None => Raise IndexError end) idx = Ok (map (fun i => nth i cs d) idx).
Proof.
  induction idx as [|i idx IH]; intros F; [reflexivity|]; inversion F as [|? ? F1 F2]; subst. cbn [mapM map].
  destruct (nth_error cs i) as [v|] eqn:E; [|apply nth_error_None in E; lia]. cbn [bind]; rewrite IH by exact F2; cbn [bind]; rewrite (nth_error_nth _ _ d E); reflexivity.
Qed.
(** What the columns found are, given the matrix answered *)
Lemma ext_asked order k xs cs P j : Permutation order (seq 0 k) -> length cs = k -> length P = length xs ->
  (forall j, j < k -> col (nth j order O) P = nth j cs []) -> j <= k -> ext xs cs j = asked order j xs P.
Proof.
  intros Pm Lc LP H Hj. assert (Lo : length order = k) by (apply Permutation_length in Pm; rewrite seq_length in Pm; exact Pm).
  unfold ext, asked, extended. apply nth_ext with [] []; [rewrite !map_length, seq_length, combine_length; lia|].
  intros i Hi; rewrite map_length, seq_length in Hi.
  match goal with |- nth i (map ?f ?l) [] = nth i (map ?g ?m) [] =>
    rewrite (nth_indep (map f l) [] (f O)) by (rewrite map_length, seq_length; lia);
    rewrite (nth_indep (map g m) [] (g ([], []))) by (rewrite map_length, combine_length; lia);
    rewrite (map_nth f), (map_nth g) end.
  rewrite seq_nth, combine_nth by lia. cbn [fst snd Nat.add]. f_equal.
  apply nth_ext with n0 n0; [rewrite !map_length, !firstn_length; lia|].
  intros q Hq; rewrite map_length, firstn_length in Hq.
  match goal with |- nth q (map ?f ?l) n0 = nth q (map ?g ?m) n0 =>
    rewrite (nth_indep (map f l) n0 (f [])) by (rewrite map_length, firstn_length; lia);
    rewrite (nth_indep (map g m) n0 (g O)) by (rewrite map_length, firstn_length; lia);
    rewrite (map_nth f), (map_nth g) end.
  assert (Fn : forall A (l : list A) d, nth q (firstn j l) d = nth q l d).
  { intros A l d; revert j l Hj Hq; clear. induction q as [|q IH]; intros j l Hj Hq; destruct j; try lia; destruct l; cbn [firstn nth]; auto.
    apply IH; lia. }
  rewrite !Fn. rewrite <- (H q) by lia. unfold col.
  rewrite (nth_indep _ n0 (nth (nth q order O) [] n0)) by (rewrite map_length; lia). rewrite (map_nth (fun r => nth (nth q order O) r n0)); reflexivity.
Qed.
Lemma ch_predict_ok k c s xs P : ch_ok k (Some c) s -> ch_predict L s xs = Ok P ->
  exists order, ch_order s = Some order /\ Permutation order (seq 0 k) /\ (random = false -> order = seq 0 k) /\
  length P = length xs /\ Forall (fun r => length r = k) P /\
  forall j, j < k -> tl_predict L (member L base order j c) (asked order j xs P) = Ok (col (nth j order O) P).
Proof.
  intros (order & Or & Pm & D & E & K) H; exists order; split; [exact Or|]; split; [exact Pm|]; split; [exact D|].
  unfold ch_predict in H; rewrite K, E, Or in H. apply bind_Ok in H; destruct H as [cs [C H]]. unfold members in C.
  apply (ch_cols_ok _ _ k 0) in C; destruct C as [C1 C2].
  assert (Lo : length order = k) by (apply Permutation_length in Pm; rewrite seq_length in Pm; exact Pm).
  assert (La : length (argsort order) = k) by (rewrite (Permutation_length (argsort_perm order)), seq_length; exact Lo).
  assert (Fa : Forall (fun i => i < length cs) (argsort order)).
  { apply Forall_forall; intros i I; eapply Permutation_in in I; [|apply argsort_perm]; apply in_seq in I; lia. }
  rewrite (pick_ok cs [] _ Fa) in H; cbn [bind] in H; injection H as <-.
  split; [apply rows_of_len|]. split.
  { eapply Forall_impl; [|apply rows_of_width]; cbn beta; intros r Hr; rewrite Hr, map_length; exact La. }
  assert (Q : forall j, j < k -> nth (nth j order O) (map (fun i => nth i cs []) (argsort order)) [] = nth j cs []).
  { intros j Hj. assert (Hc : nth j order O < k).
    { assert (I : In (nth j order O) (seq 0 k)) by (eapply Permutation_in; [exact Pm|apply nth_In; lia]). apply in_seq in I; lia. }
    rewrite (nth_indep _ [] (nth O cs [])) by (rewrite map_length; lia). rewrite (map_nth (fun i => nth i cs [])), (argsort_inverse k) by auto; reflexivity. }
  assert (Cl : forall j, j < k -> col (nth j order O) (rows_of (length xs) (map (fun i => nth i cs []) (argsort order))) = nth j cs []).
  { intros j Hj. assert (Hc : nth j order O < k).
    { assert (I : In (nth j order O) (seq 0 k)) by (eapply Permutation_in; [exact Pm|apply nth_In; lia]). apply in_seq in I; lia. }
    rewrite col_rows_of; [apply Q; exact Hj|rewrite map_length; lia|]. rewrite Q by exact Hj; apply C2; exact Hj. }
  intros j Hj. rewrite Cl by exact Hj. rewrite <- (ext_asked order k xs cs) by (auto using rows_of_len; lia). apply C2; exact Hj.
Qed.
Lemma ch_predict_total k c s xs : sound L -> ch_ok k (Some c) s -> exists P, ch_predict L s xs = Ok P.
Proof.
  intros (_ & _ & S3) (order & Or & Pm & D & E & K). unfold ch_predict; rewrite K, E, Or. unfold members.
  destruct (ch_cols_total (tl_predict L) (fun j => member L base order j c) k S3 0 xs) as [cs C]. rewrite C; cbn [bind].
  apply (ch_cols_ok _ _ k 0) in C; destruct C as [C1 C2].
  assert (Lo : length order = k) by (apply Permutation_length in Pm; rewrite seq_length in Pm; exact Pm).
  rewrite (pick_ok cs []); cbn [bind]; [eauto|].
  apply Forall_forall; intros i I; eapply Permutation_in in I; [|apply argsort_perm]; apply in_seq in I; lia.
Qed.
Lemma nth_seq0 k j : j < k -> nth j (seq 0 k) O = j.
Proof. intros; rewrite seq_nth; auto. Qed.
Lemma ch_proba_ok k c s xs P : random = false -> ch_ok k (Some c) s -> ch_proba L s xs = Ok P ->
  length P = length xs /\ Forall (fun r => length r = k) P /\
  forall j, j < k -> exists m, tl_proba L (member L base (seq 0 k) j c) (asked (seq 0 k) j xs P) = Ok m /\ second m = Ok (col j P).
Proof.
  intros Rf (order & Or & Pm & D & E & K) H. specialize (D Rf); subst order. unfold ch_proba in H; rewrite K, E in H; unfold members in H.
  apply bind_Ok in H; destruct H as [cs [C H]]; injection H as <-. apply (ch_cols_ok _ _ k 0) in C; destruct C as [C1 C2].
  split; [apply rows_of_len|]. split; [rewrite <- C1; apply rows_of_width|].
  assert (Cl : forall j, j < k -> col j (rows_of (length xs) cs) = nth j cs []) by (intros j Hj; apply col_rows_of; [lia|apply C2; exact Hj]).
  intros j Hj. rewrite Cl by exact Hj. rewrite <- (ext_asked (seq 0 k) k xs cs); auto using rows_of_len; [|intros q Hq; rewrite nth_seq0 by exact Hq; apply Cl; exact Hq|lia].
  destruct (C2 j Hj) as [D1 _]; apply bind_Ok in D1; exact D1.
Qed.

(** *** reset *)
Definition like (s s' : chain B G) : Prop := s = s' \/ (ch_ens s = None /\ ch_ens s' = None /\ ch_k s = None /\ ch_k s' = None /\ ch_rng s = ch_rng s').
Lemma like_step s s' o : like s s' -> snd (ch_step L base random seed shuffle s o) = snd (ch_step L base random seed shuffle s' o) /\
  like (fst (ch_step L base random seed shuffle s o)) (fst (ch_step L base random seed shuffle s' o)).
Proof.
  intros [->|(E & E' & K & K' & R)]; [split; [reflexivity|left; reflexivity]|].
  assert (Fi : forall k rows, snd (ch_fit L base random shuffle k rows s) = snd (ch_fit L base random shuffle k rows s') /\
    (fst (ch_fit L base random shuffle k rows s) = fst (ch_fit L base random shuffle k rows s'))).
  { intros k rows; unfold ch_fit; rewrite R, E, E'. destruct (if random then _ else _) as [order g].
    destruct (mapM _ rows); [destruct (each _ _ _ _)|]; cbn [fst snd]; auto. }
  destruct o as [k rows|k rows|]; cbn [ch_step].
  - destruct (Fi k rows) as [F1 F2]; split; [exact F1|left; exact F2].
  - unfold ch_partial_fit; rewrite E, E'. destruct (Fi k rows) as [F1 F2]; split; [exact F1|left; exact F2].
  - split; [reflexivity|]. right; cbn [fst ch_reset ch_ens ch_k ch_rng]; auto.
Qed.
Lemma like_run os : forall s s', like s s' -> snd (ch_run L base random seed shuffle s os) = snd (ch_run L base random seed shuffle s' os) /\
  like (fst (ch_run L base random seed shuffle s os)) (fst (ch_run L base random seed shuffle s' os)).
Proof.
  induction os as [|o os IH]; intros s s' K; cbn [ch_run]; [auto|].
  destruct (like_step s s' o K) as [K1 K2]. destruct (ch_step L base random seed shuffle s o) as [s1 e], (ch_step L base random seed shuffle s' o) as [s1' e'].
  cbn [fst snd] in *; subst e'. specialize (IH s1 s1' K2). destruct (ch_run L base random seed shuffle s1 os), (ch_run L base random seed shuffle s1' os).
  cbn [fst snd] in *. destruct IH as [-> IH]; auto.
Qed.
Lemma like_answers s s' xs : like s s' -> ch_predict L s xs = ch_predict L s' xs /\ ch_proba L s xs = ch_proba L s' xs /\ pcc_predict L s xs = pcc_predict L s' xs.
Proof. intros [->|(E & E' & K & K' & R)]; [auto|]. unfold ch_predict, ch_proba, pcc_predict; rewrite K, K'; auto. Qed.
End Chain.
