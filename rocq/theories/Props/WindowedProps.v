(** C175-C184: BatchIncrementalClassifier and AccuracyWeightedEnsembleClassifier. *)
From Coq Require Import List ZArith QArith Bool Lia Permutation Sorted Reals Lra.
From Verif Require Import Base.Py Base.Num Base.Dict Model.Adwin Model.Knn Model.DataStream Model.Windowed Spec.Lists Spec.WindowedSpec
  Proofs.ListFacts Proofs.WindowedProofs.
Import ListNotations.
Local Open Scope nat_scope.

(** *** Base estimators for the examples: instances are integers, the estimator is the list of the rows it was trained on. *)
Definition recall (m : list (Z * Z)) (x : Z) : option Z := option_map snd (find (fun r => (fst r =? x)%Z) m).
(** [forget]: fit starts anew; otherwise it adds, as the estimators of skmultiflow do.  The columns of the probabilities stand for labels 0, 1, 2. *)
Definition memorizer {T} `{Num T} (forget : bool) : wlearner Z T (list (Z * Z)) := mk_wlearner
  (fun m rows _ => Ok (if forget then rows else m ++ rows))
  (fun m xs => Ok (map (fun x => match recall m x with Some c => c | None => 0%Z end) xs))
  (fun m xs => Ok (map (fun x => match recall m x with
     | Some 0%Z => [n1; n0; n0] | Some 1%Z => [n0; n1; n0] | Some 2%Z => [n0; n0; n1]
     | _ => [n1 / nofZ 2; n1 / nofZ 2; n0]%num end) xs)) true.
(** An estimator that refuses to be trained on rows of a single label, as many of scikit-learn's do *)
Definition two_labels {T} `{Num T} : wlearner Z T (list (Z * Z)) := mk_wlearner
  (fun m rows _ => if Nat.ltb (length (nodup Z.eq_dec (map snd rows))) 2 then Raise ValueError else Ok rows)
  (wl_predict (memorizer true)) (wl_proba (memorizer true)) true.

(** *** C175: each member is the base estimator trained on one of the last full windows. *)
Theorem batch_windows {X T B} `{Num T} (L : wlearner X T B) base w m os s es : 0 < w -> 0 < m -> Forall unweighted os ->
  bi_run L base w m bi_init os = (s, es) -> Forall (fun e => e = None) es ->
  exists ws, cut w (given_rows [] os) ws (bi_win s) /\ Forall2 (fun win h => wl_fit L base win None = Ok h) (lastn m ws) (bi_ens s).
Proof. intros W M U R E. exact (bi_run_ok L base w m W M os [] bi_init s es U (bi_init_ok L base w m W) R E). Qed.
Theorem batch_never_fails {X T B} `{Num T} (L : wlearner X T B) base w m os s es : 0 < w -> 0 < m -> Forall unweighted os ->
  (forall win, exists h, wl_fit L base win None = Ok h) -> bi_run L base w m bi_init os = (s, es) -> Forall (fun e => e = None) es.
Proof. intros W M U Ft R. exact (bi_run_total L base w m W M os Ft [] bi_init s es U (bi_init_ok L base w m W) R). Qed.
Example batch_windows_applies : exists s es, bi_run (memorizer (T := Q) true) [] 2 2 bi_init [BFit [(9, 9)]%Z None; BReset; BFit [(1, 0); (2, 1); (3, 0)]%Z None; BFit [(4, 1); (5, 0); (6, 1); (7, 0)]%Z None] = (s, es) /\
  es = [None; None; None; None] /\ bi_ens s = [[(3, 0); (4, 1)]; [(5, 0); (6, 1)]]%Z /\ bi_win s = [(7, 0)]%Z.
Proof. do 2 eexists; split; [vm_compute; reflexivity|]. repeat split. Qed.

(** *** C176: for labels 0 and 1 the answer is 1 if at least half the members say 1; other labels cannot be predicted. *)
Theorem batch_majority {X B} (L : wlearner X R B) (s : batch X B) xs A :
  Forall2 (fun h p => wl_predict L h xs = Ok p /\ length p = length xs /\ Forall (fun v => v = 0%Z \/ v = 1%Z) p) (bi_ens s) A ->
  exists Y, bi_predict L s xs = Ok Y /\ length Y = length xs /\
    forall i, i < length xs -> nth i Y 0%Z = if (Nat.ltb 0 (length (bi_ens s)) && Nat.leb (length (bi_ens s)) (2 * count_occ Z.eq_dec (map (fun p => nth i p 0%Z) A) 1%Z))%bool then 1%Z else 0%Z.
Proof.
  intros F. unfold bi_predict, bi_proba.
  assert (Nr : forall n i, nth i (repeat (@n0 R NumR) n) 0%R = 0%R).
  { intros n i. destruct (Nat.lt_ge_cases i n) as [H|H]; [apply nth_repeat|apply nth_overflow; rewrite repeat_length; exact H]. }
  assert (Mn : forall (f : R -> Z) (v : list R) i, i < length v -> nth i (map f v) 0%Z = f (nth i v 0%R)).
  { intros f v i Hi. rewrite (nth_indep _ 0%Z (f 0%R)) by (rewrite map_length; exact Hi). apply map_nth. }
  assert (F2 : Forall2 (fun h p => wl_predict L h xs = Ok p /\ length p = length xs) (bi_ens s) A) by (clear -F; induction F as [|? ? ? ? (? & ? & ?) F IH]; constructor; auto).
  assert (Ll : length (bi_ens s) = length A) by (eapply F2_len; exact F2).
  assert (A1 : forall i, i < length xs -> Forall (fun v => v = 0%Z \/ v = 1%Z) (map (fun p => nth i p 0%Z) A)).
  { intros i Hi. clear -F Hi. induction F as [|h p ens A (_ & H2 & H3) F IH]; cbn [map]; constructor; [|exact IH].
    rewrite Forall_forall in H3; apply H3, nth_In; lia. }
  destruct (bi_ens s) as [|h ens] eqn:Es.
  - eexists; split; [cbn [bind]; reflexivity|]. split; [rewrite map_length, repeat_length; reflexivity|]. intros i Hi. rewrite Mn by (rewrite repeat_length; exact Hi). rewrite Nr.
    cbn [length Nat.ltb Nat.leb andb]. unfold n1; cbn [nleb ndiv nofZ NumR]. rdes; [lra|reflexivity].
  - pose proof (bi_fold L (1 / IZR (Z.of_nat (length (h :: ens)))) xs (h :: ens) A F2 (repeat (@n0 R NumR) (length xs)) (repeat_length _ _)) as (v & E & Lv & V).
    cbn [nadd nmul ndiv nofZ NumR n1]. unfold n1; cbn [nofZ NumR]. rewrite E; cbn [bind]. eexists; split; [reflexivity|]. split; [rewrite map_length; exact Lv|].
    intros i Hi. rewrite Mn by lia. rewrite V, Nr by exact Hi. rewrite <- map_map, ones_sum by (apply A1; exact Hi).
    set (k := count_occ _ _ _). rewrite <- INR_IZR_INZ. set (n := length (h :: ens)). assert (Hn : (0 < INR n)%R) by (apply lt_0_INR; unfold n; cbn [length]; lia).
    replace (Nat.ltb 0 n) with true by reflexivity. cbn [andb nleb NumR].
    assert (Q : (0 + 1 / INR n * INR k = INR k / INR n)%R) by (field; lra). rewrite Q.
    rdes; destruct (Nat.leb_spec n (2 * k)) as [G|G]; try reflexivity; exfalso.
    + apply lt_INR in G. rewrite mult_INR in G. cbn [INR] in G. apply (Rmult_le_compat_r (INR n)) in E0; [|lra]. unfold Rdiv in E0. rewrite (Rmult_assoc (INR k)), Rinv_l in E0 by lra. lra.
    + apply le_INR in G. rewrite mult_INR in G. cbn [INR] in G. apply (Rmult_lt_compat_r (INR n)) in E0; [|lra]. unfold Rdiv in E0. rewrite (Rmult_assoc (INR k)), Rinv_l in E0 by lra. lra.
Qed.
Theorem batch_labels_01 {X T B} `{Num T} (L : wlearner X T B) (s : batch X B) xs Y : bi_predict L s xs = Ok Y -> Forall (fun v => v = 0%Z \/ v = 1%Z) Y.
Proof.
  unfold bi_predict; intros E. apply bind_Ok in E; destruct E as [v [_ E]]. injection E as <-. apply Forall_forall; intros y I. apply in_map_iff in I; destruct I as [x [<- _]]. destruct (_ <=? _)%num; auto.
Qed.
(** One member trained on the labels 0 and 2 says 2 for a row of label 2: the ensemble says 1. *)
Theorem batch_labels_refuted : exists s, fst (bi_run (memorizer (T := Q) true) [] 2 1 bi_init [BFit [(1, 0); (2, 2)]%Z None]) = s /\
  length (bi_ens s) = 1 /\ Forall (fun h => wl_predict (memorizer (T := Q) true) h [2%Z] = Ok [2%Z]) (bi_ens s) /\ bi_predict (memorizer (T := Q) true) s [2%Z] = Ok [1%Z].
Proof. eexists; split; [reflexivity|]. vm_compute. repeat split; constructor; [reflexivity|constructor]. Qed.
Example batch_majority_applies : exists s : batch Z (list (Z * Z)), bi_ens s = [[(5, 1)]; [(5, 0)]]%Z /\
  exists Y, bi_predict (memorizer (T := R) true) s [5%Z] = Ok Y /\ nth 0 Y 0%Z = 1%Z.
Proof.
  exists (mk_batch [[(5, 1)]; [(5, 0)]]%Z []). split; [reflexivity|].
  destruct (batch_majority (memorizer true) (mk_batch [[(5, 1)]; [(5, 0)]]%Z []) [5%Z] [[1%Z]; [0%Z]]) as (Y & E & Ly & V).
  - constructor; [split; [reflexivity|split; [reflexivity|constructor; [right; reflexivity|constructor]]]|].
    constructor; [split; [reflexivity|split; [reflexivity|constructor; [left; reflexivity|constructor]]]|constructor].
  - exists Y. split; [exact E|]. rewrite (V 0) by (cbn; lia). reflexivity.
Qed.

(** *** C177: sample weights.  An array of several weights is refused; single weights do not reach the member. *)
Theorem batch_weights_refuted {X T B} `{Num T} (L : wlearner X T B) base w m (s : batch X B) row rows a b ws :
  length (bi_win s) < w -> bi_partial_fit L base w m (Some (a :: b :: ws)) (row :: rows) s = (s, Some ValueError).
Proof. intros Hl; cbn [bi_partial_fit]; unfold bi_row. destruct (Nat.leb_spec w (length (bi_win s))); [lia|]. reflexivity. Qed.
(** When the rows come one by one with their weights, the member is trained on [w] rows with the one weight of the last of them. *)
Theorem batch_last_weight_refuted : exists (L : wlearner Z Q (list (Z * Z) * option (list Q))) base w m s es, 
  bi_run L base w m bi_init [BFit [(1, 0)%Z] (Some [3#1]); BFit [(2, 1)%Z] (Some [5#1])] = (s, es) /\ es = [None; None] /\ bi_ens s = [([(1, 0); (2, 1)]%Z, Some [5#1])].
Proof.
  exists (mk_wlearner (fun _ rows sw => Ok (rows, sw)) (fun _ _ => Ok []) (fun _ _ => Ok []) true), ([], None), 2, 1.
  do 2 eexists; split; [vm_compute; reflexivity|]. repeat split.
Qed.

(** *** C178: after a failed fit of a member the object no longer learns. *)
Theorem batch_stuck {X T B} `{Num T} (L : wlearner X T B) base w m os s es rows s' e : 0 < w -> 0 < m -> Forall unweighted os ->
  bi_run L base w m bi_init os = (s, es) -> Forall (fun e => e = None) es -> bi_partial_fit L base w m None rows s = (s', Some e) ->
  forall sw row' rows', bi_partial_fit L base w m sw (row' :: rows') s' = (s', Some IndexError).
Proof.
  intros W M U Rn E Hf. assert (K := bi_run_ok L base w m W M os [] bi_init s es U (bi_init_ok L base w m W) Rn E). clear U Rn E.
  assert (G : w <= length (bi_win s')).
  { revert s K Hf. generalize (given_rows [] os) as acc. induction rows as [|row rows IH]; intros acc s K Hf; cbn [bi_partial_fit] in Hf; [discriminate|].
    destruct (bi_row L base w m None s row) as [s1 [e1|]] eqn:Er.
    - injection Hf as <- <-. unfold bi_row in Er. destruct K as (ws & (_ & _ & Lw) & _). destruct (Nat.leb_spec w (length (bi_win s))) as [G|G]; [lia|]. cbn [truth] in Er; cbv zeta in Er.
      destruct (Nat.eqb_spec (length (bi_win s ++ [row])) w) as [Eq|Eq]; [|discriminate].
      destruct (if Nat.leb m (length (bi_ens s)) then _ else _); [|injection Er as <- _; cbn [bi_win]; lia].
      destruct (wl_fit _ _ _ _); [discriminate|injection Er as <- _; cbn [bi_win]; lia].
    - apply (bi_row_ok L base w m W M acc) in Er; [|exact K]. eapply IH; eauto. }
  intros sw row' rows'; cbn [bi_partial_fit]; unfold bi_row. destruct (Nat.leb_spec w (length (bi_win s'))); [reflexivity|lia].
Qed.
Theorem batch_failed_fit_refuted : exists s es, bi_run (two_labels (T := Q)) [] 2 3 bi_init
  [BFit [(1, 0); (2, 1)]%Z None; BFit [(3, 0); (4, 0)]%Z None; BFit [(5, 0); (6, 1)]%Z None; BFit [(7, 0); (8, 1)]%Z None] = (s, es) /\
  es = [None; Some ValueError; Some IndexError; Some IndexError] /\ bi_ens s = [[(1, 0); (2, 1)]%Z].
Proof. do 2 eexists; split; [vm_compute; reflexivity|]. repeat split. Qed.

(** *** C179: an accuracy weighted ensemble changes only when a window is full; how the rows are split into calls does not matter. *)
Theorem awe_windows {X T B} `{Num T} (L : wlearner X T B) base w n_kept n_splits kfold os s : 0 < w ->
  awe_run L base w n_kept n_splits kfold os = Ok s ->
  exists ws, cut w (awe_rows [] os) ws (aw_win s) /\
    awe_run L base w n_kept n_splits kfold (map AFit ws) = Ok (mk_awe (aw_pool s) []) /\ length (aw_pool s) <= n_kept.
Proof.
  intros W R. apply awe_run_ok in R; [|exact W]. destruct R as (ws & C & F). exists ws. split; [exact C|]. split.
  - assert (Fw : Forall (fun x => length x = w) ws) by apply C. clear C. unfold awe_run, awe_init. revert F Fw. generalize (@nil (clf T B)) as pool.
    induction ws as [|a ws IH]; intros pool F Fw; cbn [foldM map] in *; [injection F as ->; reflexivity|].
    apply bind_Ok in F; destruct F as [p1 [E F]]. inversion Fw as [|? ? Fa Fws]; subst. 
    assert (Q : forall r acc, length (acc ++ r) = length a -> r <> [] -> awe_partial_fit L base (length a) n_kept n_splits kfold r (mk_awe pool acc) =
      (p <- awe_chunk L base n_kept n_splits kfold (acc ++ r) pool ;; Ok (mk_awe p []))).
    { induction r as [|x r IHr]; intros acc Hl Hn; [contradiction|]. cbn [awe_partial_fit aw_win aw_pool]. rewrite app_length in Hl; cbn [length] in Hl.
      destruct (Nat.leb_spec (length a) (length acc)); [lia|]. cbv zeta. destruct (Nat.eqb_spec (length (acc ++ [x])) (length a)) as [Eq|Eq].
      - rewrite app_length in Eq; cbn [length] in Eq. destruct r; [|cbn [length] in Hl; lia]. reflexivity.
      - rewrite app_length in Eq; cbn [length] in Eq. destruct r as [|x2 r]; [cbn [length] in Hl; lia|]. rewrite IHr; [rewrite <- app_assoc; reflexivity|rewrite !app_length; cbn [length] in *; lia|discriminate]. }
    cbn [awe_step]. rewrite (Q a []); [|reflexivity|destruct a; [cbn in W; lia|discriminate]]. cbn [app]. rewrite E; cbn [bind]. apply IH; assumption.
  - eapply chunks_len; [exact F|cbn [length]; lia].
Qed.

(** *** C180: weights.  When a window is full each member gets the weight max(0, MSE_r - MSE_i) on it, and the new member comes. *)
Theorem awe_weights {X B} (L : wlearner X R B) base w n_kept n_splits kfold os s row s' : 0 < w ->
  awe_run L base w n_kept n_splits kfold os = Ok s -> awe_partial_fit L base w n_kept n_splits kfold [row] s = Ok s' ->
  let win := aw_win s ++ [row] in
  (length win < w /\ s' = mk_awe (aw_pool s) win) \/
  (length win = w /\ aw_win s' = [] /\ exists new updated, wl_fit L base win None = Ok (cl_est new) /\ (forall c, In c (cl_seen new) <-> In c (map snd win)) /\
    (0 <= cl_weight new)%R /\ Forall2 (reweighted L win) (aw_pool s) updated /\ admitted n_kept new updated (aw_pool s')).
Proof.
  intros W R Hf win. apply awe_run_ok in R; [|exact W]. destruct R as (ws & (_ & _ & Lw) & _).
  cbn [awe_partial_fit] in Hf. destruct (Nat.leb_spec w (length (aw_win s))) as [G|G]; [discriminate|]. cbv zeta in Hf. fold win in Hf.
  destruct (Nat.eqb_spec (length win) w) as [E|E].
  - right. apply bind_Ok in Hf; destruct Hf as [p [Ep Hf]]. injection Hf as <-. split; [exact E|]. split; [reflexivity|]. apply chunk_R in Ep. exact Ep.
  - left. injection Hf as <-. split; [|reflexivity]. unfold win in *; rewrite app_length in *; cbn [length] in *; lia.
Qed.
Theorem awe_weights_nonneg {X B} (L : wlearner X R B) base w n_kept n_splits kfold os s : 0 < w ->
  awe_run L base w n_kept n_splits kfold os = Ok s -> Forall (fun c => (0 <= cl_weight c)%R) (aw_pool s).
Proof. intros W R. apply awe_run_ok in R; [|exact W]. destruct R as (ws & _ & F). eapply chunks_nonneg; [exact F|constructor]. Qed.

(** *** C181: the weight of a new member is its cross-validated error, when the base estimator starts anew at each fit; *)
Theorem awe_cross_validation {X B} (L : wlearner X R B) base w n_kept n_splits kfold os s row s' : 0 < w -> starts_anew L ->
  awe_run L base w n_kept n_splits kfold os = Ok s -> awe_partial_fit L base w n_kept n_splits kfold [row] s = Ok s' ->
  let win := aw_win s ++ [row] in length win = w ->
  exists new updated folds labels es, admitted n_kept new updated (aw_pool s') /\ length updated = length (aw_pool s) /\ wl_fit L base win None = Ok (cl_est new) /\
    kfold n_splits w = Ok folds /\ StronglySorted Z.lt labels /\ (forall c, In c labels <-> In c (map snd win)) /\
    Forall2 (fold_error L base labels win) folds es /\ cl_weight new = Rmax 0 (random_error (map snd win) - Rsum es / INR n_splits).
Proof.
  intros W An R Hf win E. cbn [awe_partial_fit] in Hf. destruct (Nat.leb_spec w (length (aw_win s))) as [G|G]; [discriminate|]. cbv zeta in Hf. fold win in Hf.
  rewrite E, Nat.eqb_refl in Hf. apply bind_Ok in Hf; destruct Hf as [p [Ep Hf]]. injection Hf as <-. cbn [aw_pool]. apply new_weight in Ep; [|exact An]. rewrite E in Ep. exact Ep.
Qed.
(** with the incremental estimators of the library the rows of a test fold may have been seen in the training of an earlier fold. *)
Definition halves (_ n : nat) : res (list (list nat * list nat)) := Ok [(seq 0 (n / 2), seq (n / 2) (n - n / 2)); (seq (n / 2) (n - n / 2), seq 0 (n / 2))].
Theorem awe_cross_validation_refuted : exists (win : list (Z * Z)) s new tr1 te1 tr2 te2,
  awe_run (memorizer (T := Q) false) [] 4 2 2 halves [AFit win] = Ok s /\ aw_pool s = [new] /\
  halves 2 4 = Ok [(tr1, te1); (tr2, te2)] /\
  (forall train test, In (train, test) [(tr1, te1); (tr2, te2)] -> exists rt rs b, rows_at win train = Ok rt /\ rows_at win test = Ok rs /\
     wl_fit (memorizer (T := Q) false) [] rt None = Ok b /\ score (memorizer (T := Q) false) b [0; 1]%Z rs = Ok (1#4)) /\
  baseline (map snd win) = 1#4 /\ cl_weight new = 1#8.
Proof.
  exists [(1, 0); (2, 1); (3, 0); (4, 1)]%Z. do 6 eexists. split; [vm_compute; reflexivity|]. split; [reflexivity|]. split; [reflexivity|]. split; [|split; reflexivity].
  intros train test [Ei|[Ei|[]]]; injection Ei as <- <-; do 3 eexists; repeat split; vm_compute; reflexivity.
Qed.

(** *** C182: the weighted vote for one instance; *)
Theorem awe_vote {X B} (L : wlearner X R B) base w K n_kept n_splits kfold os s x c : 0 < w ->
  awe_run L base w n_kept n_splits kfold os = Ok s -> awe_predict L K s [x] = Ok [c] ->
  (aw_pool s = [] /\ c = 0%Z) \/
  exists ens answers, top K (aw_pool s) ens /\ Forall (fun m => (0 <= cl_weight m)%R) ens /\ Forall2 (fun m a => wl_predict L (cl_est m) [x] = Ok [a]) ens answers /\
    In c answers /\ forall l, In l answers -> (support ens answers l <= support ens answers c)%R.
Proof.
  intros W R P. pose proof (awe_weights_nonneg _ _ _ _ _ _ _ _ W R) as Nn. apply (predict_R L w K kfold) in P. destruct P as [P|(ens & ans & Tp & F & I & Mx)]; [left; exact P|].
  right; exists ens, ans. split; [exact Tp|]. split; [|split; [exact F|split; [exact I|exact Mx]]]. destruct Tp as (_ & rest & Pm & _). apply (Permutation_Forall Pm) in Nn. apply Forall_app in Nn; apply Nn.
Qed.
(** several instances share one vote: all of them get the same label. *)
Theorem awe_same_label {X T B} `{Num T} (L : wlearner X T B) K (s : awe X T B) xs ys : awe_predict L K s xs = Ok ys -> exists c, ys = map (fun _ => c) xs.
Proof. apply awe_same. Qed.
Theorem awe_batch_refuted : exists s, awe_run (memorizer (T := Q) true) [] 4 2 2 halves [AFit [(1, 0); (2, 1); (1, 0); (2, 1)]%Z] = Ok s /\
  awe_predict (memorizer (T := Q) true) 3 s [1%Z] = Ok [0%Z] /\ awe_predict (memorizer (T := Q) true) 3 s [2%Z] = Ok [1%Z] /\
  awe_predict (memorizer (T := Q) true) 3 s [1; 2]%Z = Ok [0; 0]%Z.
Proof. eexists; split; [vm_compute; reflexivity|]. repeat split. Qed.

(** *** C183: probabilities are read by the position of the label among the labels seen; the classifiers of the library put the
    probability of label c in column c.  A member that gives probability 1 to every true label gets weight 0. *)
Theorem awe_columns_refuted : exists win s m, awe_run (memorizer (T := Q) true) [] 4 2 2 halves [AFit win; AFit win] = Ok s /\
  nth_error (aw_pool s) 0 = Some m /\
  (forall x c, In (x, c) win -> exists p, wl_proba (memorizer (T := Q) true) (cl_est m) [x] = Ok [p] /\ nth_error p (Z.to_nat c) = Some 1%Q) /\
  baseline (map snd win) = 1#4 /\ cl_weight m = 0%Q.
Proof.
  exists [(1, 1); (2, 2); (1, 1); (2, 2)]%Z. do 2 eexists. split; [vm_compute; reflexivity|]. split; [reflexivity|]. split; [|split; reflexivity].
  intros x c I. cbn [In] in I. repeat (destruct I as [I|I]; [injection I as <- <-; eexists; split; vm_compute; reflexivity|]). contradiction.
Qed.
(** An estimator with one column per label of its training rows, as scikit-learn's: a label that is in one test fold only makes partial_fit fail. *)
Definition column_per_label : wlearner Z Q (list (Z * Z)) := mk_wlearner
  (fun _ rows _ => Ok rows) (wl_predict (memorizer true))
  (fun m xs => Ok (map (fun x => map (fun c => match recall m x with Some d => if (d =? c)%Z then 1%Q else 0%Q | None => 0%Q end) (np_unique (map snd m))) xs)) true.
Theorem awe_rare_label_refuted : awe_run column_per_label [] 4 2 2 halves [AFit [(1, 0); (2, 1); (3, 0); (4, 2)]%Z] = Raise IndexError.
Proof. vm_compute. reflexivity. Qed.

(** *** C184: with an estimator that does not fail and enough columns, nothing fails. *)
Theorem awe_never_fails {X B} (L : wlearner X R B) base w K n_kept n_splits C kfold os : 0 < w -> 0 < K -> 0 < n_kept -> sound L C ->
  (exists f, kfold n_splits w = Ok f /\ sound_folds w f) -> Forall (labels_below C) os ->
  exists s, awe_run L base w n_kept n_splits kfold os = Ok s /\ forall xs, exists ys, awe_predict L K s xs = Ok ys /\ length ys = length xs.
Proof.
  intros W Kp Np So Kf F.
  assert (Pos : forall n, @neqb R NumR (@nofZ R NumR (Z.of_nat (S n))) (@n0 R NumR) = false) by (intros n; unfold n0; cbn [neqb nofZ NumR]; apply Reqb_false; apply not_0_IZR; lia).
  destruct (awe_run_total L base w K n_kept n_splits C kfold W Kp Np Pos So Kf os F awe_init) as (s & E & _); [split; [exact W|split; constructor]|].
  exists s; split; [exact E|]. intros xs. exact (awe_predict_total L w K n_kept C W Kp Np So s xs).
Qed.
Example memorizer_sound : sound (memorizer (T := R) false) 3.
Proof.
  split; [intros; eexists; reflexivity|]. split; [intros b xs; eexists; split; [reflexivity|apply map_length]|].
  intros b xs; eexists; split; [reflexivity|]. split; [apply map_length|]. apply Forall_forall; intros p I. apply in_map_iff in I; destruct I as [x [<- _]].
  destruct (recall b x) as [[|[?|[?|?|]|]|?]|]; cbn; lia.
Qed.
Example awe_never_fails_applies : exists s ys, awe_run (memorizer (T := R) false) [] 4 2 2 halves [AFit [(1, 0); (2, 1); (3, 2)]%Z; AFit [(4, 1); (5, 0)]%Z] = Ok s /\
  aw_win s = [(5, 0)]%Z /\ length (aw_pool s) = 1 /\ awe_predict (memorizer (T := R) false) 3 s [1%Z] = Ok ys.
Proof.
  destruct (awe_never_fails (memorizer (T := R) false) [] 4 3 2 2 3 halves [AFit [(1, 0); (2, 1); (3, 2)]%Z; AFit [(4, 1); (5, 0)]%Z]) as (s & E & P); try lia; [apply memorizer_sound| | |].
  - eexists; split; [reflexivity|]. repeat constructor; cbn; try lia; discriminate.
  - repeat constructor; cbn; lia.
  - destruct (P [1%Z]) as (ys & Ey & _). exists s, ys. split; [exact E|].
    destruct (awe_windows (memorizer (T := R) false) [] 4 2 2 halves _ s ltac:(lia) E) as (ws & (C1 & C2 & C3) & Rn & Lp).
    cbn [awe_rows app] in C1.
    destruct ws as [|a [|b ws]]; cbn [concat app] in C1.
    + exfalso; rewrite <- C1 in C3; cbn in C3; lia.
    + rewrite app_nil_r in C1. inversion C2 as [|? ? Ca _]; subst. destruct a as [|r1 [|r2 [|r3 [|r4 [|? ?]]]]]; try discriminate Ca. cbn [app] in C1. injection C1 as <- <- <- <- Hw.
      split; [symmetry; exact Hw|]. split; [|exact Ey].
      unfold awe_run in Rn; cbn [map foldM] in Rn. apply bind_Ok in Rn; destruct Rn as [s1 [E1 Rn]]. injection Rn as ->. cbn [awe_step awe_init awe_partial_fit aw_win aw_pool length Nat.leb app Nat.eqb] in E1.
      apply bind_Ok in E1; destruct E1 as [p [Ep E1]]. injection E1 as <-. apply chunk_R in Ep. destruct Ep as (new & up & _ & _ & _ & Fu & Ad). inversion Fu; subst.
      destruct Ad as [[_ ->]|[Hk _]]; [reflexivity|cbn [length] in Hk; lia].
    + exfalso. inversion C2 as [|? ? Ca C4]; subst. inversion C4 as [|? ? Cb _]; subst. apply (f_equal (@length _)) in C1. rewrite !app_length in C1. cbn [length] in C1. lia.
Qed.
(** The hypotheses of awe_weights, awe_cross_validation and awe_vote hold in that run and for [memorizer true]. *)
Example memorizer_anew : starts_anew (memorizer (T := R) true). Proof. intros b b' rows sw; reflexivity. Qed.
Print Assumptions batch_windows. Print Assumptions batch_never_fails. Print Assumptions batch_majority. Print Assumptions batch_labels_01. Print Assumptions batch_labels_refuted.
Print Assumptions batch_weights_refuted. Print Assumptions batch_last_weight_refuted. Print Assumptions batch_stuck. Print Assumptions batch_failed_fit_refuted.
Print Assumptions awe_windows. Print Assumptions awe_weights. Print Assumptions awe_weights_nonneg. Print Assumptions awe_cross_validation. Print Assumptions awe_cross_validation_refuted.
Print Assumptions awe_vote. Print Assumptions awe_same_label. Print Assumptions awe_batch_refuted. Print Assumptions awe_columns_refuted. Print Assumptions awe_rare_label_refuted. Print Assumptions awe_never_fails.
