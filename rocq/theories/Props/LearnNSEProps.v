(** C192-C199: LearnPPNSEClassifier. *)
From Coq Require Import List ZArith QArith Bool Lia Reals Lra.
From Verif Require Import Base.Py Base.Num Model.Adwin Model.Knn Model.LearnPP Model.LearnNSE
  Spec.Lists Spec.NaiveBayesSpec Spec.WindowedSpec Spec.LearnNSESpec Proofs.ListFacts Proofs.WindowedProofs Proofs.LearnNSEProofs.
Import ListNotations.
Local Open Scope nat_scope.

(** *** A base estimator for the examples: a table of the rows it was fitted on, which, like a decision tree of scikit-learn, takes no
    classes, knows the classes of its rows, and gives all the probability to one of them. *)
Fixpoint add_label (c : Z) (l : list Z) : list Z := match l with [] => [c] | k :: r => if (c <? k)%Z then c :: l else if (c =? k)%Z then l else k :: add_label c r end.
Definition labels (rows : list (Z * Z)) : list Z := fold_right add_label [] (map snd rows).
Definition answer (rows : list (Z * Z)) (x : Z) : Z :=
  match find (fun r => (fst r =? x)%Z) rows with Some r => snd r | None => match rows with [] => 0%Z | r :: _ => snd r end end.
Definition table {T} {N : Num T} : nlearner Z T (list (Z * Z)) :=
  mk_nlearner (fun _ _ _ => Raise TypeError) (fun _ rows => Ok rows) (fun _ _ _ => Raise NotImplementedError) (fun b xs => Ok (map (answer b) xs))
    (fun b xs => Ok (map (fun x => map (fun c => if (c =? answer b x)%Z then n1 else n0) (labels b)) xs)) (fun b => Some (labels b)).

(** *** C192: the members were trained on full windows: all of them, the last n, or some n of them. *)
Theorem nse_windows {X T B} {N : Num T} (L : nlearner X T B) base w slope crossing n prune os s es cl array :
  0 < w -> nse_run L base w slope crossing n prune nse_init os = (s, es) -> Forall (fun e => e = None) es -> ns_classes s = Some (cl, array) ->
  exists ws kw, cut w (nse_given [] os) ws (ns_win s) /\ kept prune n ws kw /\ Forall2 (fun win m => window_trained L base win cl (m_est m)) kw (ns_members s).
Proof.
  intros W H F Ec. eapply (nse_run_ok L base w slope crossing n prune) with (rows := []) in H; eauto.
  - destruct H as (_ & ws & kw & C & K & P). rewrite Ec in P. exists ws, kw. split; [exact C|]. split; [exact K|]. clear -P. induction P as [|win m kw ms E P IH]; constructor; [apply train_iff; exact E|exact IH].
  - split; [reflexivity|]. exists [], []. split; [split; [reflexivity|]; split; [constructor|exact W]|]. split; [apply kept_nil|]. cbn; auto.
Qed.
(** Without pruning n_estimators, "the number of base estimators in the ensemble", bounds nothing. *)
Theorem nse_size_refuted : exists os s es, nse_run (T := Q) table [] 2 0%Q 0%Q 1 NoPruning nse_init os = (s, es) /\ Forall (fun e => e = None) es /\ length (ns_members s) = 3.
Proof.
  exists [NFit [(1, 0); (2, 1); (1, 0); (2, 1); (1, 0); (2, 1)]%Z (Some ([0; 1]%Z, true))].
  destruct (nse_run (T := Q) table [] 2 0%Q 0%Q 1 NoPruning nse_init [NFit [(1, 0); (2, 1); (1, 0); (2, 1); (1, 0); (2, 1)]%Z (Some ([0; 1]%Z, true))]) as [s es] eqn:E. exists s, es. split; [reflexivity|]. vm_compute in E. injection E as <- <-. split; [repeat constructor|reflexivity].
Qed.

(** *** C193: without pruning by error, each member remembers its error on its own window and on every later one, and its weight is
    the logarithm of the reciprocal of their weighted sum; each window is weighed by the ensemble as it was before it. *)
Theorem nse_weights {X B} (L : nlearner X R B) base w slope crossing n prune os s es cl array :
  0 < w -> prune <> ByError -> nse_run L base w slope crossing n prune nse_init os = (s, es) -> Forall (fun e => e = None) es -> ns_classes s = Some (cl, array) ->
  exists ws Ds, cut w (nse_given [] os) ws (ns_win s) /\ length Ds = length ws /\ members_after L base cl slope crossing prune n (combine ws Ds) (ns_members s) /\
    forall pre WD post, combine ws Ds = pre ++ WD :: post -> exists ms, members_after L base cl slope crossing prune n pre ms /\ weighs L (cl, array) ms WD.
Proof.
  intros W Np H F Ec. eapply (rec_run_ok L base w slope crossing n prune) with (rows := []) in H; eauto.
  - destruct H as (_ & ws & Ds & C & LD & P). rewrite Ec in P. destruct P as [P1 P2]. exists ws, Ds. auto.
  - split; [reflexivity|]. exists [], []. split; [split; [reflexivity|]; split; [constructor|exact W]|]. split; [reflexivity|]. cbn. auto.
Qed.
(** The errors are not averaged with weights that sum to one: each is divided by the sum of the quotients before it, so that the sum is more than one for every member with a second window. *)
Theorem nse_average_refuted {X B} (L : nlearner X R B) base cl slope crossing hist m : remembers L base cl slope crossing hist m -> 1 < length hist -> (1 < Rsum (m_wkts m))%R.
Proof. intros R Hl. destruct hist as [|own later]; [contradiction|]. destruct R as (_ & _ & Ew & _). rewrite Ew. apply records_more; exact Hl. Qed.

(** *** C194: when the ensemble is right on a whole window, all the weights of the window are 0, so that every member, also one that is
    wrong on every row, is recorded without error. *)
Theorem nse_perfect_window {X B} (L : nlearner X R B) base slope crossing n s cl win cs ms : ns_members s <> [] -> nse_predict L s (map fst win) = Ok cs -> map Z.of_nat cs = map snd win ->
  absorb L base slope crossing n NoPruning s cl win = (ms, None) -> length ms = S (length (ns_members s)) /\ Forall (fun m => last (m_bkts m) 1%R = 0%R) ms.
Proof. intros; eapply perfect_window; eauto. Qed.
(** The first member here is wrong on every row of the third window, and recorded without error on it. *)
Theorem nse_perfect_refuted : exists s es m, nse_run (T := Q) table [] 2 0%Q 0%Q 9 NoPruning nse_init
    [NFit [(1, 1); (2, 0); (1, 0); (2, 1); (1, 0); (2, 1)]%Z (Some ([0; 1]%Z, true))] = (s, es) /\ Forall (fun e => e = None) es /\
  nth_error (ns_members s) 0 = Some m /\ nl_predict (T := Q) table (m_est m) [1; 2]%Z = Ok [1; 0]%Z /\ last (m_bkts m) 1%Q == 0%Q.
Proof.
  destruct (nse_run (T := Q) table [] 2 0%Q 0%Q 9 NoPruning nse_init [NFit [(1, 1); (2, 0); (1, 0); (2, 1); (1, 0); (2, 1)]%Z (Some ([0; 1]%Z, true))]) as [s es] eqn:E.
  vm_compute in E. injection E as <- <-. eexists _, _, _. split; [reflexivity|]. split; [repeat constructor|]. split; [reflexivity|]. split; reflexivity.
Qed.

(** *** C195: pruning by error removes the first of the members with the greatest error on the window. *)
Theorem nse_error_pruning {X B} (L : nlearner X R B) base slope crossing n s cl win ms : n <= length (ns_members s) -> absorb L base slope crossing n ByError s cl win = (ms, None) ->
  exists ms1 errors i, length ms1 = S (length (ns_members s)) /\ Forall2 (fun m e => last (m_bkts m) 0%R = (e / (1 - e))%R) ms1 errors /\ first_greatest errors i /\ ms = firstn i ms1 ++ skipn (S i) ms1.
Proof. intros; eapply error_pruning; eauto. Qed.

(** *** C196: the answer is the position of the first class with the greatest total vote of the members with positive weight. *)
Theorem nse_vote {X B} (L : nlearner X R B) (s : nse X R B) cl array xs cs : ns_members s <> [] -> ns_classes s = Some (cl, array) -> NoDup cl -> cl <> [] ->
  (forall m obs, In m (ns_members s) -> nl_seen L (m_est m) = Some obs -> NoDup obs /\ forall c, In c obs -> In c cl) ->
  (forall m x p, In m (ns_members s) -> nl_proba L (m_est m) [x] = Ok [p] -> length p <> 1 \/ length cl = 1) ->
  nse_predict L s xs = Ok cs -> Forall2 (elected L cl array (ns_members s)) xs cs.
Proof. intros Ne Ec Nd Nn H1 H2 H. eapply predict_elected; eauto. intros m I. split; [intros obs E; eapply H1; eauto|]. intros x p E. eapply H2; eauto. Qed.
(** Members trained on windows with one class answer one column, which counts for every class: the answer is position 0, whatever their class. *)
Theorem nse_one_class {X B} (L : nlearner X R B) (s : nse X R B) cl array x cs : ns_classes s = Some (cl, array) -> 2 <= length cl ->
  (forall m p, In m (ns_members s) -> nl_proba L (m_est m) [x] = Ok [p] -> length p = 1) -> nse_predict L s [x] = Ok cs -> cs = [0].
Proof.
  intros Ec K Hp H. unfold nse_predict, nse_proba in H. rewrite Ec in H. apply bind_Ok in H; destruct H as [P [HP H]]. destruct (ns_members s) as [|m ms] eqn:Em.
  - injection HP as <-. cbn [map mapM] in H. cbn in H. injection H as <-. reflexivity.
  - cbn [mapM] in HP. apply bind_Ok in HP; destruct HP as [row [Hf HP]]. injection HP as <-. apply one_column_fold in Hf; [|exact K|exact Hp]. destruct Hf as (a & ->). destruct (length cl) as [|k]; [lia|]. cbn [mapM] in H. rewrite argmax_repeat in H. injection H as <-. reflexivity.
Qed.
(** All rows so far have label 1, which the only member answers; the ensemble answers 0. *)
Theorem nse_one_class_refuted : exists s es, nse_run (T := Q) table [] 2 0%Q 0%Q 9 NoPruning nse_init [NFit [(1, 1); (2, 1)]%Z (Some ([0; 1]%Z, true))] = (s, es) /\ es = [None] /\
  map (fun m => nl_predict (T := Q) table (m_est m) [1; 2]%Z) (ns_members s) = [Ok [1; 1]%Z] /\ nse_predict (T := Q) table s [1; 2]%Z = Ok [0; 0].
Proof.
  destruct (nse_run (T := Q) table [] 2 0%Q 0%Q 9 NoPruning nse_init [NFit [(1, 1); (2, 1)]%Z (Some ([0; 1]%Z, true))]) as [s es] eqn:E. exists s, es; split; [reflexivity|]. vm_compute in E. injection E as <- <-. repeat split.
Qed.
(** With labels 1 and 2, the answers are 0 and 1. *)
Theorem nse_labels_refuted : exists s es, nse_run (T := Q) table [] 2 0%Q 0%Q 9 NoPruning nse_init [NFit [(7, 1); (8, 2)]%Z (Some ([1; 2]%Z, true))] = (s, es) /\ es = [None] /\
  map (fun m => nl_predict (T := Q) table (m_est m) [7; 8]%Z) (ns_members s) = [Ok [1; 2]%Z] /\ nse_predict (T := Q) table s [7; 8]%Z = Ok [0; 1].
Proof.
  destruct (nse_run (T := Q) table [] 2 0%Q 0%Q 9 NoPruning nse_init [NFit [(7, 1); (8, 2)]%Z (Some ([1; 2]%Z, true))]) as [s es] eqn:E. exists s, es; split; [reflexivity|]. vm_compute in E. injection E as <- <-. repeat split.
Qed.

(** *** C197: after an exception while a window was learned, every call of partial_fit with rows raises, until reset. *)
Theorem nse_stuck {X T B} {N : Num T} (L : nlearner X T B) base w slope crossing n prune os s s' es : ns_frozen s = true -> Forall (fun o => o <> NReset) os ->
  nse_run L base w slope crossing n prune s os = (s', es) ->
  ns_members s' = ns_members s /\ Forall2 (fun o e => match o with NFit (_ :: _) _ => e = Some AttributeError \/ e = Some RuntimeError | _ => True end) os es.
Proof. intros Fz Fo H. eapply frozen_run in H; eauto. destruct H as (H1 & _ & H2). auto. Qed.
(** A learner with two classes that fails on a window with one class, as logistic regression does, never learns again. *)
Definition two_classes {T} {N : Num T} : nlearner Z T (list (Z * Z)) :=
  mk_nlearner (fun _ _ _ => Raise TypeError) (fun _ rows => if Nat.leb 2 (length (labels rows)) then Ok rows else Raise ValueError) (fun _ _ _ => Raise NotImplementedError)
    (nl_predict table) (nl_proba table) (nl_seen table).
Theorem nse_stuck_refuted : exists s es, nse_run (T := Q) two_classes [] 2 0%Q 0%Q 9 NoPruning nse_init
    [NFit [(1, 0); (2, 1)]%Z (Some ([0; 1]%Z, true)); NFit [(1, 0); (3, 0)]%Z None; NFit [(1, 0)]%Z None; NFit [(2, 1)]%Z None; NReset; NFit [(1, 0); (2, 1)]%Z None] = (s, es) /\
  es = [None; Some ValueError; Some AttributeError; Some AttributeError; None; None].
Proof.
  destruct (nse_run (T := Q) two_classes [] 2 0%Q 0%Q 9 NoPruning nse_init [NFit [(1, 0); (2, 1)]%Z (Some ([0; 1]%Z, true)); NFit [(1, 0); (3, 0)]%Z None; NFit [(1, 0)]%Z None; NFit [(2, 1)]%Z None; NReset; NFit [(1, 0); (2, 1)]%Z None]) as [s es] eqn:E. exists s, es; split; [reflexivity|]. vm_compute in E. injection E as <- <-. reflexivity.
Qed.

(** *** C198: the first call needs the classes; *)
Theorem nse_first_call {X T B} {N : Num T} (L : nlearner X T B) base w slope crossing n prune rows (s : nse X T B) : ns_classes s = None ->
  nse_partial_fit L base w slope crossing n prune rows None s = (s, Some RuntimeError).
Proof. intros E. unfold nse_partial_fit. rewrite E. reflexivity. Qed.
(** those of later calls, for which a RuntimeError is documented if they differ, are ignored. *)
Theorem nse_classes_refuted {X T B} {N : Num T} (L : nlearner X T B) base w slope crossing n prune rows (s : nse X T B) c c' : ns_classes s = Some c ->
  nse_partial_fit L base w slope crossing n prune rows c' s = nse_partial_fit L base w slope crossing n prune rows None s.
Proof. intros E. unfold nse_partial_fit. rewrite E. destruct c'; reflexivity. Qed.

(** *** C199: with estimators that answer, and rows whose labels are among the classes, no call fails. *)
Theorem nse_never_fails {X B} (L : nlearner X R B) base w slope crossing n prune cl array os s es : cl <> [] ->
  (forall win, win <> [] -> Forall (fun xy => In (snd xy) cl) win -> exists b, train L base win cl = Ok b /\ answers L cl array b) ->
  Forall (fun o => match o with NFit rows c => c = Some (cl, array) /\ Forall (fun xy => In (snd xy) cl) rows | NReset => True end) os ->
  nse_run L base w slope crossing n prune nse_init os = (s, es) -> Forall (fun e => e = None) es.
Proof.
  intros Nn Gd Fo H. eapply (nse_run_total L base w slope crossing n prune cl array Nn Gd os nse_init); [|left; split; reflexivity|reflexivity|constructor|constructor|exact H].
  eapply Forall_impl; [|exact Fo]. intros [rows c|] Ho; [|exact I]. destruct Ho as [-> Hr]. split; [reflexivity|exact Hr].
Qed.
(** The classes as a list, as in the documented example, and a member that has seen two of three classes: AttributeError *)
Theorem nse_list_refuted : exists s es, nse_run (T := Q) table [] 2 0%Q 0%Q 9 NoPruning nse_init
    [NFit [(1, 0); (2, 1)]%Z (Some ([0; 1; 2]%Z, false)); NFit [(1, 0); (2, 1)]%Z (Some ([0; 1; 2]%Z, false))] = (s, es) /\ es = [None; Some AttributeError] /\ nse_predict (T := Q) table s [1%Z] = Raise AttributeError.
Proof.
  destruct (nse_run (T := Q) table [] 2 0%Q 0%Q 9 NoPruning nse_init [NFit [(1, 0); (2, 1)]%Z (Some ([0; 1; 2]%Z, false)); NFit [(1, 0); (2, 1)]%Z (Some ([0; 1; 2]%Z, false))]) as [s es] eqn:E. exists s, es; split; [reflexivity|]. vm_compute in E. injection E as <- <-. repeat split.
Qed.

(** *** The hypotheses can be met *)
Lemma in_add c d l : In d (add_label c l) <-> d = c \/ In d l.
Proof.
  induction l as [|k l IH]; cbn [add_label]; [cbn; intuition congruence|]. destruct (Z.ltb_spec c k); [cbn; intuition congruence|]. destruct (Z.eqb_spec c k) as [->|]; [cbn; intuition congruence|]. cbn [In]. rewrite IH. intuition congruence.
Qed.
Lemma in_labels d rows : In d (labels rows) <-> In d (map snd rows).
Proof. unfold labels. induction (map snd rows) as [|c l IH]; cbn [fold_right In]; [reflexivity|]. rewrite in_add, IH. intuition congruence. Qed.
Example table_answers cl win : win <> [] -> Forall (fun xy => In (snd xy) cl) win -> exists b, train (T := R) table [] win cl = Ok b /\ answers table cl true b.
Proof.
  intros _ F. exists win. split; [reflexivity|]. split.
  - intros xs. eexists; split; [reflexivity|]. apply map_length.
  - intros x. eexists; split; [reflexivity|]. right; right. split; [reflexivity|]. exists (labels win). split; [reflexivity|]. split; [rewrite map_length; reflexivity|].
    intros c I. apply (in_labels c win) in I. apply in_map_iff in I. destruct I as ((x', c') & <- & I). rewrite Forall_forall in F. apply (F _ I).
Qed.
Example nse_weights_applies : exists s es, nse_run (T := Q) table [] 2 0%Q 0%Q 2 ByAge nse_init [NFit [(1, 0); (2, 1); (1, 1)]%Z (Some ([0; 1]%Z, true)); NFit [(2, 1); (3, 0); (4, 1); (5, 1)]%Z None] = (s, es) /\
  es = [None; None] /\ length (ns_members s) = 2 /\ ns_win s = [(5, 1)]%Z /\ map (fun m => length (m_wkts m)) (ns_members s) = [2; 1] /\ nse_predict (T := Q) table s [3; 4]%Z = Ok [0; 1].
Proof.
  destruct (nse_run (T := Q) table [] 2 0%Q 0%Q 2 ByAge nse_init [NFit [(1, 0); (2, 1); (1, 1)]%Z (Some ([0; 1]%Z, true)); NFit [(2, 1); (3, 0); (4, 1); (5, 1)]%Z None]) as [s es] eqn:E. exists s, es; split; [reflexivity|]. vm_compute in E; injection E as <- <-. repeat split.
Qed.
(** Pruning by error: the second member, wrong on the third window, goes. *)
Example nse_error_pruning_applies : exists s es, nse_run (T := Q) table [] 2 0%Q 0%Q 2 ByError nse_init [NFit [(1, 0); (2, 1); (1, 1); (2, 0); (1, 0); (2, 1)]%Z (Some ([0; 1]%Z, true))] = (s, es) /\
  es = [None] /\ map m_est (ns_members s) = [[(1, 0); (2, 1)]; [(1, 0); (2, 1)]]%Z.
Proof.
  destruct (nse_run (T := Q) table [] 2 0%Q 0%Q 2 ByError nse_init [NFit [(1, 0); (2, 1); (1, 1); (2, 0); (1, 0); (2, 1)]%Z (Some ([0; 1]%Z, true))]) as [s es] eqn:E. exists s, es; split; [reflexivity|]. vm_compute in E; injection E as <- <-. repeat split.
Qed.

Print Assumptions nse_windows. Print Assumptions nse_size_refuted. Print Assumptions nse_weights. Print Assumptions nse_average_refuted. Print Assumptions nse_perfect_window. Print Assumptions nse_perfect_refuted.
Print Assumptions nse_error_pruning. Print Assumptions nse_vote. Print Assumptions nse_one_class. Print Assumptions nse_one_class_refuted. Print Assumptions nse_labels_refuted. Print Assumptions nse_stuck. Print Assumptions nse_stuck_refuted.
Print Assumptions nse_first_call. Print Assumptions nse_classes_refuted. Print Assumptions nse_never_fails. Print Assumptions nse_list_refuted.
