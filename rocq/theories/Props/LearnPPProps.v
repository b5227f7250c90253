(** C185-C191: LearnPPClassifier. *)
From Coq Require Import List ZArith QArith Bool Lia Reals Lra.
From Verif Require Import Base.Py Base.Num Model.Adwin Model.Knn Model.Generators Model.Bagging Model.Windowed Model.LearnPP
  Spec.Lists Spec.BaggingSpec Spec.WindowedSpec Spec.LearnPPSpec Proofs.ListFacts Proofs.WindowedProofs Proofs.LearnPPProofs.
From Verif Require Proofs.BaggingProofs.
Import ListNotations.
Local Open Scope nat_scope.

(** *** Base estimators for the examples *)
(** Always answers 0 *)
Definition constant {T} : wlearner Z T unit := mk_wlearner (fun _ _ _ => Ok tt) (fun _ xs => Ok (map (fun _ => 0%Z) xs)) (fun _ xs => Ok (map (fun _ => []) xs)) false.
(** Knows that the label of an instance is its remainder by 2 *)
Definition parity {T} : wlearner Z T unit := mk_wlearner (fun _ _ _ => Ok tt) (fun _ xs => Ok (map (fun x => (x mod 2)%Z) xs)) (fun _ xs => Ok (map (fun _ => []) xs)) false.
(** Answers the label of the first row of the last training set *)
Definition first_label {T} : wlearner Z T Z := mk_wlearner (fun b rows _ => Ok (match rows with (_, y) :: _ => y | [] => b end)) (fun b xs => Ok (map (fun _ => b) xs)) (fun _ xs => Ok (map (fun _ => []) xs)) false.
(** A generator that draws the items 0, 2, 4, ... of the list, whatever their probability (they are the likely ones below) *)
Definition evens {T} (p : list T) (n : nat) (g : unit) : res (list nat * unit) := Ok (map (fun i => 2 * i) (seq 0 n), tt).

(** *** C185: each ensemble was built from one of the last full windows, from members that passed their test. *)
Theorem learnpp_ensembles {X B G} (L : wlearner X R B) base threshold n_estimators n_ensembles w (seed : G) choose fuel os s fs cl :
  0 < w -> fair_choice choose -> nonneg_answers L ->
  lpp_run L base threshold n_estimators n_ensembles w seed choose fuel (lpp_init seed) os = (s, fs) -> Forall (fun f => f = Done) fs -> lp_classes s = Some cl ->
  exists ws, cut w (lpp_given [] os) ws (lp_win s) /\ Forall2 (built L base threshold n_estimators (length cl)) (lastn n_ensembles ws) (lp_ens s).
Proof.
  intros W Fc NN H F Ec. assert (H0 : lpp_ok L base threshold n_estimators n_ensembles w [] (lpp_init seed)) by (exists []; split; [split; [reflexivity|]; split; [constructor|exact W]|cbn; auto]).
  eapply lpp_run_ok in H; eauto. destruct H as (ws & C & K). rewrite Ec in K. eauto.
Qed.
(** With a threshold of at most 1/2 every normalized error is in [0, 1), so that every vote is for the member's answer, never against it. *)
Theorem learnpp_errors {X B} (L : wlearner X R B) base threshold n_estimators K win ens : (threshold <= 1 / 2)%R -> built L base threshold n_estimators K win ens ->
  Forall (fun be => (0 <= snd be < 1 /\ (snd be + 1 / 10 ^ 50 < 1 -> 0 < vote_weight (snd be)))%R) ens.
Proof.
  intros Th (_ & _ & H). apply Forall_forall; intros be I. apply In_nth_error in I; destruct I as [k I]. destruct (H k be I) as [(D & test & p & E & _ & _ & _ & _ & _ & _ & _ & [E0 E1] & Es) _].
  assert (S : (0 <= snd be < 1)%R).
  { rewrite Es. split; [apply Rmult_le_pos; [exact E0|left; apply Rinv_0_lt_compat; lra]|]. apply (Rmult_lt_reg_r (1 - E)); [lra|]. unfold Rdiv; rewrite Rmult_assoc, Rinv_l by lra. lra. }
  split; [exact S|]. intros Ht. assert (P : (0 < 1 / 10 ^ 50)%R) by (apply Rmult_lt_0_compat; [lra|apply Rinv_0_lt_compat, pow_lt; lra]).
  unfold vote_weight. pose proof (ln_increasing 1 (1 / (snd be + 1 / 10 ^ 50)) ltac:(lra)) as Li. rewrite ln_1 in Li. apply Li.
  set (v := (snd be + 1 / 10 ^ 50)%R) in *. assert (Hv : (0 < v)%R) by (unfold v; lra). apply (Rmult_lt_reg_r v); [exact Hv|]. replace (1 / v * v)%R with 1%R by (field; lra). lra.
Qed.

(** *** C186: the answer is the first label with the greatest total vote of all the members of all the ensembles. *)
Theorem learnpp_vote {X B G} (L : wlearner X R B) (s : lpp X R B G) cl xs cs : nonneg_answers L -> lp_classes s = Some cl -> lpp_predict L s xs = Ok cs ->
  Forall2 (voted L (length cl) (concat (lp_ens s))) xs cs.
Proof. apply predict_voted. Qed.
Theorem learnpp_predicts {X B G} (L : wlearner X R B) (s : lpp X R B G) cl xs : 0 < length cl -> answers_below L (length cl) -> lp_classes s = Some cl ->
  exists cs, lpp_predict L s xs = Ok cs /\ length cs = length xs /\ Forall (fun c => c < length cl) cs.
Proof.
  intros HK A Ec. destruct (predict_total L s cl xs HK A Ec) as [cs E]. exists cs; split; [exact E|]. apply predict_voted with (cl := cl) in E; [|eapply below_nonneg; exact A|exact Ec].
  split; [symmetry; eapply F2_len; exact E|]. clear -E. induction E as [|x c xs cs (answers & row & _ & [Lr _] & [Hc _]) E IH]; constructor; [lia|exact IH].
Qed.

(** *** C187: with estimators that do not fail, partial_fit returns, says that the base estimator is too weak, or never ends; *)
Definition calls_with {X} (cl : list Z) (o : lop X) : Prop := match o with LFit _ (Some c) => same_labels c cl | _ => True end.
Theorem learnpp_failures {X B G} (L : wlearner X R B) base threshold n_estimators n_ensembles w (seed : G) choose fuel rows0 cl os s fs :
  fair_choice choose -> answers_below L (length cl) -> 0 < length cl -> Forall (calls_with cl) os ->
  lpp_run L base threshold n_estimators n_ensembles w seed choose fuel (lpp_init seed) (LFit rows0 (Some cl) :: os) = (s, fs) ->
  Forall (fun f => f = Done \/ f = Failed RuntimeError \/ f = Endless) fs.
Proof.
  intros Fc A HK Fo H. cbn [lpp_run] in H.
  destruct (lpp_step L base threshold n_estimators n_ensembles w seed choose fuel (lpp_init seed) (LFit rows0 (Some cl))) as [s1 f] eqn:E1.
  assert (P1 : lp_classes s1 = Some cl /\ fine f).
  { cbn [lpp_step lpp_partial_fit lpp_init lp_classes lp_ens lp_win lp_rng] in E1.
    pose proof (rows_classes L base threshold n_estimators n_ensembles w choose fuel (length cl) rows0 (mk_lpp (Some cl) [] [] seed)) as Rc. 
    pose proof (rows_fates L base threshold n_estimators n_ensembles w choose (length cl) Fc HK A fuel rows0 (mk_lpp (Some cl) [] [] seed)) as Rf. rewrite E1 in *. split; assumption. }
  destruct P1 as [C1 F1].
  assert (Rest : forall os s1 s fs, Forall (calls_with cl) os -> lp_classes s1 = Some cl -> lpp_run L base threshold n_estimators n_ensembles w seed choose fuel s1 os = (s, fs) -> Forall fine fs).
  { clear -Fc A HK. induction os as [|o os IH]; intros s1 s fs Fo C1 H; cbn [lpp_run] in H; [injection H as _ <-; constructor|]. inversion Fo as [|? ? Ho Fo']; subst.
    destruct (lpp_step L base threshold n_estimators n_ensembles w seed choose fuel s1 o) as [s2 f] eqn:E2.
    assert (P2 : lp_classes s2 = Some cl /\ fine f).
    { destruct o as [rows [c|]|]; cbn [lpp_step] in E2.
      - cbn [calls_with] in Ho. unfold lpp_partial_fit in E2; rewrite C1 in E2. apply BaggingProofs.same_set_ok in Ho; rewrite Ho in E2.
        pose proof (rows_classes L base threshold n_estimators n_ensembles w choose fuel (length cl) rows s1) as Rc. pose proof (rows_fates L base threshold n_estimators n_ensembles w choose (length cl) Fc HK A fuel rows s1) as Rf.
        rewrite E2 in *; cbn [fst snd] in *. split; [congruence|exact Rf].
      - unfold lpp_partial_fit in E2; rewrite C1 in E2.
        pose proof (rows_classes L base threshold n_estimators n_ensembles w choose fuel (length cl) rows s1) as Rc. pose proof (rows_fates L base threshold n_estimators n_ensembles w choose (length cl) Fc HK A fuel rows s1) as Rf.
        rewrite E2 in *; cbn [fst snd] in *. split; [congruence|exact Rf].
      - injection E2 as <- <-. split; [exact C1|left; reflexivity]. }
    destruct P2 as [C2 F2]. destruct f.
    - destruct (lpp_run _ _ _ _ _ _ _ _ _ _ _) as [s3 fs3] eqn:Er; injection H as <- <-. constructor; [exact F2|eapply IH; eauto].
    - destruct (lpp_run _ _ _ _ _ _ _ _ _ _ _) as [s3 fs3] eqn:Er; injection H as <- <-. constructor; [exact F2|eapply IH; eauto].
    - injection H as <- <-. constructor; [exact F2|constructor]. }
  destruct f.
  - destruct (lpp_run _ _ _ _ _ _ _ _ _ _ _) as [s3 fs3] eqn:Er; injection H as <- <-. constructor; [exact F1|eapply Rest; eauto].
  - destruct (lpp_run _ _ _ _ _ _ _ _ _ _ _) as [s3 fs3] eqn:Er; injection H as <- <-. constructor; [exact F1|eapply Rest; eauto].
  - injection H as <- <-. constructor; [exact F1|constructor].
Qed.
(** it ends if no error measured on the rows is exactly the threshold: at most 1001 rounds per member. *)
Theorem learnpp_terminates {X B G} (L : wlearner X R B) base threshold n_estimators n_ensembles w (seed : G) choose fuel (ok : X * Z -> Prop) os s fs :
  1001 <= fuel -> (forall K rows last done cur D g cur' D' total g', Forall ok rows -> attempt L threshold choose K rows last done cur D g = Ok (cur', D', total, g') -> total <> threshold) ->
  Forall (fun o => match o with LFit rows _ => Forall ok rows | LReset => True end) os ->
  lpp_run L base threshold n_estimators n_ensembles w seed choose fuel (lpp_init seed) os = (s, fs) -> ~ In Endless fs.
Proof.
  intros Hf No Fo H. assert (W0 : Forall ok (lp_win (T := R) (B := B) (lpp_init (X := X) seed))) by constructor. revert W0 H. generalize (lpp_init (X := X) (T := R) (B := B) seed) as s1. intros s1; revert s1 s fs.
  induction Fo as [|o os Ho Fo IH]; intros s1 s fs W0 H; cbn [lpp_run] in H; [injection H as _ <-; intros []|].
  destruct (lpp_step L base threshold n_estimators n_ensembles w seed choose fuel s1 o) as [s2 f] eqn:E2.
  assert (P2 : f <> Endless /\ Forall ok (lp_win s2)).
  { assert (Rs : forall K rows s, Forall ok rows -> Forall ok (lp_win s) -> lpp_rows L base threshold n_estimators n_ensembles w choose fuel K rows s = (s2, f) -> f <> Endless /\ Forall ok (lp_win s2)).
    { intros K rows s0 Fr Fw E. pose proof (rows_stop L base threshold n_estimators n_ensembles w choose K ok (No K) fuel rows Hf Fr s0 Fw) as P. rewrite E in P. exact P. }
    destruct o as [rows c|]; cbn [lpp_step] in E2; [|injection E2 as <- <-; split; [discriminate|constructor]].
    unfold lpp_partial_fit in E2. destruct (lp_classes s1) as [k|], c as [c|].
    - destruct (same_set _ _); [exact (Rs _ _ _ Ho W0 E2)|]. injection E2 as <- <-; split; [discriminate|exact W0].
    - exact (Rs _ _ _ Ho W0 E2).
    - refine (Rs _ _ _ Ho _ E2). exact W0.
    - injection E2 as <- <-; split; [discriminate|exact W0]. }
  destruct P2 as [F2 W2]. destruct f; [| |congruence].
  - destruct (lpp_run _ _ _ _ _ _ _ _ _ _ _) as [s3 fs3] eqn:Er; injection H as <- <-. intros [D|D]; [discriminate|]. eapply IH in Er; eauto.
  - destruct (lpp_run _ _ _ _ _ _ _ _ _ _ _) as [s3 fs3] eqn:Er; injection H as <- <-. intros [D|D]; [discriminate|]. eapply IH in Er; eauto.
Qed.
(** An error equal to the threshold sets the patience back and is not good enough: with a constant classifier and as many rows of both labels partial_fit never returns,
    unless the drawn test set is wholly wrong a thousand times in a row. *)
Theorem learnpp_endless_refuted : exists rows, forall n fuel, snd (lpp_partial_fit (T := Q) constant tt (1 # 2) (S n) 100 4 evens fuel rows (Some [0; 1]%Z) (lpp_init tt)) = Endless.
Proof.
  exists [(1, 0); (2, 1); (3, 0); (4, 1)]%Z. intros n fuel. cbn [lpp_partial_fit lpp_init lp_classes lp_ens lp_win lp_rng lpp_rows length app Nat.eqb]. unfold fit_batch.
  cbn [members_loop]. cbv zeta. match goal with |- context [if (?a =? ?b)%num then _ else _] => replace (a =? b)%num with false by (vm_compute; reflexivity) end.
  replace (((1 # 2) : Q) <=? n1)%num with true by (vm_compute; reflexivity).
  match goal with |- context [attempts constant (1 # 2) evens fuel 2 ?rows ?l [] ?c ?D tt 0] => assert (St : forall e, exists e', attempt constant (1 # 2) evens 2 rows l [] (tt, e) D tt = Ok ((tt, e'), D, 1 # 2, tt));
    [intros e; eexists; vm_compute; reflexivity|]; assert (Lo : forall e, attempts constant (1 # 2) evens fuel 2 rows l [] (tt, e) D tt 0 = Loop) end.
  { induction fuel as [|fuel IH]; intros e; [reflexivity|]. cbn [attempts]. destruct (St e) as [e' ->]. cbv zeta. replace (((1 # 2) : Q) <? (1 # 2))%num with false by (vm_compute; reflexivity).
    replace (((1 # 2) : Q) <=? (1 # 2))%num with true by (vm_compute; reflexivity). cbn [Nat.ltb Nat.leb]. apply IH. }
  rewrite Lo. reflexivity.
Qed.

(** *** C188: a member that learns its window ends the construction: the ensemble is that member, with error 0. *)
Theorem learnpp_early_stop {X B G} (L : wlearner X R B) base threshold n_estimators choose K fuel rows (g : G) :
  fair_choice choose -> rows <> [] -> 0 < n_estimators -> 0 < fuel -> (0 < threshold <= 1)%R -> Forall (fun r => (0 <= snd r < Z.of_nat K)%Z) rows -> learns_all L rows ->
  exists b g', fit_batch L base threshold n_estimators choose fuel K rows g = Ret ([(b, 0%R)], g') /\ forall test, (forall r, In r test -> In r rows) -> wl_predict L b (map fst test) = Ok (map snd test).
Proof. intros Fc Ne Hn Hf Th Fl La. exact (early_stop L base threshold n_estimators choose K Fc fuel rows g Ne Hn Hf Th Fl La). Qed.
Example learnpp_early_stop_applies : learns_all (T := R) parity [(1, 1); (2, 0); (3, 1); (4, 0)]%Z.
Proof.
  intros b sub _. exists tt; split; [reflexivity|]. intros test H. cbn [wl_predict parity]. f_equal. rewrite map_map. apply map_ext_in. intros r I. apply H in I.
  repeat (destruct I as [<-|I]; [reflexivity|]). destruct I.
Qed.

(** *** C189: REFUTED: training goes on after a failed window.  The failed window stays; it never has window_size rows again. *)
Theorem learnpp_stuck {X T B G} `{Num T} (L : wlearner X T B) base threshold n_estimators n_ensembles w (seed : G) choose fuel os : forall s s' fs, w <= length (lp_win s) -> Forall (fun o => o <> LReset) os ->
  lpp_run L base threshold n_estimators n_ensembles w seed choose fuel s os = (s', fs) -> lp_ens s' = lp_ens s /\ Forall (fun f => f = Done \/ f = Failed RuntimeError) fs.
Proof.
  assert (Rw : forall K rows s, w <= length (lp_win s) -> lp_ens (fst (lpp_rows L base threshold n_estimators n_ensembles w choose fuel K rows s)) = lp_ens s /\
    snd (lpp_rows L base threshold n_estimators n_ensembles w choose fuel K rows s) = Done /\ w <= length (lp_win (fst (lpp_rows L base threshold n_estimators n_ensembles w choose fuel K rows s)))).
  { intros K; induction rows as [|row rows IH]; intros s Hs; cbn [lpp_rows]; [auto|]. cbv zeta. destruct (Nat.eqb_spec (length (lp_win s ++ [row])) w) as [E|E]; [rewrite app_length in E; cbn in E; lia|].
    apply (IH (mk_lpp (lp_classes s) (lp_ens s) (lp_win s ++ [row]) (lp_rng s))). cbn [lp_win]; rewrite app_length; lia. }
  induction os as [|o os IH]; intros s s' fs Hs Fo H0; cbn [lpp_run] in H0; [injection H0 as <- <-; split; [reflexivity|constructor]|]. inversion Fo as [|? ? Ho Fo']; subst.
  destruct o as [rows c|]; [|congruence]. cbn [lpp_step] in H0. destruct (lpp_partial_fit L base threshold n_estimators n_ensembles w choose fuel rows c s) as [s1 f] eqn:E.
  assert (P : lp_ens s1 = lp_ens s /\ (f = Done \/ f = Failed RuntimeError) /\ w <= length (lp_win s1)).
  { unfold lpp_partial_fit in E. destruct (lp_classes s) as [k|], c as [c|].
    - destruct (same_set _ _); [|injection E as <- <-; auto]. pose proof (Rw (length k) rows s Hs) as P. rewrite E in P. cbn [fst snd] in P. tauto.
    - pose proof (Rw (length k) rows s Hs) as P. rewrite E in P. cbn [fst snd] in P. tauto.
    - pose proof (Rw (length c) rows (mk_lpp (Some c) (lp_ens s) (lp_win s) (lp_rng s)) Hs) as P. rewrite E in P. cbn [fst snd] in P. tauto.
    - injection E as <- <-; auto. }
  destruct P as (P1 & P2 & P3). destruct f; [| |destruct P2; discriminate].
  - destruct (lpp_run _ _ _ _ _ _ _ _ _ _ _) as [s3 fs3] eqn:Er; injection H0 as <- <-. eapply IH in Er; eauto. destruct Er as [R1 R2]. split; [congruence|constructor; assumption].
  - destruct (lpp_run _ _ _ _ _ _ _ _ _ _ _) as [s3 fs3] eqn:Er; injection H0 as <- <-. eapply IH in Er; eauto. destruct Er as [R1 R2]. split; [congruence|constructor; assumption].
Qed.
(** A window the base estimator cannot learn raises; the next window, which it would have learned, is ignored without an error. *)
Theorem learnpp_stuck_refuted : exists s fs, lpp_run (T := Q) constant tt (1 # 2) 2 10 2 tt evens 2000 (lpp_init tt) [LFit [(1, 1); (2, 1)]%Z (Some [0; 1]%Z); LFit [(3, 0); (4, 0); (5, 0); (6, 0)]%Z None] = (s, fs) /\
  fs = [Failed RuntimeError; Done] /\ lp_ens s = [] /\ length (lp_win s) = 6 /\
  exists s' fs', lpp_run (T := Q) constant tt (1 # 2) 2 10 2 tt evens 2000 (lpp_init tt) [LFit [(3, 0); (4, 0); (5, 0); (6, 0)]%Z (Some [0; 1]%Z)] = (s', fs') /\ fs' = [Done] /\ length (lp_ens s') = 2.
Proof.
  destruct (lpp_run (T := Q) constant tt (1 # 2) 2 10 2 tt evens 2000 (lpp_init tt) [LFit [(1, 1); (2, 1)]%Z (Some [0; 1]%Z); LFit [(3, 0); (4, 0); (5, 0); (6, 0)]%Z None]) as [s fs] eqn:E. exists s, fs; split; [reflexivity|].
  vm_compute in E; injection E as <- <-. repeat split.
  destruct (lpp_run (T := Q) constant tt (1 # 2) 2 10 2 tt evens 2000 (lpp_init tt) [LFit [(3, 0); (4, 0); (5, 0); (6, 0)]%Z (Some [0; 1]%Z)]) as [s fs] eqn:E. exists s, fs; split; [reflexivity|].
  vm_compute in E; injection E as <- <-. repeat split.
Qed.

(** *** C190: the classes must be given once and may not change afterwards; REFUTED: reset makes the object as new. *)
Theorem learnpp_classes {X T B G} `{Num T} (L : wlearner X T B) base threshold n_estimators n_ensembles w (seed : G) choose fuel rows (s : lpp X T B G) :
  (lp_classes s = None -> lpp_partial_fit L base threshold n_estimators n_ensembles w choose fuel rows None s = (s, Failed RuntimeError)) /\
  (forall c k, lp_classes s = Some k -> ~ same_labels c k -> lpp_partial_fit L base threshold n_estimators n_ensembles w choose fuel rows (Some c) s = (s, Failed RuntimeError)) /\
  (forall c k, lp_classes s = Some k -> same_labels c k -> lpp_partial_fit L base threshold n_estimators n_ensembles w choose fuel rows (Some c) s = lpp_partial_fit L base threshold n_estimators n_ensembles w choose fuel rows None s).
Proof.
  unfold lpp_partial_fit. split; [intros ->; reflexivity|]. split; intros c k -> Hs.
  - destruct (same_set c k) eqn:E; [|reflexivity]. apply BaggingProofs.same_set_ok in E. contradiction.
  - apply BaggingProofs.same_set_ok in Hs. rewrite Hs. reflexivity.
Qed.
Theorem learnpp_reset_refuted : exists fs, snd (lpp_run (T := Q) parity tt (1 # 2) 2 10 2 tt evens 9 (lpp_init tt) [LFit [(1, 1)]%Z (Some [0; 1]%Z); LReset; LFit [(1, 1)]%Z (Some [0; 1; 2]%Z)]) = fs /\ fs = [Done; Done; Failed RuntimeError].
Proof. eexists; split; [vm_compute; reflexivity|reflexivity]. Qed.

(** *** C191: REFUTED: the answers are labels.  A label is used as a position among the classes: with classes 1 and 2 (every prediction of the estimators is 1 or 2)
    training fails, and before the first training predict fails. *)
Theorem learnpp_labels_refuted :
  snd (lpp_partial_fit (T := Q) first_label 1%Z (1 # 2) 2 10 4 evens 9 [(1, 2); (2, 2); (3, 2); (4, 2)]%Z (Some [1; 2]%Z) (lpp_init tt)) = Failed IndexError /\
  (exists s, lpp_partial_fit (T := Q) first_label 1%Z (1 # 2) 2 10 4 evens 9 [(1, 1); (2, 1); (3, 1); (4, 1)]%Z (Some [1; 0]%Z) (lpp_init tt) = (s, Done) /\ lpp_predict first_label s [7%Z] = Ok [1]) /\
  lpp_predict (T := Q) (G := unit) first_label (lpp_init tt) [7%Z] = Raise TypeError.
Proof.
  split; [vm_compute; reflexivity|]. split; [|reflexivity].
  destruct (lpp_partial_fit (T := Q) first_label 1%Z (1 # 2) 2 10 4 evens 9 [(1, 1); (2, 1); (3, 1); (4, 1)]%Z (Some [1; 0]%Z) (lpp_init tt)) as [s f] eqn:E. exists s. vm_compute in E; injection E as <- <-. split; [reflexivity|vm_compute; reflexivity].
Qed.

(** A run that meets the hypotheses of C185 and C187 *)
Example fair_exists : fair_choice (G := unit) (fun p n g => Ok (repeat (match find (fun i => Rltb 0 (nth i p 0%R)) (seq 0 (length p)) with Some i => i | None => 0 end) n, g)).
Proof.
  intros p n g [Np Sp]. eexists; exists g; split; [reflexivity|]. split; [apply repeat_length|]. destruct (find _ _) as [i|] eqn:E.
  - apply find_some in E; destruct E as [I Hp]. apply in_seq in I. apply Rltb_true in Hp. apply Forall_forall; intros j J; apply repeat_spec in J; subst j. split; [lia|exact Hp].
  - exfalso. assert (Z0 : Rsum p = 0%R); [|lra]. assert (All : forall v, In v p -> v = 0%R).
    { intros v I. apply In_nth with (d := 0%R) in I; destruct I as (i & Hi & <-). pose proof (find_none _ _ E i) as Hn. cbn beta in Hn. specialize (Hn ltac:(apply in_seq; lia)). apply Rltb_false in Hn.
      rewrite Forall_forall in Np. specialize (Np (nth i p 0%R) (nth_In _ _ Hi)). lra. }
    clear -All. induction p as [|v p IH]; [reflexivity|]. cbn [Rsum]. rewrite (All v (or_introl eq_refl)), IH; [lra|]. intros; apply All; right; assumption.
Qed.
Example parity_answers : answers_below (T := R) parity 2.
Proof.
  split; [intros; exists tt; reflexivity|]. intros b xs. eexists; split; [reflexivity|]. split; [apply map_length|]. apply Forall_map, Forall_forall. intros x _. pose proof (Z.mod_pos_bound x 2). cbn; lia.
Qed.
Example learnpp_ensembles_applies : exists s fs, lpp_run (T := Q) parity tt (1 # 2) 3 1 2 tt evens 9 (lpp_init tt) [LFit [(1, 1); (2, 0); (3, 1)]%Z (Some [0; 1]%Z); LFit [(4, 0); (5, 1)]%Z None] = (s, fs) /\
  fs = [Done; Done] /\ length (lp_ens s) = 1 /\ lp_win s = [(5, 1)]%Z.
Proof.
  destruct (lpp_run (T := Q) parity tt (1 # 2) 3 1 2 tt evens 9 (lpp_init tt) [LFit [(1, 1); (2, 0); (3, 1)]%Z (Some [0; 1]%Z); LFit [(4, 0); (5, 1)]%Z None]) as [s fs] eqn:E. exists s, fs; split; [reflexivity|]. vm_compute in E; injection E as <- <-. repeat split.
Qed.

Print Assumptions learnpp_ensembles. Print Assumptions learnpp_errors. Print Assumptions learnpp_vote. Print Assumptions learnpp_predicts. Print Assumptions learnpp_failures. Print Assumptions learnpp_terminates.
Print Assumptions learnpp_endless_refuted. Print Assumptions learnpp_early_stop. Print Assumptions learnpp_stuck. Print Assumptions learnpp_stuck_refuted. Print Assumptions learnpp_classes. Print Assumptions learnpp_reset_refuted. Print Assumptions learnpp_labels_refuted.
