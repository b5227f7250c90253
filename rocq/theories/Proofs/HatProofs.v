(** The adaptive Hoeffding tree classifier meets the requirements of [AdaProofs], for any numbers, detectors and draws. *)
From Coq Require Import List ZArith Bool Lia.
From Verif Require Import Base.Py Base.Num Base.Dict Model.Suggestion Model.Adwin Model.SplitTests Model.SplitCriteria Model.Knn Model.NaiveBayes Model.TreeSkeleton Model.HoeffdingTree
  Model.AdaTree Model.HoeffdingAdaptive Spec.AdaSpec Proofs.TreeProofs Proofs.HoeffdingProofs Proofs.ExpertRunProofs Proofs.AdaProofs.
Import ListNotations.
Local Open Scope Z_scope.

Section Hat.
Context {T A G : Type} {N : Num T}.
Variables (k : T) (phi : T -> T) (key : T -> Z) (cfg : ht_config T) (bootstrap : bool) (D : det T A) (g_new : G) (poisson : G -> Z * G).
Local Notation dist := (list (Z * T)).
Local Notation O := (hat_ops k phi key cfg bootstrap D g_new poisson).
Local Notation O' := (ht_ops k phi key (nba_config cfg)).
Local Notation hnode := (anode (aleaf T A G) dist dist (htest T) A).
Definition al_ok (l : aleaf T A G) : Prop := keys_ok (al_leaf l).
Definition hat_wf (t : hnode) : Prop := awf test_ok al_ok ndk t.

Lemma hat_branch te n x b : test_ok te n -> a_branch O te x = Ok b -> b < Z.of_nat n.
Proof. apply (branch_lt k phi key (nba_config cfg)). Qed.
Lemma hat_add te n x b te' b' : test_ok te n -> a_branch O te x = Ok b -> b < 0 -> a_grows O te b = true -> a_add O te x = Ok (te', b') -> b' = Z.of_nat n /\ test_ok te' (S n).
Proof.
  intros Ht Eb Hb Hg Ha. cbn [hat_ops a_grows] in Hg. apply andb_true_iff in Hg as [Hm _].
  destruct (add_branch k phi key (nba_config cfg) te n x b te' b' Ht Hm Eb Hb Ha) as (A1 & A2 & _). rewrite Nat.add_1_r in A2. auto.
Qed.
Lemma hat_new : al_ok (a_new O). Proof. unfold al_ok. cbn. apply keys_new. constructor. Qed.
Lemma hat_learn l x y w l' : al_ok l -> a_learn O l x y w = Ok l' -> al_ok l'.
Proof.
  cbn [hat_ops a_learn]. unfold al_learn. destruct (boot bootstrap poisson (al_rng l) w) as [w' g]. intros H E. apply bind_Ok in E as (v & _ & E). apply bind_Ok in E as (m & _ & E).
  apply bind_Ok in E as ([a c] & _ & E). apply bind_Ok in E as (lf & E1 & E). injection E as <-. unfold al_ok in *. cbn [al_leaf]. eapply (keys_learn k phi key (nba_config cfg)); eauto.
Qed.
Lemma hat_decide l d : al_ok l -> a_decide O l = Ok d ->
  match d with
  | Keep l' => al_ok l'
  | NullWins l' => al_ok l' /\ ndk (a_stop O l') /\ (forall l'', a_restart O l' = Some l'' -> al_ok l'')
  | SplitOn l' te ds => al_ok l' /\ test_ok te (length ds) /\ forall d, In d ds -> al_ok (a_child O l' d)
  end.
Proof.
  cbn [hat_ops a_decide a_stop a_restart a_child]. unfold al_decide. intros H E. apply bind_Ok in E as (d0 & E & Q). injection Q as <-. unfold al_ok in *.
  pose proof (decide_keys k phi (nba_config cfg) _ _ H E) as HK. pose proof (decide_cases k phi (nba_config cfg) _ _ E) as [HS _]. destruct d0 as [lf|lf|lf te ds]; cbn [al_leaf].
  - exact HK.
  - split; [exact HK|]. split; [exact (proj2 HK)|]. intros l''. destruct (c_stop _); [discriminate|]. intros [= <-]. apply keys_new. exact (proj2 HK).
  - destruct (decide_split k phi key (nba_config cfg) _ _ _ _ H E) as [A1 A2]. split; [|auto].
    split; [|rewrite HS; exact (proj2 H)]. clear - H E. unfold decide in E. cbv zeta in E. destruct (leaf_pure _); [discriminate|]. apply bind_Ok in E as (bs & _ & E).
    destruct (rev _) as [|best [|second rest]]; [discriminate| |].
    + injection E as E. destruct (sg_test best); [injection E as <- _ _; exact (proj1 H)|discriminate].
    + apply bind_Ok in E as (bound & _ & E). apply bind_Ok in E as (poor & _ & E). injection E as E. destruct (_ || _); [|discriminate].
      destruct (sg_test best); [|discriminate]. injection E as <- _ _. exact (proj1 (proj1 (disable_all _ poor _ H))).
Qed.
(** A leaf with one sample is pure: it is not split. *)
Lemma hat_fresh x y w l : a_learn O (a_new O) x y w = Ok l -> a_due O l = true -> forall d, a_decide O l = Ok d -> exists l', d = Keep l'.
Proof.
  cbn [hat_ops a_learn a_new a_decide]. unfold al_learn. destruct (boot bootstrap poisson (al_rng (al_new D g_new [])) w) as [w' g]. intros E _ d H.
  apply bind_Ok in E as (v & _ & E). apply bind_Ok in E as (m & _ & E). apply bind_Ok in E as ([a c] & _ & E). apply bind_Ok in E as (lf & E1 & E). injection E as <-.
  unfold leaf_learn in E1. apply bind_Ok in E1 as ([mc nb] & _ & E1). apply bind_Ok in E1 as (obs & _ & E1). injection E1 as <-.
  unfold al_decide in H. cbn [al_leaf] in H. unfold decide in H. unfold leaf_pure in H. cbn [lf_stats al_leaf al_new leaf_new] in H. unfold update_stats in H. cbn [dget dset dsort fold_right dinsert filter snd] in H.
  destruct (negb _) in H; cbn [length Nat.ltb Nat.leb bind] in H; injection H as <-; eauto.
Qed.
Lemma hat_learn_wf t linked x y w c t' over c' : hat_wf t -> alearn O linked t x y w c = Ok (t', over, c') -> hat_wf t' /\ forall n, over = Some n -> hat_wf n.
Proof. apply alearn_wf; [exact hat_branch|exact hat_add|exact hat_new|exact hat_learn|exact hat_decide]. Qed.

(** ** Runs *)
Definition hat_ok (s : hat T A G) : Prop := forall t, hat_root s = Some t -> hat_wf t.
(** What one sample does: the root, then what is at its place *)
Lemma fit_one_cases s x y w s' : hat_fit_one k phi key cfg bootstrap D g_new poisson s x y w = Ok s' ->
  hat_classes s' = hat_classes s /\ hat_weight s' = hat_weight s /\
  ((exists d, hat_root s = Some (ADead d) /\ hat_root s' = Some (ADead (update_stats d y w)) /\ hat_counts s' = hat_counts s) \/
   exists r c r' over, alearn O true r x y w c = Ok (r', over, hat_counts s') /\ hat_root s' = Some (match over with Some n => n | None => r' end) /\
     (hat_root s = Some r /\ c = hat_counts s \/
      hat_root s = None /\ r = ALeaf (al_new D g_new []) /\
      c = mk_counts 1 (k_inactive (hat_counts s)) (k_decision (hat_counts s)) (k_alternate (hat_counts s)) (k_pruned (hat_counts s)) (k_switched (hat_counts s)))).
Proof.
  unfold hat_fit_one. intros H. destruct (hat_root s) as [r|] eqn:Er.
  - destruct r as [l|d|te st wt alt ch].
    + apply bind_Ok in H as ([[r' over] c'] & E & H). injection H as <-. split; [reflexivity|]. split; [reflexivity|]. right. exists (ALeaf l), (hat_counts s), r', over. cbn [hat_root hat_counts]. auto.
    + injection H as <-. split; [reflexivity|]. split; [reflexivity|]. left. exists d. auto.
    + apply bind_Ok in H as ([[r' over] c'] & E & H). injection H as <-. split; [reflexivity|]. split; [reflexivity|]. right. exists (ASplit te st wt alt ch), (hat_counts s), r', over. cbn [hat_root hat_counts]. auto.
  - apply bind_Ok in H as ([[r' over] c'] & E & H). injection H as <-. split; [reflexivity|]. split; [reflexivity|]. right. do 4 eexists. split; [exact E|]. split; [reflexivity|]. right. auto.
Qed.
Lemma leaf_new_wf : hat_wf (ALeaf (al_new D g_new [])). Proof. constructor. exact hat_new. Qed.
Lemma fit_one_ok s x y w s' : hat_ok s -> hat_fit_one k phi key cfg bootstrap D g_new poisson s x y w = Ok s' -> hat_ok s'.
Proof.
  intros Hs H. apply fit_one_cases in H as (_ & _ & [(d & E1 & E2 & _)|(r & c & r' & over & E1 & E2 & E3)]); intros t Et; rewrite E2 in Et; injection Et as <-.
  - constructor. apply update_stats_ndk. specialize (Hs _ E1). inversion Hs; auto.
  - assert (Wr : hat_wf r) by (destruct E3 as [[E3 _]|(_ & -> & _)]; [auto|apply leaf_new_wf]). destruct (hat_learn_wf _ _ _ _ _ _ _ _ _ Wr E1) as [W1 W2]. destruct over; auto.
Qed.
(** Induction over the samples of a run *)
Lemma rows_inv (P : hat T A G -> Prop) : (forall s w, P s -> P (mk_hat (hat_root s) (hat_counts s) (hat_classes s) w)) ->
  (forall s x y w s', P s -> hat_fit_one k phi key cfg bootstrap D g_new poisson s x y w = Ok s' -> P s') ->
  forall rows ws s s', P s -> hat_rows k phi key cfg bootstrap D g_new poisson s rows ws = Ok s' -> P s'.
Proof.
  intros H1 H2. induction rows as [|[x y] rows IH]; intros ws s s' Hs H; cbn [hat_rows] in H; [injection H as <-; auto|]. destruct ws as [|w ws]; [injection H as <-; auto|].
  apply bind_Ok in H as (s1 & E & H). apply (IH ws s1); [|exact H]. destruct (w =? n0)%num; [injection E as <-; auto|]. eapply H2; [|exact E]. apply H1. exact Hs.
Qed.
Lemma run_inv (P : hat T A G -> Prop) : (forall s c w, P s -> P (mk_hat (hat_root s) (hat_counts s) c w)) ->
  (forall s x y w s', P s -> hat_fit_one k phi key cfg bootstrap D g_new poisson s x y w = Ok s' -> P s') ->
  forall os, (In HReset os -> forall s, P s -> P (hat_reset s)) -> forall s s', P s -> hat_run k phi key cfg bootstrap D g_new poisson s os = Ok s' -> P s'.
Proof.
  intros H1 H2 os. induction os as [|o os IH]; intros H3 s s' Hs H; unfold hat_run in *; cbn [foldM] in H; [injection H as <-; auto|]. apply bind_Ok in H as (s1 & E & H).
  apply (IH ltac:(intros Hi; apply H3; now right) s1); [|exact H]. destruct o as [rows c ws|]; cbn [hat_step] in E.
  - unfold hat_fit in E. destruct (Nat.eqb _ _); [|discriminate]. eapply rows_inv; [| |apply H1; exact Hs|exact E]; auto.
  - injection E as <-. apply H3; [now left|auto].
Qed.
Lemma run_ok os s : hat_run k phi key cfg bootstrap D g_new poisson hat_init os = Ok s -> hat_ok s.
Proof. apply run_inv; [auto|exact fit_one_ok|intros _ s0 _ t; discriminate|intros t; discriminate]. Qed.

Lemma run_alternates os s t : hat_run k phi key cfg bootstrap D g_new poisson hat_init os = Ok s -> hat_root s = Some t -> Forall (fun a => is_aleaf a = true) (alternates t).
Proof.
  intros H Et. pose proof (run_ok _ _ H t Et) as W. clear - W. induction t as [l|i|te st wt alt ch _ IHc] using anode_ind'; try constructor.
  inversion W as [| |? ? ? ? ? K TI F A1]; subst. rewrite alternates_split. apply Forall_app. split.
  - destruct alt as [a|]; constructor; [|constructor]. destruct (A1 a eq_refl) as (l & -> & _). reflexivity.
  - clear - F IHc. induction ch as [|[k0 c] ch IH]; [constructor|]. inversion F; inversion IHc; subst. cbn [flat_map snd] in *. apply Forall_app. auto.
Qed.
Lemma run_alive os s t : c_stop (h_memory cfg) = false -> hat_run k phi key cfg bootstrap D g_new poisson hat_init os = Ok s -> hat_root s = Some t -> number is_adead t = 0.
Proof.
  intros Hc H Et. cut (hat_ok s /\ forall t, hat_root s = Some t -> number is_adead t = 0); [intros [_ Hx]; auto|]. clear t Et. revert H.
  apply (run_inv (fun s => hat_ok s /\ forall t, hat_root s = Some t -> number is_adead t = 0)); [auto| | |].
  - intros s0 x y w s1 [W0 A0] H. split; [eapply fit_one_ok; eauto|]. apply fit_one_cases in H as (_ & _ & [(d & E1 & E2 & _)|(r & c & r' & over & E1 & E2 & E3)]); intros t Et; rewrite E2 in Et; injection Et as <-.
    + specialize (A0 _ E1). rewrite number_leaf in A0 by reflexivity. discriminate A0.
    + assert (Wr : hat_wf r) by (destruct E3 as [[E3 _]|(_ & -> & _)]; [auto|apply leaf_new_wf]). assert (Ar : number is_adead r = 0) by (destruct E3 as [[E3 _]|(_ & -> & _)]; [auto|reflexivity]).
      refine (alearn_alive O test_ok al_ok ndk hat_branch hat_add _ r x y w c r' over _ Wr E1 Ar). intros l. cbn [hat_ops a_restart]. rewrite Hc. discriminate.
  - intros _ s0 _. split; intros t; discriminate.
  - split; intros t; discriminate.
Qed.
Lemma run_counted os s : ~ In HReset os -> hat_run k phi key cfg bootstrap D g_new poisson hat_init os = Ok s -> k_alternate (hat_counts s) = 0 ->
  k_pruned (hat_counts s) = 0 /\ k_switched (hat_counts s) = 0 /\
  match hat_root s with None => k_active (hat_counts s) = 0 /\ k_inactive (hat_counts s) = 0 /\ k_decision (hat_counts s) = 0 | Some t => alternates t = [] /\ counted t (hat_counts s) end.
Proof.
  intros Hn H. set (P := fun s : hat T A G => hat_ok s /\ 0 <= k_alternate (hat_counts s) /\ (k_alternate (hat_counts s) = 0 -> k_pruned (hat_counts s) = 0 /\ k_switched (hat_counts s) = 0 /\
    match hat_root s with None => k_active (hat_counts s) = 0 /\ k_inactive (hat_counts s) = 0 /\ k_decision (hat_counts s) = 0 | Some t => alternates t = [] /\ counted t (hat_counts s) end)).
  cut (P s); [intros (_ & _ & Q); exact Q|]. revert H. apply (run_inv P); [unfold P; auto| |contradiction|].
  - intros s0 x y w s1 (W0 & B0 & A0) H. unfold P. split; [eapply fit_one_ok; eauto|]. apply fit_one_cases in H as (_ & _ & [(d & E1 & E2 & E3)|(r & c & r' & over & E1 & E2 & E3)]).
    + rewrite E3. split; [exact B0|]. intros Hz. destruct (A0 Hz) as (B1 & B2 & B3). rewrite E1 in B3. rewrite E2. auto.
    + assert (Wr : hat_wf r) by (destruct E3 as [[E3 _]|(_ & -> & _)]; [auto|apply leaf_new_wf]). assert (Ec : k_alternate c = k_alternate (hat_counts s0)) by (destruct E3 as [[_ ->]|(_ & _ & ->)]; reflexivity).
      pose proof (alearn_alternate O test_ok al_ok ndk hat_branch r _ _ _ _ _ _ _ _ Wr E1) as M. split; [lia|]. intros Hz. assert (k_alternate (hat_counts s0) = 0) as Hz0 by lia. destruct (A0 Hz0) as (B1 & B2 & B3).
      assert (alternates r = [] /\ counted r c /\ k_pruned c = 0 /\ k_switched c = 0) as (C1 & C2 & C3 & C4).
      { destruct E3 as [[E3 ->]|(E3 & -> & ->)]; rewrite E3 in B3; [tauto|]. destruct B3 as (B3 & B4 & B5). split; [reflexivity|]. cbn. unfold counted. rewrite !number_leaf by reflexivity. cbn. auto. }
      destruct (alearn_counted O test_ok al_ok ndk hat_branch hat_add hat_fresh r _ _ _ _ _ _ _ Wr C1 E1 ltac:(lia)) as (D1 & D2 & _). rewrite E2. unfold grown, counted in *. intuition lia.
  - unfold P. split; [intros t; discriminate|]. cbn. split; [lia|auto].
Qed.
End Hat.
