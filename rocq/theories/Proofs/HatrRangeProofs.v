(** Statistics of the adaptive regression tree stay consistent with targets within [lo, hi]. *)
From Coq Require Import List ZArith Bool Reals Lra Lia.
From Verif Require Import Base.Py Base.Num Base.Dict Model.Suggestion Model.Adwin Model.TargetStats Model.Ebst Model.NominalObs Model.SplitTests Model.SplitCriteria Model.Knn Model.TreeSkeleton Model.HoeffdingTree
  Model.HoeffdingRegressor Model.AdaTree Model.HoeffdingAdaptive Model.HoeffdingAdaptiveRegressor Spec.AdaSpec Spec.HatrSpec Proofs.TreeProofs Proofs.HoeffdingProofs Proofs.HoeffdingRegressorProofs Proofs.RegressorRangeProofs
  Proofs.AdaProofs Proofs.HatrProofs.
Import ListNotations.

(** ** An invariant of leaves and of what split nodes have stored, for samples that are [good] *)
Section Ada.
Context {X Y T L I S E W P : Type} {N : Num T} (O : aops X Y T L I S E W P).
Local Notation node := (anode L I S E W).
Variables (linv : L -> Prop) (sinv : S -> Prop).
Inductive aall : node -> Prop :=
| aall_leaf l : linv l -> aall (ALeaf l)
| aall_dead i : aall (ADead i)
| aall_split te st wt alt ch : sinv st -> Forall (fun kc => aall (snd kc)) ch -> (forall l, alt = Some (ALeaf l) -> linv l) -> aall (ASplit te st wt alt ch).
Variables (tinv : E -> nat -> Prop) (linv0 : L -> Prop) (iinv : I -> Prop) (x : X) (y : Y) (w : T).
Hypothesis Hbranch : forall te n x b, tinv te n -> a_branch O te x = Ok b -> (b < Z.of_nat n)%Z.
Hypothesis Hnew : linv (a_new O).
Hypothesis Hlearn : forall l l', linv l -> a_learn O l x y w = Ok l' -> linv l'.
Hypothesis Hdecide : forall l d, linv l -> a_decide O l = Ok d ->
  match d with
  | Keep l' => linv l'
  | NullWins l' => linv l' /\ (forall l'', a_restart O l' = Some l'' -> linv l'')
  | SplitOn l' te ds => linv l' /\ sinv (a_stats O l') /\ forall d, In d ds -> linv (a_child O l' d)
  end.

Lemma leaf_step_all linked l c l' r c' : linv l -> leaf_step O linked l x y w c l' r c' -> linv l' /\ forall n, r = Some n -> aall n.
Proof.
  intros Wl H. destruct H as [l1 E1 E2|l1 l2 E1 E2 E3|l1 l2 l3 E1 E2 E3 E4 E5|l1 l2 E1 E2 E3 E4|l1 l2 te ds n E1 E2 E3 E4];
    pose proof (Hlearn _ _ Wl E1) as W1; try (pose proof (Hdecide _ _ W1 E3) as HD; cbn in HD).
  - split; [auto|discriminate].
  - split; [auto|discriminate].
  - destruct HD as (A & B). split; auto. intros n [= <-]. constructor. auto.
  - destruct HD as (A & _). split; auto. intros n [= <-]. constructor.
  - destruct HD as (A & B & C). split; auto. intros m [= <-]. apply asplit_inv in E4 as ->. constructor; auto; [|discriminate].
    rewrite Forall_forall. intros [k n] Hin. apply in_combine_r in Hin. apply in_map_iff in Hin as (d & <- & Hd). cbn. constructor. auto.
Qed.
Lemma alearn_all t : forall linked c t' over c', awf tinv linv0 iinv t -> aall t -> alearn O linked t x y w c = Ok (t', over, c') -> aall t' /\ forall n, over = Some n -> aall n.
Proof.
  induction t as [l|i|te st wt alt ch IHa IHc] using anode_ind'; intros linked c t' over c' Wt Ht H.
  - cbn [alearn] in H. apply aleaf_learn_inv in H as (l' & -> & St). inversion Ht; subst. destruct (leaf_step_all _ _ _ _ _ _ H0 St). split; [constructor|]; auto.
  - discriminate.
  - apply (alearn_split_inv O tinv linv0 iinv Hbranch) in H as (found & p & wt' & changed & v & c1 & alt' & over1 & c2 & te' & ch' & _ & _ & _ & _ & AS & RS & ->); [|exact Wt].
    inversion Ht as [| |? ? ? ? ? Hs F A]; subst.
    assert (WA : (forall l, alt' = Some (ALeaf l) -> linv l) /\ forall n, over1 = Some n -> aall n).
    { destruct AS as [l' r c3 St| |v E0 _|l l' r c3 E0 St|l l' r c3 E0 St].
      - destruct (leaf_step_all _ _ _ _ _ _ Hnew St). split; [intros a [= <-]; auto|auto].
      - split; discriminate.
      - split; discriminate.
      - destruct (leaf_step_all _ _ _ _ _ _ (A _ E0) St). split; [intros a [= <-]; eauto|auto].
      - destruct (leaf_step_all _ _ _ _ _ _ (A _ E0) St). split; [intros a [= <-]; eauto|]. destruct r; intros n0 [= <-]; [auto|constructor; auto]. }
    destruct WA as [WA WO]. destruct RS as [b n n' s c3 Eb D El|b te' b' l' r c3 Eb Hb D Eg E1 St|b Eb Hb D Eg].
    + rewrite Forall_forall in IHc. pose proof (dget_In _ _ _ D) as Hin. assert (Wn : aall n) by (eapply (Forall_dget _ _ _ _ F); eauto).
      assert (Wn' : awf tinv linv0 iinv n) by (inversion Wt as [| |? ? ? ? ? K TI F' A']; subst; exact (Forall_dget (awf tinv linv0 iinv) _ _ _ F' D)).
      destruct (IHc _ Hin _ _ _ _ _ Wn' Wn El) as [W1 W2]. cbn [snd] in *. split; auto. constructor; auto. apply Forall_dset'; auto. destruct s; auto.
    + destruct (leaf_step_all _ _ _ _ _ _ Hnew St) as [W1 W2]. split; [|destruct r; [intros m [= <-]; auto|exact WO]].
      constructor; auto. apply Forall_dset'; auto. constructor; auto.
    + split; auto. constructor; auto.
Qed.
Lemma aroute_all t z n : aall t -> aroute O t z = Ok (Some n) -> aall n.
Proof.
  induction t as [l|i|te st wt alt ch IHa IHc] using anode_ind'; intros Ht H; [injection H as <-; auto|injection H as <-; auto|].
  rewrite aroute_split in H. apply bind_Ok in H as (b & Eb & H). destruct (0 <=? b)%Z; [|injection H as <-; exact Ht].
  destruct (dget ch b) as [c|] eqn:D; [|discriminate]. inversion Ht as [| |? ? ? ? ? Hs F A]; subst. rewrite Forall_forall in IHc.
  exact (IHc _ (dget_In _ _ _ D) (Forall_dget aall _ _ _ F D) H).
Qed.
End Ada.

Local Open Scope R_scope.
Section Range.
Context {A G : Type}.
Variables (key : R -> Z) (int_of : R -> Z) (cfg : htr_config R) (bootstrap : bool) (D : det R A) (g_new : G) (poisson : G -> Z * G) (uniform : G -> nat -> list R * G).
Local Notation st := (stat R unit).
Local Notation O := (hatr_ops key int_of cfg bootstrap D g_new poisson uniform).
Local Notation pcfg := (perceptron_config cfg).
Local Notation rnode := (anode (arleaf R A G) unit (option st) (htest R) (welford R * A)).
Local Notation one := (hatr_one key int_of cfg bootstrap D g_new poisson uniform).
Section LoHi.
Variables lo hi : R.
Definition rl_in (l : arleaf R A G) : Prop := rkeys (ar_leaf l) /\ leaf_ok lo hi (ar_leaf l).
Definition st_in (s : option st) : Prop := cone lo hi (preof s).
Definition tree_in (t : rnode) : Prop := aall rl_in st_in t.

Lemma boot_pos (g : G) w : 0 <= w -> 0 <= fst (boot bootstrap poisson g w).
Proof.
  intros H. unfold boot. destruct bootstrap; [|exact H]. destruct (poisson g) as [n g']. cbn [fst]. destruct (0 <? n)%Z eqn:E; [|exact H].
  change (0 <= w * IZR n). apply Z.ltb_lt in E. apply Rmult_le_pos; [exact H|]. apply IZR_le. lia.
Qed.
Lemma in_new : rl_in (a_new O). Proof. split; [apply rkeys_new|]. exact (k_new _ _ _ _ _ _ (range_keeps lo hi key int_of pcfg)). Qed.
Lemma in_learn l x y w l' : lo <= y <= hi -> 0 <= w -> rl_in l -> a_learn O l x y w = Ok l' -> rl_in l'.
Proof.
  intros Hy Hw [K H] E. apply ar_learn_inv in E as (p & v & ch & ws & _ & _ & _ & _ & E). split; [exact (rkeys_learn key int_of pcfg _ _ _ _ _ K E)|].
  refine (proj1 (learn_ok lo hi key int_of pcfg _ _ _ _ _ K H _ E)). split; [exact Hy|]. now apply boot_pos.
Qed.
Lemma in_decide l d : rl_in l -> a_decide O l = Ok d ->
  match d with
  | Keep l' => rl_in l'
  | NullWins l' => rl_in l' /\ (forall l'', a_restart O l' = Some l'' -> rl_in l'')
  | SplitOn l' te ds => rl_in l' /\ st_in (a_stats O l') /\ forall d, In d ds -> rl_in (a_child O l' d)
  end.
Proof.
  cbn [hatr_ops a_decide a_stop a_restart a_child a_stats]. unfold ar_decide. intros [K H] E. apply bind_Ok in E as (d0 & E & Q). injection Q as <-.
  pose proof (rdecide_cases int_of pcfg _ _ E) as (pre & bs & E0 & Eb & HK).
  pose proof (k_decide _ _ _ _ _ _ (range_keeps lo hi key int_of pcfg) _ _ K H E) as HD.
  destruct d0 as [lf|lf|lf te ds]; unfold rl_in, st_in; cbn [ar_leaf].
  - destruct HK as (l1 & F & ->). apply from_same in F as [F _]. split; [exact (F K)|exact HD].
  - destruct HK as (p & ->). split; [|discriminate]. split; [apply rdisable_all; exact K|exact HD].
  - destruct HK as ((p & ->) & best & Hin & Et & <-). pose proof (disable_ok lo hi p _ K H) as HL. split; [split; [apply rdisable_all; exact K|exact HL]|]. split; [exact (proj1 HL)|].
    intros d Hd. split; [apply rkeys_new|]. cbn [ar_new ar_leaf]. specialize (HD d Hd). exact HD.
Qed.
Definition state_in (s : hatr R A G) : Prop := hatr_ok s /\ forall t, hatr_root s = Some t -> tree_in t.
Lemma in_one s x y w s' : lo <= y <= hi -> 0 <= w -> state_in s -> one s x y w = Ok s' -> state_in s'.
Proof.
  intros Hy Hw [Hs H] E. split; [exact (one_ok _ _ _ _ _ _ _ _ _ _ _ _ _ Hs E)|]. apply one_cases in E as [[_ ->]|(_ & _ & r & c & r' & over & E1 & E2 & E3)]; [exact H|].
  intros t Et; rewrite E2 in Et; injection Et as <-.
  assert (Wr : hatr_wf r /\ tree_in r) by (destruct E3 as [[E3 _]|(_ & -> & _)]; [split; [exact (Hs _ E3)|exact (H _ E3)]|split; [exact (root_leaf_wf key int_of cfg bootstrap D g_new poisson uniform)|apply aall_leaf; exact in_new]]).
  destruct Wr as [W1 W2]. destruct (alearn_all O rl_in st_in test_ok ar_ok dead_ok (x, hatr_sums s') y w (hatr_branch key int_of cfg bootstrap D g_new poisson uniform) in_new
    (fun l l' => in_learn l _ y w l' Hy Hw) in_decide r _ _ _ _ _ W1 W2 E1) as [A1 A2].
  destruct over; auto. now apply A2.
Qed.
End LoHi.

(** The samples since the last reset *)
Lemma in_run os : forall s s' acc, (forall lo hi, (forall x y w, In ((x, y), w) acc -> lo <= y <= hi /\ 0 <= w) -> state_in lo hi s) ->
  hatr_run key int_of cfg bootstrap D g_new poisson uniform s os = Ok s' ->
  forall lo hi, (forall x y w, In ((x, y), w) (since_reset os acc) -> lo <= y <= hi /\ 0 <= w) -> state_in lo hi s'.
Proof.
  induction os as [|o os IH]; intros s s' acc Hs H lo hi Hg; unfold hatr_run in H; cbn [foldM] in H; [injection H as <-; exact (Hs lo hi Hg)|].
  apply bind_Ok in H as (s1 & E & H). unfold since_reset in *. cbn [fold_left] in Hg. refine (IH s1 s' _ _ H lo hi Hg). clear lo hi Hg H. intros lo hi Hg. destruct o as [rows ws|]; cbn [hatr_step] in E.
  - unfold hatr_fit in E. destruct (Nat.eqb _ _); [|discriminate].
    eapply (hatr_rows_inv _ _ _ _ _ _ _ _ (state_in lo hi) (fun x y w => lo <= y <= hi /\ 0 <= w)); [| | |exact E].
    + intros s0 x y w s2 [Hy Hw] H0 H1. exact (in_one lo hi s0 x y w s2 Hy Hw H0 H1).
    + intros x y w Hi. apply (Hg x). apply in_app_iff. right. exact Hi.
    + apply Hs. intros x y w Hi. apply (Hg x). apply in_app_iff. now left.
  - injection E as <-. split; intros t; discriminate.
Qed.
End Range.
