(** The adaptive regression tree meets the requirements of [AdaProofs], for any numbers, detectors and draws. *)
From Coq Require Import List ZArith Bool Lia.
From Verif Require Import Base.Py Base.Num Base.Dict Model.Suggestion Model.Adwin Model.TargetStats Model.Ebst Model.NominalObs Model.SplitTests Model.SplitCriteria Model.Knn Model.TreeSkeleton Model.HoeffdingTree
  Model.HoeffdingRegressor Model.AdaTree Model.HoeffdingAdaptive Model.HoeffdingAdaptiveRegressor Spec.AdaSpec Proofs.TreeProofs Proofs.HoeffdingProofs Proofs.HoeffdingRegressorProofs Proofs.AdaProofs.
Import ListNotations.
Local Open Scope Z_scope.

Section Hatr.
Context {T A G : Type} {N : Num T}.
Variables (key : T -> Z) (int_of : T -> Z) (cfg : htr_config T) (bootstrap : bool) (D : det T A) (g_new : G) (poisson : G -> Z * G) (uniform : G -> nat -> list T * G).
Local Notation st := (stat T unit).
Local Notation O := (hatr_ops key int_of cfg bootstrap D g_new poisson uniform).
Local Notation pcfg := (perceptron_config cfg).
Local Notation rnode := (anode (arleaf T A G) unit (option st) (htest T) (welford T * A)).
Local Notation one := (hatr_one key int_of cfg bootstrap D g_new poisson uniform).
Local Notation run := (hatr_run key int_of cfg bootstrap D g_new poisson uniform hatr_init).
Definition ar_ok (l : arleaf T A G) : Prop := rkeys (ar_leaf l).
Definition dead_ok (_ : unit) : Prop := True.
Definition hatr_wf (t : rnode) : Prop := awf test_ok ar_ok dead_ok t.

Lemma hatr_branch te n x b : test_ok te n -> a_branch O te x = Ok b -> b < Z.of_nat n.
Proof. intros H E. exact (rbranch_lt key int_of pcfg te n (mk_inst (fst x) (snd x) (fun _ => n0)) b H E). Qed.
Lemma hatr_add te n x b te' b' : test_ok te n -> a_branch O te x = Ok b -> b < 0 -> a_grows O te b = true -> a_add O te x = Ok (te', b') -> b' = Z.of_nat n /\ test_ok te' (S n).
Proof.
  intros Ht Eb Hb _ Ha. assert (Hm : ht_multiway te = true) by (destruct te; [discriminate Ha|discriminate Ha|reflexivity]).
  destruct (radd_branch key int_of pcfg te n (mk_inst (fst x) (snd x) (fun _ => n0)) b te' b' Ht Hm Eb Hb Ha) as (A1 & A2 & _). rewrite Nat.add_1_r in A2. auto.
Qed.
Lemma hatr_new : ar_ok (a_new O). Proof. apply rkeys_new. Qed.
Lemma ar_learn_inv l x y w l' : ar_learn key int_of cfg bootstrap D poisson uniform l x y w = Ok l' ->
  exists p v ch ws, ar_value cfg l x = Ok p /\ norm_error (ar_wf l) y p = (ar_wf l', v) /\ rwatch D (ar_det l) v = Ok (ar_det l', ch) /\
    match rl_pw (ar_leaf l) with PNone => uniform (snd (boot bootstrap poisson (ar_rng l) w)) (length (fst x) + 1) | _ => ([], snd (boot bootstrap poisson (ar_rng l) w)) end = (ws, ar_rng l') /\
    rleaf_learn key int_of pcfg (ar_leaf l) (mk_inst (fst x) (snd x) (fun j => nth j ws n0)) y (fst (boot bootstrap poisson (ar_rng l) w)) = Ok (ar_leaf l').
Proof.
  unfold ar_learn. intros H. apply bind_Ok in H as (p & E1 & H). destruct (norm_error (ar_wf l) y p) as [wf v] eqn:E2. destruct (boot bootstrap poisson (ar_rng l) w) as [w' g] eqn:E3.
  apply bind_Ok in H as ([a ch] & E4 & H). destruct (match rl_pw (ar_leaf l) with PNone => uniform g (length (fst x) + 1) | _ => ([], g) end) as [ws g'] eqn:E5.
  apply bind_Ok in H as (lf & E6 & H). injection H as <-. cbn [ar_wf ar_leaf ar_det ar_rng fst snd]. exists p, v, ch, ws. auto.
Qed.
Lemma hatr_learn l x y w l' : ar_ok l -> a_learn O l x y w = Ok l' -> ar_ok l'.
Proof. intros H E. apply ar_learn_inv in E as (p & v & ch & ws & _ & _ & _ & _ & E). exact (rkeys_learn key int_of pcfg _ _ _ _ _ H E). Qed.
Lemma hatr_decide l d : ar_ok l -> a_decide O l = Ok d ->
  match d with
  | Keep l' => ar_ok l'
  | NullWins l' => ar_ok l' /\ dead_ok (a_stop O l') /\ (forall l'', a_restart O l' = Some l'' -> ar_ok l'')
  | SplitOn l' te ds => ar_ok l' /\ test_ok te (length ds) /\ forall d, In d ds -> ar_ok (a_child O l' d)
  end.
Proof.
  cbn [hatr_ops a_decide a_stop a_restart a_child]. unfold ar_decide. intros H E. apply bind_Ok in E as (d0 & E & Q). injection Q as <-. unfold ar_ok in *.
  pose proof (rdecide_cases int_of pcfg _ _ E) as (pre & bs & E0 & Eb & HK). destruct d0 as [lf|lf|lf te ds]; cbn [ar_leaf].
  - destruct HK as (l1 & F & ->). apply from_same in F as [F _]. exact (F H).
  - destruct HK as (p & ->). split; [apply rdisable_all; exact H|]. split; [exact Logic.I|discriminate].
  - destruct HK as ((p & ->) & best & Hin & Et & <-). split; [apply rdisable_all; exact H|]. split; [|intros d _; apply rkeys_new].
    pose proof (rsuggestions_ok int_of pcfg _ _ _ H Eb) as F. rewrite Forall_forall in F. specialize (F _ Hin). unfold rsug_ok in F. rewrite Et in F. exact F.
Qed.
Lemma hatr_learn_wf t linked x y w c t' over c' : hatr_wf t -> alearn O linked t x y w c = Ok (t', over, c') -> hatr_wf t' /\ forall n, over = Some n -> hatr_wf n.
Proof. apply alearn_wf; [exact hatr_branch|exact hatr_add|exact hatr_new|exact hatr_learn|exact hatr_decide]. Qed.

(** ** Runs *)
Definition hatr_ok (s : hatr T A G) : Prop := forall t, hatr_root s = Some t -> hatr_wf t.
Lemma one_cases s x y w s' : one s x y w = Ok s' ->
  (w =? n0)%num = true /\ s' = s \/
  (w =? n0)%num = false /\ hatr_sums s' = sums_add (hatr_sums s) x y w /\
  exists r c r' over, alearn O true r (x, hatr_sums s') y w c = Ok (r', over, hatr_counts s') /\ hatr_root s' = Some (match over with Some n => n | None => r' end) /\
     (hatr_root s = Some r /\ c = hatr_counts s \/
      hatr_root s = None /\ r = ALeaf (ar_new D g_new None PNone) /\
      c = mk_counts 1 (k_inactive (hatr_counts s)) (k_decision (hatr_counts s)) (k_alternate (hatr_counts s)) (k_pruned (hatr_counts s)) (k_switched (hatr_counts s))).
Proof.
  unfold hatr_one. intros H. destruct (w =? n0)%num; [injection H as <-; auto|]. right. split; [reflexivity|].
  destruct (hatr_root s) as [r|] eqn:Er; apply bind_Ok in H as ([[r' over] c'] & E & H); injection H as <-; cbn [hatr_sums hatr_counts hatr_root]; (split; [reflexivity|]); do 4 eexists; (split; [exact E|]); (split; [reflexivity|]); [left|right]; auto.
Qed.
Lemma root_leaf_wf : hatr_wf (ALeaf (ar_new D g_new None PNone)). Proof. constructor. exact hatr_new. Qed.
Lemma one_ok s x y w s' : hatr_ok s -> one s x y w = Ok s' -> hatr_ok s'.
Proof.
  intros Hs H. apply one_cases in H as [[_ ->]|(_ & _ & r & c & r' & over & E1 & E2 & E3)]; [exact Hs|]. intros t Et; rewrite E2 in Et; injection Et as <-.
  assert (Wr : hatr_wf r) by (destruct E3 as [[E3 _]|(_ & -> & _)]; [auto|apply root_leaf_wf]). destruct (hatr_learn_wf _ _ _ _ _ _ _ _ _ Wr E1) as [W1 W2]. destruct over; auto.
Qed.
(** Induction over the samples of a run *)
Lemma hatr_rows_inv (P : hatr T A G -> Prop) (good : list T -> T -> T -> Prop) : (forall s x y w s', good x y w -> P s -> one s x y w = Ok s' -> P s') ->
  forall rows ws s s', (forall x y w, In ((x, y), w) (combine rows ws) -> good x y w) -> P s -> hatr_rows key int_of cfg bootstrap D g_new poisson uniform s rows ws = Ok s' -> P s'.
Proof.
  intros H2. induction rows as [|[x y] rows IH]; intros ws s s' Hg Hs H; cbn [hatr_rows] in H; [injection H as <-; auto|]. destruct ws as [|w ws]; [injection H as <-; auto|].
  apply bind_Ok in H as (s1 & E & H). apply (IH ws s1); [|eapply H2; [|exact Hs|exact E]; apply Hg; now left|exact H]. intros x0 y0 w0 Hi. apply Hg. now right.
Qed.
Lemma hatr_run_inv (P : hatr T A G -> Prop) : (forall s x y w s', P s -> one s x y w = Ok s' -> P s') ->
  forall os, (In TReset os -> forall s, P s -> P (hatr_reset s)) -> forall s s', P s -> hatr_run key int_of cfg bootstrap D g_new poisson uniform s os = Ok s' -> P s'.
Proof.
  intros H2 os. induction os as [|o os IH]; intros H3 s s' Hs H; unfold hatr_run in *; cbn [foldM] in H; [injection H as <-; auto|]. apply bind_Ok in H as (s1 & E & H).
  apply (IH ltac:(intros Hi; apply H3; now right) s1); [|exact H]. destruct o as [rows ws|]; cbn [hatr_step] in E.
  - unfold hatr_fit in E. destruct (Nat.eqb _ _); [|discriminate]. eapply (hatr_rows_inv P (fun _ _ _ => True)); [| |exact Hs|exact E]; eauto.
  - injection E as <-. apply H3; [now left|auto].
Qed.
Lemma hatr_run_ok os s : run os = Ok s -> hatr_ok s.
Proof. apply hatr_run_inv; [exact one_ok|intros _ s0 _ t; discriminate|intros t; discriminate]. Qed.
Lemma hatr_run_alternates os s t : run os = Ok s -> hatr_root s = Some t -> Forall (fun a => is_aleaf a = true) (alternates t).
Proof.
  intros H Et. pose proof (hatr_run_ok _ _ H t Et) as W. clear - W. induction t as [l|i|te s0 wt alt ch _ IHc] using anode_ind'; try constructor.
  inversion W as [| |? ? ? ? ? K TI F A1]; subst. rewrite alternates_split. apply Forall_app. split.
  - destruct alt as [a|]; constructor; [|constructor]. destruct (A1 a eq_refl) as (l & -> & _). reflexivity.
  - clear - F IHc. induction ch as [|[k0 c] ch IH]; [constructor|]. inversion F; inversion IHc; subst. cbn [flat_map snd] in *. apply Forall_app. auto.
Qed.
Lemma hatr_main_wf (t n : rnode) : hatr_wf t -> In n (main_nodes t) -> hatr_wf n.
Proof.
  induction t as [l|i|te s0 wt alt ch _ IHc] using anode_ind'; intros W [<-|Hn]; try exact W; try destruct Hn. inversion W as [| |? ? ? ? ? K TI F A1]; subst. clear W K TI A1.
  induction ch as [|[k0 c] ch IH]; [destruct Hn|]. inversion F; inversion IHc; subst. apply in_app_iff in Hn as [Hn|Hn]; auto.
Qed.

(** The verdict on the alternate tree of a split node *)
Lemma hatr_judge_rule self wt changed a c v c' : judge O self wt changed (Some (ALeaf a)) c = Ok (v, c') ->
  (v = Fresh <-> changed = true) /\
  (v = Switch <-> changed = false /\ nltb (nofZ 300) (d_width D (snd wt)) = true /\ nltb (nofZ 300) (d_width D (ar_det a)) = true
                  /\ nltb (hatr_bound (d_est D (snd wt)) (d_width D (ar_det a)) (d_width D (snd wt))) (d_est D (snd wt) - d_est D (ar_det a))%num = true) /\
  (v = Prune <-> changed = false /\ nltb (nofZ 300) (d_width D (snd wt)) = true /\ nltb (nofZ 300) (d_width D (ar_det a)) = true
                  /\ nltb (hatr_bound (d_est D (snd wt)) (d_width D (ar_det a)) (d_width D (snd wt))) (d_est D (snd wt) - d_est D (ar_det a))%num = false
                  /\ nltb (hatr_bound (d_est D (snd wt)) (d_width D (ar_det a)) (d_width D (snd wt))) (d_est D (ar_det a) - d_est D (snd wt))%num = true).
Proof.
  unfold judge. destruct changed; [intros [= <- _]; intuition congruence|].
  cbn [awidth bind hatr_ops a_lwidth a_wwidth a_west aest a_lest a_bound]. unfold threshold.
  destruct (nltb (nofZ 300) (d_width D (snd wt))) eqn:E1; cbn [andb]; [|intros [= <- _]; intuition congruence].
  destruct (nltb (nofZ 300) (d_width D (ar_det a))) eqn:E2; cbn [andb]; [|intros [= <- _]; intuition congruence].
  destruct (nltb (hatr_bound (d_est D (snd wt)) (d_width D (ar_det a)) (d_width D (snd wt))) (d_est D (snd wt) - d_est D (ar_det a))%num) eqn:E3; cbn [bind].
  - intros H. apply bind_Ok in H as (n & _ & H). cbn [aleaves bind] in H. injection H as <- _. intuition congruence.
  - destruct (nltb (hatr_bound (d_est D (snd wt)) (d_width D (ar_det a)) (d_width D (snd wt))) (d_est D (ar_det a) - d_est D (snd wt))%num) eqn:E4; intros [= <- _]; intuition congruence.
Qed.
(** Where an instance is sorted to *)
Lemma aroute_sorted (t : rnode) x p : sorted O t x p -> aroute O t x = Ok (match p with At n => Some n | Childless _ => None | Branchless n => Some n end).
Proof.
  induction 1 as [l x|i x|te s0 wt alt ch x b c p Eb Hb Ec _ IH|te s0 wt alt ch x b Eb Hb Ec|te s0 wt alt ch x b Eb Hb]; try reflexivity; rewrite aroute_split, Eb; cbn [bind].
  - rewrite (proj2 (Z.leb_le 0 b) Hb), Ec. exact IH.
  - rewrite (proj2 (Z.leb_le 0 b) Hb), Ec. reflexivity.
  - rewrite (proj2 (Z.leb_gt 0 b) Hb). reflexivity.
Qed.
Lemma childless_never (t : rnode) x n : hatr_wf t -> ~ sorted O t x (Childless n).
Proof.
  intros W H. remember (Childless n) as p eqn:Ep. induction H as [l x|i x|te s0 wt alt ch x b c p Eb Hb Ec _ IH|te s0 wt alt ch x b Eb Hb Ec|te s0 wt alt ch x b Eb Hb]; try discriminate.
  - apply IH; auto. inversion W as [| |? ? ? ? ? K TI F A1]; subst. exact (Forall_dget (fun c => hatr_wf c) _ _ _ F Ec).
  - pose proof (awf_nochild O test_ok ar_ok dead_ok hatr_branch _ _ _ _ _ _ _ W Eb Ec). lia.
Qed.
End Hatr.
