(** The adaptive regression tree before its first alternate tree and the regression tree. *)
From Coq Require Import List ZArith Bool Lia.
From Verif Require Import Base.Py Base.Num Base.Dict Model.Adwin Model.TargetStats Model.SplitTests Model.Knn Model.TreeSkeleton Model.HoeffdingTree Model.HoeffdingRegressor Model.AdaTree Model.HoeffdingAdaptive Model.HoeffdingAdaptiveRegressor
  Spec.AdaSpec Spec.HatrSpec Proofs.TreeProofs Proofs.HoeffdingProofs Proofs.HoeffdingRegressorProofs Proofs.AdaProofs Proofs.HatrProofs Proofs.AdaSimProofs.
Import ListNotations.
Local Open Scope Z_scope.

Section HatrSim.
Context {T A G : Type} {N : Num T}.
Variables (key : T -> Z) (int_of : T -> Z) (cfg : htr_config T) (D : det T A) (g_new : G) (poisson : G -> Z * G) (uniform : G -> nat -> list T * G).
Variable sz : sizes T (rleaf T) (rinactive T) (option (stat T unit)) (htest T).
Local Notation first_draws := (first_draws g_new uniform).
Local Notation with_draws := (with_draws g_new uniform).
Local Notation small := (small cfg).
Local Notation calls_small := (calls_small cfg).
Local Notation htr_calls := (htr_calls key int_of cfg g_new uniform sz).
Local Notation O := (hatr_ops key int_of cfg false D g_new poisson uniform).
Local Notation O' := (htr_ops key int_of cfg).
Local Notation one := (hatr_one key int_of cfg false D g_new poisson uniform).
Hypothesis Hkind : r_kind cfg = Perceptron.
Hypothesis Hperiod : forall v, c_period_due (r_memory cfg) v = false.
Hypothesis Hroom : room (r_memory cfg) (@tree_new T (rleaf T) (rinactive T) (option (stat T unit)) (htest T) N).

Lemma pcfg_same : perceptron_config cfg = cfg. Proof. destruct cfg. cbn in *. subst. reflexivity. Qed.
Definition lrel (l : arleaf T A G) (m : rleaf T) : Prop := ar_leaf l = m /\ (rl_pw m = PNone -> ar_rng l = g_new).
Definition xrel (x : rx (T := T)) (i : inst T) : Prop := i = mk_inst (fst x) (snd x) (first_draws (fst x)).
Local Notation sim := (sim lrel).

Lemma repeat_some (s : sums T) x y ratio k : forall p p', repeat_update cfg k s x y ratio p = Ok p' -> p <> PNone -> p' <> PNone.
Proof.
  induction k as [|k IH]; intros p p' H Hp; cbn [repeat_update] in H; [injection H as <-; auto|]. apply bind_Ok in H as (q & E & H). apply (IH _ _ H). unfold update_weights in E. apply bind_Ok in E as (xn & _ & E).
  destruct p as [| |ws]; [congruence|injection E as <-; discriminate|]. destruct (Nat.eqb _ _); [|discriminate]. injection E as <-. destruct (_ =? _)%num; discriminate.
Qed.
Lemma learn_some l i y w l' : rleaf_learn key int_of cfg l i y w = Ok l' -> rl_pw l' <> PNone.
Proof.
  unfold rleaf_learn, pw_learn. rewrite Hkind. intros H. apply bind_Ok in H as (p & E & H). injection H as <-. cbn [rl_pw]. unfold perceptron_learn in E. apply bind_Ok in E as (ratio & _ & E). apply repeat_some in E; auto. destruct (rl_pw l); discriminate.
Qed.
Lemma draws_unused l x s d d' y w : rl_pw l <> PNone -> rleaf_learn key int_of cfg l (mk_inst x s d) y w = rleaf_learn key int_of cfg l (mk_inst x s d') y w.
Proof. intros H. unfold rleaf_learn, pw_learn, perceptron_learn. cbn [i_x i_sums i_draw]. destruct (rl_pw l); [congruence|reflexivity|reflexivity]. Qed.

Lemma s_learn l m x x' y w l' : lrel l m -> xrel x x' -> a_learn O l x y w = Ok l' -> exists m', o_learn O' m x' y w = Ok m' /\ lrel l' m'.
Proof.
  intros [<- Hl] -> H. cbn [a_learn hatr_ops] in H. apply ar_learn_inv in H as (p & v & ch & ws & _ & _ & _ & Eg & El). rewrite pcfg_same in El. cbn [boot fst snd] in *.
  assert (El' : rleaf_learn key int_of cfg (ar_leaf l) (mk_inst (fst x) (snd x) (first_draws (fst x))) y w = Ok (ar_leaf l')).
  { destruct (rl_pw (ar_leaf l)) eqn:Ep; [|rewrite <- El; apply draws_unused; congruence|rewrite <- El; apply draws_unused; congruence].
    rewrite (Hl eq_refl) in Eg. unfold first_draws. rewrite Eg. exact El. }
  exists (ar_leaf l'). split; [exact El'|]. split; [reflexivity|]. intros Q. destruct (learn_some _ _ _ _ _ El' Q).
Qed.
Lemma s_decide l m d : lrel l m -> a_decide O l = Ok d ->
  match d with
  | Keep l2 => exists m2, o_decide O' m = Ok (Keep m2) /\ lrel l2 m2
  | NullWins l2 => a_restart O l2 = None
  | SplitOn l2 te ds => exists m2, o_decide O' m = Ok (SplitOn m2 te ds) /\ a_stats O l2 = o_stats O' m2 /\ forall d, In d ds -> lrel (a_child O l2 d) (o_child O' m2 d)
  end.
Proof.
  intros [<- Hl] H. cbn [a_decide hatr_ops] in H. unfold ar_decide in H. rewrite pcfg_same in H. apply bind_Ok in H as (d0 & Ed & Q). injection Q as <-. cbn [o_decide htr_ops]. rewrite Ed.
  apply rdecide_cases in Ed as (pre & bs & _ & _ & Hd). destruct d0 as [lf|lf|lf te ds].
  - exists lf. split; [reflexivity|]. split; [reflexivity|]. cbn [ar_rng]. intros Ep. apply Hl. destruct Hd as (l1 & F & ->). apply from_same in F as (_ & _ & F). cbn in Ep. congruence.
  - reflexivity.
  - exists lf. split; [reflexivity|]. split; [reflexivity|]. intros d _. split; [reflexivity|]. reflexivity.
Qed.
Lemma s_max te n b : test_ok te n -> b < Z.of_nat n -> (0 <=? o_max O' te) && (o_max O' te <=? b) = false.
Proof.
  cbn [o_max htr_ops]. intros H Hb. destruct te; cbn [ht_max test_ok] in *; try reflexivity; destruct H as [_ ->]; cbn in Hb; try reflexivity; apply andb_false_iff; right; apply Z.leb_gt; lia.
Qed.
Lemma s_grow te x x' b te' b' : xrel x x' -> a_grows O te b = true -> a_add O te x = Ok (te', b') -> o_multiway O' te = true /\ o_add O' te x' = Ok (te', b').
Proof. intros -> _ H. cbn [a_add hatr_ops] in H. cbn [o_multiway o_add htr_ops i_x]. split; [destruct te; [discriminate H|discriminate H|reflexivity]|exact H]. Qed.
Lemma s_first x y w l : small w -> a_learn O (a_new O) x y w = Ok l -> a_due O l = false.
Proof.
  intros Hw H. cbn [a_learn a_new hatr_ops] in H. apply ar_learn_inv in H as (p & v & ch & ws & _ & _ & _ & _ & El). cbn [boot fst] in El. cbn [a_due hatr_ops]. unfold ar_due.
  unfold rleaf_learn in El. apply bind_Ok in El as (q & _ & El). injection El as <-. cbn [rl_stats rl_last weight_of]. exact Hw.
Qed.

Definition rel (s : hatr T A G) (h : htr T) : Prop :=
  hr_sums h = hatr_sums s /\ t_growth (hr_tree h) = true /\ t_inactive_size (hr_tree h) = n0 /\ t_active_size (hr_tree h) = n0 /\ t_overhead (hr_tree h) = n1 /\
  t_decision (hr_tree h) = k_decision (hatr_counts s) /\ t_active (hr_tree h) = k_active (hatr_counts s) /\ t_inactive (hr_tree h) = k_inactive (hatr_counts s) /\
  match hatr_root s, t_root (hr_tree h) with Some t, Some r => sim t r | None, None => True | _, _ => False end.
(** [ho]: the regression tree after the same samples *)
Definition J (s : hatr T A G) (ho : res (htr T)) : Prop :=
  hatr_ok s /\ 0 <= k_alternate (hatr_counts s) /\
  (k_alternate (hatr_counts s) = 0 -> (forall t, hatr_root s = Some t -> alternates t = []) /\ 0 <= k_inactive (hatr_counts s) /\
     (k_inactive (hatr_counts s) = 0 -> exists h, ho = Ok h /\ rel s h)).

Lemma J_one s ho x y w s' : small w -> J s ho -> one s x y w = Ok s' -> J s' (h <- ho ;; htr_one key int_of cfg sz h (x, y, first_draws x) w).
Proof.
  intros Hw (J1 & J2 & J3) H. pose proof (one_ok key int_of cfg false D g_new poisson uniform _ _ _ _ _ J1 H) as J1'. split; [exact J1'|]. apply one_cases in H as [[Ew ->]|(Ew & Es & r & c & r' & over & E1 & E2 & E3)].
  { split; [exact J2|]. intros K0. destruct (J3 K0) as (A1 & A2 & A3). split; [exact A1|]. split; [exact A2|]. intros K1. destruct (A3 K1) as (h & -> & Hr). exists h. cbn [bind htr_one]. rewrite Ew. auto. }
  assert (Wr : hatr_wf r) by (destruct E3 as [[E3 _]|(_ & -> & _)]; [auto|exact (root_leaf_wf key int_of cfg false D g_new poisson uniform)]).
  assert (Kc : k_alternate c = k_alternate (hatr_counts s) /\ k_inactive c = k_inactive (hatr_counts s)) by (destruct E3 as [[_ ->]|(_ & _ & ->)]; auto). destruct Kc as [Kc1 Kc2].
  pose proof (alearn_alternate O test_ok ar_ok dead_ok (hatr_branch key int_of cfg false D g_new poisson uniform) _ _ _ _ _ _ _ _ _ Wr E1) as Mo. split; [lia|]. intros K0. destruct J3 as (A1 & A2 & A3); [lia|].
  assert (Ar : alternates r = []) by (destruct E3 as [[E3 _]|(_ & -> & _)]; [auto|reflexivity]).
  destruct (calm_learn O test_ok ar_ok dead_ok (fun _ _ w => small w) s_first (hatr_branch key int_of cfg false D g_new poisson uniform) _ _ _ _ _ _ _ _ Wr Hw Ar E1 ltac:(lia)) as (B1 & B2 & _).
  split; [intros t Et; rewrite E2 in Et; injection Et as <-; exact B1|]. split; [lia|]. intros K1. destruct A3 as (h & -> & R1 & R2 & R3 & R4 & R5 & R6 & R7 & R8 & R9); [lia|]. cbn [bind htr_one]. rewrite Ew.
  set (tr := hr_tree h) in *. set (i := mk_inst x (sums_add (hr_sums h) x y w) (first_draws x)).
  assert (Hx : xrel (x, hatr_sums s') i) by (unfold xrel, i; cbn [fst snd]; rewrite Es, R1; reflexivity).
  (* the tree, with a root *)
  assert (Q : exists s1 r0, t_root s1 = Some r0 /\ sim r r0 /\ t_growth s1 = true /\ room (r_memory cfg) s1 /\ t_decision s1 = k_decision c /\ t_active s1 = k_active c /\ t_inactive s1 = k_inactive c /\
     t_inactive_size s1 = n0 /\ t_active_size s1 = n0 /\ t_overhead s1 = n1 /\ fit_weighted O' (r_memory cfg) sz tr i y w = fit_one O' (r_memory cfg) sz s1 i y w).
  { unfold fit_weighted. rewrite Ew. destruct E3 as [[E3 ->]|(E3 & -> & ->)]; rewrite E3 in R9; destruct (t_root tr) as [r0|] eqn:Er0; try contradiction.
    - exists (mk_tree (Some r0) (t_decision tr) (t_active tr) (t_inactive tr) (t_inactive_size tr) (t_active_size tr) (t_overhead tr) (t_growth tr) (t_weight tr + w)%num), r0. split; [reflexivity|].
      split; [exact R9|]. split; [exact R2|]. split; [destruct Hroom; split; [assumption|]; unfold active_bytes in *; cbn in *; rewrite R3, R4, R5; assumption|].
      repeat (split; [cbn; assumption || reflexivity|]). reflexivity.
    - eexists (mk_tree (Some (Active (rleaf_new None PNone))) (t_decision tr) 1 (t_inactive tr) (t_inactive_size tr) (t_active_size tr) (t_overhead tr) (t_growth tr) (t_weight tr + w)%num), _. split; [reflexivity|].
      split; [constructor; split; [reflexivity|reflexivity]|]. split; [exact R2|]. split; [destruct Hroom; split; [assumption|]; unfold active_bytes in *; cbn in *; rewrite R3, R4, R5; assumption|].
      repeat (split; [cbn; assumption || reflexivity|]). reflexivity. }
  destruct Q as (s1 & r0 & Q1 & Q2 & Q3 & Q4 & Q5 & Q6 & Q7 & Q8 & Q9 & Q10 & Q11).
  destruct (sim_learn O O' test_ok ar_ok dead_ok lrel xrel (fun _ _ w => small w) ltac:(intros ? ? ? ->; reflexivity) ltac:(split; reflexivity) s_learn ltac:(intros ? ? [<- _]; reflexivity) s_decide ltac:(reflexivity) s_max s_grow
    ltac:(discriminate) s_first (hatr_branch key int_of cfg false D g_new poisson uniform) (hatr_add key int_of cfg false D g_new poisson uniform) r true (x, hatr_sums s') i y w c r' over (hatr_counts s') r0 Wr Hx Hw Q2 E1 ltac:(lia) ltac:(lia))
    as (p & n & m & r1 & dd & da & S1 & S2 & S3 & S4 & S5 & S6 & _).
  pose proof (hstep_fit O' lrel (r_memory cfg) sz s1 r0 i y w p n m r1 dd da _ Q1 Q3 Q4 (Hperiod _) S1 S2 S3 S4 S5) as F. rewrite Q11, F. cbn [bind]. eexists. split; [reflexivity|].
  unfold rel. cbn [hr_sums hr_tree with_root t_growth t_inactive_size t_active_size t_overhead t_decision t_active t_inactive t_root]. rewrite E2, Es, R1, S6, Q5, Q6, Q7. cbn. repeat (split; [auto|]). exact S5.
Qed.
Lemma J_rows rows : forall ws s ho s', (forall w, In w ws -> small w) -> J s ho -> hatr_rows key int_of cfg false D g_new poisson uniform s rows ws = Ok s' ->
  J s' (h <- ho ;; htr_rows key int_of cfg sz h (with_draws rows) ws).
Proof.
  induction rows as [|[x y] rows IH]; intros ws s ho s' Hw Hj H; cbn [hatr_rows with_draws map fst snd htr_rows] in *; [injection H as <-; destruct ho; exact Hj|].
  destruct ws as [|w ws]; [injection H as <-; destruct ho; exact Hj|]. apply bind_Ok in H as (s1 & E & H).
  pose proof (IH ws s1 _ s' ltac:(intros; apply Hw; now right) (J_one s ho x y w s1 (Hw w ltac:(now left)) Hj E) H) as Q. destruct ho as [h|e]; exact Q.
Qed.
Lemma J_calls calls : forall s ho s', calls_small calls -> J s ho ->
  hatr_run key int_of cfg false D g_new poisson uniform s (map (fun c => TFit (fst c) (snd c)) calls) = Ok s' -> J s' (h <- ho ;; htr_calls h calls).
Proof.
  induction calls as [|[rows ws] calls IH]; intros s ho s' Hc Hj H; unfold hatr_run, htr_calls in *; cbn [map foldM fst snd] in *; [injection H as <-; destruct ho; exact Hj|].
  apply bind_Ok in H as (s1 & E & H). cbn [hatr_step] in E. unfold hatr_fit in E.
  assert (Q : J s1 (h <- ho ;; htr_fit key int_of cfg sz h (with_draws rows) ws)).
  { assert (L : length (with_draws rows) = length rows) by apply map_length. unfold htr_fit. cbv zeta in *. rewrite L. destruct (Nat.eqb _ _); [|discriminate E]. apply (J_rows _ _ _ _ _) with (2 := Hj) (3 := E).
    pose proof (Hc rows ws (or_introl eq_refl)) as Q. destruct ws; [exact Q|]. intros w Hw. apply repeat_spec in Hw as ->. exact Q. }
  pose proof (IH s1 _ s' ltac:(intros r0 w0 H0; apply (Hc r0 w0); now right) Q H) as Q'. destruct ho as [h|e]; exact Q'.
Qed.
Lemma J_init : J hatr_init (Ok htr_new).
Proof.
  split; [intros t; discriminate|]. split; [cbn; lia|]. intros _. split; [intros t; discriminate|]. split; [cbn; lia|]. intros _. exists htr_new. split; [reflexivity|]. repeat (split; [reflexivity|]). exact Logic.I.
Qed.
Lemma rel_predict s h xs : rel s h -> htr_predict key int_of cfg h xs = hatr_predict key int_of cfg false D g_new poisson uniform s xs.
Proof.
  intros (R1 & _ & _ & _ & _ & _ & _ & _ & R9). unfold htr_predict, hatr_predict. rewrite R1. destruct (hatr_root s) as [t|], (t_root (hr_tree h)) as [r|]; try contradiction; [|reflexivity]. destruct (n0 <? _)%num; [|reflexivity].
  assert (E : forall x, htr_value key int_of cfg h r x = hatr_value key int_of cfg false D g_new poisson uniform s t x).
  { intros x. unfold htr_value, hatr_value. rewrite R1. set (i := mk_inst x (hatr_sums s) (fun _ => n0)).
    pose proof (sim_route O O' lrel (fun x i => i_x i = fst x) ltac:(intros te x0 i0 Hi; cbn; rewrite Hi; reflexivity) t (x, hatr_sums s) i eq_refl r R9) as Q.
    destruct (route O' r i) as [[p [m|]]|e]; [destruct Q as (n & -> & Sn)|rewrite Q|rewrite Q]; try reflexivity. cbn [bind]. destruct Sn as [l m [<- _]|te st wt ch ch' F]; [|reflexivity].
    unfold ar_value. rewrite Hkind, pcfg_same. reflexivity. }
  induction xs as [|x xs IH]; [reflexivity|]. cbn [mapM]. rewrite E, IH. reflexivity.
Qed.
End HatrSim.
