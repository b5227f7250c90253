(** Proofs about the model of AdaptiveRandomForestRegressor. *)
From Coq Require Import List ZArith Lia Bool Reals Lra Permutation.
From Verif Require Import Base.Py Base.Num Spec.Lists Model.Adwin Model.Knn Model.AdaptiveForest Model.ForestRegressor Spec.AdaptiveForestSpec Spec.ForestRegressorSpec.
From Verif Require Import Proofs.ListFacts Proofs.StatFacts Proofs.MetricsScores Proofs.AdaptiveForestProofs.
Import ListNotations.

Definition rnumbered {X T} (fs : list (rrow X T)) : Prop := map q_n fs = seq 1 (length fs).
Definition learnt {X T} (fs : list (rrow X T)) : nat := length (filter (fun f => (0 <? q_k f)%Z) fs).
Lemma rsince_snoc {X T} c (fs : list (rrow X T)) f : rsince c (fs ++ [f]) = rsince c fs ++ (if Nat.ltb c (q_n f) then [f] else []).
Proof. unfold rsince. rewrite filter_app. simpl. destruct (Nat.ltb c (q_n f)); reflexivity. Qed.
Lemma rnumbered_snoc {X T} (fs : list (rrow X T)) f : rnumbered fs -> q_n f = S (length fs) -> rnumbered (fs ++ [f]).
Proof. unfold rnumbered. intros H E. rewrite map_app, app_length, H. simpl. rewrite Nat.add_comm. simpl. change (1 :: seq 2 (length fs)) with (seq 1 (S (length fs))). rewrite seq_S. simpl. rewrite E. reflexivity. Qed.
Lemma rsince_all {X T} c (fs : list (rrow X T)) : rnumbered fs -> length fs <= c -> rsince c fs = [].
Proof.
  unfold rnumbered, rsince. intros H L. apply filter_none. intros f I. apply (in_map q_n) in I. rewrite H in I. apply in_seq in I.
  destruct (Nat.ltb_spec c (q_n f)); auto. lia.
Qed.
Lemma rsince_0 {X T} (fs : list (rrow X T)) : rnumbered fs -> rsince 0 fs = fs.
Proof.
  unfold rnumbered, rsince. intros H. assert (A : forall f, In f fs -> 0 < q_n f).
  { intros f I. apply (in_map q_n) in I. rewrite H in I. apply in_seq in I. lia. }
  clear H. induction fs as [|f fs IH]; auto. simpl. assert (0 < q_n f) by (apply A; left; auto).
  destruct (Nat.ltb_spec 0 (q_n f)); try lia. f_equal. apply IH. intros g I. apply A. right; auto.
Qed.
Lemma learnt_snoc {X T} (fs : list (rrow X T)) f : learnt (fs ++ [f]) = learnt fs + (if (0 <? q_k f)%Z then 1 else 0).
Proof. unfold learnt. rewrite filter_app, app_length. simpl. destruct (0 <? q_k f)%Z; reflexivity. Qed.
Lemma rfeed_snoc {X T} (L : list (X * T)) x y : forall n ks k, length ks = length L -> rfeed n (L ++ [(x, y)]) (ks ++ [k]) = rfeed n L ks ++ [mk_rrow (n + length L) x y k].
Proof.
  induction L as [|[x0 y0] L IH]; intros n ks k E; destruct ks as [|k0 ks]; simpl in *; try discriminate.
  - rewrite Nat.add_0_r. reflexivity.
  - f_equal. rewrite IH by lia. do 2 f_equal. f_equal. lia.
Qed.
Lemma rfeed_len {X T} (L : list (X * T)) : forall n ks, length (rfeed n L ks) = length L.
Proof. induction L as [|[x y] L IH]; intros n ks; simpl; auto. Qed.

Section Life.
Context {X T B D E G : Type} {N : Num T}.
Variables (t_init : Z -> Z -> B) (t_fit : B -> X -> T -> Z -> res B) (t_predict : B -> X -> res T) (t_reset t_new : B -> B)
  (d_add : D -> T -> D) (d_change : D -> bool) (d_reset : D -> D)
  (e_new : E) (e_add : E -> T -> T -> res E) (drift warning : option D) (crit : criterion).
Notation rmember_row := (rmember_row t_fit t_predict t_reset t_new d_add d_change d_reset e_new e_add drift warning crit).
Notation rmember_fit := (rmember_fit t_fit t_predict t_reset t_new d_add d_change d_reset e_new e_add drift warning crit).
Notation career := (career t_fit t_predict e_new e_add).
Notation watched := (watched crit).
Notation rmember := (rmember T B D E).

Inductive rlife (v sd : Z) : list (rrow X T) -> rmember -> Prop :=
| rlife_new n0 : rlife v sd [] (new_rmember t_init e_new drift warning v n0 sd)
| rlife_row fs m f m' : rlife v sd fs m -> q_n f = S (length fs) -> rmember_row (q_x f) (q_y f) (q_k f) (q_n f) m = Ok m' -> rlife v sd (fs ++ [f]) m'.
(** A tree that has learnt nothing: the first one, or after a drift one that was reset or made at a warning *)
Definition rfresh (v sd : Z) (drifts : nat) (b : B) : Prop := match drifts with 0 => b = t_init v sd | S _ => (exists b', b = t_reset b') \/ exists b', b = t_new b' end.
Lemma rlife_numbered v sd fs m : rlife v sd fs m -> rnumbered fs.
Proof. induction 1; [reflexivity|]. apply rnumbered_snoc; auto. Qed.

Definition norm_after (xs : list T) : norm T := fold_left (fun w x => snd (normalize x w)) xs norm_new.
Lemma norm_after_snoc xs x : norm_after (xs ++ [x]) = snd (normalize x (norm_after xs)).
Proof. unfold norm_after. rewrite fold_left_app. reflexivity. Qed.

Definition rorigin (m : rmember) : nat := if Nat.eqb (rm_drifts m) 0 then 0 else rm_created m.
Definition rtree_ok v sd (fs : list (rrow X T)) (m : rmember) := exists b ps0 ps1, rfresh v sd (rm_drifts m) b /\ career b (rsince (rorigin m) fs) (rm_tree m) (rm_eval m) (ps0 ++ ps1) /\
  length ps1 = learnt (rsince (rm_last_drift m) fs) /\ (drift <> None -> rm_norm m = norm_after (map (fun yp => watched (fst yp) (snd yp)) ps1)).
Definition rbg_ok (fs : list (rrow X T)) (m : rmember) := match rm_bg m with
  | None => rm_last_warn m <= rm_last_drift m
  | Some b => rm_last_drift m < rm_last_warn m /\ rb_created b = rm_last_warn m /\ exists b' ps, career (t_new b') (rsince (rm_last_warn m) fs) (rb_tree b) (rb_eval b) ps
  end.
Definition rnums_ok (fs : list (rrow X T)) (m : rmember) :=
  rm_last_warn m <= length fs /\ rm_last_drift m <= length fs /\ rorigin m <= rm_last_drift m /\
  (rm_drifts m = 0 <-> rm_last_drift m = 0) /\ (rm_warns m = 0 <-> rm_last_warn m = 0) /\
  (rm_drift m = None <-> drift = None) /\ (rm_warn m = None <-> warning = None) /\ (warning = None -> rm_bg m = None) /\
  match rm_bg m with None => True | Some b => rb_drift b = drift /\ rb_warn b = warning end.

Lemma rlife_ok v sd fs m : rlife v sd fs m -> rtree_ok v sd fs m /\ rbg_ok fs m /\ rnums_ok fs m.
Proof.
  induction 1 as [n0|fs m f m' HL IH Hn HR].
  - unfold rtree_ok, rbg_ok, rnums_ok, rorigin. simpl. split; [|repeat split; auto; try lia; try tauto].
    exists (t_init v sd), [], []. split; [reflexivity|]. split; [constructor|]. auto.
  - destruct IH as (HT & HB & HN). pose proof (rlife_numbered _ _ _ _ HL) as NU.
    assert (NU' : rnumbered (fs ++ [f])) by (apply rnumbered_snoc; auto).
    assert (LL : length (fs ++ [f]) = S (length fs)) by (rewrite app_length; simpl; lia).
    destruct HT as (b0 & ps0 & ps1 & HF & HG & HP & HW).
    destruct HN as (N1 & N2 & N3 & N4 & N5 & N6 & N7 & N8 & N9).
    assert (OL : rorigin m < q_n f) by lia.
    assert (SO : rsince (rorigin m) (fs ++ [f]) = rsince (rorigin m) fs ++ [f]). { rewrite rsince_snoc. destruct (Nat.ltb_spec (rorigin m) (q_n f)); [auto|lia]. }
    assert (SD : rsince (rm_last_drift m) (fs ++ [f]) = rsince (rm_last_drift m) fs ++ [f]). { rewrite rsince_snoc. destruct (Nat.ltb_spec (rm_last_drift m) (q_n f)); [auto|lia]. }
    assert (SW : rsince (rm_last_warn m) (fs ++ [f]) = rsince (rm_last_warn m) fs ++ [f]). { rewrite rsince_snoc. destruct (Nat.ltb_spec (rm_last_warn m) (q_n f)); [auto|lia]. }
    unfold ForestRegressor.rmember_row in HR. destruct (Z.ltb_spec 0 (q_k f)) as [HK|HK].
    2: { injection HR as <-. split; [|split].
         - exists b0, ps0, ps1. split; auto. rewrite SO, SD, learnt_snoc. split; [apply career_skip; auto|]. destruct (Z.ltb_spec 0 (q_k f)); [lia|]. split; auto. lia.
         - unfold rbg_ok in *. destruct (rm_bg m); auto. destruct HB as (? & ? & b' & ps & ?). repeat split; auto. exists b', ps. rewrite SW. apply career_skip; auto.
         - unfold rnums_ok. rewrite LL. repeat split; auto; try lia; try tauto. }
    unfold ForestRegressor.rmember_fit in HR. destruct (t_predict (rm_tree m) (q_x f)) as [p|] eqn:EP; simpl in HR; [|discriminate].
    destruct (e_add (rm_eval m) (q_y f) p) as [e|] eqn:EE; simpl in HR; [|discriminate].
    destruct (t_fit (rm_tree m) (q_x f) (q_y f) (q_k f)) as [t|] eqn:ET; simpl in HR; [|discriminate].
    assert (HG' : career b0 (rsince (rorigin m) (fs ++ [f])) t e (ps0 ++ (ps1 ++ [(q_y f, p)]))).
    { rewrite SO, app_assoc. eapply career_row; eauto. }
    assert (HP' : length (ps1 ++ [(q_y f, p)]) = learnt (rsince (rm_last_drift m) (fs ++ [f]))).
    { rewrite SD, learnt_snoc, app_length. simpl. destruct (Z.ltb_spec 0 (q_k f)); lia. }
    set (bgr := match rm_bg m with None => _ | Some b => _ end) in HR.
    assert (HB' : forall bg, bgr = Ok bg ->
       match bg with None => rm_bg m = None | Some b => exists b1, rm_bg m = Some b1 /\ rb_created b = rb_created b1 /\ rb_drift b = rb_drift b1 /\ rb_warn b = rb_warn b1 /\
         (forall b' ps, career (t_new b') (rsince (rm_last_warn m) fs) (rb_tree b1) (rb_eval b1) ps -> exists ps', career (t_new b') (rsince (rm_last_warn m) (fs ++ [f])) (rb_tree b) (rb_eval b) ps') end).
    { intros bg E0. unfold bgr in E0. destruct (rm_bg m) as [b1|].
      - destruct (t_predict (rb_tree b1) (q_x f)) as [q|] eqn:EQ; simpl in E0; [|discriminate].
        destruct (e_add (rb_eval b1) (q_y f) q) as [be|] eqn:EBE; simpl in E0; [|discriminate].
        destruct (t_fit (rb_tree b1) (q_x f) (q_y f) (q_k f)) as [bt|] eqn:EB; simpl in E0; [|discriminate].
        injection E0 as <-. exists b1. simpl. repeat split; auto. intros b' ps HH. eexists. rewrite SW. eapply career_row; eauto.
      - injection E0 as <-. auto. }
    destruct bgr as [bg|] eqn:EBG; [|discriminate]. specialize (HB' _ eq_refl). simpl in HR.
    assert (HB2 : match bg with None => rm_bg m = None | Some b => rm_last_drift m < rm_last_warn m /\ rb_created b = rm_last_warn m /\ rb_drift b = drift /\ rb_warn b = warning /\ rm_bg m <> None /\
              exists b' ps, career (t_new b') (rsince (rm_last_warn m) (fs ++ [f])) (rb_tree b) (rb_eval b) ps end).
    { destruct bg as [b|]; auto. destruct HB' as (b1 & E1 & E2 & E3 & E4 & HH). unfold rbg_ok in HB. rewrite E1 in HB, N9. destruct HB as (? & ? & b' & ps & Hc).
      destruct N9. destruct (HH _ _ Hc) as [ps' Hc']. repeat split; auto; try congruence. exists b', ps'. auto. }
    assert (HB3 : bg = None -> rm_last_warn m <= rm_last_drift m). { intros ->. unfold rbg_ok in HB. rewrite HB' in HB. auto. }
    assert (HB4 : warning = None -> bg = None). { intros W. destruct bg; auto. destruct HB2 as (_ & _ & _ & _ & NB & _). elim NB. auto. }
    clear HB HB' N9 bgr EBG HG HP.
    destruct (rm_drift m) as [d|] eqn:ED.
    2: { injection HR as <-. unfold rtree_ok, rbg_ok, rnums_ok, rorigin in *. simpl. rewrite LL. split; [|split].
         - exists b0, ps0, (ps1 ++ [(q_y f, p)]). split; auto. split; auto. split; auto. intros W. elim W. apply N6. auto.
         - destruct bg; auto. tauto.
         - repeat split; auto; try lia; try tauto. destruct bg; tauto. }
    destruct (normalize (watched (q_y f) p) (rm_norm m)) as [val w] eqn:EN. injection HR as <-.
    assert (HW' : drift <> None -> w = norm_after (map (fun yp => watched (fst yp) (snd yp)) (ps1 ++ [(q_y f, p)]))).
    { intros W. rewrite map_app. simpl. rewrite norm_after_snoc, <- HW, EN by auto. reflexivity. }
    clear EN HW. revert HG' HP' HW'. generalize (ps1 ++ [(q_y f, p)]). clear ps1. intros ps1 HG' HP' HW'.
    set (m1 := mk_rm t e (rm_created m) (Some d) (rm_warn m) bg w (rm_last_drift m) (rm_last_warn m) (rm_drifts m) (rm_warns m)).
    assert (A : let m2 := check_rwarning t_new d_add d_change d_reset e_new drift warning val (q_n f) m1 in
       rtree_ok v sd (fs ++ [f]) m2 /\ rbg_ok (fs ++ [f]) m2 /\ rnums_ok (fs ++ [f]) m2 /\ rm_last_drift m2 < q_n f /\ rm_drift m2 = Some d).
    { unfold check_rwarning, m1. simpl. destruct (rm_warn m) as [u|] eqn:EW; cbv zeta.
      - destruct (d_change (d_add u val)).
        + unfold rtree_ok, rbg_ok, rnums_ok, rorigin in *. simpl. rewrite LL. split; [exists b0, ps0, ps1; auto|]. split; [|split; [|split; [lia|reflexivity]]].
          * repeat split; auto; try lia. exists t, []. rewrite rsince_all by (auto; lia). constructor.
          * repeat split; auto; try lia; try tauto; try congruence. all: intros W; destruct N7 as [_ N7]; specialize (N7 W); discriminate.
        + unfold rtree_ok, rbg_ok, rnums_ok, rorigin in *. simpl. rewrite LL. split; [exists b0, ps0, ps1; auto|]. split; [|split; [|split; [lia|reflexivity]]].
          * destruct bg; auto. tauto.
          * repeat split; auto; try lia; try tauto; try congruence. all: try (intros W; destruct N7 as [_ N7]; specialize (N7 W); discriminate). destruct bg; tauto.
      - unfold rtree_ok, rbg_ok, rnums_ok, rorigin in *. simpl. rewrite LL. split; [exists b0, ps0, ps1; auto|]. split; [|split; [|split; [lia|reflexivity]]].
        + destruct bg; auto. tauto.
        + repeat split; auto; try lia; try tauto; try congruence. destruct bg; tauto. }
    clearbody m1. cbv zeta in A. revert A. generalize (check_rwarning t_new d_add d_change d_reset e_new drift warning val (q_n f) m1). clear HG' HP' HW' ps0 ps1 HF b0. intros m2 (A1 & A2 & A3 & A4 & A5).
    destruct A3 as (M1 & M2 & M3 & M4 & M5 & M6 & M7 & M8 & M9).
    assert (ND : drift <> None) by (intros W; apply M6 in W; congruence).
    unfold check_rdrift. rewrite A5. cbv zeta. destruct (d_change (d_add d val)).
    2: { unfold rtree_ok, rbg_ok, rnums_ok, rorigin in *. simpl. split; [auto|]. split; auto. repeat split; auto; try lia; try tauto; try discriminate. all: try (intros W; tauto). }
    unfold rmember_reset. simpl. destruct (rm_bg m2) as [b|] eqn:EB2; [destruct (rm_warn m2) as [u|] eqn:EW2|].
    + unfold rbg_ok in A2. rewrite EB2 in A2. destruct A2 as (C1 & C2 & b' & ps & C4).
      unfold rtree_ok, rbg_ok, rnums_ok, rorigin. simpl. split; [|split].
      * exists (t_new b'), ps, []. split; [right; eauto|]. rewrite C2, app_nil_r. split; auto. rewrite rsince_all by (auto; lia). auto.
      * lia.
      * destruct M9 as [Q1 Q2]. rewrite LL, Q1, Q2. repeat split; auto; try lia; try tauto.
    + exfalso. destruct M7 as [M7 _]. specialize (M8 (M7 eq_refl)). discriminate.
    + unfold rtree_ok, rbg_ok, rnums_ok, rorigin. simpl. split; [|split].
      * exists (t_reset (rm_tree m2)), [], []. split; [left; eauto|]. rewrite rsince_all by (auto; lia). split; [constructor|]. auto.
      * lia.
      * rewrite LL. repeat split; auto; try lia; try tauto; try discriminate. all: try (intros W; tauto).
Qed.

(** One row: when a member drifts and is warned *)
Lemma rrow_detects x y k n m m' d : rm_drift m = Some d -> rmember_row x y k n m = Ok m' -> (0 < k)%Z ->
  exists p, t_predict (rm_tree m) x = Ok p /\
   let v := fst (normalize (watched y p) (rm_norm m)) in
   let drifts := d_change (d_add d v) in
   let warned := match rm_warn m with None => false | Some u => d_change (d_add u v) end in
   rm_drifts m' = (if drifts then S (rm_drifts m) else rm_drifts m) /\ rm_last_drift m' = (if drifts then n else rm_last_drift m) /\
   rm_warns m' = (if warned then S (rm_warns m) else rm_warns m) /\ rm_last_warn m' = (if warned then n else rm_last_warn m) /\
   (drifts = false -> rm_drift m' = Some (d_add d v) /\ rm_warn m' = option_map (fun u => if warned then d_reset (d_add u v) else d_add u v) (rm_warn m)).
Proof.
  intros ED HR HK. unfold ForestRegressor.rmember_row in HR. destruct (Z.ltb_spec 0 k); [|contradiction (Zlt_not_le _ _ HK)].
  unfold ForestRegressor.rmember_fit in HR. destruct (t_predict (rm_tree m) x) as [p|] eqn:EP; simpl in HR; [|discriminate].
  destruct (e_add (rm_eval m) y p) as [e|]; simpl in HR; [|discriminate]. destruct (t_fit (rm_tree m) x y k) as [t|]; simpl in HR; [|discriminate].
  match type of HR with bind ?a _ = _ => destruct a as [bg|]; simpl in HR; [|discriminate] end.
  rewrite ED in HR. exists p. split; auto. destruct (normalize (watched y p) (rm_norm m)) as [v w]. injection HR as <-. cbv zeta. simpl.
  unfold check_rwarning. simpl. destruct (rm_warn m) as [u|]; [destruct (d_change (d_add u v))|]; unfold check_rdrift; simpl; destruct (d_change (d_add d v)); unfold rmember_reset; simpl.
  all: try (destruct bg; simpl).
  all: split; [reflexivity|]; split; [reflexivity|]; split; [reflexivity|]; split; [reflexivity|]; intros HH; try discriminate HH; auto.
Qed.
End Life.

Section Forest.
Context {X T B D E G : Type} {N : Num T}.
Variables (t_init : Z -> Z -> B) (t_fit : B -> X -> T -> Z -> res B) (t_predict : B -> X -> res T) (t_reset t_new : B -> B)
  (d_add : D -> T -> D) (d_change : D -> bool) (d_reset : D -> D)
  (e_new : E) (e_add : E -> T -> T -> res E) (e_error : E -> res T)
  (poisson : G -> Z * G) (seeds : G -> nat -> list Z * G) (seed : G) (width : X -> nat) (rsqrt rlog2 : nat -> Z) (part : T -> nat -> Z)
  (n_estimators : nat) (drift warning : option D) (agg : aggregation) (by_error : bool) (crit : criterion).
Notation rmember_row := (rmember_row t_fit t_predict t_reset t_new d_add d_change d_reset e_new e_add drift warning crit).
Notation rmembers_row := (rmembers_row t_fit t_predict t_reset t_new d_add d_change d_reset e_new e_add poisson drift warning crit).
Notation rlife := (rlife t_init t_fit t_predict t_reset t_new d_add d_change d_reset e_new e_add drift warning crit).
Notation init_rensemble := (init_rensemble t_init e_new seeds rsqrt rlog2 part n_estimators drift warning).
Notation arfr_rows := (arfr_rows t_fit t_predict t_reset t_new d_add d_change d_reset e_new e_add poisson drift warning crit).
Notation run := (arfr_run t_init t_fit t_predict t_reset t_new d_add d_change d_reset e_new e_add e_error poisson seeds seed width rsqrt rlog2 part n_estimators drift warning agg by_error crit).
Notation step := (arfr_step t_init t_fit t_predict t_reset t_new d_add d_change d_reset e_new e_add e_error poisson seeds seed width rsqrt rlog2 part n_estimators drift warning agg by_error crit).
Notation rforest := (rforest T B D E G).

Lemma rmembers_row_ok x y n : forall ms g ms' g', rmembers_row x y n ms g = Ok (ms', g') ->
  g' = after poisson (length ms) g /\ length ms' = length ms /\
  forall i m, nth_error ms i = Some m -> exists m', nth_error ms' i = Some m' /\ rmember_row x y (nth i (draws poisson (length ms) g) 0%Z) n m = Ok m'.
Proof.
  induction ms as [|m ms IH]; intros g ms' g' H; simpl in H.
  - injection H as <- <-. repeat split; auto. intros [|i] m; discriminate.
  - destruct (poisson g) as [k g1] eqn:EP. destruct (rmember_row x y k n m) as [m'|] eqn:EM; simpl in H; [|discriminate].
    destruct (rmembers_row x y n ms g1) as [[r' g2]|] eqn:ER; simpl in H; [|discriminate]. injection H as <- <-.
    destruct (IH _ _ _ ER) as (A & B' & C). simpl. rewrite EP. simpl. repeat split; auto.
    intros [|i] m0 Hi; simpl in *; eauto. injection Hi as <-. eauto.
Qed.

(** The forest after the rows [L].  Making the members takes n_estimators seeds from the generator, before anything else. *)
Definition sds : list Z := fst (seeds seed n_estimators).
Definition started : G := snd (seeds seed n_estimators).
Definition rforest_ok (L : list (X * T)) (s : rforest) : Prop :=
  rf_seen s = length L /\
  match rf_members s with
  | None => L = [] /\ rf_rng s = seed
  | Some ms => length ms = n_estimators /\ rf_rng s = after poisson (length L * n_estimators) started /\ exists v, rf_maxf s = MInt v /\
      forall i m, nth_error ms i = Some m ->
       rlife v (nth i sds 0%Z) (rfeed 1 L (column n_estimators i (length L) (draws poisson (length L * n_estimators) started))) m
  end.
Hypothesis seeds_len : length sds = n_estimators.

Lemma init_r_ok n s ms s1 : init_rensemble n s = Ok (ms, s1) -> forall L, rforest_ok L s -> rforest_ok L s1 /\ rf_members s1 = Some ms.
Proof.
  unfold ForestRegressor.init_rensemble. intros H L (F1 & F2). destruct (rf_members s) as [ms0|] eqn:EM.
  - injection H as <- <-. split; auto. unfold rforest_ok. rewrite EM. auto.
  - destruct (rmax_features rsqrt rlog2 part (rf_maxf s) n) as [v|]; simpl in H; [|discriminate]. destruct F2 as [-> F2]. rewrite F2 in H.
    destruct (seeds seed n_estimators) as [sd g] eqn:ES. injection H as <- <-. split; auto. split; auto. simpl.
    split. { rewrite map_length. unfold sds in seeds_len. rewrite ES in seeds_len. auto. }
    split. { unfold started. rewrite ES. auto. } exists v. split; auto. intros i m Hi. rewrite nth_error_map in Hi.
    destruct (nth_error sd i) as [z|] eqn:Ez; [|discriminate]. injection Hi as <-. unfold sds. rewrite ES. simpl. rewrite (nth_error_nth _ _ _ Ez). constructor.
Qed.
Lemma arfr_rows_ok : forall rows L s ms s', rforest_ok L s -> rf_members s = Some ms -> arfr_rows rows ms s = Ok s' -> rforest_ok (L ++ rows) s'.
Proof.
  induction rows as [|[x y] rows IH]; intros L s ms s' F EM H; simpl in H.
  - injection H as <-. rewrite app_nil_r. auto.
  - destruct (rmembers_row x y (S (rf_seen s)) ms (rf_rng s)) as [[ms' g]|] eqn:ER; simpl in H; [|discriminate].
    replace (L ++ (x, y) :: rows) with ((L ++ [(x, y)]) ++ rows) by (rewrite <- app_assoc; reflexivity).
    refine (IH _ _ _ _ _ _ H); [|reflexivity]. destruct F as (F1 & F2). rewrite EM in F2. destruct F2 as (LM & F2 & v & V1 & V2).
    destruct (rmembers_row_ok _ _ _ _ _ _ _ ER) as (G1 & G2 & G3). unfold rforest_ok. simpl. rewrite app_length. simpl. rewrite Nat.add_1_r. split; [lia|].
    split; [congruence|]. split. { rewrite G1, F2, LM. replace (S (length L) * n_estimators) with (length L * n_estimators + n_estimators) by lia. rewrite after_app. reflexivity. }
    exists v. split; auto. intros i m' Hi. assert (Li : i < n_estimators). { rewrite <- LM, <- G2. apply nth_error_Some. congruence. }
    destruct (nth_error ms i) as [m|] eqn:Em. 2: { apply nth_error_None in Em. lia. }
    destruct (G3 i m Em) as (m2 & E2 & HR). rewrite Hi in E2. injection E2 as <-.
    replace (S (length L) * n_estimators) with (length L * n_estimators + n_estimators) by lia. rewrite draws_app, <- F2.
    rewrite (column_snoc n_estimators i (length L)); [|exact Li|rewrite draws_len; lia|apply draws_len].
    rewrite rfeed_snoc by apply column_len. eapply rlife_row; [exact (V2 i m Em)| |].
    + simpl. rewrite rfeed_len. lia.
    + simpl. rewrite LM, F1 in HR. exact HR.
Qed.
Fixpoint rlessons (L : list (X * T)) (os : list (arfr_op X T)) : list (X * T) :=
  match os with
  | [] => L
  | RFit _ rows :: os => rlessons (L ++ rows) os
  | RAsk _ :: os => rlessons L os
  | RAgain :: os => rlessons [] os
  end.
Lemma arfr_run_ok : forall os L s s', rforest_ok L s -> run s os = Ok s' -> rforest_ok (rlessons L os) s'.
Proof.
  induction os as [|o os IH]; intros L s s' F H; simpl in H.
  - injection H as <-. auto.
  - destruct (step s o) as [s1|] eqn:E1; simpl in H; [|discriminate]. destruct o as [n rows|x|]; simpl; (eapply IH; [|exact H]); simpl in E1.
    + unfold arfr_fit in E1. destruct (init_rensemble n s) as [[ms s2]|] eqn:EI; simpl in E1; [|discriminate].
      destruct (init_r_ok _ _ _ _ EI L F) as [F2 EM]. eapply arfr_rows_ok; eauto.
    + unfold arfr_predict_row in E1. destruct (init_rensemble (width x) s) as [[ms s2]|] eqn:EI; simpl in E1; [|discriminate].
      destruct (mapM _ ms); simpl in E1; [|discriminate]. destruct (aggregate _ _ _ _); simpl in E1; [|discriminate]. injection E1 as <-.
      destruct (init_r_ok _ _ _ _ EI L F) as [F2 EM]. auto.
    + injection E1 as <-. unfold rforest_ok. simpl. auto.
Qed.
End Forest.

(** *** Over the reals *)
Local Open Scope R_scope.
Lemma norm_state (xs : list R) : xs <> [] -> norm_after xs = mk_norm (Z.of_nat (length xs)) (Rmean xs) (Rsqdev xs).
Proof.
  induction xs as [|x xs IH] using rev_ind; [congruence|]. intros _. rewrite norm_after_snoc. destruct xs as [|x0 xs].
  - unfold norm_after. simpl. unfold Rmean, Rsqdev, Rmean. simpl. change (@n0 R NumR) with 0. f_equal; field.
  - rewrite IH by congruence. set (l := x0 :: xs). assert (Hl0 : l <> []) by (unfold l; congruence). clearbody l. clear IH. assert (Hl : 0 < INR (length l)) by (apply INR_pos_len; auto). unfold normalize. cbn [w_k w_M w_S].
    replace (Z.of_nat (length l) + 1)%Z with (Z.of_nat (length (l ++ [x]))) by (rewrite app_length; simpl; lia).
    destruct (Z.eqb_spec (Z.of_nat (length (l ++ [x]))) 1) as [E1|E1]. { rewrite app_length in E1. destruct l; [congruence|]. simpl in E1. lia. }
    cbv zeta. cbn [snd].
    assert (EM : Rmean l + (x - Rmean l) / IZR (Z.of_nat (length (l ++ [x]))) = Rmean (l ++ [x])).
    { rewrite <- INR_IZR_INZ. unfold Rmean. rewrite Rsum_app, app_length, plus_INR. simpl. field. lra. }
    f_equal.
    + exact EM.
    + change (Rsqdev l + (x - Rmean l) * (x - (Rmean l + (x - Rmean l) / IZR (Z.of_nat (length (l ++ [x]))))) = Rsqdev (l ++ [x])). rewrite EM.
      rewrite (Rsqdev_app l [x]) by (auto; congruence). cbv zeta. rewrite Rsqdev_single. unfold Rmean. rewrite Rsum_app, app_length, plus_INR. cbn [Rsum fold_right length INR]. field. lra.
Qed.
Lemma scored_ne l x : l <> [] -> scored l x = ((if Rlt_dec 0 (sample_sd (l ++ [x])) then (x - Rmean (l ++ [x])) / sample_sd (l ++ [x]) else 0) + 3) / 6.
Proof. destruct l; [congruence|reflexivity]. Qed.
Lemma norm_scored xs (x : R) : fst (normalize x (norm_after xs)) = scored xs x.
Proof.
  destruct xs as [|x0 xs]; [reflexivity|]. set (l := x0 :: xs). assert (Hl0 : l <> []) by (unfold l; congruence).
  clearbody l. clear x0 xs. pose proof (norm_after_snoc l x) as SN. assert (Hlx : l ++ [x] <> []) by (intros HH; apply app_eq_nil in HH; destruct HH; congruence).
  rewrite (norm_state l Hl0) in *. rewrite norm_state in SN by exact Hlx.
  unfold normalize in *. cbn [w_k w_M w_S] in *. assert (Hl : 0 < INR (length l)) by (apply INR_pos_len; auto).
  destruct (Z.eqb_spec (Z.of_nat (length l) + 1) 1) as [E1|E1]. { destruct l; [congruence|]. simpl in E1. lia. }
  cbv zeta in *. cbn [snd] in SN. injection SN as S1 S2 S3. cbn [fst].
  rewrite (scored_ne l x Hl0).
  assert (EN : IZR (Z.of_nat (length l) + 1 - 1) = INR (length (l ++ [x])) - 1). { rewrite app_length, plus_INR. simpl. replace (Z.of_nat (length l) + 1 - 1)%Z with (Z.of_nat (length l)) by lia. rewrite <- INR_IZR_INZ. ring. }
  cbv beta iota delta [NumR nofZ nadd nsub nmul ndiv nltb nsqrt n0] in *. rewrite <- S3, <- S2, EN. fold (sample_sd (l ++ [x])). unfold Rltb. destruct (Rlt_dec 0 (sample_sd (l ++ [x]))); reflexivity.
Qed.

(** Samuelson's inequality *)
Lemma samuelson l x : l <> [] -> let k := INR (length (l ++ [x])) in
  k * ((x - Rmean (l ++ [x])) * (x - Rmean (l ++ [x]))) <= (k - 1) * Rsqdev (l ++ [x]).
Proof.
  intros Hl. cbv zeta. pose proof (INR_pos_len l Hl) as P. rewrite (Rsqdev_app l [x]) by (auto; congruence). cbv zeta. rewrite Rsqdev_single.
  unfold Rmean. rewrite Rsum_app, app_length, plus_INR. cbn [Rsum fold_right length INR]. set (n := INR (length l)) in *. set (S := Rsum l) in *.
  pose proof (Rsqdev_nonneg l) as NN.
  replace ((n + 1) * ((x - (S + (x + 0)) / (n + 1)) * (x - (S + (x + 0)) / (n + 1)))) with (n * n / (n + 1) * ((S / n - x) * (S / n - x))) by (field; lra).
  replace ((n + 1 - 1) * (Rsqdev l + 0 + n * 1 * (S / n - (x + 0) / 1) * (S / n - (x + 0) / 1) / (n + 1))) with (n * Rsqdev l + n * n / (n + 1) * ((S / n - x) * (S / n - x))) by (field; lra).
  assert (0 <= n * Rsqdev l) by (apply Rmult_le_pos; lra). lra.
Qed.
Lemma scored_range xs x : (length xs < 10)%nat -> 0 <= scored xs x <= 1.
Proof.
  destruct xs as [|x0 xs]; [simpl; lra|]. set (l := x0 :: xs). assert (Hl : l <> []) by (unfold l; congruence). clearbody l. intros LE. rewrite (scored_ne l x Hl).
  destruct (Rlt_dec 0 (sample_sd (l ++ [x]))) as [Hs|]; [|lra]. pose proof (samuelson l x Hl) as SA. cbv zeta in SA.
  set (s := sample_sd (l ++ [x])) in *. set (k := INR (length (l ++ [x]))) in *. set (d := x - Rmean (l ++ [x])) in *.
  assert (K : 2 <= k <= 10). { unfold k. assert (Q : (2 <= length (l ++ [x]) <= 10)%nat). { rewrite app_length. destruct l; [congruence|]. simpl in *. lia. }
    destruct Q as [Q1 Q2]. apply le_INR in Q1. apply le_INR in Q2. simpl INR in Q1 at 1. replace (INR 10) with 10 in Q2 by (simpl; lra). lra. }
  assert (ES : s * s * (k - 1) = Rsqdev (l ++ [x])).
  { unfold s, sample_sd. fold k. rewrite sqrt_sqrt; [field; lra|]. apply Rmult_le_pos; [apply Rsqdev_nonneg|]. left. apply Rinv_0_lt_compat. lra. }
  rewrite <- ES in SA. assert (D2 : d * d <= 9 * (s * s)).
  { assert (P2 : 0 < s * s) by (apply Rmult_lt_0_compat; auto). assert (k * (d * d) <= k * (9 * (s * s))). 2: { apply Rmult_le_reg_l with k; lra. }
    eapply Rle_trans; [exact SA|]. assert (0 <= (s * s) * (10 * k - k * k + (k - 1))). { apply Rmult_le_pos; [lra|]. assert (0 <= k * (10 - k)) by (apply Rmult_le_pos; lra). lra. }
    nra. }
  assert (DA : - (3 * s) <= d <= 3 * s). { split; apply Rnot_lt_le; intros C. - assert ((3 * s) * (3 * s) < (- d) * (- d)) by (apply Rmult_le_0_lt_compat; lra). nra. - assert ((3 * s) * (3 * s) < d * d) by (apply Rmult_le_0_lt_compat; lra). nra. }
  assert (-3 <= d / s <= 3). { unfold Rdiv. split. - apply Rmult_le_reg_r with s; auto. rewrite Rmult_assoc, Rinv_l by lra. lra. - apply Rmult_le_reg_r with s; auto. rewrite Rmult_assoc, Rinv_l by lra. lra. }
  lra.
Qed.
(** Eleven values: ten times the same and one greater *)
Lemma scored_over c x : c < x -> 1 < scored (repeat c 10) x.
Proof.
  intros H. rewrite scored_ne by (simpl; congruence).
  assert (EM : Rmean (repeat c 10 ++ [x]) = c + (x - c) / 11). { unfold Rmean. simpl. field. }
  assert (ES : Rsqdev (repeat c 10 ++ [x]) / (INR (length (repeat c 10 ++ [x])) - 1) = (x - c) * (x - c) / 11).
  { unfold Rsqdev. rewrite EM. cbn [repeat app map Rsum fold_right length]. replace (INR 11) with 11 by (simpl; lra). field. }
  assert (PS : 0 < sample_sd (repeat c 10 ++ [x])). { unfold sample_sd. rewrite ES. apply sqrt_lt_R0. apply Rmult_lt_0_compat; [apply Rmult_lt_0_compat; lra|lra]. }
  destruct (Rlt_dec 0 (sample_sd (repeat c 10 ++ [x]))); [|contradiction]. rewrite EM.
  set (s := sample_sd (repeat c 10 ++ [x])) in *. assert (E2 : s * s = (x - c) * (x - c) / 11).
  { unfold s, sample_sd. rewrite ES. apply sqrt_sqrt. apply Rmult_le_pos; [apply Rmult_le_pos; lra|lra]. }
  assert (L : 3 * s < x - (c + (x - c) / 11)).
  { apply Rnot_le_lt. intros C. assert (0 < x - c) by lra. assert ((x - (c + (x - c) / 11)) * (x - (c + (x - c) / 11)) <= (3 * s) * (3 * s)) by (apply Rmult_le_compat; lra). nra. }
  assert (3 < (x - (c + (x - c) / 11)) / s). { apply Rmult_lt_reg_r with s; auto. unfold Rdiv at 1. rewrite Rmult_assoc, Rinv_l by lra. lra. }
  lra.
Qed.

(** *** Aggregation *)
Notation total := ForestRegressor.total.
Lemma total_R (l : list R) : total l = Rsum l.
Proof. unfold ForestRegressor.total. change (@nadd R NumR) with Rplus. change (@n0 R NumR) with 0. rewrite fold_symmetric; [reflexivity| |]; intros; ring. Qed.
Lemma mean_R (l : list R) : mean l = Rmean l.
Proof. unfold mean, Rmean. rewrite total_R. change (@nofZ R NumR) with IZR. rewrite <- INR_IZR_INZ. reflexivity. Qed.
Lemma Rsum_shift (S : R) l : Rsum (map (fun e => S - e) l) = INR (length l) * S - Rsum l.
Proof. induction l as [|e l IH]; [simpl; ring|]. cbn [map Rsum fold_right length]. fold (Rsum l). change (fold_right Rplus 0 (map (fun e => S - e) l)) with (Rsum (map (fun e => S - e) l)). rewrite IH, S_INR. ring. Qed.
Lemma Rsum_mapdiv {A} (f : A -> R) c l : Rsum (map (fun e => f e / c) l) = Rsum (map f l) / c.
Proof. induction l as [|e l IH]; [simpl; unfold Rdiv; ring|]. simpl. rewrite IH. unfold Rdiv. ring. Qed.
Lemma tree_weight_sum es : (2 <= length es)%nat -> Rsum es <> 0 -> Rsum (map (tree_weight es) es) = 1.
Proof.
  intros L H. unfold tree_weight. rewrite (Rsum_mapdiv (fun e => Rsum es - e)), Rsum_shift, minus_INR by lia. change (INR 1) with 1.
  assert (2 <= INR (length es)) by (apply (le_INR 2) in L; simpl INR in L at 1; lra). field. split; lra.
Qed.
Lemma Rsum_ge_in l x : (forall y, In y l -> 0 <= y) -> In x l -> x <= Rsum l.
Proof.
  induction l as [|y l IH]; intros P I; [contradiction|]. simpl. assert (0 <= Rsum l) by (apply Rsum_nonneg; intros; apply P; right; auto). assert (0 <= y) by (apply P; left; auto).
  destruct I as [->|I]; [lra|]. assert (x <= Rsum l) by (apply IH; auto; intros; apply P; right; auto). lra.
Qed.
Lemma weight_den es : (2 <= length es)%nat -> 0 < Rsum es -> 0 < INR (length es - 1) * Rsum es.
Proof. intros L H. apply Rmult_lt_0_compat; auto. apply lt_0_INR. lia. Qed.
Lemma tree_weight_nonneg es e : (2 <= length es)%nat -> (forall y, In y es -> 0 <= y) -> 0 < Rsum es -> In e es -> 0 <= tree_weight es e.
Proof. intros L P H I. unfold tree_weight. apply Rmult_le_pos; [pose proof (Rsum_ge_in es e P I); lra|]. left. apply Rinv_0_lt_compat. apply weight_den; auto. Qed.
Lemma tree_weight_antitone es e e' : (2 <= length es)%nat -> 0 < Rsum es -> e < e' -> tree_weight es e' < tree_weight es e.
Proof. intros L H I. unfold tree_weight, Rdiv. apply Rmult_lt_compat_r; [apply Rinv_0_lt_compat; apply weight_den; auto|lra]. Qed.

Lemma weighted_R (ps es : list R) : (2 <= length es)%nat -> 0 < Rsum es ->
  weighted ps es = Val (Rsum (map (fun pe => fst pe * tree_weight es (snd pe)) (combine ps es))).
Proof.
  intros L H. unfold weighted. rewrite total_R. change (@neqb R NumR) with Reqb. change (@n0 R NumR) with 0. cbv zeta.
  destruct (Reqb (Rsum es) 0) eqn:E1; [apply Reqb_true in E1; lra|]. simpl negb. cbv iota. change (@nsub R NumR) with Rminus. change (@ndiv R NumR) with Rdiv. change (@nmul R NumR) with Rmult.
  rewrite !total_R, !Rsum_shift.
  assert (P : 0 < INR (length es) * Rsum es - Rsum es). { pose proof (weight_den es L H) as W. rewrite minus_INR in W by lia. change (INR 1) with 1 in W. lra. }
  destruct (Reqb (INR (length es) * Rsum es - Rsum es) 0) eqn:E2; [apply Reqb_true in E2; lra|].
  set (den := INR (length es) * Rsum es - Rsum es) in *. rewrite map_map. f_equal.
  rewrite (Rsum_mapdiv (fun x => Rsum es - x) den es), Rsum_shift. fold den. replace (den / den) with 1 by (field; lra). unfold Rdiv at 1. rewrite Rinv_1, Rmult_1_r. f_equal.
  assert (EW : forall e, tree_weight es e = (Rsum es - e) / den). { intros e. unfold tree_weight, den. f_equal. rewrite minus_INR by lia. change (INR 1) with 1. ring. }
  clear - EW. revert EW. generalize (tree_weight es), (Rsum es). intros w S EW. clearbody den. revert es ps. induction es as [|e es IH]; intros [|p ps]; simpl; auto. rewrite IH, EW. reflexivity.
Qed.
Lemma weighted_zero (ps es : list R) : Rsum es = 0 -> weighted ps es = Val (Rmean ps).
Proof.
  intros H. unfold weighted. rewrite total_R, mean_R. change (@neqb R NumR) with Reqb. change (@n0 R NumR) with 0. rewrite H. cbv zeta.
  destruct (Reqb 0 0) eqn:E1; [reflexivity|]. apply Reqb_false in E1. lra.
Qed.
Lemma weighted_one (p e : R) : e <> 0 -> weighted [p] [e] = NaN.
Proof.
  intros H. unfold weighted, ForestRegressor.total. cbv beta iota delta [NumR nofZ nadd nsub nmul ndiv nltb nsqrt n0 neqb]. simpl.
  destruct (Reqb (0 + e) 0) eqn:E1; [apply Reqb_true in E1; lra|]. simpl. destruct (Reqb (0 + (0 + e - e)) 0) eqn:E2; [reflexivity|]. apply Reqb_false in E2. lra.
Qed.
Lemma combo_range (lo hi : R) (w : R -> R) : forall ps es, length ps = length es -> (forall p, In p ps -> lo <= p <= hi) -> (forall e, In e es -> 0 <= w e) ->
  lo * Rsum (map w es) <= Rsum (map (fun pe => fst pe * w (snd pe)) (combine ps es)) <= hi * Rsum (map w es).
Proof.
  induction ps as [|p ps IH]; intros [|e es] L P W; simpl in *; try discriminate; [lra|].
  assert (A := IH es ltac:(lia) (fun q I => P q (or_intror I)) (fun q I => W q (or_intror I))).
  assert (B := P p (or_introl eq_refl)). assert (C := W e (or_introl eq_refl)). assert (lo * w e <= p * w e) by (apply Rmult_le_compat_r; lra). assert (p * w e <= hi * w e) by (apply Rmult_le_compat_r; lra). lra.
Qed.
Lemma mean_range lo hi l : l <> [] -> (forall p, In p l -> lo <= p <= hi) -> lo <= Rmean l <= hi.
Proof.
  intros N P. unfold Rmean. pose proof (INR_pos_len l N) as HL.
  assert (A : lo * INR (length l) <= Rsum l <= hi * INR (length l)).
  { clear N HL. induction l as [|p l IH]; [simpl; lra|]. cbn [Rsum fold_right length]. fold (Rsum l). rewrite S_INR. assert (B := P p (or_introl eq_refl)). assert (C := IH (fun q I => P q (or_intror I))). fold (Rsum l) in *. lra. }
  unfold Rdiv. split; apply Rmult_le_reg_r with (INR (length l)); auto; rewrite Rmult_assoc, Rinv_l by lra; lra.
Qed.
Lemma weighted_range (ps es : list R) lo hi : length ps = length es -> (2 <= length es)%nat -> (forall e, In e es -> 0 <= e) -> (forall p, In p ps -> lo <= p <= hi) ->
  exists v, weighted ps es = Val v /\ lo <= v <= hi.
Proof.
  intros LL L P Q. destruct (Req_dec (Rsum es) 0) as [Z|NZ].
  - exists (Rmean ps). split; [apply weighted_zero; auto|]. apply mean_range; auto. intros ->. simpl in LL. lia.
  - assert (0 < Rsum es). { assert (0 <= Rsum es) by (apply Rsum_nonneg; auto). lra. }
    eexists. split; [apply weighted_R; auto|]. pose proof (combo_range lo hi (tree_weight es) ps es LL Q (fun e I => tree_weight_nonneg es e L P H I)) as C.
    rewrite tree_weight_sum in C by auto. lra.
Qed.

(** *** The median *)
From Coq Require Import Sorting.Sorted.
Notation sort := ForestRegressor.sort.
Lemma insert_perm (x : R) l : Permutation (insert x l) (x :: l).
Proof. induction l as [|y l IH]; simpl; auto. destruct (Rleb x y); auto. etransitivity; [apply perm_skip, IH|]. constructor. Qed.
Lemma sort_perm (l : list R) : Permutation (sort l) l.
Proof. induction l as [|x l IH]; simpl; auto. unfold ForestRegressor.sort in *. simpl. etransitivity; [apply insert_perm|]. constructor. auto. Qed.
Lemma insert_sorted (x : R) l : StronglySorted Rle l -> StronglySorted Rle (insert x l).
Proof.
  induction 1 as [|y l S IH F]; simpl; [repeat constructor|]. change (@nleb R NumR) with Rleb. destruct (Rleb x y) eqn:E.
  - apply Rleb_true in E. constructor; [constructor; auto|]. constructor; auto. eapply Forall_impl; [|exact F]. intros a Ha. simpl in Ha. lra.
  - apply Rleb_false in E. constructor; auto. apply Forall_forall. intros z I. apply (Permutation_in _ (insert_perm x l)) in I. destruct I as [<-|I]; [lra|]. rewrite Forall_forall in F. auto.
Qed.
Lemma sort_sorted (l : list R) : StronglySorted Rle (sort l).
Proof. induction l as [|x l IH]; [constructor|]. apply insert_sorted. auto. Qed.
(** How many of the values are at most, or at least, [m] *)
Definition below (m : R) (l : list R) : nat := length (filter (fun x => Rleb x m) l).
Definition above (m : R) (l : list R) : nat := length (filter (fun x => Rleb m x) l).
Lemma filter_perm_len {A} (f : A -> bool) l l' : Permutation l l' -> length (filter f l) = length (filter f l').
Proof. induction 1; simpl; try congruence; repeat (destruct (f _); simpl; try congruence). Qed.
Lemma sorted_nth l : StronglySorted Rle l -> forall i j, (i <= j < length l)%nat -> nth i l 0 <= nth j l 0.
Proof.
  induction 1 as [|x l S IH F]; intros i j L; simpl in L; [lia|]. destruct i as [|i], j as [|j]; simpl; try lra; try lia.
  - rewrite Forall_forall in F. apply F, nth_In. lia.
  - apply IH. lia.
Qed.
Lemma filter_all {A} (f : A -> bool) l : (forall x, In x l -> f x = true) -> filter f l = l.
Proof. induction l as [|x l IH]; intros H; simpl; auto. rewrite (H x (or_introl eq_refl)). f_equal. apply IH. intros. apply H. right. auto. Qed.
Lemma below_ge m l k : (forall i, (i < k)%nat -> nth i l 0 <= m) -> (k <= length l)%nat -> (k <= below m l)%nat.
Proof.
  revert k. induction l as [|x l IH]; intros k H L; [simpl in L; lia|]. destruct k as [|k]; [lia|]. unfold below in *. simpl.
  assert (H0 := H 0%nat ltac:(lia)). simpl in H0. destruct (Rleb x m) eqn:E; [|apply Rleb_false in E; lra]. simpl. apply le_n_S, IH; [|simpl in L; lia]. intros i Hi. exact (H (S i) ltac:(lia)).
Qed.
Lemma above_ge m l k : (forall i, (k <= i < length l)%nat -> m <= nth i l 0) -> (length l - k <= above m l)%nat.
Proof.
  revert k. induction l as [|x l IH]; intros k H; [simpl; lia|]. unfold above in *. destruct k as [|k].
  - rewrite filter_all; [lia|]. intros y I. destruct (In_nth _ _ 0 I) as (i & Li & <-). specialize (H i ltac:(lia)). destruct (Rleb m (nth i (x :: l) 0)) eqn:E; auto. apply Rleb_false in E. lra.
  - specialize (IH k (fun i Hi => H (S i) ltac:(simpl; lia))). simpl length at 1. destruct (Rleb m x) eqn:E; simpl; rewrite E; simpl; lia.
Qed.
Lemma median_half (l : list R) : l <> [] -> (length l <= 2 * below (median l) l)%nat /\ (length l <= 2 * above (median l) l)%nat.
Proof.
  intros NE. unfold median. cbv zeta. set (s := sort l). assert (PS : Permutation s l) by apply sort_perm. assert (LS : length s = length l) by (apply Permutation_length; auto).
  assert (SS : StronglySorted Rle s) by apply sort_sorted. unfold below, above. rewrite <- !(filter_perm_len _ _ _ PS), <- LS. fold (below (if Nat.odd (length s) then nth (length s / 2) s n0 else ((nth (length s / 2 - 1) s n0 + nth (length s / 2) s n0) / nofZ 2)%num) s).
  fold (above (if Nat.odd (length s) then nth (length s / 2) s n0 else ((nth (length s / 2 - 1) s n0 + nth (length s / 2) s n0) / nofZ 2)%num) s).
  assert (NS : (1 <= length s)%nat) by (rewrite LS; destruct l; [congruence|simpl; lia]). change (@n0 R NumR) with 0. pose proof (sorted_nth s SS) as SN.
  destruct (Nat.odd (length s)) eqn:O.
  - apply Nat.odd_spec in O. destruct O as [h O]. replace (length s / 2)%nat with h by (rewrite O; apply Nat.div_unique with 1%nat; lia).
    assert (B := below_ge (nth h s 0) s (S h)). assert (A := above_ge (nth h s 0) s h).
    split; [assert (S h <= below (nth h s 0%R) s)%nat by (apply B; [intros i Hi; apply SN; lia|lia]); lia|assert (length s - h <= above (nth h s 0%R) s)%nat by (apply A; intros i Hi; apply SN; lia); lia].
  - assert (EV : Nat.even (length s) = true) by (rewrite <- Nat.negb_odd, O; reflexivity). apply Nat.even_spec in EV. destruct EV as [h E]. replace (length s / 2)%nat with h by (rewrite E; apply Nat.div_unique with 0%nat; lia).
    assert (M := SN (h - 1)%nat h ltac:(lia)). change ((nth (h - 1) s 0 + nth h s 0) / nofZ 2)%num with ((nth (h - 1) s 0 + nth h s 0) / 2). set (m := (nth (h - 1) s 0 + nth h s 0) / 2).
    split; [assert (h <= below m s)%nat by (apply below_ge; [intros i Hi; assert (nth i s 0 <= nth (h - 1) s 0) by (apply SN; lia); unfold m; lra|lia]); lia|assert (length s - h <= above m s)%nat by (apply above_ge; intros i Hi; assert (nth h s 0 <= nth i s 0) by (apply SN; lia); unfold m; lra); lia].
Qed.
Lemma median_range (l : list R) lo hi : l <> [] -> (forall p, In p l -> lo <= p <= hi) -> lo <= median l <= hi.
Proof.
  intros NE P. destruct (median_half l NE) as [A B]. assert (L : (1 <= length l)%nat) by (destruct l; [congruence|simpl; lia]). unfold below in A. unfold above in B. split.
  - destruct (filter (fun x => Rleb x (median l)) l) as [|p q] eqn:E; [simpl in A; lia|]. assert (I : In p (filter (fun x => Rleb x (median l)) l)) by (rewrite E; left; auto).
    apply filter_In in I. destruct I as [I I2]. apply Rleb_true in I2. specialize (P p I). lra.
  - destruct (filter (fun x => Rleb (median l) x) l) as [|p q] eqn:E; [simpl in B; lia|]. assert (I : In p (filter (fun x => Rleb (median l) x) l)) by (rewrite E; left; auto).
    apply filter_In in I. destruct I as [I I2]. apply Rleb_true in I2. specialize (P p I). lra.
Qed.
