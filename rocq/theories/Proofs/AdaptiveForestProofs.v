(** Proofs about the model of AdaptiveRandomForestClassifier. *)
From Coq Require Import List ZArith Lia Bool Reals Lra.
From Verif Require Import Base.Py Base.Num Base.Dict Spec.Lists Model.Adwin Model.Knn Model.AdaptiveForest Spec.AdaptiveForestSpec.
From Verif Require Import Proofs.ListFacts.
Import ListNotations.

(** *** Lists *)
Lemma since_snoc {X T} c (fs : list (fed X T)) f : since c (fs ++ [f]) = since c fs ++ (if Nat.ltb c (r_n f) then [f] else []).
Proof. unfold since. rewrite filter_app. simpl. destruct (Nat.ltb c (r_n f)); reflexivity. Qed.
Lemma numbered_snoc {X T} (fs : list (fed X T)) f : numbered fs -> r_n f = S (length fs) -> numbered (fs ++ [f]).
Proof. unfold numbered. intros H E. rewrite map_app, app_length, H. simpl. rewrite Nat.add_comm. simpl. change (1 :: seq 2 (length fs)) with (seq 1 (S (length fs))). rewrite seq_S. simpl. rewrite E. reflexivity. Qed.
Lemma since_all {X T} c (fs : list (fed X T)) : numbered fs -> length fs <= c -> since c fs = [].
Proof.
  unfold numbered, since. intros H L. assert (A : forall f, In f fs -> r_n f <= c).
  { intros f I. apply (in_map r_n) in I. rewrite H in I. apply in_seq in I. lia. }
  clear H L. induction fs as [|f fs IH]; auto. simpl. assert (r_n f <= c) by (apply A; left; auto).
  destruct (Nat.ltb_spec c (r_n f)); try lia. apply IH. intros g I. apply A. right; auto.
Qed.
Lemma since_0 {X T} (fs : list (fed X T)) : numbered fs -> since 0 fs = fs.
Proof.
  unfold numbered, since. intros H. assert (A : forall f, In f fs -> 0 < r_n f).
  { intros f I. apply (in_map r_n) in I. rewrite H in I. apply in_seq in I. lia. }
  clear H. induction fs as [|f fs IH]; auto. simpl. assert (0 < r_n f) by (apply A; left; auto).
  destruct (Nat.ltb_spec 0 (r_n f)); try lia. f_equal. apply IH. intros g I. apply A. right; auto.
Qed.
Lemma draws_len {G} (po : G -> Z * G) n : forall g, length (draws po n g) = n.
Proof. induction n; intros g; simpl; auto. Qed.
Lemma draws_app {G} (po : G -> Z * G) n m : forall g, draws po (n + m) g = draws po n g ++ draws po m (after po n g).
Proof. induction n; intros g; simpl; auto. f_equal. apply IHn. Qed.
Lemma after_app {G} (po : G -> Z * G) n m : forall g, after po (n + m) g = after po m (after po n g).
Proof. induction n; intros g; simpl; auto. Qed.
Lemma feed_snoc {X T} (L : list (X * Z * T * option (list Z))) x y w cl : forall n ks k, length ks = length L ->
  feed n (L ++ [(x, y, w, cl)]) (ks ++ [k]) = feed n L ks ++ [mk_fed (n + length L) x y w cl k].
Proof.
  induction L as [|[[[x0 y0] w0] c0] L IH]; intros n ks k E; destruct ks as [|k0 ks]; simpl in *; try discriminate.
  - rewrite Nat.add_0_r. reflexivity.
  - f_equal. rewrite IH by lia. do 2 f_equal. f_equal. lia.
Qed.
Lemma feed_len {X T} (L : list (X * Z * T * option (list Z))) : forall n ks, length (feed n L ks) = length L.
Proof. induction L as [|[[[x y] w] c] L IH]; intros n ks; simpl; auto. Qed.
Lemma feed_numbers {X T} (L : list (X * Z * T * option (list Z))) : forall n ks, map r_n (feed n L ks) = seq n (length L).
Proof. induction L as [|[[[x y] w] c] L IH]; intros n ks; simpl; auto. f_equal. apply IH. Qed.
Lemma feed_numbered {X T} (L : list (X * Z * T * option (list Z))) ks : numbered (feed 1 L ks).
Proof. unfold numbered. rewrite feed_numbers, feed_len. reflexivity. Qed.
Lemma column_len n i len ks : length (column n i len ks) = len.
Proof. unfold column. rewrite map_length, seq_length. reflexivity. Qed.
Lemma column_snoc n i len ks ks' : i < n -> length ks = len * n -> length ks' = n ->
  column n i (S len) (ks ++ ks') = column n i len ks ++ [nth i ks' 0%Z].
Proof.
  intros Hi L L'. unfold column. rewrite seq_S, map_app. simpl. f_equal.
  - apply map_ext_in. intros j Hj. apply in_seq in Hj. apply app_nth1. nia.
  - f_equal. rewrite app_nth2 by nia. f_equal. nia.
Qed.

Section Life.
Context {X T B R D E G : Type} {N : Num T}.
Variables (t_init : Z -> B * R) (t_fit : B -> R -> X -> Z -> option (list Z) -> Z -> res (B * R)) (t_predict : B -> X -> res Z)
  (t_votes : B -> X -> res (list (Z * T))) (t_reset : B -> R -> B * R) (t_new : B -> B)
  (d_add : D -> bool -> D) (d_change : D -> bool) (d_reset : D -> D)
  (e_new : E) (e_add : E -> Z -> Z -> T -> res E) (e_score : E -> res T)
  (poisson : G -> Z * G) (seed : G) (width : X -> nat) (rsqrt rlog2 : nat -> Z) (part : T -> nat -> Z)
  (n_estimators : nat) (drift warning : option D) (unweighted : bool).
Notation new_member := (new_member t_init e_new drift warning).
Notation member_row := (member_row t_fit t_predict t_reset t_new d_add d_change d_reset e_new e_add drift warning).
Notation member_fit := (member_fit t_fit t_predict t_reset t_new d_add d_change d_reset e_new drift warning).
Notation arf_step := (arf_step t_init t_fit t_predict t_votes t_reset t_new d_add d_change d_reset e_new e_add e_score poisson seed width rsqrt rlog2 part n_estimators drift warning unweighted).
Notation arf_run := (arf_run t_init t_fit t_predict t_votes t_reset t_new d_add d_change d_reset e_new e_add e_score poisson seed width rsqrt rlog2 part n_estimators drift warning unweighted).
Notation arf_row := (arf_row t_init t_fit t_predict t_reset t_new d_add d_change d_reset e_new e_add poisson width rsqrt rlog2 part n_estimators drift warning).
Notation arf_rows := (arf_rows t_init t_fit t_predict t_reset t_new d_add d_change d_reset e_new e_add poisson width rsqrt rlog2 part n_estimators drift warning).
Notation arf_fit := (arf_fit t_init t_fit t_predict t_reset t_new d_add d_change d_reset e_new e_add poisson width rsqrt rlog2 part n_estimators drift warning).
Notation init_ensemble := (init_ensemble t_init e_new width rsqrt rlog2 part n_estimators drift warning).
Notation members_row := (members_row t_fit t_predict t_reset t_new d_add d_change d_reset e_new e_add poisson drift warning).
Notation grown := (grown t_fit).
Notation judged := (judged e_add).

(** The life of a member: it starts with a new tree for splits over [v] features and learns rows one by one. *)
Inductive life (v : Z) : list (fed X T) -> member B R D E -> Prop :=
| life_new n0 : life v [] (new_member v n0)
| life_row fs m f m' : life v fs m -> r_n f = S (length fs) ->
    member_row (r_x f) (r_y f) (r_w f) (r_cl f) (r_k f) (r_n f) m = Ok m' -> life v (fs ++ [f]) m'.

(** A tree that has learnt nothing: the first tree of the member, a reset one or a new instance of one *)
Definition fresh (v : Z) (b : B) : Prop := b = fst (t_init v) \/ (exists b' r, b = fst (t_reset b' r)) \/ exists b', b = t_new b'.

Lemma life_numbered v fs m : life v fs m -> numbered fs.
Proof. induction 1; [reflexivity|]. apply numbered_snoc; auto. Qed.

(** What is known of the tree, the background tree and the evaluator after the rows [fs]. *)
Definition origin (m : member B R D E) : nat := if Nat.eqb (m_drifts m) 0 then 0 else m_created m.
Definition tree_ok v (fs : list (fed X T)) (m : member B R D E) := exists b, fresh v b /\ grown b (since (origin m) fs) (m_tree m).
Definition bg_ok (fs : list (fed X T)) (m : member B R D E) := match m_bg m with
  | None => m_last_warn m <= m_last_drift m
  | Some b => m_last_drift m < m_last_warn m /\ b_created b = m_last_warn m /\ m_warns m > 0 /\
     exists b', grown (t_new b') (since (m_last_warn m) fs) (b_tree b)
  end.
Definition nums_ok (fs : list (fed X T)) (m : member B R D E) :=
  m_last_warn m <= length fs /\ m_last_drift m <= length fs /\ origin m <= m_last_drift m /\
  (m_drifts m = 0 <-> m_last_drift m = 0) /\ (m_warns m = 0 <-> m_last_warn m = 0) /\
  (m_drift m = None <-> drift = None) /\ (m_warn m = None <-> warning = None) /\ (warning = None -> m_bg m = None) /\
  match m_bg m with None => True | Some b => b_drift b = drift /\ b_warn b = warning end.
Definition eval_ok v (fs : list (fed X T)) (m : member B R D E) := exists ps, length ps = length fs /\
  (forall i f, nth_error fs i = Some f -> exists mi, life v (firstn i fs) mi /\ t_predict (m_tree mi) (r_x f) = Ok (nth i ps 0%Z)) /\
  judged e_new (filter (fun pf => Nat.ltb (m_last_drift m) (r_n (snd pf))) (combine ps fs)) (m_eval m).

Lemma combine_snoc {A C} (l : list A) (m : list C) a c : length l = length m -> combine (l ++ [a]) (m ++ [c]) = combine l m ++ [(a, c)].
Proof. revert m. induction l; intros [|y m] H; simpl in *; try discriminate; auto. f_equal. apply IHl. lia. Qed.
Lemma filter_none {A} (p : A -> bool) l : (forall x, In x l -> p x = false) -> filter p l = [].
Proof. induction l; simpl; intros H; auto. rewrite H by auto. apply IHl. intros; apply H; auto. Qed.

Lemma life_ok v fs m : life v fs m -> tree_ok v fs m /\ bg_ok fs m /\ nums_ok fs m.
Proof.
  clear t_votes e_score poisson seed width rsqrt rlog2 part n_estimators unweighted.
  induction 1 as [n0|fs m f m' HL IH Hn HR].
  - unfold tree_ok, bg_ok, nums_ok, origin. simpl. repeat split; auto; try lia; try tauto.
    exists (fst (t_init v)). split; [left; auto|constructor].
  - destruct IH as (HT & HB & HN). pose proof (life_numbered _ _ _ HL) as NU.
    assert (NU' : numbered (fs ++ [f])) by (apply numbered_snoc; auto).
    assert (LL : length (fs ++ [f]) = S (length fs)) by (rewrite app_length; simpl; lia).
    destruct HT as (b0 & HF & HG).
    unfold AdaptiveForest.member_row in HR. destruct (t_predict (m_tree m) (r_x f)) as [p|]; simpl in HR; [|discriminate].
    destruct (e_add (m_eval m) p (r_y f) (r_w f)) as [e|]; simpl in HR; [|discriminate].
    destruct HN as (N1 & N2 & N3 & N4 & N5 & N6 & N7 & N8 & N9).
    assert (OL : origin m < r_n f) by lia.
    destruct (Z.ltb_spec 0 (r_k f)) as [HK|HK].
    2: { injection HR as <-. unfold tree_ok, bg_ok, nums_ok, origin in *. simpl in *. rewrite LL. split; [|split].
         - exists b0. split; auto. rewrite since_snoc. destruct (Nat.ltb_spec (if Nat.eqb (m_drifts m) 0 then 0 else m_created m) (r_n f)); [|lia].
           apply grown_skip; auto.
         - destruct (m_bg m); auto. destruct HB as (? & ? & ? & b' & ?). repeat split; auto. exists b'.
           rewrite since_snoc. destruct (Nat.ltb_spec (m_last_warn m) (r_n f)); [|lia]. apply grown_skip; auto.
         - repeat split; auto; try lia; try tauto. }
    unfold AdaptiveForest.member_fit in HR. simpl in HR.
    destruct (t_fit (m_tree m) (m_rng m) (r_x f) (r_y f) (r_cl f) (r_k f)) as [[t r]|] eqn:ET; simpl in HR; [|discriminate].
    assert (HG' : grown b0 (since (origin m) (fs ++ [f])) t).
    { rewrite since_snoc. destruct (Nat.ltb_spec (origin m) (r_n f)); [|lia]. eapply grown_row; eauto. }
    set (bgr := match m_bg m with None => _ | Some b => _ end) in HR.
    assert (HB' : forall bg r', bgr = Ok (bg, r') ->
       match bg with None => m_bg m = None | Some b => exists b1, m_bg m = Some b1 /\ b_created b = b_created b1 /\ b_drift b = b_drift b1 /\ b_warn b = b_warn b1 /\
         (forall b', grown (t_new b') (since (m_last_warn m) fs) (b_tree b1) -> grown (t_new b') (since (m_last_warn m) (fs ++ [f])) (b_tree b)) end).
    { intros bg r' E0. unfold bgr in E0. destruct (m_bg m) as [b1|].
      - destruct (t_fit (b_tree b1) r (r_x f) (r_y f) (r_cl f) (r_k f)) as [[bt r2]|] eqn:EB; simpl in E0; [|discriminate].
        injection E0 as <- <-. exists b1. simpl. repeat split; auto. intros b' HH. rewrite since_snoc. destruct (Nat.ltb_spec (m_last_warn m) (r_n f)); [|lia].
        eapply grown_row; eauto.
      - injection E0 as <- <-. auto. }
    destruct bgr as [[bg r']|] eqn:EBG; [|discriminate]. specialize (HB' _ _ eq_refl). simpl in HR.
    assert (HB2 : match bg with None => m_bg m = None | Some b => m_last_drift m < m_last_warn m /\ b_created b = m_last_warn m /\ m_warns m > 0 /\ b_drift b = drift /\ b_warn b = warning /\ m_bg m <> None /\
              exists b', grown (t_new b') (since (m_last_warn m) (fs ++ [f])) (b_tree b) end).
    { destruct bg as [b|]; auto. destruct HB' as (b1 & E1 & E2 & E3 & E4 & HH). unfold bg_ok in HB. rewrite E1 in HB, N9. destruct HB as (? & ? & ? & b' & ?).
      destruct N9. repeat split; auto; try congruence. exists b'. auto. }
    assert (HB3 : bg = None -> m_last_warn m <= m_last_drift m). { intros ->. unfold bg_ok in HB. rewrite HB' in HB. auto. }
    assert (HB4 : warning = None -> bg = None). { intros W. destruct bg; auto. destruct HB2 as (_ & _ & _ & _ & _ & NB & _). elim NB. auto. }
    clear HB HB' N9 bgr EBG HG.
    destruct (m_drift m) as [d|] eqn:ED.
    2: { injection HR as <-. unfold tree_ok, bg_ok, nums_ok, origin in *. simpl. rewrite LL. split; [|split].
         - exists b0; auto.
         - destruct bg; auto. tauto.
         - repeat split; auto; try lia; try tauto. destruct bg; tauto. }
    destruct (t_predict t (r_x f)) as [q|]; simpl in HR; [|discriminate]. injection HR as <-.
    set (wr := negb (q =? r_y f)%Z).
    (* the warning *)
    set (m1 := mk_member t r' (m_created m) (Some d) (m_warn m) bg e (m_last_drift m) (m_last_warn m) (m_drifts m) (m_warns m)).
    assert (A : let m2 := check_warning t_new d_add d_change d_reset drift warning wr (r_n f) m1 in
       tree_ok v (fs ++ [f]) m2 /\ bg_ok (fs ++ [f]) m2 /\ nums_ok (fs ++ [f]) m2 /\ m_last_drift m2 < r_n f /\ m_drift m2 = Some d).
    { unfold check_warning, m1. simpl. destruct (m_warn m) as [w|] eqn:EW; cbv zeta.
      - destruct (d_change (d_add w wr)).
        + unfold tree_ok, bg_ok, nums_ok, origin in *. simpl. rewrite LL. split; [exists b0; auto|]. split; [|split; [|split; [lia|reflexivity]]].
          * repeat split; auto; try lia. exists t. rewrite since_all by (auto; lia). constructor.
          * repeat split; auto; try lia; try tauto; try congruence. all: intros W; destruct N7 as [_ N7]; specialize (N7 W); discriminate.
        + unfold tree_ok, bg_ok, nums_ok, origin in *. simpl. rewrite LL. split; [exists b0; auto|]. split; [|split; [|split; [lia|reflexivity]]].
          * destruct bg; auto. tauto.
          * repeat split; auto; try lia; try tauto; try congruence. all: try (intros W; destruct N7 as [_ N7]; specialize (N7 W); discriminate). destruct bg; tauto.
      - unfold tree_ok, bg_ok, nums_ok, origin in *. simpl. rewrite LL. split; [exists b0; auto|]. split; [|split; [|split; [lia|reflexivity]]].
        + destruct bg; auto. tauto.
        + repeat split; auto; try lia; try tauto; try congruence. destruct bg; tauto. }
    clearbody m1. cbv zeta in A. revert A. generalize (check_warning t_new d_add d_change d_reset drift warning wr (r_n f) m1). intros m2 (A1 & A2 & A3 & A4 & A5).
    destruct A3 as (M1 & M2 & M3 & M4 & M5 & M6 & M7 & M8 & M9).
    assert (ND : drift <> None) by (intros W; apply M6 in W; congruence).
    unfold check_drift. rewrite A5. cbv zeta. destruct (d_change (d_add d wr)).
    2: { unfold tree_ok, bg_ok, nums_ok, origin in *. simpl. split; [auto|]. split; auto. repeat split; auto; try lia; try tauto; try discriminate. all: try (intros W; tauto). }
    unfold member_reset. simpl. destruct (m_bg m2) as [b|] eqn:EB2; [destruct (m_warn m2) as [w|] eqn:EW2|].
    + unfold bg_ok in A2. rewrite EB2 in A2. destruct A2 as (C1 & C2 & C3 & b' & C4).
      unfold tree_ok, bg_ok, nums_ok, origin. simpl. split; [|split].
      * exists (t_new b'). split; [right; right; eauto|]. rewrite C2. auto.
      * lia.
      * destruct M9 as [Q1 Q2]. rewrite LL, Q1, Q2. repeat split; auto; try lia; try tauto.
    + exfalso. destruct M7 as [M7 _]. specialize (M8 (M7 eq_refl)). discriminate.
    + destruct (t_reset (m_tree m2) (m_rng m2)) as [t2 r2] eqn:ER. unfold tree_ok, bg_ok, nums_ok, origin. simpl. split; [|split].
      * exists (fst (t_reset (m_tree m2) (m_rng m2))). split; [right; left; eauto|]. rewrite ER. simpl. rewrite since_all by (auto; lia). constructor.
      * lia.
      * rewrite LL. repeat split; auto; try lia; try tauto; try discriminate. all: try (intros W; tauto).
Qed.

(** The evaluator *)
Lemma row_eval x y w cl k n m m' : member_row x y w cl k n m = Ok m' ->
  exists p e, t_predict (m_tree m) x = Ok p /\ e_add (m_eval m) p y w = Ok e /\
   ((m_eval m' = e /\ m_last_drift m' = m_last_drift m) \/ (m_eval m' = e_new /\ m_last_drift m' = n)).
Proof.
  unfold AdaptiveForest.member_row. destruct (t_predict (m_tree m) x) as [p|]; simpl; [|discriminate].
  destruct (e_add (m_eval m) p y w) as [e|] eqn:EE; simpl; [|discriminate]. intros HR. exists p, e. split; [auto|split; [auto|]].
  destruct (0 <? k)%Z; [|injection HR as <-; left; auto].
  unfold AdaptiveForest.member_fit in HR. simpl in HR.
  destruct (t_fit (m_tree m) (m_rng m) x y cl k) as [[t r]|]; simpl in HR; [|discriminate].
  match type of HR with bind ?a _ = _ => destruct a as [[bg r']|]; simpl in HR; [|discriminate] end.
  destruct (m_drift m) as [d|]; [|injection HR as <-; left; auto].
  destruct (t_predict t x) as [q|]; simpl in HR; [|discriminate]. injection HR as <-.
  set (m1 := mk_member _ _ _ _ _ _ _ _ _ _ _). set (wr := negb _).
  assert (A : let m2 := check_warning t_new d_add d_change d_reset drift warning wr n m1 in m_eval m2 = e /\ m_last_drift m2 = m_last_drift m).
  { unfold check_warning, m1. simpl. destruct (m_warn m); simpl; auto. destruct (d_change _); simpl; auto. }
  cbv zeta in A. revert A. generalize (check_warning t_new d_add d_change d_reset drift warning wr n m1). intros m2 [A1 A2].
  unfold check_drift. destruct (m_drift m2); auto. cbv zeta. destruct (d_change _); auto. right.
  unfold member_reset. simpl. destruct (m_bg m2); [destruct (m_warn m2)|]; simpl; auto; destruct (t_reset _ _); simpl; auto.
Qed.
Lemma life_eval v fs m : life v fs m -> eval_ok v fs m.
Proof.
  induction 1 as [n0|fs m f m' HL IH Hn HR].
  - exists []. split; auto. split; [intros [|i] f; discriminate|]. simpl. constructor.
  - destruct IH as (ps & L & HP & HJ). pose proof (life_numbered _ _ _ HL) as NU. destruct (life_ok _ _ _ HL) as (_ & _ & NO).
    destruct (row_eval _ _ _ _ _ _ _ _ HR) as (p & e & P1 & P2 & P3). exists (ps ++ [p]). split; [rewrite !app_length; simpl; lia|]. split.
    + intros i f0 Hi. destruct (Nat.lt_ge_cases i (length fs)) as [Lt|Ge].
      * rewrite nth_error_app1 in Hi by auto. destruct (HP i f0 Hi) as (mi & A & B'). exists mi. rewrite firstn_app.
        replace (i - length fs) with 0 by lia. simpl. rewrite app_nil_r. split; auto. rewrite app_nth1 by lia. auto.
      * assert (i = length fs). { assert (i < length (fs ++ [f])) by (apply nth_error_Some; congruence). rewrite app_length in *. simpl in *. lia. }
        subst i. rewrite nth_error_app2 in Hi by lia. rewrite Nat.sub_diag in Hi. injection Hi as <-. exists m. rewrite firstn_app, firstn_all, Nat.sub_diag. simpl. rewrite app_nil_r.
        split; auto. rewrite app_nth2 by lia. rewrite L, Nat.sub_diag. auto.
    + rewrite combine_snoc by auto. rewrite filter_app. simpl. destruct P3 as [[-> ->]|[-> ->]].
      * destruct NO as (_ & N2 & _). destruct (Nat.ltb_spec (m_last_drift m) (r_n f)); [|lia]. eapply judged_row; eauto.
      * rewrite Nat.ltb_irrefl. rewrite app_nil_r. rewrite filter_none; [constructor|]. intros [q g] I. apply in_combine_r in I. simpl.
        apply (in_map r_n) in I. rewrite NU in I. apply in_seq in I. destruct (Nat.ltb_spec (r_n f) (r_n g)); auto. lia.
Qed.

(** One row: when a member is said to drift, and to be warned *)
Lemma row_detects x y w cl k n m m' d : m_drift m = Some d -> member_row x y w cl k n m = Ok m' -> (0 < k)%Z ->
  exists t r q, t_fit (m_tree m) (m_rng m) x y cl k = Ok (t, r) /\ t_predict t x = Ok q /\
   let wrong := negb (q =? y)%Z in
   let drifts := d_change (d_add d wrong) in
   let warned := match m_warn m with None => false | Some u => d_change (d_add u wrong) end in
   m_drifts m' = (if drifts then S (m_drifts m) else m_drifts m) /\ m_last_drift m' = (if drifts then n else m_last_drift m) /\
   m_warns m' = (if warned then S (m_warns m) else m_warns m) /\ m_last_warn m' = (if warned then n else m_last_warn m) /\
   (drifts = false -> m_tree m' = t /\ m_drift m' = Some (d_add d wrong) /\ m_warn m' = option_map (fun u => if warned then d_reset (d_add u wrong) else d_add u wrong) (m_warn m)).
Proof.
  intros ED HR HK. unfold AdaptiveForest.member_row in HR. destruct (t_predict (m_tree m) x) as [p|]; simpl in HR; [|discriminate].
  destruct (e_add (m_eval m) p y w) as [e|]; simpl in HR; [|discriminate].
  destruct (Z.ltb_spec 0 k); [|contradiction (Zlt_not_le _ _ HK)]. unfold AdaptiveForest.member_fit in HR. simpl in HR.
  destruct (t_fit (m_tree m) (m_rng m) x y cl k) as [[t r]|] eqn:ET; simpl in HR; [|discriminate].
  match type of HR with bind ?a _ = _ => destruct a as [[bg r']|]; simpl in HR; [|discriminate] end.
  rewrite ED in HR. destruct (t_predict t x) as [q|] eqn:EQ; simpl in HR; [|discriminate]. injection HR as <-. exists t, r, q. split; [reflexivity|]. split; [exact EQ|]. cbv zeta.
  set (wr := negb (q =? y)%Z). unfold check_warning. simpl. destruct (m_warn m) as [u|]; [destruct (d_change (d_add u wr))|]; unfold check_drift; simpl; destruct (d_change (d_add d wr)); unfold member_reset; simpl.
  all: try (destruct bg; simpl). all: try match goal with |- context[t_reset ?a ?b] => destruct (t_reset a b); simpl end.
  all: split; [reflexivity|]; split; [reflexivity|]; split; [reflexivity|]; split; [reflexivity|]; intros HH; try discriminate HH; auto.
Qed.
(** *** The forest *)
Lemma members_row_ok x y w cl n : forall ms g ms' g', members_row x y w cl n ms g = Ok (ms', g') ->
  g' = after poisson (length ms) g /\ length ms' = length ms /\
  forall i m, nth_error ms i = Some m -> exists m', nth_error ms' i = Some m' /\ member_row x y w cl (nth i (draws poisson (length ms) g) 0%Z) n m = Ok m'.
Proof.
  induction ms as [|m ms IH]; intros g ms' g' H; simpl in H.
  - injection H as <- <-. repeat split; auto. intros [|i] m; discriminate.
  - destruct (poisson g) as [k g1] eqn:EP. destruct (member_row x y w cl k n m) as [m'|] eqn:EM; simpl in H; [|discriminate].
    destruct (members_row x y w cl n ms g1) as [[r' g2]|] eqn:ER; simpl in H; [|discriminate]. injection H as <- <-.
    destruct (IH _ _ _ ER) as (A & B' & C). simpl. rewrite EP. simpl. repeat split; auto.
    intros [|i] m0 Hi; simpl in *; eauto. injection Hi as <-. eauto.
Qed.

Notation forest := (forest T B R D E G).
Notation lesson := (X * Z * T * option (list Z))%type.
(** The state of the forest after the rows [L], when [cl] are the classes known. *)
Definition forest_ok (L : list lesson) (cl : option (list Z)) (s : forest) : Prop :=
  f_seen s = length L /\ f_rng s = after poisson (length L * n_estimators) seed /\ f_classes s = cl /\
  match f_members s with
  | None => L = []
  | Some ms => length ms = n_estimators /\ exists v, f_maxf s = MInt v /\
      forall i m, nth_error ms i = Some m ->
       life v (feed 1 L (column n_estimators i (length L) (draws poisson (length L * n_estimators) seed))) m
  end.
Lemma nth_error_repeat_eq {A} (a : A) n i b : nth_error (repeat a n) i = Some b -> b = a.
Proof. intros H. apply nth_error_In in H. apply repeat_spec in H. auto. Qed.
Lemma init_members_ok (s s1 : forest) x ms : init_ensemble x s = (ms, s1) ->
  f_members s1 = Some ms /\ f_seen s1 = f_seen s /\ f_rng s1 = f_rng s /\ f_classes s1 = f_classes s /\
  ((f_members s = Some ms /\ s1 = s) \/ (f_members s = None /\ exists v, f_maxf s1 = MInt v /\ v = max_features rsqrt rlog2 part (f_maxf s) (width x) /\ ms = repeat (new_member v (f_seen s)) n_estimators)).
Proof.
  unfold AdaptiveForest.init_ensemble. destruct (f_members s) as [ms0|] eqn:EM; intros H; injection H as <- <-.
  - repeat split; auto.
  - simpl. repeat split; auto. right. split; auto. eexists; eauto.
Qed.
Lemma arf_row_ok L cl s x y w s' : forest_ok L cl s -> arf_row x y w s = Ok s' -> forest_ok (L ++ [(x, y, w, cl)]) cl s'.
Proof.
  intros (F1 & F2 & F3 & F4) H. unfold AdaptiveForest.arf_row in H.
  destruct (init_ensemble x _) as [ms s1] eqn:EI. apply init_members_ok in EI. simpl in EI. destruct EI as (I1 & I2 & I3 & I4 & I5).
  destruct (members_row x y w (f_classes s) (f_seen s1) ms (f_rng s1)) as [[ms' g]|] eqn:ER; simpl in H; [|discriminate].
  injection H as <-. destruct (members_row_ok _ _ _ _ _ _ _ _ _ ER) as (G1 & G2 & G3).
  assert (HM : length ms = n_estimators /\ exists v, f_maxf s1 = MInt v /\ forall i m, nth_error ms i = Some m ->
     life v (feed 1 L (column n_estimators i (length L) (draws poisson (length L * n_estimators) seed))) m).
  { destruct I5 as [[E1 ->]|[E1 (v & E2 & _ & ->)]]; rewrite E1 in F4.
    - destruct F4 as (A & v & B1 & B2). split; auto. exists v. simpl. auto.
    - subst L. split; [apply repeat_length|]. exists v. split; auto. intros i m Hi. apply nth_error_repeat_eq in Hi. subst m. simpl. constructor. }
  destruct HM as (LM & v & V1 & V2). unfold forest_ok. simpl. rewrite app_length. simpl. rewrite Nat.add_1_r. split; [lia|]. split.
  - rewrite G1, I3, F2, LM. replace (S (length L) * n_estimators) with (length L * n_estimators + n_estimators) by lia. rewrite after_app. reflexivity.
  - split; [congruence|]. split; [congruence|]. exists v. split; auto. intros i m' Hi.
    assert (Li : i < n_estimators). { rewrite <- LM, <- G2. apply nth_error_Some. congruence. }
    destruct (nth_error ms i) as [m|] eqn:Em. 2: { apply nth_error_None in Em. lia. }
    destruct (G3 i m Em) as (m2 & E2 & HR). rewrite Hi in E2. injection E2 as <-.
    replace (S (length L) * n_estimators) with (length L * n_estimators + n_estimators) by lia. rewrite draws_app, <- F2.
    rewrite (column_snoc n_estimators i (length L)); [| |rewrite draws_len; lia|apply draws_len]. 2: auto.
    rewrite feed_snoc by apply column_len. apply (life_row _ _ m _ _ (V2 i m Em)).
    + simpl. rewrite feed_len. lia.
    + simpl. rewrite I3, LM in HR. rewrite I2, F1 in HR. rewrite <- F3. exact HR.
Qed.

(** The rows of a call that count: those with a weight other than 0 *)
Fixpoint counted (rows : list (X * Z)) (ws : list T) (cl : option (list Z)) : list lesson :=
  match rows, ws with
  | (x, y) :: rows, w :: ws => (if (w =? n0)%num then [] else [(x, y, w, cl)]) ++ counted rows ws cl
  | _, _ => []
  end.
Lemma arf_rows_ok cl : forall rows ws L s s', forest_ok L cl s -> arf_rows rows ws s = Ok s' -> forest_ok (L ++ counted rows ws cl) cl s'.
Proof.
  induction rows as [|[x y] rows IH]; intros ws L s s' F H; simpl in *.
  - injection H as <-. rewrite app_nil_r. auto.
  - destruct ws as [|w ws]; [discriminate|]. destruct (w =? n0)%num; simpl in *; eauto.
    destruct (arf_row x y w s) as [s1|] eqn:E1; simpl in H; [|discriminate].
    change ((x, y, w, cl) :: counted rows ws cl) with ([(x, y, w, cl)] ++ counted rows ws cl). rewrite app_assoc. eapply IH; eauto. eapply arf_row_ok; eauto.
Qed.

(** The weights meant by the argument sample_weight of a call with [n] rows *)
Definition weight_list (w : option (weights T)) (n : nat) : list T :=
  match w with
  | None => repeat n1 n
  | Some (WNum v) | Some (WArray [v]) => repeat v n
  | Some (WArray ws) | Some (WList ws) => ws
  end.
Lemma check_weights_ok w n ws : check_weights (match w with None => WNum n1 | Some w => w end) n = Ok ws -> ws = weight_list w n.
Proof.
  destruct w as [[v|l|l]|]; simpl.
  - destruct n; simpl; congruence.
  - destruct (Nat.eqb n 1); congruence.
  - destruct l as [|v [|v2 l]]; try discriminate. { destruct n; simpl; congruence. } destruct (Nat.eqb n 1); congruence.
  - destruct n; simpl; congruence.
Qed.
(** The classes: those of the first call that names them.  The rows learnt since the last reset. *)
Fixpoint classes_of (cl : option (list Z)) (os : list (arf_op X T)) : option (list Z) :=
  match os with
  | [] => cl
  | AFit _ c _ :: os => classes_of (match cl with None => c | _ => cl end) os
  | _ :: os => classes_of cl os
  end.
Fixpoint lessons (cl : option (list Z)) (L : list lesson) (os : list (arf_op X T)) : list lesson :=
  match os with
  | [] => L
  | AFit rows c w :: os => let cl := match cl with None => c | _ => cl end in lessons cl (L ++ counted rows (weight_list w (length rows)) cl) os
  | AAsk _ :: os => lessons cl L os
  | AReset :: os => lessons cl [] os
  end.
Lemma arf_run_ok : forall os L cl s s', forest_ok L cl s -> arf_run s os = Ok s' -> forest_ok (lessons cl L os) (classes_of cl os) s'.
Proof.
  induction os as [|o os IH]; intros L cl s s' F H; simpl in H.
  - injection H as <-. auto.
  - destruct (arf_step s o) as [s1|] eqn:E1; simpl in H; [|discriminate]. destruct o as [rows c w|x|]; simpl.
    + eapply IH; [|exact H]. simpl in E1. unfold AdaptiveForest.arf_fit in E1.
      destruct (check_weights _ _) as [ws|] eqn:EC; simpl in E1; [|discriminate]. apply check_weights_ok in EC. subst ws.
      eapply arf_rows_ok; eauto. destruct F as (F1 & F2 & F3 & F4). unfold forest_ok. simpl. split; [auto|]. split; [auto|]. split; [rewrite F3; destruct cl; auto|auto].
    + eapply IH; [|exact H]. simpl in E1. unfold AdaptiveForest.arf_predict_row in E1. destruct (init_ensemble x s) as [ms s2] eqn:EI.
      apply init_members_ok in EI. destruct EI as (I1 & I2 & I3 & I4 & I5).
      destruct (arf_proba_row _ _ _ _ _ _) as [p|]; simpl in E1; [|discriminate]. destruct (np_argmax p); simpl in E1; [|discriminate]. injection E1 as <-.
      destruct F as (F1 & F2 & F3 & F4). unfold forest_ok. rewrite I1. repeat split; try congruence.
      * destruct I5 as [[E1 ->]|[E1 (v & E2 & _ & ->)]]; rewrite E1 in F4; [tauto|apply repeat_length].
      * destruct I5 as [[E1 ->]|[E1 (v & E2 & _ & ->)]]; rewrite E1 in F4; [tauto|]. exists v. split; auto. intros i m Hi. apply nth_error_repeat_eq in Hi. subst. simpl. constructor.
    + eapply IH; [|exact H]. simpl in E1. injection E1 as <-. destruct F as (F1 & F2 & F3 & F4). unfold forest_ok. simpl. auto.
Qed.
Lemma arf_init_ok m : forest_ok [] None (arf_init seed m).
Proof. unfold forest_ok. simpl. auto. Qed.

(** *** Sample weights: everything but the evaluators is the same *)
Definition same_member (m m' : member B R D E) : Prop :=
  m_tree m = m_tree m' /\ m_rng m = m_rng m' /\ m_created m = m_created m' /\ m_drift m = m_drift m' /\ m_warn m = m_warn m' /\ m_bg m = m_bg m' /\
  m_last_drift m = m_last_drift m' /\ m_last_warn m = m_last_warn m' /\ m_drifts m = m_drifts m' /\ m_warns m = m_warns m'.
Lemma same_refl m : same_member m m.
Proof. unfold same_member. repeat split. Qed.
Lemma row_same x y cl k n m m' w w' m1 m1' : same_member m m' -> member_row x y w cl k n m = Ok m1 -> member_row x y w' cl k n m' = Ok m1' -> same_member m1 m1'.
Proof.
  intros S. destruct m as [a1 a2 a3 a4 a5 a6 a7 a8 a9 a10 a11], m' as [b1 b2 b3 b4 b5 b6 b7 b8 b9 b10 b11]. unfold same_member in S. simpl in S.
  destruct S as (-> & -> & -> & -> & -> & -> & -> & -> & -> & ->). unfold AdaptiveForest.member_row. simpl.
  destruct (t_predict b1 x) as [p|]; simpl; [|discriminate].
  destruct (e_add a7 p y w) as [e|]; simpl; [|discriminate]. destruct (e_add b7 p y w') as [e'|]; simpl; [|discriminate].
  destruct (0 <? k)%Z. 2: { intros H1 H2; injection H1 as <-; injection H2 as <-. unfold same_member; simpl; repeat split. }
  unfold AdaptiveForest.member_fit. simpl. destruct (t_fit b1 b2 x y cl k) as [[t r]|]; simpl; [|discriminate].
  match goal with |- bind ?a _ = _ -> _ => destruct a as [[bg r']|]; simpl; [|discriminate] end.
  destruct b4 as [d|]. 2: { intros H1 H2; injection H1 as <-; injection H2 as <-. unfold same_member; simpl; repeat split. }
  destruct (t_predict t x) as [q|]; simpl; [|discriminate]. intros H1 H2; injection H1 as <-; injection H2 as <-.
  unfold check_warning. simpl. destruct b5 as [wd|]; [destruct (d_change (d_add wd _))|]; unfold check_drift; simpl; destruct (d_change (d_add d _)); unfold member_reset; simpl.
  all: try (destruct bg; simpl).
  all: try match goal with |- context[t_reset ?a ?b] => destruct (t_reset a b); simpl end.
  all: unfold same_member; simpl; repeat split.
Qed.
Lemma members_same x y cl n w w' : forall ms ms' g r r' g1 g1', Forall2 same_member ms ms' ->
  members_row x y w cl n ms g = Ok (r, g1) -> members_row x y w' cl n ms' g = Ok (r', g1') -> Forall2 same_member r r' /\ g1 = g1'.
Proof.
  intros ms ms' g r r' g1 g1' F. revert g r r' g1 g1'. induction F as [|m m' ms ms' S F IH]; intros g r r' g1 g1' H1 H2; simpl in *.
  - injection H1 as <- <-. injection H2 as <- <-. auto.
  - destruct (poisson g) as [k g0]. destruct (member_row x y w cl k n m) eqn:E1; simpl in H1; [|discriminate]. destruct (member_row x y w' cl k n m') eqn:E2; simpl in H2; [|discriminate].
    destruct (members_row x y w cl n ms g0) as [[u v]|] eqn:E3; simpl in H1; [|discriminate]. destruct (members_row x y w' cl n ms' g0) as [[u' v']|] eqn:E4; simpl in H2; [|discriminate].
    injection H1 as <- <-. injection H2 as <- <-. destruct (IH _ _ _ _ _ E3 E4). split; auto. constructor; auto. eapply row_same; eauto.
Qed.
Lemma row_skips x y w cl k n m m' : (k <= 0)%Z -> member_row x y w cl k n m = Ok m' -> same_member m m'.
Proof.
  intros HK. unfold AdaptiveForest.member_row. destruct (t_predict (m_tree m) x) as [p|]; simpl; [|discriminate]. destruct (e_add (m_eval m) p y w) as [e|]; simpl; [|discriminate].
  destruct (Z.ltb_spec 0 k) as [L|L]; [contradiction (Zlt_not_le _ _ L)|]. intros H0. injection H0 as <-. unfold same_member; simpl; repeat split.
Qed.
(** Forests that differ in the evaluators only *)
Definition same_forest (s s' : forest) : Prop :=
  match f_members s, f_members s' with None, None => True | Some a, Some b => Forall2 same_member a b | _, _ => False end /\
  f_seen s = f_seen s' /\ f_classes s = f_classes s' /\ f_maxf s = f_maxf s' /\ f_rng s = f_rng s'.
Lemma Forall2_same_refl ms : Forall2 same_member ms ms.
Proof. induction ms; constructor; auto using same_refl. Qed.
Lemma same_forest_refl s : same_forest s s.
Proof. unfold same_forest. destruct (f_members s); repeat split; auto using Forall2_same_refl. Qed.
Lemma arf_row_same x y w w' s s' r r' : same_forest s s' -> arf_row x y w s = Ok r -> arf_row x y w' s' = Ok r' -> same_forest r r'.
Proof.
  destruct s as [ms a b c g], s' as [ms' a' b' c' g']. unfold same_forest, AdaptiveForest.arf_row. simpl. intros (F & -> & -> & -> & ->).
  unfold AdaptiveForest.init_ensemble. simpl. destruct ms as [ms|], ms' as [ms'|]; try contradiction F; simpl.
  - destruct (members_row x y w _ _ ms _) as [[u h]|] eqn:E1; simpl; [|discriminate]. destruct (members_row x y w' _ _ ms' _) as [[u' h']|] eqn:E2; simpl; [|discriminate].
    intros H1 H2. injection H1 as <-. injection H2 as <-. simpl. destruct (members_same _ _ _ _ _ _ _ _ _ _ _ _ _ F E1 E2). subst. auto.
  - destruct (members_row x y w _ _ _ _) as [[u h]|] eqn:E1; simpl; [|discriminate]. destruct (members_row x y w' _ _ _ _) as [[u' h']|] eqn:E2; simpl; [|discriminate].
    intros H1 H2. injection H1 as <-. injection H2 as <-. simpl. destruct (members_same _ _ _ _ _ _ _ _ _ _ _ _ _ (Forall2_same_refl _) E1 E2). subst. auto.
Qed.
Lemma arf_rows_same : forall rows ws ws' s s' r r', same_forest s s' -> Forall (fun w => (w =? n0)%num = false) ws -> Forall (fun w => (w =? n0)%num = false) ws' ->
  arf_rows rows ws s = Ok r -> arf_rows rows ws' s' = Ok r' -> same_forest r r'.
Proof.
  induction rows as [|[x y] rows IH]; intros ws ws' s s' r r' F A A' H H'; simpl in *.
  - injection H as <-. injection H' as <-. auto.
  - destruct ws as [|w ws]; [discriminate|]. destruct ws' as [|w' ws']; [discriminate|]. inversion_clear A. inversion_clear A'. rewrite H0 in H. rewrite H2 in H'.
    destruct (arf_row x y w s) eqn:E1; simpl in H; [|discriminate]. destruct (arf_row x y w' s') eqn:E2; simpl in H'; [|discriminate].
    eapply IH; [|exact H1|exact H3|exact H|exact H']. exact (arf_row_same _ _ _ _ _ _ _ _ F E1 E2).
Qed.
End Life.
