(** Hoeffding tree classifier: what a leaf predicts, the rows of predict_proba, routing by the tests, the size estimates. *)
From Coq Require Import List ZArith QArith Reals Bool Lia Lra Floats.
From Verif Require Import Base.Py Base.Num Base.NumFloat Base.Dict Spec.Lists Spec.NaiveBayesSpec Spec.LeafSpec Model.Adwin Model.Knn Model.SplitTests Model.SplitCriteria Model.TreeSkeleton
  Model.HoeffdingTree Spec.TreeSpec Spec.HoeffdingSpec Spec.SplitRuleSpec Proofs.CriteriaProofs Proofs.NaiveBayesProofs Proofs.KnnProofs Proofs.TreeProofs Proofs.HoeffdingProofs Proofs.SplitRuleProofs Proofs.LeafProofs
  Props.HoeffdingProps Props.HoeffdingMemoryProps Props.HoeffdingSplitProps.
Import ListNotations.

(** C140: as long as less than grace_period of weight has come since the last reset, calls of partial_fit with weights that
    are not negative never raise, and the votes of the tree are those of its leaf_prediction strategy for the samples so far:
    'mc' the weights of the labels; 'nb' those weights below nb_threshold, the Naive Bayes scores from there on; 'nba' the
    weights if the majority class was right on more weight than Naive Bayes -- each asked before learning every sample --
    and the Naive Bayes scores otherwise. *)
Theorem ht_leaf_predictions : forall k phi key (cfg : ht_config R) sz (es : list (ht_event R)) x,
  (0 < k)%R -> (forall w, c_period_due (h_memory cfg) w = false) -> Forall event_ok es ->
  (forall es1 es2, es = es1 ++ es2 -> (total_weight (samples_since es1) < h_grace cfg)%R) ->
  let h := samples_since es in
  exists s v, ht_run k phi key cfg sz ht_new es = Ok s /\ ht_votes k phi key cfg s x = Ok v
  /\ (h = [] -> v = [])
  /\ (h <> [] ->
      match h_kind cfg with
      | MC => votes_are (label_weight h) h v
      | NB => ((total_weight h < h_nb_threshold cfg)%R -> votes_are (label_weight h) h v)
              /\ ((h_nb_threshold cfg <= total_weight h)%R -> votes_are (nb_score k key (h_nominal cfg) h x) h v)
      | NBA => exists m b, hits (fun h _ => majority_says h) h m /\ hits (bayes_says k key (h_nominal cfg)) h b
              /\ ((b < m)%R -> votes_are (label_weight h) h v) /\ ((m <= b)%R -> votes_are (nb_score k key (h_nominal cfg) h x) h v)
      end).
Proof.
  intros k phi key cfg sz es x Hk Hd OK HG h.
  destruct (ht_run_ok k phi key cfg sz Hk Hd es [] ht_new OK eq_refl) as (s & E & I); [now apply light_prefixes|]. rewrite <- samples_after in I. fold h in I.
  destruct h as [|s0 h0] eqn:Eh.
  { assert (Q : ht_votes k phi key cfg s x = Ok [] \/ exists l, leafinv k key cfg [] l /\ ht_votes k phi key cfg s x = leaf_votes k key cfg l x /\ t_root (ht_tree s) = Some (Active l)).
    { unfold treeinv in I. unfold ht_votes, answering. destruct (t_root (ht_tree s)) as [[l|i|te st ch]|]; try contradiction; [right; exists l; auto|left; reflexivity]. }
    destruct Q as [Q|(l & Il & Q & Er)]; [exists s, []; repeat split; auto; congruence|]. exfalso.
    assert (NN : forall es h s, treeinv k key cfg h (ht_tree s) -> (t_root (ht_tree s) <> None -> h <> []) -> Forall event_ok es -> light cfg h es -> forall s', ht_run k phi key cfg sz s es = Ok s' -> t_root (ht_tree s') <> None -> fold_left after es h <> []).
    { clear - Hk Hd. induction es as [|e es IH]; intros h s I NE OK L s' E R; cbn [ht_run fold_left] in *; [injection E as <-; auto|].
      inversion OK as [|? ? OK1 OK2]; subst. destruct L as [L1 L2]. apply bind_Ok in E as (s1 & E1 & E). destruct (ht_step_ok k phi key cfg sz Hk Hd h s e OK1 I L1) as (s2 & E2 & I2). rewrite E1 in E2. injection E2 as <-.
      refine (IH _ s1 I2 _ OK2 L2 s' E R). intros R1 C. destruct e as [rows c ws|]; cbn [ht_step after] in *; [|injection E1 as <-; now apply R1].
      apply app_eq_nil in C as [C1 C2]. subst h. destruct (t_root (ht_tree s)) eqn:Er0; [now apply NE|].
      unfold ht_fit in E1. cbv zeta in E1. destruct (Nat.eqb _ _); [|discriminate]. apply bind_Ok in E1 as (t1 & E1 & E3). injection E3 as <-. cbn [ht_tree] in *.
      assert (Ew : match ws with Some ws => ws | None => repeat n1 (length rows) end = match ws with Some ws => ws | None => map (fun _ => 1%R) rows end).
      { destruct ws; auto. clear. induction rows; cbn; [reflexivity|]. now f_equal. }
      rewrite Ew in E1. clear Ew. revert C2 E1. generalize (match ws with Some ws => ws | None => map (fun _ => 1%R) rows end). intros w0. revert w0. generalize (ht_tree s) Er0. clear - R1.
      induction rows as [|[X y] rows IH]; intros t Er w0 C E; cbn [ht_rows] in E; [destruct w0; injection E as <-; congruence|]. destruct w0 as [|w w0]; [injection E as <-; congruence|].
      cbn [combine] in C. unfold counted in C. cbn [filter snd] in C. destruct (Req_EM_T w 0) as [->|]; [|discriminate]. apply bind_Ok in E as (t2 & E1 & E).
      unfold fit_weighted in E1. cbn [neqb NumR] in E1. unfold n0 in E1. cbn [nofZ NumR] in E1. unfold Reqb in E1. destruct (Req_EM_T 0 0); [|lra]. injection E1 as <-. exact (IH t Er w0 C E). }
    refine (NN es [] ht_new eq_refl _ OK _ s E _ _); [cbn; congruence|now apply light_prefixes|congruence|]. rewrite <- samples_after. exact Eh. }
  rewrite <- Eh in *. assert (NE : h <> []) by (rewrite Eh; discriminate). destruct (tree_votes k phi key cfg h s x NE I) as (l & Il & Ev).
  unfold leaf_votes in Ev. rewrite (bayes_votes k key cfg Hk h l x Il NE), (leaf_total k key cfg h l Il) in Ev. pose proof (weights_votes _ _ _ _ _ Il) as V1. pose proof (score_votes _ _ _ _ _ (nb_score k key (h_nominal cfg) h x) Il) as V2.
  destruct (h_kind cfg) eqn:EK.
  - exists s, (lf_stats l). split; auto. split; auto. split; [congruence|auto].
  - cbn [nleb NumR] in Ev. unfold Rleb in Ev. destruct (Rle_dec (h_nb_threshold cfg) (total_weight h)); eexists s, _; (split; [exact E|]); (split; [exact Ev|]); (split; [congruence|]); intros _; split; intros; auto; lra.
  - cbn [nltb NumR] in Ev. destruct (li_hits _ _ _ _ _ Il EK) as [H1 H2]. unfold Rltb in Ev. destruct (Rlt_dec (lf_nb l) (lf_mc l)); eexists s, _; (split; [exact E|]); (split; [exact Ev|]); (split; [congruence|]); intros _; exists (lf_mc l), (lf_nb l); (split; [exact H1|]); (split; [exact H2|]); split; intros; first [exact V1|exact V2|lra].
Qed.

(** A case: with nb_threshold 2 two samples are below grace_period 5. *)
Example ht_leaf_predictions_applies :
  let es := [HFit [([1%R], 1%Z)] None None; HReset; HFit [([0%R], 0%Z); ([7%R], 3%Z); ([2%R], 1%Z)] None (Some [1%R; 0%R; 2%R])] in
  Forall event_ok es /\ samples_since es = [([0%R], 0%Z, 1%R); ([2%R], 1%Z, 2%R)]
  /\ (forall es1 es2, es = es1 ++ es2 -> (total_weight (samples_since es1) < 5)%R).
Proof.
  cbv zeta. split; [repeat constructor; lra|]. split; [cbn; repeat (destruct (Req_EM_T _ _); try lra); reflexivity|].
  intros [|a [|b [|c [|d es1]]]] es2 E; try discriminate; [|injection E; intros; subst..]; cbn; repeat (destruct (Req_EM_T _ _); try lra); cbn; lra.
Qed.

(** C141: a row of predict_proba holds, at the place of every label with a vote, the share of the label in the sum of the
    votes (the vote itself when they sum to zero), and zero elsewhere; without a classes argument all the rows have the
    length of the longest, filled with zeros on the right. *)
Definition share (votes : list (Z * R)) (c : nat) : R :=
  let total := Rsum (map snd votes) in
  match dget votes (Z.of_nat c) with Some v => if Req_EM_T total 0 then v else (v / total)%R | None => 0%R end.
Lemma set_fold (votes : list (Z * R)) : forall acc row, NoDup (dkeys votes) -> Forall (fun kv => (0 <= fst kv)%Z) votes ->
  foldM (fun row kv => py_set row (fst kv) (snd kv)) votes acc = Ok row ->
  length row = length acc /\ forall c, nth c row 0%R = match dget votes (Z.of_nat c) with Some v => v | None => nth c acc 0%R end.
Proof.
  induction votes as [|[c v] votes IH]; intros acc row ND NN H; cbn [foldM] in H; [injection H as <-; auto|].
  inversion ND as [|? ? N1 N2]; inversion NN as [|? ? P1 P2]; subst. cbn [fst snd] in *. apply bind_Ok in H as (a1 & E1 & H).
  unfold py_set, py_index in E1. destruct (Z.leb_spec 0 c) as [Hc|]; [|lia]. destruct (Z.ltb_spec c (Z.of_nat (length acc))) as [Lc|Lc]; cbn [andb] in E1.
  2:{ destruct (Z.ltb_spec c 0); [lia|]. cbn in E1. discriminate. }
  injection E1 as <-. destruct (IH _ _ N2 P2 H) as [L Q]. rewrite set_nth_len in L. split; auto. intros j. rewrite Q. cbn [dget].
  destruct (Z.eqb_spec c (Z.of_nat j)) as [->|Nj].
  - replace (dget votes (Z.of_nat j)) with (@None R) by (symmetry; now apply dget_None). rewrite set_nth_nth by lia. now rewrite Nat2Z.id, Nat.eqb_refl.
  - destruct (dget votes (Z.of_nat j)); auto. rewrite set_nth_nth by lia. replace (Nat.eqb (Z.to_nat c) j) with false; auto. symmetry. apply Nat.eqb_neq. lia.
Qed.
Lemma dget_scaled (v : list (Z * R)) s c : dget (map (fun kv => (fst kv, (snd kv / s)%R)) v) c = match dget v c with Some u => Some (u / s)%R | None => None end.
Proof. induction v as [|[a u] v IH]; cbn; [reflexivity|]. destruct (a =? c)%Z; auto. Qed.
Lemma nth_repeat0 n c : nth c (repeat 0%R n) 0%R = 0%R.
Proof. revert c. induction n as [|n IH]; intros [|c]; cbn; auto. Qed.
Lemma row_shares cl v row : NoDup (dkeys v) -> Forall (fun kv => (0 <= fst kv)%Z) v -> ht_row cl v = Ok row -> forall c, nth c row 0%R = share v c.
Proof.
  intros ND NN H c. unfold ht_row in H. destruct v as [|kv v0] eqn:Ev.
  { injection H as <-. unfold share. cbn. destruct c as [|[|c]]; reflexivity. }
  rewrite <- Ev in *. clear kv v0 Ev. cbv zeta in H. apply bind_Ok in H as (m & _ & H). rewrite vsum_weight in H. cbn [neqb NumR ndiv] in H. unfold n0 in H. cbn [nofZ NumR] in H.
  unfold share. cbv zeta. unfold Reqb in H. destruct (Req_EM_T (Spec.CriteriaSpec.weight v) 0) as [Z0|Z0]; unfold Spec.CriteriaSpec.weight in Z0.
  - destruct (set_fold _ _ _ ND NN H) as [_ Q]. rewrite Q, nth_repeat0. destruct (Req_EM_T _ _); [|contradiction]. reflexivity.
  - assert (Ed : dkeys (map (fun kv : Z * R => (fst kv, (snd kv / Spec.CriteriaSpec.weight v)%R)) v) = dkeys v) by (unfold dkeys; rewrite map_map; reflexivity).
    destruct (set_fold _ _ _ ltac:(rewrite Ed; exact ND) ltac:(apply Forall_forall; intros q Hq; apply in_map_iff in Hq as (kv & <- & Hk); rewrite Forall_forall in NN; exact (NN _ Hk)) H) as [_ Q].
    rewrite Q, nth_repeat0, dget_scaled. destruct (Req_EM_T _ _); [contradiction|]. destruct (dget v (Z.of_nat c)); reflexivity.
Qed.
Lemma mapM_F2 {A B} (f : A -> res B) l : forall r, mapM f l = Ok r -> Forall2 (fun a b => f a = Ok b) l r.
Proof. induction l as [|a l IH]; intros r H; cbn [mapM] in H; [injection H as <-; constructor|]. apply bind_Ok in H as (b & E & H). apply bind_Ok in H as (bs & E2 & H). injection H as <-. constructor; auto. Qed.
Theorem ht_proba_rows : forall k phi key (cfg : ht_config R) s xs P, ht_proba k phi key cfg s xs = Ok P ->
  (forall x v, In x xs -> ht_votes k phi key cfg s x = Ok v -> NoDup (map fst v) /\ Forall (fun kv => (0 <= fst kv)%Z) v) ->
  Forall2 (fun x row => exists v, ht_votes k phi key cfg s x = Ok v /\ forall c, nth c row 0%R = share v c) xs P
  /\ (ht_classes s = None -> forall a b, In a P -> In b P -> length a = length b).
Proof.
  intros k phi key cfg s xs P H HV. unfold ht_proba in H. apply bind_Ok in H as (rows & E & H). apply mapM_F2 in E.
  assert (F : Forall2 (fun x row => exists v, ht_votes k phi key cfg s x = Ok v /\ forall c, nth c row 0%R = share v c) xs rows).
  { clear H. revert HV. induction E as [|x row xs rows E0 E IH]; intros HV; constructor.
    - apply bind_Ok in E0 as (v & Ev & Er). exists v. split; auto. destruct (HV x v (or_introl eq_refl) Ev) as [A B]. intros c. now apply (row_shares (ht_classes s) v row).
    - apply IH. intros x' v Hx. apply HV. now right. }
  destruct (ht_classes s) as [c|]; injection H as <-; [split; [exact F|discriminate]|]. split.
  - unfold pad_rows. generalize (fold_left Nat.max (map (length (A:=R)) rows) 0%nat). intros w. clear - F. induction F as [|x row xs rows (v & Ev & Q) F IH]; cbn [map]; constructor; auto. exists v. split; auto. intros c. rewrite <- Q.
    destruct (Nat.lt_ge_cases c (length row)) as [L|L]; [now rewrite app_nth1|]. rewrite app_nth2, (nth_overflow row) by auto. unfold n0. cbn [nofZ NumR]. apply nth_repeat0.
  - intros _. assert (M : forall l a, (a <= fold_left Nat.max (map (@length R) l) a)%nat /\ forall r : list R, In r l -> (length r <= fold_left Nat.max (map (@length R) l) a)%nat).
    { clear. induction l as [|r l IH]; intros a; cbn [map fold_left]; [split; [lia|intros r []]|]. destruct (IH (Nat.max a (length r))) as [A B]. split; [lia|]. intros r' [<-|Hr]; [lia|auto]. }
    destruct (M rows 0%nat) as [_ M0]. intros a b Ha Hb. unfold pad_rows in *. apply in_map_iff in Ha as (a0 & <- & Ha). apply in_map_iff in Hb as (b0 & <- & Hb). rewrite !app_length, !repeat_length.
    specialize (M0 _ Ha) as Ma. specialize (M0 _ Hb). lia.
Qed.

Section Props.
Context {T : Type} {N : Num T}.
Variables (k : T) (phi : T -> T) (key : T -> Z) (cfg : ht_config T) (sz : sizes T (leaf T) (list (Z * T)) (list (Z * T)) (htest T)).
Local Notation O := (ht_ops k phi key cfg).
Local Notation reached := (ht_reached k phi key cfg sz).
Local Notation fit := (ht_fit k phi key cfg sz).

(** C142: an instance follows the branch its test asks for: 0 if the value is below or equal to the threshold of a numeric
    test, 1 if it is above; 0 if it is the value of a binary nominal test, 1 if it is another; the branch of its value in a
    multiway test. *)
Definition asks (te : htest T) (x : list T) (b : Z) : Prop :=
  exists v, nth_error x (Z.to_nat (ht_att te)) = Some v /\
  match te with
  | TNum t => b = (if (v =? nt_value t)%num || (v <? nt_value t)%num then 0 else 1)%Z
  | TNom _ u => (key v = u /\ b = 0 \/ key v <> u /\ b = 1)%Z
  | TMulti t => dget (mw_map t) (key v) = Some b
  end.
Lemma at_index_nth {A} (x : list A) a v : (0 <= a)%Z -> at_index x a = Ok v -> nth_error x (Z.to_nat a) = Some v.
Proof. unfold at_index. intros H E. destruct (Z.ltb_spec a 0); [lia|]. destruct (Z.ltb_spec a 0); [lia|]. destruct (nth_error x (Z.to_nat a)); [|discriminate]. now injection E as ->. Qed.
Lemma branch_asks te n x b : test_ok te n -> ht_branch key te x = Ok b -> (0 <= b)%Z -> asks te x b.
Proof.
  intros TK H Hb. destruct te as [t|a u|t]; cbn [test_ok ht_branch] in *.
  - destruct TK as [[Ha Te] _]. unfold num_branch in H. destruct (no_attribute _ _); [injection H as <-; lia|]. apply bind_Ok in H as (v & Ev & H). exists v. split; [now apply at_index_nth|].
    rewrite Te in H. destruct (v =? nt_value t)%num; injection H as <-; reflexivity.
  - destruct TK as [Ha _]. destruct (no_attribute _ _); [injection H as <-; lia|]. apply bind_Ok in H as (v & Ev & H). exists v. split; [now apply at_index_nth|]. injection H as <-. destruct (Z.eqb_spec (key v) u); auto.
  - destruct TK as [Ha _]. unfold multi_branch in H. destruct (no_attribute _ _); [injection H as <-; lia|]. apply bind_Ok in H as (v & Ev & H). apply at_index_nth in Ev; auto. rewrite nth_error_map in Ev.
    cbn [ht_att] in *. unfold asks. cbn [ht_att]. destruct (nth_error x (Z.to_nat (mw_att t))) as [v0|]; [|discriminate]. injection Ev as <-. exists v0. split; auto. injection H as <-. destruct (dget (mw_map t) (key v0)); [reflexivity|lia].
Qed.
Theorem ht_routing : forall s r x p n, reached s -> t_root (ht_tree s) = Some r -> reaches O r x p n ->
  forall q b p', p = q ++ b :: p' -> exists te st ch, node_at r q = Some (Split te st ch) /\ asks te x b.
Proof.
  intros s r x p n R Er H. pose proof (reached_good _ _ _ _ _ _ R) as [_ W]. rewrite Er in W. clear Er R s. induction H as [l x|i x|te st ch x b Hb Lb|te st ch x b c p n Hb Lb Ec H IH]; intros q b' p' E; try (destruct q; discriminate).
  destruct q as [|b0 q]; cbn [app] in E; injection E as -> ->.
  - exists te, st, ch. split; [reflexivity|]. inversion W as [| |? ? ? _ TK _]; subst. exact (branch_asks _ _ _ _ TK Hb Lb).
  - destruct (IH (wf_child _ _ _ _ _ _ _ _ W Ec) q b' p' eq_refl) as (te' & st' & ch' & A & B). exists te', st', ch'. split; auto. cbn [node_at]. now rewrite Ec.
Qed.

(** C127, continued: with enough memory each branch of a split gets a new active leaf, which waits for grace_period of weight
    on top of the weight the split gives it. *)
Theorem ht_split_leaves : forall s x y w c s' p l' te ds, ordered T -> subtractive T -> reached s -> fit s [(x, y)] c (Some [w]) = Ok s' -> (w =? n0)%num = false ->
  c_period_due (h_memory cfg) (t_weight (ht_tree s) + w)%num = false -> enough_memory (h_memory cfg) (ht_tree s) ->
  split_conditions k phi key cfg s x y w p l' te ds ->
  exists r', t_root (ht_tree s') = Some r' /\ forall i d, nth_error ds i = Some d ->
    exists l, node_at r' (p ++ [Z.of_nat i]) = Some (Active l) /\ lf_stats l = d /\ lf_obs l = [] /\ lf_last l = vsum d /\ lf_mc l = n0 /\ lf_nb l = n0.
Proof.
  intros s x y w c s' p l' te ds Hord Hsub R H Hw ND RM SC. destruct (fit_single _ _ _ _ _ _ _ _ _ _ _ R H) as [G [[_ C]|[_ F]]]; [congruence|].
  assert (Hg : t_growth (ht_tree s) = true) by (destruct SC as (l0 & bs & best & others & _ & _ & Hg & _); exact Hg). apply (split_conditions_iff k phi key cfg sz) in SC; auto; [|intros l0 R1 EL Hd; exact (fit_decided k phi key cfg sz s x y w c s' p l0 l' R H Hw Hg R1 EL Hd)].
  destruct SC as (l & l2 & A1 & A2 & A3 & A4 & A5).
  destruct (ht_split_children k phi key cfg sz _ x y w (ht_tree s') p l l' l2 te ds (good_add _ w G) F ND RM A1 A2 A3 A4 A5) as (r' & Er & Q). exists r'. split; auto. intros i d Hi. eexists. split; [exact (Q i d Hi)|]. repeat split.
Qed.

(** C143: when a size estimate is due after a sample, the tree is measured, and the memory limit is enforced exactly if the
    measure is above max_byte_size (stop_mem_management=False): then the active leaves are as many as fit the limit by the new
    estimates, and no inactive leaf has a greater promise than an active one.  Otherwise no leaf changes. *)
Theorem ht_estimate_limit : forall s x y w c s' r', @ordered T N -> reached s -> fit s [(x, y)] c (Some [w]) = Ok s' -> (w =? n0)%num = false -> t_root (ht_tree s') = Some r' ->
  c_stop (h_memory cfg) = false -> c_period_due (h_memory cfg) (t_weight (ht_tree s) + w)%num = true ->
  exists measured r, t_root measured = Some r /\ same_stats O r r' /\
  let t' := ht_tree s' in
  let leaves := Z.to_nat (t_active t' + t_inactive t') in
  let active := Z.to_nat (t_active t') in
  let bytes j := ((nofZ (Z.of_nat j) * t_active_size t' + nofZ (Z.of_nat (leaves - j)) * t_inactive_size t') * t_overhead t')%num in
  ((c_max_bytes (h_memory cfg) <? z_tree sz measured)%num = true ->
     (forall j, (1 <= j <= active)%nat -> (c_max_bytes (h_memory cfg) <? bytes j)%num = false)
     /\ ((active < leaves)%nat -> (c_max_bytes (h_memory cfg) <? bytes (active + 1)%nat)%num = true)
     /\ forall p n q m, node_at r' p = Some n -> is_inactive n = true -> node_at r' q = Some m -> is_active m = true ->
         (promise (stats_of O m) <? promise (stats_of O n))%num = false)
  /\ ((c_max_bytes (h_memory cfg) <? z_tree sz measured)%num = false -> r' = r)
  /\ pydiv (z_tree sz measured) (nofZ (t_active measured) * t_active_size t' + nofZ (t_inactive measured) * t_inactive_size t')%num = Ok (t_overhead t').
Proof.
  intros s x y w c s' r' Hord R H Hw Er' Hs Nd. destruct (fit_single _ _ _ _ _ _ _ _ _ _ _ R H) as [G [[_ C]|[_ F]]]; [congruence|].
  destruct (ht_fit_due k phi key cfg sz _ x y w (ht_tree s') (good_add _ w G) F Nd) as (s1 & r1 & G1 & Er1 & _ & En).
  unfold estimate in En. cbv zeta in En. apply bind_Ok in En as (ae & Eae & En). apply bind_Ok in En as (ie & Eie & En). apply bind_Ok in En as (oh & Eoh & En).
  set (ms := mk_tree (t_root s1) (t_decision s1) (t_active s1) (t_inactive s1) ie ae (t_overhead s1) (t_growth s1) (t_weight s1)) in *.
  set (s2 := mk_tree (t_root s1) (t_decision s1) (t_active s1) (t_inactive s1) ie ae oh (t_growth s1) (t_weight s1)) in *.
  assert (G2 : ht_good s2) by (destruct G1 as [C W]; split; auto). exists ms, r1. split; [exact Er1|]. cbv zeta.
  destruct (c_max_bytes (h_memory cfg) <? z_tree sz ms)%num eqn:Em.
  - destruct (enforce_ok O test_ok keys_ok ndk (fun l K => proj2 K) keys_new (fun _ => eq_refl) (fun _ => eq_refl) (h_memory cfg) s2 r1 (ht_tree s') G2 Er1 En) as (_ & [RR _] & r2 & A & SS & _).
    rewrite Er' in A. injection A as <-. split; [exact SS|]. unfold same_rest in RR. cbn in RR.
    assert (Sz : t_active_size (ht_tree s') = ae /\ t_inactive_size (ht_tree s') = ie /\ t_overhead (ht_tree s') = oh) by intuition congruence. destruct Sz as (-> & -> & ->).
    pose proof (ht_enforce k phi key cfg s2 r1 (ht_tree s') r' Hord G2 Er1 Hs En Er') as (B1 & B2 & B3).
    destruct (max_active_spec (h_memory cfg) s2 (length (learning_nodes r1)) (length (learning_nodes r1)) 0) as (C1 & C2 & C3).
    fold (budget (h_memory cfg) s2 r1) in C1, C2, C3. rewrite B2, B1, !Nat2Z.id. unfold active_bytes in C2, C3. cbn [s2 t_active_size t_inactive_size t_overhead] in C2, C3. rewrite Nat.add_1_r.
    split; [|split; [discriminate|exact Eoh]]. intros _. split; [intros j Hj; apply C2; lia|]. split; [intros Hl; apply C3; lia|]. exact B3.
  - assert (E2 : ht_tree s' = s2) by congruence. rewrite E2 in *. assert (Er2 : t_root s1 = Some r') by exact Er'. rewrite Er1 in Er2. injection Er2 as <-. split; [apply same_stats_refl|]. split; [discriminate|]. split; [auto|exact Eoh].
Qed.
End Props.
Print Assumptions ht_leaf_predictions.
Print Assumptions ht_proba_rows.
Print Assumptions ht_routing.
Print Assumptions ht_split_leaves.
Print Assumptions ht_estimate_limit.

(** Cases: the tree of [q_cfg] without a size estimate has enough memory and splits; with an estimate after every sample the
    split into three leaves is measured as too large, and one leaf is deactivated. *)
Local Open Scope Z_scope.
Definition roomy_cfg : ht_config Q := mk_ht 6%Q q_crit 1%Q 1%Q false false false MC 0%Q (fun _ => true) (mk_cfg 2%Q false (fun _ => false)).
Example ht_split_leaves_applies : exists s s' r', ht_reached 1%Q (fun x => x) q_key roomy_cfg q_sizes s /\ ht_fit 1%Q (fun x => x) q_key roomy_cfg q_sizes s [([2%Q], 1)] None (Some [1%Q]) = Ok s'
  /\ enough_memory (h_memory roomy_cfg) (ht_tree s) /\ t_decision (ht_tree s') = t_decision (ht_tree s) + 1 /\ t_root (ht_tree s') = Some r'
  /\ reaches (ht_ops 1%Q (fun x => x) q_key roomy_cfg) r' [1%Q] [1] (Active (leaf_new [(0, 1%Q); (1, 1%Q)])).
Proof.
  destruct (ht_run 1%Q (fun x => x) q_key roomy_cfg q_sizes ht_new [HFit q_rows None None]) as [s|e] eqn:E; [|vm_compute in E; discriminate].
  exists s. assert (R : ht_reached 1%Q (fun x => x) q_key roomy_cfg q_sizes s) by (eexists; exact E). vm_compute in E. injection E as <-. do 2 eexists. split; [exact R|]. clear R.
  split; [vm_compute; reflexivity|]. split.
  - split; [reflexivity|]. intros n m. cbn [t_active_size t_inactive_size t_overhead ht_tree nadd nmul nltb NumQ]. apply negb_false_iff, Qle_bool_iff. rewrite !Qred_correct. unfold Qle. cbn. ring_simplify. lia.
  - split; [reflexivity|]. split; [reflexivity|]. apply route_reaches. vm_compute. reflexivity.
Qed.
Definition due_cfg : ht_config Q := mk_ht 6%Q q_crit 1%Q 1%Q false false false MC 0%Q (fun _ => true) (mk_cfg 2%Q false (fun _ => true)).
Example ht_estimate_applies : exists s s' r', ht_reached 1%Q (fun x => x) q_key due_cfg q_sizes s /\ ht_fit 1%Q (fun x => x) q_key due_cfg q_sizes s [([2%Q], 1)] None (Some [1%Q]) = Ok s'
  /\ t_root (ht_tree s') = Some r' /\ t_active (ht_tree s') = 2 /\ t_inactive (ht_tree s') = 1.
Proof.
  destruct (ht_run 1%Q (fun x => x) q_key due_cfg q_sizes ht_new [HFit q_rows None None]) as [s|e] eqn:E; [|vm_compute in E; discriminate].
  exists s. assert (R : ht_reached 1%Q (fun x => x) q_key due_cfg q_sizes s) by (eexists; exact E). vm_compute in E. injection E as <-. do 2 eexists. split; [exact R|]. clear R.
  split; [vm_compute; reflexivity|]. repeat split; reflexivity.
Qed.
