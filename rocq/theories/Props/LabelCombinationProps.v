(** Hoeffding tree classifier: the labels it may name.  Label combination Hoeffding tree: it is a Hoeffding tree over the numbers of the combinations. *)
From Coq Require Import List ZArith QArith Reals Bool Lia Lra.
From Verif Require Import Base.Py Base.Num Base.Dict Model.Suggestion Model.Adwin Model.Knn Model.SplitCriteria Model.TreeSkeleton Model.HoeffdingTree Model.LabelCombination Spec.Lists Spec.TreeSpec Spec.HoeffdingSpec Spec.LabelSpec
  Proofs.KnnProofs Proofs.NaiveBayesProofs Proofs.TreeProofs Proofs.HoeffdingProofs Proofs.TreeEveryProofs Proofs.HatVotesProofs Proofs.HoeffdingLabelProofs Proofs.HoeffdingPositiveProofs Proofs.LabelCombinationProofs Props.HoeffdingPredictProps.
Import ListNotations.

Section Any.
Context {T : Type} {N : Num T}.
Variables (k : T) (phi : T -> T) (key : T -> Z) (cfg : ht_config T) (sz : sizes T (leaf T) (list (Z * T)) (list (Z * T)) (htest T)).
Local Notation run := (ht_run k phi key cfg sz).

(** C302: the votes of a Hoeffding tree name only labels of samples with a weight other than zero taught since the last reset, or 0; every label
    once. *)
Theorem ht_votes_labels : forall es s x v, run ht_new es = Ok s -> ht_votes k phi key cfg s x = Ok v -> NoDup (map fst v) /\ forall c, In c (map fst v) -> In c (taught es) \/ c = 0%Z.
Proof.
  intros es s x v Hr Hv. split.
  - assert (W : root_every (keys_ok (T := T)) ndk ndk (ht_tree s)).
    { assert (I0 : root_every (keys_ok (T := T)) ndk ndk (ht_tree (ht_new (T := T)))) by (intros r; cbn; discriminate). revert Hr I0. generalize (ht_new (T := T)).
      assert (One : forall t x0 y w t', root_every (keys_ok (T := T)) ndk ndk t -> fit_weighted (ht_ops k phi key cfg) (h_memory cfg) sz t x0 y w = Ok t' -> root_every (keys_ok (T := T)) ndk ndk t').
      { intros t x0 y w t' W. apply (every_fit_weighted (ht_ops k phi key cfg) (h_memory cfg) sz keys_ok ndk ndk (fun _ _ => True)); auto; cbn [o_new o_child o_stop o_start o_stats o_learn_inactive ht_ops].
        - apply keys_new. constructor.
        - intros l d _. apply keys_new.
        - intros l [_ A]. exact A.
        - apply keys_new.
        - intros l x1 y1 w1 l' _. apply keys_learn.
        - intros i _ y1 w1 i' _ A [= <-]. now apply update_stats_ndk.
        - intros l [_ A]. exact A.
        - intros l d A H. pose proof (decide_keys _ _ _ _ _ A H) as B. destruct d as [l'|l'|l' te ds]; auto. destruct (decide_split _ _ key _ _ _ _ _ A H) as [_ C]. split.
          + clear B C. cbn [o_decide ht_ops] in H. unfold decide in H. cbv zeta in H. destruct (leaf_pure l); [discriminate|]. apply bind_Ok in H as (bs & Eb & H). destruct (rev _) as [|best [|second rest]].
            * discriminate.
            * injection H as H. destruct (sg_test best); [|discriminate]. injection H as <- _ _. exact A.
            * apply bind_Ok in H as (bound & _ & H). apply bind_Ok in H as (poor & _ & H). injection H as H. destruct (disable_all cfg poor l A) as [D _]. destruct (_ || _); [|discriminate]. destruct (sg_test best); [|discriminate]. injection H as <- _ _. exact D.
          + apply Forall_forall. intros d Hd. apply (C d Hd). }
      induction es as [|e es IH]; intros s0 Hr W; cbn [ht_run] in Hr; [injection Hr as <-; exact W|]. apply bind_Ok in Hr as (s1 & E & Hr). apply (IH s1 Hr). destruct e as [rows c ws|]; cbn [ht_step] in E; [|injection E as <-; intros r; cbn; discriminate].
      unfold ht_fit in E. cbv zeta in E. destruct (Nat.eqb _ _); [|discriminate]. apply bind_Ok in E as (t & E & E'). injection E' as <-. cbn [ht_tree]. revert W E. generalize (match ws with Some ws => ws | None => repeat n1 (length rows) end) (ht_tree s0). clear - One.
      induction rows as [|[x y] rows IH]; intros ws t0 W E; cbn [ht_rows] in E; [injection E as <-; exact W|]. destruct ws as [|w ws]; [injection E as <-; exact W|]. apply bind_Ok in E as (t1 & E1 & E). exact (IH ws t1 (One _ _ _ _ _ W E1) E). }
    unfold ht_votes in Hv. apply bind_Ok in Hv as (n & A & H). destruct n as [n|]; [|injection H as <-; constructor].
    apply (every_answering (ht_ops k phi key cfg) keys_ok ndk ndk) in A; auto. destruct n as [l|i|te st ch]; inversion A; subst; try (injection H as <-; assumption).
    unfold leaf_votes in H. match goal with K : keys_ok l |- _ => destruct K as [_ K1] end. destruct (h_kind cfg); [injection H as <-; exact K1|destruct (_ <=? _)%num|destruct (_ <? _)%num]; try (injection H as <-; exact K1); exact (nb_votes_ndk k phi key tt (fun g => (0%Z, g)) _ _ _ _ K1 H).
  - pose proof (ht_run_within k phi key cfg sz es ht_new s [] ltac:(intros r; cbn; discriminate) Hr) as W. exact (votes_within k phi key cfg _ s x v W Hv).
Qed.

(** C303: the combinations of [n] labels and the numbers below 2^n stand for each other. *)
Theorem lc_numbers : forall n, (1 <= n)%nat ->
  (forall y, combination n y -> exists i, transform_label y = Ok (Z.of_nat i) /\ (Z.of_nat i < 2 ^ Z.of_nat n)%Z /\ written (Z.of_nat n) i = Ok y) /\
  (forall i, (Z.of_nat i < 2 ^ Z.of_nat n)%Z -> exists y, written (Z.of_nat n) i = Ok y /\ combination n y /\ transform_label y = Ok (Z.of_nat i)).
Proof.
  intros n Hn. split.
  - intros y Hy. pose proof Hy as [L F]. pose proof (number_range y F) as R. rewrite L in R. exists (Z.to_nat (number y)). rewrite Z2Nat.id by lia. split; [now apply (transform_ok n)|]. split; [lia|].
    destruct (written_ok n (Z.to_nat (number y)) Hn ltac:(lia)) as (z & Ez & [Lz Fz] & Nz). rewrite Ez. f_equal. apply number_inj; auto; lia.
  - intros i Hi. destruct (written_ok n i Hn Hi) as (y & Ey & Cy & Ny). exists y. repeat split; auto; try apply Cy. rewrite (transform_ok n y Hn Cy). now rewrite Ny.
Qed.

(** C304: taught combinations of n_labels labels, the tree and its probabilities are those of a Hoeffding tree taught the numbers of the combinations,
    whatever [classes] says; it raises when that one raises.  C305: it then predicts, for every sample, the combination of n_labels zeros and ones
    whose number the Hoeffding tree predicts. *)
Lemma argmax_from_lt (l : list T) : forall i b m, (b < i)%nat -> (argmax_from l i b m < i + length l)%nat.
Proof. induction l as [|v l IH]; intros i b m H; cbn [argmax_from length]; [lia|]. destruct (_ <? _)%num; [specialize (IH (S i) i v ltac:(lia))|specialize (IH (S i) b m ltac:(lia))]; lia. Qed.
Lemma argmax_lt (l : list T) i : np_argmax l = Ok i -> (i < length l)%nat.
Proof. destruct l as [|v l]; cbn; [discriminate|]. intros [= <-]. pose proof (argmax_from_lt l 1 0 v ltac:(lia)). lia. Qed.
Lemma fold_set_length (votes : list (Z * T)) : forall acc row, foldM (fun row kv => py_set row (fst kv) (snd kv)) votes acc = Ok row -> length row = length acc.
Proof.
  induction votes as [|[c v] votes IH]; intros acc row H; cbn [foldM] in H; [injection H as <-; auto|]. apply bind_Ok in H as (a1 & E1 & H). apply IH in H. rewrite H. unfold py_set in E1. destruct (py_index _ _); [|discriminate]. injection E1 as <-. apply set_nth_len.
Qed.
Lemma row_length (v : list (Z * T)) row (B : Z) : (1 <= B)%Z -> (forall c, In c (map fst v) -> (0 <= c < B)%Z) -> ht_row None v = Ok row -> (1 <= Z.of_nat (length row) <= B)%Z.
Proof.
  intros HB H E. unfold ht_row in E. destruct v as [|kv v0] eqn:Ev; [injection E as <-; cbn; lia|]. rewrite <- Ev in *. clear kv v0 Ev. cbv zeta in E. apply bind_Ok in E as (m & Em & E). apply fold_set_length in E. rewrite repeat_length in E.
  assert (Hm : In m (map fst v)). { apply zmax_in in Em. unfold dkeys in Em. destruct (_ =? _)%num in Em; [exact Em|]. rewrite map_map in Em. exact Em. }
  specialize (H m Hm). lia.
Qed.
Lemma pad_lengths (rows : list (list T)) (B : Z) : (0 <= B)%Z -> (forall r, In r rows -> (1 <= Z.of_nat (length r) <= B)%Z) -> forall r, In r (pad_rows rows) -> (1 <= Z.of_nat (length r) <= B)%Z.
Proof.
  intros HB H r Hr. unfold pad_rows in Hr. apply in_map_iff in Hr as (r0 & <- & Hr). rewrite app_length, repeat_length.
  assert (M : forall l a, (Z.of_nat a <= B)%Z -> (forall r, In r l -> (1 <= Z.of_nat (length r) <= B)%Z) -> (Z.of_nat (fold_left Nat.max (map (@length T) l) a) <= B)%Z).
  { clear. induction l as [|r l IH]; intros a Ha H; cbn [map fold_left]; auto. apply IH; [|intros; apply H; now right]. specialize (H r (or_introl eq_refl)). lia. }
  specialize (M rows 0%nat ltac:(lia) H). specialize (H r0 Hr). lia.
Qed.
Lemma taught_acc n es acc : Forall (combination n) acc -> combinations n es -> Forall (combination n) (fold_left (fun acc (e : lc_event T) => match e with LFit rows _ ws => acc ++ labels_of rows ws | LReset => [] end) es acc).
Proof.
  intros A F. revert acc A. induction F as [|e es He F IH]; intros acc A; cbn [fold_left]; auto. apply IH. destruct e as [rows c ws|]; [|constructor]. apply Forall_app. split; auto. unfold labels_of. apply Forall_forall. intros y Hy. apply in_map_iff in Hy as ([[x0 y0] w0] & <- & Hy). apply filter_In in Hy as [Hy _]. apply in_combine_l in Hy. rewrite Forall_forall in He. exact (He _ Hy).
Qed.
Theorem lc_is_hoeffding : forall n es xs, (1 <= n)%nat -> combinations n es ->
  match lc_run k phi key cfg sz (mk_lc tree_new (Z.of_nat n)) es, run ht_new (numbered es) with
  | Ok s, Ok h =>
      lc_tree s = ht_tree h /\ lc_proba k phi key cfg s xs = ht_proba k phi key cfg h xs /\
      match lc_predict k phi key cfg s xs, ht_predict k phi key cfg h xs with
      | Ok ys, Ok is => Forall2 (fun y i => combination n y /\ number y = Z.of_nat i) ys is
      | Raise e, Raise e' => e = e'
      | _, _ => False
      end
  | Raise e, Raise e' => e = e'
  | _, _ => False
  end.
Proof.
  intros n es xs Hn F. destruct (run_same k phi key cfg sz n es Hn F tree_new (Z.of_nat n)) as [E C]. rewrite E. change (mk_htc tree_new None) with (ht_new (T := T)) in *. clear E. destruct (run ht_new (numbered es)) as [h|e] eqn:Eh; cbn [bind]; [|reflexivity].
  specialize (C h eq_refl). cbn [lc_tree]. split; [reflexivity|].
  assert (Ep : lc_proba k phi key cfg (mk_lc (ht_tree h) (Z.of_nat n)) xs = ht_proba k phi key cfg h xs).
  { unfold lc_proba. cbn [lc_tree]. destruct h as [t c]. cbn [ht_tree ht_classes] in *. now subst c. }
  split; [exact Ep|]. unfold lc_predict, ht_predict. rewrite Ep. cbn [lc_n]. destruct (ht_proba k phi key cfg h xs) as [P|e] eqn:EP; cbn [bind]; [|reflexivity].
  assert (B : forall r, In r P -> (1 <= Z.of_nat (length r) <= 2 ^ Z.of_nat n)%Z).
  { unfold ht_proba in EP. apply bind_Ok in EP as (rows & Er & EP). rewrite C in EP. injection EP as <-. assert (P1 : (1 <= 2 ^ Z.of_nat n)%Z) by (pose proof (Z.pow_pos_nonneg 2 (Z.of_nat n)); lia).
    apply pad_lengths; [lia|]. intros r Hr. destruct (mapM_in _ _ _ Er _ Hr) as (x & _ & E). rewrite C in E. apply bind_Ok in E as (v & Ev & E). apply (row_length v r _ P1); auto. intros c Hc. destruct (ht_votes_labels _ _ _ _ Eh Ev) as [_ Q]. apply Q in Hc as [Hc| ->]; [|lia].
    rewrite numbered_taught in Hc. apply in_map_iff in Hc as (y & <- & Hy). pose proof (taught_acc n es [] (Forall_nil _) F) as G. rewrite Forall_forall in G. destruct (G y Hy) as [L Fy]. rewrite <- L. now apply number_range. }
  clear - B Hn. induction P as [|r P IH]; cbn [mapM bind]; [constructor|]. specialize (IH ltac:(intros; apply B; now right)). specialize (B r (or_introl eq_refl)).
  destruct (np_argmax r) as [i|e] eqn:Ei; cbn [bind]; [|destruct r; [cbn in B; lia|discriminate]]. apply argmax_lt in Ei. destruct (written_ok n i Hn ltac:(lia)) as (y & Ey & Cy & Ny). rewrite Ey. cbn [bind].
  destruct (mapM _ P) as [ys|e1], (mapM np_argmax P) as [is|e2]; cbn [bind]; try contradiction; auto. 
Qed.

(** C305, also: before the first sample every prediction is the combination of n_labels zeros. *)
Theorem lc_untrained : forall n x, (1 <= n)%nat -> lc_predict k phi key cfg (mk_lc tree_new (Z.of_nat n)) [x] = Ok [repeat 0%Z n].
Proof.
  intros n x Hn. unfold lc_predict, lc_proba, ht_proba, ht_votes, answering. cbn. unfold written. cbn. destruct (Z.ltb_spec (Z.of_nat n) 0); [lia|]. rewrite Nat2Z.id. cbn. repeat f_equal. destruct n as [|n]; [lia|]. cbn [Nat.sub]. rewrite Nat.sub_0_r.
  clear. induction n as [|n IH]; [reflexivity|]. cbn [repeat app]. now rewrite IH.
Qed.
End Any.

(** C306: taught with weights that are not negative, a Hoeffding tree votes no negative weight, and every label it predicts was taught since the last
    reset or is 0. *)
Definition weights_ok (ws : option (list R)) : Prop := match ws with Some ws => Forall (fun w => (0 <= w)%R) ws | None => True end.
Theorem ht_votes_not_negative : forall k phi key (cfg : ht_config R) sz es s x v, (0 < k)%R -> (forall z, (0 <= phi z)%R) -> Forall (fun e => match e with HFit _ _ ws => weights_ok ws | HReset => True end) es ->
  ht_run k phi key cfg sz ht_new es = Ok s -> ht_votes k phi key cfg s x = Ok v -> forall c u, In (c, u) v -> (0 <= u)%R.
Proof.
  intros k phi key cfg sz es s x v Hk Hp F Hr Hv c u Hin. assert (W : tree_nneg (ht_tree s)).
  { refine (run_nneg k phi key cfg sz Hk Hp es ht_new s _ _ Hr); [|intros r; cbn; discriminate]. eapply Forall_impl; [|exact F]. intros [rows cl [ws|]|]; auto. }
  pose proof (votes_nneg k phi key cfg Hk s x v W Hv) as Q. unfold nneg in Q. rewrite Forall_forall in Q. exact (Q _ Hin).
Qed.
Theorem ht_predicts_taught : forall k phi key (cfg : ht_config R) sz es s xs is, (0 < k)%R -> (forall z, (0 <= phi z)%R) -> Forall (fun e => match e with HFit _ _ ws => weights_ok ws | HReset => True end) es ->
  ht_run k phi key cfg sz ht_new es = Ok s -> (forall c, In c (taught es) -> (0 <= c)%Z) -> ht_predict k phi key cfg s xs = Ok is ->
  forall i, In i is -> In (Z.of_nat i) (taught es) \/ i = 0%nat.
Proof.
  intros k phi key cfg sz es s xs is Hk Hp Hw Hr Hpos H i Hi. assert (Hv : forall x v c u, In x xs -> ht_votes k phi key cfg s x = Ok v -> In (c, u) v -> (0 <= u)%R) by (intros x v c u _ Ev; exact (ht_votes_not_negative k phi key cfg sz es s x v Hk Hp Hw Hr Ev c u)).
  unfold ht_predict in H. apply bind_Ok in H as (P & EP & H). apply (mapM_in _ _ _ H) in Hi as (row & Hrow & Ei).
  destruct (ht_proba_rows k phi key cfg s xs P EP) as [F _].
  { intros x v Hx Ev. destruct (ht_votes_labels k phi key cfg sz es s x v Hr Ev) as [A B]. split; [exact A|]. apply Forall_forall. intros [c u] Hcu. cbn [fst]. apply (in_map fst) in Hcu. apply B in Hcu as [Hc|Hc]; [now apply Hpos|cbn in Hc; lia]. }
  assert (G : exists x, In x xs /\ exists v, ht_votes k phi key cfg s x = Ok v /\ forall c, nth c row 0%R = share v c).
  { clear - F Hrow. induction F as [|x r xs P Q F IH]; [destruct Hrow|]. destruct Hrow as [<-|Hrow]; [exists x; split; [now left|exact Q]|]. destruct (IH Hrow) as (x' & Hx & Q'). exists x'. split; [now right|exact Q']. }
  destruct G as (x & Hx & v & Ev & Sh). destruct (ht_votes_labels k phi key cfg sz es s x v Hr Ev) as [ND Lab].
  destruct (Nat.eq_dec i 0) as [->|Ni]; [auto|left]. assert (NE : row <> []) by (destruct row; [discriminate|discriminate]). destruct (np_argmax_ok row NE) as (c & Ec & (Lc & _ & M)). rewrite Ei in Ec. injection Ec as <-.
  specialize (M 0%nat ltac:(lia)). rewrite !Sh in M. unfold share in M. cbv zeta in M. set (tot := Rsum (map snd v)) in *. destruct (dget v (Z.of_nat i)) as [u|] eqn:Eu.
  { apply dget_In in Eu. apply (in_map fst) in Eu. destruct (Lab _ Eu) as [L0|L0]; [exact L0|cbn in L0; lia]. }
  exfalso. assert (T0 : (0 <= tot)%R). { unfold tot. assert (Q : forall c u, In (c, u) v -> (0 <= u)%R) by (intros; eapply Hv; eauto). clear - Q. induction v as [|[c u] v IH]; cbn; [lra|]. pose proof (Q c u (or_introl eq_refl)). specialize (IH ltac:(intros; eapply Q; right; eauto)). unfold Rsum in IH |- *. cbn in *. lra. }
  destruct (dget v (Z.of_nat 0)) as [u0|] eqn:E0; [|lra]. apply dget_In in E0. pose proof (Hv _ _ _ _ Hx Ev E0) as U0. destruct (Req_EM_T tot 0); [lra|]. assert (0 <= u0 / tot)%R by (apply Rmult_le_pos; [lra|]; left; apply Rinv_0_lt_compat; lra). lra.
Qed.
(** For combinations: the predicted one was taught since the last reset or has no label. *)
Theorem lc_predicts_taught : forall k phi key (cfg : ht_config R) sz n es s xs ys, (0 < k)%R -> (forall z, (0 <= phi z)%R) -> Forall (fun e => match e with LFit _ _ ws => weights_ok ws | LReset => True end) es ->
  (1 <= n)%nat -> combinations n es -> lc_run k phi key cfg sz (mk_lc tree_new (Z.of_nat n)) es = Ok s -> lc_predict k phi key cfg s xs = Ok ys ->
  forall y, In y ys -> combination n y /\ (In y (lc_taught es) \/ y = repeat 0%Z n).
Proof.
  intros k phi key cfg sz n es s xs ys Hk Hph Hw Hn F Hr Hp y Hy. pose proof (lc_is_hoeffding k phi key cfg sz n es xs Hn F) as Q. rewrite Hr, Hp in Q. destruct (ht_run k phi key cfg sz ht_new (numbered es)) as [h|] eqn:Eh; [|contradiction]. destruct Q as (Et & _ & Q). destruct (ht_predict k phi key cfg h xs) as [is|] eqn:Ei; [|contradiction].
  assert (G : exists i, In i is /\ combination n y /\ number y = Z.of_nat i).
  { clear - Q Hy. induction Q as [|a i ys is A Q IH]; [destruct Hy|]. destruct Hy as [<-|Hy]; [exists i; split; [now left|exact A]|]. destruct (IH Hy) as (j & Hj & A'). exists j. split; [now right|exact A']. }
  destruct G as (i & Hi & Cy & Ny). split; [exact Cy|]. pose proof (proj2 (run_same k phi key cfg sz n es Hn F tree_new (Z.of_nat n)) h Eh) as Ch. pose proof (taught_acc n es [] (Forall_nil _) F) as Ct. rewrite Forall_forall in Ct. change (fold_left _ es []) with (lc_taught es) in Ct.
  destruct (ht_predicts_taught k phi key cfg sz (numbered es) h xs is Hk Hph) with (i := i) as [A|A]; auto.
  - unfold numbered. apply Forall_map. eapply Forall_impl; [|exact Hw]. intros [rows cl ws|]; auto.
  - intros c Hc. rewrite numbered_taught in Hc. apply in_map_iff in Hc as (z & <- & Hz). apply number_range. apply (Ct z Hz).
  - left. rewrite numbered_taught, <- Ny in A. apply in_map_iff in A as (z & Ez & Hz). destruct (Ct z Hz) as [Lz Fz]. destruct Cy as [Ly Fy]. replace y with z; auto. apply number_inj; auto. lia.
  - right. subst i. destruct Cy as [Ly Fy]. apply number_inj; auto; [now rewrite repeat_length|apply Forall_forall; intros b Hb; apply repeat_spec in Hb; auto|]. rewrite number_zeros. exact Ny.
Qed.

(** C307, REFUTED: n_labels is not optional, the label vectors need not have n_labels entries nor hold zeros and ones, and a prediction need not be
    a vector that was taught. *)
Definition lq_cfg : ht_config Q := mk_ht 200 (mk_crit (fun _ _ => Some 0) (fun _ => 1)) (1#10) (1#20) false false false MC 0 (fun _ => false) (mk_cfg 1000 false (fun _ => false)).
Definition lq_sz : sizes Q (leaf Q) (list (Z * Q)) (list (Z * Q)) (htest Q) := mk_sizes (fun _ => 1) (fun _ => 1) (fun _ => 1).
Definition lq_taught (n : Z) (y : list Z) : res (list (list Z)) :=
  s <- lc_run 1 (fun q => q) (fun q => Qnum q) lq_cfg lq_sz (mk_lc tree_new n) [LFit [([1], y)] None None] ;; lc_predict 1 (fun q => q) (fun q => Qnum q) lq_cfg s [[1]].
Theorem lc_labels_refuted :
  lc_new (T := Q) (N := NumQ) None = Raise ValueError /\
  lq_taught 1 [1; 0]%Z = Ok [[1; 0]%Z] /\ lq_taught 3 [1; 1]%Z = Ok [[0; 1; 1]%Z] /\ lq_taught 1 [0; 1]%Z = Ok [[1]%Z] /\ lq_taught 2 [10]%Z = Ok [[1; 0]%Z] /\ lq_taught 2 [2; 0]%Z = Raise ValueError.
Proof. repeat split; vm_compute; reflexivity. Qed.

(** Cases *)
Example lc_applies : let es := [LFit [([1], [1; 1]%Z); ([1], [0; 1]%Z); ([2], [0; 1]%Z)] None None; LFit [([1], [1; 0]%Z)] (Some [7%Z]) (Some [0])] in
  combinations 2 es /\ lc_taught es = [[1; 1]; [0; 1]; [0; 1]]%Z /\ taught (numbered es) = [3; 1; 1]%Z
  /\ (s <- lc_run 1 (fun q => q) (fun q => Qnum q) lq_cfg lq_sz (mk_lc tree_new 2) es ;; lc_predict 1 (fun q => q) (fun q => Qnum q) lq_cfg s [[1]]) = Ok [[0; 1]%Z].
Proof. cbv zeta. split; [unfold combinations, combination; repeat match goal with |- Forall _ _ => constructor | |- _ /\ _ => split | |- context [match _ with _ => _ end] => cbn | |- True => exact I end; cbn; auto|]. split; [vm_compute; reflexivity|]. split; vm_compute; reflexivity. Qed.
Print Assumptions ht_votes_labels.
Print Assumptions lc_numbers.
Print Assumptions lc_is_hoeffding.
Print Assumptions lc_untrained.
Print Assumptions ht_votes_not_negative.
Print Assumptions ht_predicts_taught.
Print Assumptions lc_predicts_taught.
Print Assumptions lc_labels_refuted.
