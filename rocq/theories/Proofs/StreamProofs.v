From Coq Require Import List ZArith Bool Lia Sorted Permutation.
From Verif Require Import Base.Py Model.DataStream Spec.StreamSpec.
Import ListNotations.
Local Open Scope Z_scope.

Lemma skipn_skipn {A} x y (l : list A) : skipn x (skipn y l) = skipn (x + y) l.
Proof.
  revert y. induction l as [|a l IH]; intros [|y]; rewrite ?skipn_nil, ?Nat.add_0_r; auto.
  replace (x + S y)%nat with (S (x + y)) by lia. simpl. apply IH.
Qed.

Lemma clip_in (len k : nat) : clip (Z.of_nat len) (Z.of_nat k) = Nat.min k len.
Proof. unfold clip. destruct (Z.ltb_spec (Z.of_nat k) 0); lia. Qed.

Lemma clip_neg (len k : nat) : (1 <= k <= len)%nat -> clip (Z.of_nat len) (- Z.of_nat k) = (len - k)%nat.
Proof. intros H. unfold clip. destruct (Z.ltb_spec (- Z.of_nat k) 0); lia. Qed.

Lemma pyslice_rows {A} (l : list A) (k b : nat) :
  pyslice l (Z.of_nat k) (Z.of_nat (k + b)) = rows_at k b l.
Proof.
  unfold pyslice, rows_at. rewrite !clip_in.
  destruct (Nat.le_gt_cases (length l) k) as [H|H].
  - rewrite !skipn_all2; [now rewrite firstn_nil| lia|]. rewrite firstn_length. lia.
  - rewrite (Nat.min_l k) by lia. rewrite firstn_skipn_comm.
    destruct (Nat.le_gt_cases (k + b) (length l)) as [H1|H1].
    + now rewrite Nat.min_l by lia.
    + rewrite Nat.min_r by lia. rewrite !firstn_all2 by lia. reflexivity.
Qed.

Lemma pyslice_to {A} (l : list A) (b : nat) : pyslice l 0 (Z.of_nat b) = firstn b l.
Proof. exact (pyslice_rows l 0 b). Qed.

Lemma pyslice_from_nat {A} (l : list A) (k : nat) : pyslice_from l (Z.of_nat k) = skipn k l.
Proof.
  unfold pyslice_from. rewrite clip_in. destruct (Nat.le_gt_cases (length l) k) as [H|H].
  - rewrite !skipn_all2; auto; lia.
  - now rewrite Nat.min_l by lia.
Qed.

Lemma pyslice_from_neg {A} (l : list A) (k : nat) : (1 <= k <= length l)%nat ->
  pyslice_from l (- Z.of_nat k) = skipn (length l - k) l.
Proof. intros H. unfold pyslice_from. now rewrite clip_neg. Qed.

Lemma rows_at_app {A} (l : list A) k b c : rows_at k (b + c) l = rows_at k b l ++ rows_at (k + b) c l.
Proof.
  unfold rows_at. rewrite <- (firstn_skipn b (firstn (b + c) (skipn k l))) at 1.
  rewrite firstn_firstn, Nat.min_l by lia. f_equal. rewrite <- firstn_skipn_comm. rewrite skipn_skipn.
  f_equal. f_equal. lia.
Qed.

(** ** DataStream runs *)
Section DS.
Context {V Name : Type}.
Implicit Types s : dstream V Name.

Definition to_op (o : option nat) : ds_op := match o with Some b => Next (Z.of_nat b) | None => Restart end.

Definition pack s (y : list (list V)) : ybatch V := if ds_n_targets s <? 2 then Flat (concat y) else Rows y.

(** Everything but the position is constant. *)
Definition same_data s0 s : Prop := exists i c, s = set_pos s0 i c.

Lemma same_data_refl s : same_data s s.
Proof. exists (ds_idx s), (ds_cur s). destruct s; reflexivity. Qed.
Lemma same_data_trans s1 s2 s3 : same_data s1 s2 -> same_data s2 s3 -> same_data s1 s3.
Proof. intros (i & c & ->) (j & d & ->). exists j, d. reflexivity. Qed.

Lemma ds_next_out s k b : ds_idx s = Z.of_nat k ->
  ds_next s (Z.of_nat b) =
    (set_pos s (Z.of_nat (k + b)) (Some (rows_at k b (ds_X s), pack s (rows_at k b (ds_y s)))),
     (rows_at k b (ds_X s), pack s (rows_at k b (ds_y s)))).
Proof.
  intros H. unfold ds_next. rewrite H. replace (Z.of_nat k + Z.of_nat b - Z.of_nat b) with (Z.of_nat k) by lia.
  replace (Z.of_nat k + Z.of_nat b) with (Z.of_nat (k + b)) by lia. rewrite !pyslice_rows. reflexivity.
Qed.

Lemma ds_run_app s ops1 ops2 :
  ds_run s (ops1 ++ ops2) =
  (fst (ds_run (fst (ds_run s ops1)) ops2), snd (ds_run s ops1) ++ snd (ds_run (fst (ds_run s ops1)) ops2)).
Proof.
  revert s. induction ops1 as [|o r IH]; intros s; simpl.
  - destruct (ds_run s ops2); reflexivity.
  - destruct (ds_step s o) as [s1 x]. rewrite IH. destruct (ds_run s1 r) as [s2 xs]. simpl. reflexivity.
Qed.

Lemma ds_run_pos h : forall s k, ds_idx s = Z.of_nat k ->
  let s' := fst (ds_run s (map to_op h)) in
  ds_idx s' = Z.of_nat (asked_from k h) /\ same_data s s'.
Proof.
  induction h as [|[b|] r IH]; intros s k H; cbn [map to_op ds_run ds_step asked_from].
  - split; auto using same_data_refl.
  - rewrite (ds_next_out s k b H). specialize (IH (set_pos s (Z.of_nat (k + b)) (Some (rows_at k b (ds_X s), pack s (rows_at k b (ds_y s))))) (k + b)%nat eq_refl).
    destruct (ds_run _ (map to_op r)) as [s2 xs]. simpl in *. destruct IH as [I1 I2]. split; [exact I1|].
    eapply same_data_trans; [|exact I2]. eexists _, _; reflexivity.
  - specialize (IH (ds_restart s) 0%nat eq_refl).
    destruct (ds_run _ (map to_op r)) as [s2 xs]. simpl in *. destruct IH as [I1 I2]. split; [exact I1|].
    eapply same_data_trans; [|exact I2]. eexists _, _; reflexivity.
Qed.

(** Outputs since the last restart, concatenated. *)
Definition out_x (o : ds_out V) : option (list (list V)) := match o with Batch x _ => Some x | Done => None end.
Definition ycells (y : ybatch V) : list V := match y with Flat l => l | Rows l => concat l end.
Definition out_y (o : ds_out V) : option (list V) := match o with Batch _ y => Some (ycells y) | Done => None end.

Lemma ycells_pack s y : ycells (pack s y) = concat y.
Proof. unfold pack. destruct (ds_n_targets s <? 2); reflexivity. Qed.

Definition has_none {A} (h : list (option A)) := existsb (fun o => match o with None => true | _ => false end) h.

Lemma has_none_out {A} (f : ds_out V -> option A) h s :
  (forall x y, f (Batch x y) <> None) -> f Done = None ->
  has_none (map f (snd (ds_run s (map to_op h)))) = has_none h.
Proof.
  intros Hb Hd. revert s. induction h as [|[b|] r IH]; intros s; cbn [map ds_run]; [reflexivity| |].
  - cbn [to_op ds_step]. destruct (ds_next s (Z.of_nat b)) as [s1 [x y]]. specialize (IH s1).
    destruct (ds_run s1 (map to_op r)). cbn [fst snd map has_none existsb] in *.
    change (existsb _ r) with (has_none r). rewrite <- IH.
    destruct (f (Batch x y)) eqn:E; [reflexivity|]. destruct (Hb _ _ E).
  - cbn [to_op ds_step]. specialize (IH (ds_restart s)). destruct (ds_run (ds_restart s) (map to_op r)).
    cbn [fst snd map has_none existsb]. rewrite Hd. reflexivity.
Qed.

Lemma asked_from_restart h k : has_none h = true -> asked_from k h = asked h.
Proof.
  unfold asked. enough (G : forall k j, has_none h = true -> asked_from k h = asked_from j h) by (intros; auto).
  induction h as [|[b|] r IH]; simpl; intros i j H; [discriminate| auto | reflexivity].
Qed.
Lemma asked_from_mono h : has_none h = false -> forall k, (k <= asked_from k h)%nat.
Proof.
  induction h as [|[b|] r IH]; simpl; intros H k; [lia | | discriminate].
  specialize (IH H (k + b)%nat). lia.
Qed.

Lemma rows_split {A} (l : list A) k m : rows_at 0 (k + m) l = rows_at 0 k l ++ rows_at k m l.
Proof. apply (rows_at_app l 0 k m). Qed.

Lemma ds_run_concat {A B} (f : ds_out V -> option A) (g : A -> list B) (src : dstream V Name -> list (list V))
    (out : list (list V) -> list B) :
  (forall s i c, src (set_pos s i c) = src s) -> f Done = None ->
  (forall a b, out (a ++ b) = out a ++ out b) ->
  (forall s k b, exists a, f (Batch (rows_at k b (ds_X s)) (pack s (rows_at k b (ds_y s)))) = Some a /\ g a = out (rows_at k b (src s))) ->
  (forall x y, f (Batch x y) <> None) ->
  forall h s k, ds_idx s = Z.of_nat k ->
  let outs := snd (ds_run s (map to_op h)) in
  concat (map g (since_restart (map f outs)))
  = if has_none h then out (rows_at 0 (asked h) (src s)) else out (rows_at k (asked_from k h - k) (src s)).
Proof.
  intros Hsrc Hd Happ Hf Hb.
  assert (Hnil : out [] = []). { specialize (Happ [] []). simpl in Happ. destruct (out []) as [|b l]; auto.
    apply (f_equal (@length B)) in Happ. rewrite app_length in Happ. simpl in Happ. lia. }
  induction h as [|[b|] r IH]; intros s k H; cbn [map to_op ds_run ds_step asked_from].
  - cbn. rewrite Nat.sub_diag. unfold rows_at. simpl. now rewrite Hnil.
  - rewrite (ds_next_out s k b H).
    set (s1 := set_pos s (Z.of_nat (k + b)) _). pose proof (IH s1 (k + b)%nat eq_refl) as I.
    pose proof (has_none_out f r s1 Hb Hd) as HN.
    destruct (ds_run s1 (map to_op r)) as [s2 xs] eqn:E. cbn [snd map] in *.
    destruct (Hf s k b) as (a & Ha & Hg). rewrite Ha. cbn [since_restart].
    fold (has_none (map f xs)). rewrite HN. change (has_none (Some b :: r)) with (has_none r).
    replace (src s1) with (src s) in I by (symmetry; apply Hsrc).
    destruct (has_none r) eqn:En.
    + rewrite I. unfold asked. simpl. now rewrite (asked_from_restart r b En), (asked_from_restart r 0 En).
    + cbn [map concat]. rewrite I, Hg. rewrite <- Happ. f_equal.
      pose proof (asked_from_mono r En (k + b)).
      replace (asked_from (k + b) r - k)%nat with (b + (asked_from (k + b) r - (k + b)))%nat by lia.
      now rewrite rows_at_app.
  - pose proof (IH (ds_restart s) 0%nat eq_refl) as I. cbn zeta in I. destruct (ds_run (ds_restart s) (map to_op r)) as [s2 xs].
    cbn [snd map] in *. rewrite Hd. cbn [since_restart]. rewrite I. unfold ds_restart. rewrite Hsrc.
    rewrite Nat.sub_0_r. destruct (has_none r); reflexivity.
Qed.

End DS.

(** ** Loading *)
Section Load.
Context {V Name : Type}.
Variable name_eqb : Name -> Name -> bool.
Variable isnull : V -> bool.
Variable toZ : V -> Z.

Lemma ds_finish_ok X y n nf nt fn tn ty cat (s : dstream V Name) :
  ds_finish toZ X y n nf nt fn tn ty cat = Ok s ->
  ds_X s = X /\ ds_y s = y /\ ds_n_samples s = n /\ ds_n_features s = nf /\ ds_n_targets s = nt
  /\ ds_feature_names s = fn /\ ds_target_names s = tn /\ ds_idx s = 0 /\ ds_cur s = None
  /\ ds_n_cat s = Z.of_nat (length cat) /\ ds_n_num s = nf - Z.of_nat (length cat)
  /\ ds_classification s = negb (Nat.eqb (length ty) 0) && forallb is_DInt ty.
Proof.
  unfold ds_finish. intros H. apply bind_Ok in H. destruct H as (nc & Hc & H).
  assert (nc = Z.of_nat (length cat)).
  { destruct cat; [now injection Hc|]. destruct (maxZ _ <? nf); [|discriminate]. now injection Hc. }
  subst nc. injection H as <-. repeat split; reflexivity.
Qed.

Definition built (s : dstream V Name) : Prop :=
  (exists f t n cat nan, ds_load name_eqb isnull toZ f t n cat nan = Ok s)
  \/ (exists f t n cat nan, fs_load name_eqb isnull toZ f t n cat nan = Ok s)
  \/ (exists fx fy cat nan, ds_load_Xy isnull toZ fx fy cat nan = Ok s).

Lemma built_ok s : built s ->
  length (ds_y s) = length (ds_X s) /\ ds_n_samples s = Z.of_nat (length (ds_X s)) /\ ds_idx s = 0 /\ ds_cur s = None.
Proof.
  assert (L : forall f t n cat nan, ds_load name_eqb isnull toZ f t n cat nan = Ok s ->
     length (ds_y s) = length (ds_X s) /\ ds_n_samples s = Z.of_nat (length (ds_X s)) /\ ds_idx s = 0 /\ ds_cur s = None).
  { intros f t n cat nan H. unfold ds_load in H. apply bind_Ok in H. destruct H as (u & _ & H).
    apply ds_finish_ok in H. destruct H as (-> & -> & -> & _ & _ & _ & _ & -> & -> & _). rewrite !map_length. auto. }
  intros [(f & t & n & cat & nan & H)|[(f & t & n & cat & nan & H)|(fx & fy & cat & nan & H)]]; eauto.
  unfold ds_load_Xy in H. destruct (Z.eqb_spec (Z.of_nat (length (fr_rows fy))) (Z.of_nat (length (fr_rows fx)))); simpl in H; [|discriminate].
  apply bind_Ok in H. destruct H as (u & _ & H). apply bind_Ok in H. destruct H as (u' & _ & H).
  apply ds_finish_ok in H. destruct H as (-> & -> & -> & _ & _ & _ & _ & -> & -> & _). repeat split; auto. lia.
Qed.

(** Columns *)
Hypothesis name_eqb_spec : forall a b, reflect (a = b) (name_eqb a b).

Lemma existsb_name (a : Name) l : existsb (name_eqb a) l = true <-> In a l.
Proof.
  rewrite existsb_exists. split.
  - intros (x & Hx & E). destruct (name_eqb_spec a x); congruence.
  - intros H. exists a. split; auto. destruct (name_eqb_spec a a); congruence.
Qed.

Lemma drop_all {A} (names dropped : list Name) : forall row : list A,
  (forall x, In x names -> ~ In x dropped) -> length row = length names -> drop_cols name_eqb names dropped row = row.
Proof.
  unfold drop_cols. induction names as [|a r IH]; intros [|x row] H L; simpl in *; try discriminate; auto.
  destruct (existsb (name_eqb a) dropped) eqn:E.
  - apply existsb_name in E. destruct (H a); auto.
  - simpl. f_equal. apply IH; auto.
Qed.
Lemma drop_none {A} (names dropped : list Name) : forall row : list A,
  (forall x, In x names -> In x dropped) -> drop_cols name_eqb names dropped row = [].
Proof.
  unfold drop_cols. induction names as [|a r IH]; intros row H; simpl in *; auto.
  destruct row as [|x row]; auto. simpl. replace (existsb (name_eqb a) dropped) with true; simpl.
  - apply IH. auto.
  - symmetry. apply existsb_name. auto.
Qed.
Lemma drop_app {A} (n1 n2 dropped : list Name) (r1 r2 : list A) : length n1 = length r1 ->
  drop_cols name_eqb (n1 ++ n2) dropped (r1 ++ r2) = drop_cols name_eqb n1 dropped r1 ++ drop_cols name_eqb n2 dropped r2.
Proof.
  unfold drop_cols. revert r1. induction n1 as [|a n1 IH]; intros [|x r1] H; simpl in *; try discriminate; auto.
  destruct (negb _); simpl; [f_equal|]; apply IH; lia.
Qed.

Lemma NoDup_app_disj {A} (l1 l2 : list A) : NoDup (l1 ++ l2) -> forall x, In x l1 -> In x l2 -> False.
Proof.
  induction l1 as [|a l1 IH]; simpl; intros H x H1 H2; [contradiction|].
  inversion H; subst. destruct H1 as [->|H1]; eauto. apply H4. apply in_or_app. auto.
Qed.

Lemma NoDup_app_right {A} (l1 l2 : list A) : NoDup (l1 ++ l2) -> NoDup l2.
Proof. induction l1; simpl; auto. intros H. inversion H; auto. Qed.

Lemma drop_block {A} (names : list Name) (row : list A) t n :
  NoDup names -> length row = length names -> (t + n <= length names)%nat ->
  drop_cols name_eqb names (block t n names) row = others t n row.
Proof.
  intros ND L H. unfold others, block.
  rewrite <- (firstn_skipn t names) at 1. rewrite <- (firstn_skipn n (skipn t names)) at 1.
  rewrite <- (firstn_skipn t row) at 1. rewrite <- (firstn_skipn n (skipn t row)) at 1.
  assert (E : names = firstn t names ++ firstn n (skipn t names) ++ skipn n (skipn t names)).
  { now rewrite !firstn_skipn. }
  rewrite E in ND. set (a := firstn t names) in *. set (b := firstn n (skipn t names)) in *. set (c := skipn n (skipn t names)) in *.
  rewrite !drop_app.
  - rewrite (drop_all a), (drop_none b), (drop_all c); simpl; auto.
    + rewrite skipn_skipn. do 2 f_equal. lia.
    + intros x Hc Hb. apply NoDup_app_right in ND. eapply NoDup_app_disj; eauto.
    + unfold c. rewrite !skipn_length. lia.
    + intros x Ha Hb. eapply (NoDup_app_disj _ _ ND x); auto. apply in_or_app; auto.
    + unfold a. rewrite !firstn_length. lia.
  - unfold b. rewrite !firstn_length, !skipn_length. lia.
  - unfold a. rewrite !firstn_length. lia.
Qed.

End Load.

(** ** np.unique *)
Lemma uinsert_In x l y : In y (uinsert x l) <-> y = x \/ In y l.
Proof.
  induction l as [|h t IH]; simpl; [intuition|].
  destruct (Z.ltb_spec x h); simpl; [intuition|]. destruct (Z.eqb_spec x h); simpl; [subst; intuition|].
  rewrite IH. intuition.
Qed.
Lemma uinsert_sorted x l : StronglySorted Z.lt l -> StronglySorted Z.lt (uinsert x l).
Proof.
  induction l as [|h t IH]; simpl; intros H; [repeat constructor|].
  inversion H; subst. destruct (Z.ltb_spec x h).
  - constructor; auto. constructor; auto. eapply Forall_impl; [|eassumption]. simpl. intros; lia.
  - destruct (Z.eqb_spec x h); auto. constructor; auto. apply Forall_forall. intros y Hy.
    apply uinsert_In in Hy. rewrite Forall_forall in H3. destruct Hy as [->|Hy]; [lia|auto].
Qed.
Lemma np_unique_spec l : StronglySorted Z.lt (np_unique l) /\ (forall x, In x (np_unique l) <-> In x l).
Proof.
  unfold np_unique.
  enough (G : forall acc, StronglySorted Z.lt acc -> let r := fold_left (fun acc x => uinsert x acc) l acc in
     StronglySorted Z.lt r /\ (forall x, In x r <-> In x l \/ In x acc)).
  { specialize (G [] (SSorted_nil _)). cbn zeta in G. destruct G as [G1 G2]. split; auto. intros x. rewrite G2. simpl. intuition. }
  induction l as [|a l IH]; simpl; intros acc H; [split; auto; intuition|].
  destruct (IH (uinsert a acc) (uinsert_sorted a acc H)) as [I1 I2]. split; auto.
  intros x. rewrite I2, uinsert_In. intuition.
Qed.

(** ** Temporal streams *)
Lemma sorted_perm_eq (l1 l2 : list Z) : sortedZ l1 -> sortedZ l2 -> Permutation l1 l2 -> l1 = l2.
Proof.
  revert l2. induction l1 as [|a l1 IH]; intros l2 S1 S2 P.
  - apply Permutation_nil in P. now subst.
  - destruct l2 as [|b l2]; [apply Permutation_sym, Permutation_nil in P; discriminate|].
    inversion S1 as [|? ? S1' F1]; subst. inversion S2 as [|? ? S2' F2]; subst.
    assert (a = b).
    { rewrite Forall_forall in F1, F2.
      assert (Ha : In a (b :: l2)) by (eapply Permutation_in; [exact P|left; auto]).
      assert (Hb : In b (a :: l1)) by (eapply Permutation_in; [apply Permutation_sym; exact P|left; auto]).
      destruct Ha as [->|Ha]; auto. destruct Hb as [->|Hb]; auto.
      specialize (F1 _ Hb). specialize (F2 _ Ha). lia. }
    subst b. f_equal. apply IH; auto. eapply Permutation_cons_inv; exact P.
Qed.

Definition pick {A} (d : A) (l : list A) (idx : list nat) : list A := map (fun i => nth i l d) idx.

Lemma take_idx_ok {A} (d : A) l idx : Forall (fun i => (i < length l)%nat) idx -> take_idx l idx = Ok (pick d l idx).
Proof.
  intros H. induction H as [|i idx Hi Hf IH]; simpl; auto. unfold take_idx in *. simpl. rewrite IH. simpl.
  rewrite (nth_error_nth' l d Hi). reflexivity.
Qed.
Lemma pick_seq {A} (d : A) l : pick d l (seq 0 (length l)) = l.
Proof.
  unfold pick. induction l as [|a l IH]; simpl; auto. f_equal. rewrite <- seq_shift, map_map. exact IH.
Qed.
Lemma pick_combine {A B} (d : A) (e : B) l m idx : length l = length m ->
  combine (pick d l idx) (pick e m idx) = pick (d, e) (combine l m) idx.
Proof.
  intros H. unfold pick. induction idx as [|i idx IH]; simpl; auto. rewrite combine_nth by auto. f_equal. exact IH.
Qed.
Lemma pick_perm {A} (d : A) l idx : Permutation idx (seq 0 (length l)) -> Permutation (pick d l idx) l.
Proof. intros H. rewrite <- (pick_seq d l) at 2. unfold pick. now apply Permutation_map. Qed.
Lemma pick_map {A B} (f : A -> B) d l idx : map f (pick d l idx) = pick (f d) (map f l) idx.
Proof. unfold pick. rewrite map_map. apply map_ext. intros i. now rewrite map_nth. Qed.

Lemma argsort_bound idx n : Permutation idx (seq 0 n) -> Forall (fun i => (i < n)%nat) idx.
Proof.
  intros H. apply Forall_forall. intros i Hi. eapply Permutation_in in Hi; [|exact H]. apply in_seq in Hi. lia.
Qed.
