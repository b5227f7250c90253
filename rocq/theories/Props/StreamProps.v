(** C37, C38, C73-C78: finite data streams. *)
From Coq Require Import List ZArith Bool Lia Sorted Permutation.
From Verif Require Import Base.Py Model.DataStream Spec.StreamSpec Proofs.StreamProofs.
Import ListNotations.
Local Open Scope Z_scope.

(** C37. After any calls, next_sample(b) returns the b rows that follow the rows asked for since the last
    (re)start, features and targets of the same rows, and last_sample returns the same again. *)
Theorem datastream_next_is_following_rows : forall V Name (eqb : Name -> Name -> bool) (isnull : V -> bool) toZ s0 (h : calls) (b : nat),
  built eqb isnull toZ s0 ->
  let s := fst (ds_run s0 (map to_op h)) in
  let x := rows_at (asked h) b (ds_X s0) in
  let y := rows_at (asked h) b (ds_y s0) in
  let out := (x, if ds_n_targets s0 <? 2 then Flat (concat y) else Rows y) in
  snd (ds_next s (Z.of_nat b)) = out
  /\ ds_last (fst (ds_next s (Z.of_nat b))) = Some out
  /\ length x = length y /\ length x = Nat.min b (length (ds_X s0) - asked h).
Proof.
  intros V Name eqb isnull toZ s0 h b B s x y out. destruct (built_ok _ _ _ _ B) as (L & _ & I & _).
  destruct (ds_run_pos h s0 0 I) as [P (i & c & E)]. fold s in P, E.
  rewrite (ds_next_out s (asked h) b P). rewrite E. unfold pack. cbn.
  unfold x, y, rows_at. rewrite !firstn_length, !skipn_length, L. auto.
Qed.

(** C37. The batches since the last (re)start, put together, are the first rows of the data. *)
Theorem datastream_delivers_in_order : forall V Name (eqb : Name -> Name -> bool) (isnull : V -> bool) toZ s0 (h : calls),
  built eqb isnull toZ s0 ->
  let outs := snd (ds_run s0 (map to_op h)) in
  concat (since_restart (map out_x outs)) = firstn (asked h) (ds_X s0)
  /\ concat (since_restart (map out_y outs)) = concat (firstn (asked h) (ds_y s0)).
Proof.
  intros V Name eqb isnull toZ s0 h B outs. destruct (built_ok _ _ _ _ B) as (L & _ & I & _). split.
  - pose proof (ds_run_concat out_x (fun a => a) (@ds_X V Name) (fun a => a)) as H.
    specialize (H ltac:(reflexivity) ltac:(reflexivity) ltac:(reflexivity)).
    specialize (H ltac:(intros; eexists; split; reflexivity) ltac:(intros; discriminate) h s0 0%nat I).
    cbn zeta in H. fold outs in H. rewrite map_id in H. rewrite H.
    destruct (has_none h); [reflexivity|]. rewrite Nat.sub_0_r. reflexivity.
  - pose proof (ds_run_concat out_y (fun a => a) (@ds_y V Name) (@concat V)) as H.
    specialize (H ltac:(reflexivity) ltac:(reflexivity) ltac:(intros; apply concat_app)).
    specialize (H ltac:(intros; eexists; split; [reflexivity|apply ycells_pack]) ltac:(intros; discriminate) h s0 0%nat I).
    cbn zeta in H. fold outs in H. rewrite map_id in H. rewrite H.
    destruct (has_none h); [reflexivity|]. rewrite Nat.sub_0_r. reflexivity.
Qed.

(** C37: the data never change, and restart gives the stream as it was constructed. *)
Theorem datastream_restart_starts_over : forall V Name (eqb : Name -> Name -> bool) (isnull : V -> bool) toZ s0 (h : calls),
  built eqb isnull toZ s0 -> ds_restart (fst (ds_run s0 (map to_op h))) = s0.
Proof.
  intros V Name eqb isnull toZ s0 h B. destruct (built_ok _ _ _ _ B) as (_ & _ & I & C).
  destruct (ds_run_pos h s0 0 I) as [_ (i & c & E)]. rewrite E. unfold ds_restart, set_pos. destruct s0; simpl in *. congruence.
Qed.

(** C38: has_more_samples tells whether undelivered samples are left; n_remaining_samples is their number as
    long as the user never asked for more rows than there were. *)
Theorem datastream_remaining_partial : forall V Name (eqb : Name -> Name -> bool) (isnull : V -> bool) toZ s0 (h : calls),
  built eqb isnull toZ s0 ->
  let s := fst (ds_run s0 (map to_op h)) in
  let left := (length (ds_X s0) - length (firstn (asked h) (ds_X s0)))%nat in
  ds_has_more s = negb (Nat.eqb left 0)
  /\ ((asked h <= length (ds_X s0))%nat -> ds_n_remaining s = Z.of_nat left).
Proof.
  intros V Name eqb isnull toZ s0 h B s left. destruct (built_ok _ _ _ _ B) as (_ & N & I & _).
  destruct (ds_run_pos h s0 0 I) as [P (i & c & E)]. fold s in P, E. fold (asked h) in P.
  unfold ds_has_more, ds_n_remaining. rewrite P. replace (ds_n_samples s) with (ds_n_samples s0) by (rewrite E; reflexivity).
  rewrite N. unfold left. rewrite firstn_length. split.
  - destruct (Nat.eqb_spec (length (ds_X s0) - Nat.min (asked h) (length (ds_X s0))) 0);
      destruct (Z.gtb_spec (Z.of_nat (length (ds_X s0)) - Z.of_nat (asked h)) 0); auto; lia.
  - intros H. lia.
Qed.

(** C38 refuted: whenever more rows were asked for than there are, the count is negative. *)
Theorem datastream_remaining_negative_refuted : forall V Name (eqb : Name -> Name -> bool) (isnull : V -> bool) toZ s0 (h : calls),
  built eqb isnull toZ s0 -> (length (ds_X s0) < asked h)%nat ->
  ds_n_remaining (fst (ds_run s0 (map to_op h))) < 0.
Proof.
  intros V Name eqb isnull toZ s0 h B H. destruct (built_ok _ _ _ _ B) as (_ & N & I & _).
  destruct (ds_run_pos h s0 0 I) as [P (i & c & E)]. fold (asked h) in P.
  unfold ds_n_remaining. rewrite P, E. cbn. rewrite N. lia.
Qed.

Definition well_formed {V Name} (f : frame V Name) : Prop :=
  length (fr_types f) = length (fr_names f) /\ Forall (fun r => length r = length (fr_names f)) (fr_rows f).

Lemma sel_block {A} (row : list A) (t n cols : nat) ti : (1 <= n)%nat -> (t + n <= cols)%nat -> length row = cols ->
  (ti = Z.of_nat t \/ ti = Z.of_nat t - Z.of_nat cols) ->
  (if (ti + Z.of_nat n =? Z.of_nat cols) || (ti + Z.of_nat n =? 0) then pyslice_from row ti
   else pyslice row ti (ti + Z.of_nat n)) = block t n row.
Proof.
  intros Hn Hc L Ht. unfold block.
  destruct ((ti + Z.of_nat n =? Z.of_nat cols) || (ti + Z.of_nat n =? 0)) eqn:E.
  - assert (t + n = cols)%nat.
    { apply orb_true_iff in E. rewrite !Z.eqb_eq in E. destruct Ht; lia. }
    replace (pyslice_from row ti) with (skipn t row); [now rewrite firstn_all2 by (rewrite skipn_length; lia)|].
    destruct Ht as [->| ->].
    + now rewrite pyslice_from_nat.
    + replace (Z.of_nat t - Z.of_nat cols) with (- Z.of_nat n) by lia. rewrite pyslice_from_neg by lia. f_equal. lia.
  - apply orb_false_iff in E. rewrite !Z.eqb_neq in E. destruct Ht as [->| ->].
    + rewrite <- Nat2Z.inj_add. now rewrite pyslice_rows.
    + unfold pyslice. replace (Z.of_nat t - Z.of_nat cols) with (- Z.of_nat (cols - t)) by lia.
      replace (- Z.of_nat (cols - t) + Z.of_nat n) with (- Z.of_nat (cols - (t + n))) by lia.
      rewrite L, !clip_neg by lia. rewrite firstn_skipn_comm. f_equal; [lia|]. f_equal. lia.
Qed.

(** C73, part that holds: when the column names are distinct and the target block lies inside the table
    ([target_idx] counted from the left or, negative, from the right), y is that block of every row and X the
    remaining columns in order. *)
Theorem columns_split_partial : forall V Name (eqb : Name -> Name -> bool), (forall a b, reflect (a = b) (eqb a b)) ->
  forall (isnull : V -> bool) toZ (f : frame V Name) (t n : nat) ti cat nan s,
  well_formed f -> NoDup (fr_names f) ->
  let cols := length (fr_names f) in
  (1 <= n)%nat -> (t + n <= cols)%nat -> (ti = Z.of_nat t \/ ti = Z.of_nat t - Z.of_nat cols) ->
  ds_load eqb isnull toZ f ti (Z.of_nat n) cat nan = Ok s ->
  ds_y s = map (block t n) (fr_rows f) /\ ds_X s = map (others t n) (fr_rows f)
  /\ ds_target_names s = block t n (fr_names f) /\ ds_feature_names s = others t n (fr_names f)
  /\ ds_n_targets s = Z.of_nat n /\ ds_n_features s = Z.of_nat cols - Z.of_nat n
  /\ ds_n_samples s = Z.of_nat (length (fr_rows f))
  /\ ds_n_cat s = Z.of_nat (length cat) /\ ds_n_num s + ds_n_cat s = ds_n_features s.
Proof.
  intros V Name eqb Heq isnull toZ f t n ti cat nan s [Wt Wr] ND cols Hn Hc Ht H. fold cols in Wt, Wr.
  unfold ds_load in H. apply bind_Ok in H. destruct H as (u & _ & H). apply ds_finish_ok in H. fold cols in H.
  rewrite (sel_block (fr_names f) t n cols ti) in H by auto.
  rewrite (sel_block (fr_types f) t n cols ti) in H by auto.
  destruct H as (-> & -> & -> & -> & -> & -> & -> & _ & _ & -> & -> & _).
  rewrite Forall_forall in Wr.
  assert (Ef : drop_cols eqb (fr_names f) (block t n (fr_names f)) (fr_names f) = others t n (fr_names f)).
  { apply drop_block; auto. }
  rewrite Ef. repeat split.
  - apply map_ext_in. intros r Hr. apply sel_block; auto.
  - apply map_ext_in. intros r Hr. apply drop_block; auto.
  - unfold others. rewrite app_length, firstn_length, skipn_length. fold cols. lia.
  - lia.
Qed.

(** C73 refuted: columns that share the name of a target column are dropped from the features. *)
Theorem duplicate_names_lose_features_refuted :
  exists s, ds_load Z.eqb (fun _ => false) (fun v => v) (mkFrame [1; 2; 1] [DFloat; DFloat; DInt] [[10; 20; 0]; [11; 21; 1]]) (-1) 1 [] false = Ok s
    /\ ds_X s = [[20]; [21]] /\ ds_y s = [[0]; [1]] /\ ds_n_features s = 1.
Proof. apply ok_ex. vm_compute. auto. Qed.

(** C74, part that holds: by default FileStream takes the last n columns as targets. *)
Theorem filestream_default_targets_partial : forall V Name (eqb : Name -> Name -> bool), (forall a b, reflect (a = b) (eqb a b)) ->
  forall (isnull : V -> bool) toZ (f : frame V Name) (n : nat) cat nan s,
  well_formed f -> NoDup (fr_names f) -> (1 <= n <= length (fr_names f))%nat ->
  fs_load eqb isnull toZ f (-1) (Z.of_nat n) cat nan = Ok s ->
  ds_y s = map (block (length (fr_names f) - n) n) (fr_rows f)
  /\ ds_X s = map (others (length (fr_names f) - n) n) (fr_rows f).
Proof.
  intros V Name eqb Heq isnull toZ f n cat nan s W ND Hn H. unfold fs_load in H.
  set (ti := if (1 <? Z.of_nat n) && (-1 =? -1) then - Z.of_nat n else -1) in H.
  assert (Et : ti = Z.of_nat (length (fr_names f) - n) - Z.of_nat (length (fr_names f))).
  { unfold ti. destruct (Z.ltb_spec 1 (Z.of_nat n)); simpl; lia. }
  destruct (columns_split_partial V Name eqb Heq isnull toZ f (length (fr_names f) - n) n ti cat nan s) as (H1 & H2 & _); auto; lia.
Qed.

(** C74 refuted: by default a DataStream with two or more targets delivers no target at all. *)
Theorem datastream_default_targets_refuted : forall V Name (eqb : Name -> Name -> bool) (isnull : V -> bool) toZ (f : frame V Name) (n : nat) cat nan s,
  well_formed f -> (2 <= n <= length (fr_names f))%nat ->
  ds_load eqb isnull toZ f (-1) (Z.of_nat n) cat nan = Ok s ->
  Forall (fun row => row = []) (ds_y s).
Proof.
  intros V Name eqb isnull toZ f n cat nan s [Wt Wr] Hn H.
  unfold ds_load in H. apply bind_Ok in H. destruct H as (u & _ & H). apply ds_finish_ok in H.
  destruct H as (_ & -> & _). apply Forall_forall. intros row Hr. apply in_map_iff in Hr. destruct Hr as (r0 & <- & Hin).
  rewrite Forall_forall in Wr. specialize (Wr _ Hin).
  replace (-1 + Z.of_nat n =? Z.of_nat (length (fr_names f))) with false by (symmetry; apply Z.eqb_neq; lia).
  replace (-1 + Z.of_nat n =? 0) with false by (symmetry; apply Z.eqb_neq; lia). cbn [orb].
  unfold pyslice. rewrite Wr. replace (-1 + Z.of_nat n) with (Z.of_nat (n - 1)) by lia. change (-1) with (- Z.of_nat 1).
  rewrite clip_in, clip_neg by lia. apply skipn_all2. rewrite firstn_length. lia.
Qed.

(** C75: the target values reported for a classification stream are the labels that occur, each once and in
    increasing order, and n_classes is their number. *)
Theorem target_values_are_the_labels : forall V Name (eqb : Name -> Name -> bool) (isnull : V -> bool) toZ (f : frame V Name) ti cat nan s,
  ds_load eqb isnull toZ f ti 1 cat nan = Ok s -> ds_classification s = true ->
  exists labels, ds_target_values s = [labels] /\ ds_n_classes s = Z.of_nat (length labels)
    /\ StronglySorted Z.lt labels /\ forall z, In z labels <-> exists row v, In row (ds_y s) /\ In v row /\ z = toZ v.
Proof.
  intros V Name eqb isnull toZ f ti cat nan s H C. unfold ds_load in H. apply bind_Ok in H. destruct H as (u & _ & H).
  unfold ds_finish in H. apply bind_Ok in H. destruct H as (nc & _ & H). injection H as <-. cbn in *.
  rewrite C. eexists. split; [reflexivity|]. split; [reflexivity|].
  match goal with |- context [np_unique ?l] => destruct (np_unique_spec l) as [U1 U2] end. split; auto.
  intros z. rewrite U2. rewrite in_map_iff. split.
  - intros (v & <- & Hv). apply in_concat in Hv. destruct Hv as (row & R1 & R2). eauto.
  - intros (row & v & R1 & R2 & ->). exists v. split; auto. apply in_concat. eauto.
Qed.

(** C76: without categorical indices a table is accepted exactly if no column is of object type and no cell is
    missing (unless allow_nan). *)
Theorem load_accepts_iff : forall V Name (eqb : Name -> Name -> bool) (isnull : V -> bool) toZ (f : frame V Name) ti n cat nan,
  (existsb is_DObject (fr_types f) = true -> ds_load eqb isnull toZ f ti n cat nan = Raise ValueError)
  /\ (nan = false -> (exists row v, In row (fr_rows f) /\ In v row /\ isnull v = true) -> ds_load eqb isnull toZ f ti n cat nan = Raise ValueError)
  /\ (existsb is_DObject (fr_types f) = false -> (nan = true \/ forall row v, In row (fr_rows f) -> In v row -> isnull v = false) ->
      cat = [] -> exists s, ds_load eqb isnull toZ f ti n cat nan = Ok s).
Proof.
  intros V Name eqb isnull toZ f ti n cat nan. unfold ds_load, check_data_consistency. split; [|split].
  - intros ->. reflexivity.
  - intros -> (row & v & H1 & H2 & H3). destruct (existsb is_DObject (fr_types f)); [reflexivity|].
    replace (existsb (existsb isnull) (fr_rows f)) with true; [reflexivity|]. symmetry. apply existsb_exists.
    exists row. split; auto. apply existsb_exists. eauto.
  - intros -> H ->. destruct (existsb (existsb isnull) (fr_rows f)) eqn:E.
    + destruct H as [-> | H]; [eexists; reflexivity|]. apply existsb_exists in E. destruct E as (row & R1 & R2).
      apply existsb_exists in R2. destruct R2 as (v & V1 & V2). rewrite (H row v R1 V1) in V2. discriminate.
    + eexists; reflexivity.
Qed.

(** C76: X and y of different numbers of rows are refused. *)
Theorem load_Xy_rejects_mismatch : forall V Name (isnull : V -> bool) toZ (fx fy : frame V Name) cat nan,
  length (fr_rows fx) <> length (fr_rows fy) -> ds_load_Xy isnull toZ fx fy cat nan = Raise ValueError.
Proof.
  intros. unfold ds_load_Xy. replace (Z.of_nat (length (fr_rows fy)) =? Z.of_nat (length (fr_rows fx))) with false; [reflexivity|].
  symmetry. apply Z.eqb_neq. lia.
Qed.

(** C77: temporal streams. *)
Definition wcol {W} (n : nat) (w : option (list W)) : list (option W) := match w with Some l => map Some l | None => repeat None n end.

(** Unordered data with a time per row: after construction the rows are in order of time and every row keeps
    its targets, time, label time and weight.  [argsort] and [sort] are numpy's, with any treatment of ties. *)
Theorem temporal_sort_keeps_rows_together : forall V W (argsort : list Z -> list nat) sort,
  is_argsort argsort -> is_sort sort ->
  forall (rows ys : list (list V)) (time : list Z) (w : option (list W)) delay,
  length ys = length rows -> length time = length rows -> (forall l, w = Some l -> length l = length rows) ->
  (forall d, delay <> DelayInt d) -> (forall l, delay = DelayTimes l -> length l = length rows) ->
  let avail := match delay with DelayDelta d => map (fun t => t + d) time | DelayTimes l => l | DelayInt _ => [] end in
  exists rows' ys' time' avail' w',
    ts_arrays argsort sort rows ys (Some time) w delay false = Ok (rows', ys', time', avail', w')
    /\ sortedZ time'
    /\ Permutation (combine (combine (combine (combine rows' ys') time') avail') (wcol (length rows) w'))
                   (combine (combine (combine (combine rows ys) time) avail) (wcol (length rows) w))
    /\ length rows' = length rows /\ length ys' = length rows /\ length time' = length rows /\ length avail' = length rows.
Proof.
  intros V W argsort sort HA HS rows ys time w delay Ly Lt Lw Hd Ll avail.
  destruct (HA time) as [Pi Si]. destruct (HS time) as [Ps Ss]. rewrite Lt in Pi.
  assert (La : length avail = length rows).
  { unfold avail. destruct delay; [destruct (Hd d); auto | now rewrite map_length | now apply Ll]. }
  set (idx := argsort time) in *.
  assert (Bi : Forall (fun i => (i < length rows)%nat) idx) by now apply argsort_bound.
  assert (Et : sort time = pick 0 time idx).
  { apply sorted_perm_eq; auto. rewrite Ps. symmetry. apply pick_perm. now rewrite Lt. }
  assert (Li : length idx = length rows) by (rewrite (Permutation_length Pi); apply seq_length).
  assert (Ew : exists w', (match w with None => Ok None | Some w0 => r <- take_idx w0 idx ;; Ok (Some r) end) = Ok w'
      /\ wcol (length rows) w' = pick None (wcol (length rows) w) idx).
  { destruct w as [l|].
    - specialize (Lw l eq_refl). destruct l as [|d0 l0].
      + assert (idx = []) by (destruct idx; auto; simpl in *; lia). rewrite H. simpl. eauto.
      + rewrite (take_idx_ok d0) by (rewrite Lw; auto). simpl. eexists. split; [reflexivity|].
        unfold wcol. rewrite pick_map. change (Some d0 :: map Some l0) with (map Some (d0 :: l0)).
        unfold pick. apply map_ext_in. intros i Hi. rewrite Forall_forall in Bi. specialize (Bi i Hi).
        apply nth_indep. rewrite map_length. lia.
    - eexists. split; [reflexivity|]. unfold wcol. unfold pick.
      transitivity (map (fun _ : nat => @None W) idx).
      + clear - Li. rewrite <- Li. clear Li. induction idx; simpl; auto. now f_equal.
      + apply map_ext_in. intros i Hi. symmetry. apply nth_repeat. }
  destruct Ew as (w' & Ew & Ec).
  assert (LW : length (wcol (length rows) w) = length rows).
  { unfold wcol. destruct w; [rewrite map_length; auto|apply repeat_length]. }
  exists (pick [] rows idx), (pick [] ys idx), (pick 0 time idx), (pick 0 avail idx), w'.
  split.
  { unfold ts_arrays. unfold avail in *. destruct delay as [d|d|l]; [destruct (Hd d); auto| |]; cbn [bind]; fold idx; cbn [bind] in Ew;
      rewrite (take_idx_ok []), (take_idx_ok []), Ew by (rewrite ?Ly; auto); cbn [bind];
      rewrite (take_idx_ok 0) by (rewrite La; auto); cbn [bind]; rewrite Et; reflexivity. }
  split; [exact Si|]. split.
  - rewrite Ec. rewrite !pick_combine by (rewrite ?combine_length; lia). apply pick_perm.
    rewrite !combine_length. rewrite Ly, Lt, La, LW, !Nat.min_id. exact Pi.
  - unfold pick. rewrite !map_length. auto.
Qed.

(** Delay by a number of samples: the i-th row delivered arrives at time i and its label is there at i + d. *)
Theorem temporal_integer_delay : forall V W argsort sort (rows ys : list (list V)) time (w : option (list W)) d,
  exists time' avail', ts_arrays argsort sort rows ys time w (DelayInt d) true = Ok (rows, ys, time', avail', w)
    /\ length time' = length rows /\ length avail' = length rows
    /\ forall i, (i < length rows)%nat -> nth_error time' i = Some (Z.of_nat i) /\ nth_error avail' i = Some (Z.of_nat i + d).
Proof.
  intros. eexists _, _. split; [reflexivity|]. rewrite !map_length, !seq_length. repeat split; auto.
  - rewrite nth_error_map. rewrite nth_error_nth' with (d := 0%nat) by now rewrite seq_length. simpl. now rewrite seq_nth.
  - rewrite nth_error_map. rewrite nth_error_nth' with (d := 0%nat) by now rewrite seq_length. simpl. rewrite seq_nth by auto. f_equal. lia.
Qed.

(** Every batch takes its features, targets, times, label times and weights from the same rows. *)
Theorem temporal_next_is_following_rows : forall V Name W (s : tstream V Name W) (k b : nat),
  ds_idx (ts_base s) = Z.of_nat k ->
  let y := rows_at k b (ds_y (ts_base s)) in
  snd (ts_next s (Z.of_nat b)) =
    (rows_at k b (ds_X (ts_base s)), if ds_n_targets (ts_base s) <? 2 then Flat (concat y) else Rows y,
     rows_at k b (ts_time s), rows_at k b (ts_delay s), option_map (rows_at k b) (ts_weight s))
  /\ ds_idx (ts_base (fst (ts_next s (Z.of_nat b)))) = Z.of_nat (k + b).
Proof.
  intros V Name W s k b H y. unfold ts_next. rewrite (ds_next_out _ k b H). cbn.
  replace (Z.of_nat (k + b) - Z.of_nat b) with (Z.of_nat k) by lia. rewrite !pyslice_rows.
  destruct (ts_weight s); cbn; rewrite ?pyslice_rows; auto.
Qed.

(** C78 refuted (for DataStream it holds: datastream_restart_starts_over): after restart() a TemporalDataStream
    still reports the times and weights of the last batch. *)
Theorem temporal_restart_keeps_times_refuted : forall V Name W (s : tstream V Name W) b,
  let '(s1, (x, y, tm, dl, w)) := ts_next s b in
  ts_last (ts_restart s1) = (None, Some tm, Some dl, w).
Proof. intros V Name W s b. unfold ts_next. destruct (ds_next (ts_base s) b) as [base [x y]]. destruct (ts_weight s); reflexivity. Qed.

(** Non-vacuity. *)
Definition frame3 : frame Z Z := mkFrame [1; 2; 3] [DFloat; DFloat; DInt] [[10; 20; 1]; [11; 21; 0]; [12; 22; 1]; [13; 23; 5]; [14; 24; 0]].
Example load_example : exists s0, ds_load Z.eqb (fun _ => false) (fun v => v) frame3 (-1) 1 [0] false = Ok s0
  /\ built Z.eqb (fun _ => false) (fun v => v) s0 /\ ds_target_values s0 = [[0; 1; 5]] /\ ds_n_num s0 = 1
  /\ since_restart (map out_x (snd (ds_run s0 (map to_op [Some 2%nat; None; Some 2%nat; Some 2%nat; Some 4%nat])))) = [[[10; 20]; [11; 21]]; [[12; 22]; [13; 23]]; [[14; 24]]]
  /\ ds_n_remaining (fst (ds_run s0 (map to_op [Some 2%nat; Some 4%nat]))) = -1.
Proof.
  assert (H : exists s0, ds_load Z.eqb (fun _ => false) (fun v => v) frame3 (-1) 1 [0] false = Ok s0) by (vm_compute; eauto).
  destruct H as (s0 & H). exists s0. split; [exact H|]. split; [left; eauto 10|].
  revert H. vm_compute. intros H. injection H as <-. vm_compute. auto.
Qed.
Example well_formed_example : well_formed frame3 /\ NoDup (fr_names frame3).
Proof. split; [split; [reflexivity|repeat constructor]|]. repeat (constructor; [simpl; lia|]). constructor. Qed.
Example temporal_example :
  ts_arrays (fun _ => [2; 0; 1]%nat) (fun _ => [1; 4; 6]) [[10]; [11]; [12]] [[0]; [1]; [2]] (Some [4; 6; 1]) (Some [7; 8; 9]) (DelayDelta 3) false
  = Ok ([[12]; [10]; [11]], [[2]; [0]; [1]], [1; 4; 6], [4; 7; 9], Some [9; 7; 8]).
Proof. reflexivity. Qed.

Print Assumptions datastream_next_is_following_rows.
Print Assumptions datastream_delivers_in_order.
Print Assumptions datastream_restart_starts_over.
Print Assumptions datastream_remaining_partial.
Print Assumptions datastream_remaining_negative_refuted.
Print Assumptions columns_split_partial.
Print Assumptions duplicate_names_lose_features_refuted.
Print Assumptions filestream_default_targets_partial.
Print Assumptions datastream_default_targets_refuted.
Print Assumptions target_values_are_the_labels.
Print Assumptions load_accepts_iff.
Print Assumptions load_Xy_rejects_mismatch.
Print Assumptions temporal_sort_keeps_rows_together.
Print Assumptions temporal_integer_delay.
Print Assumptions temporal_next_is_following_rows.
Print Assumptions temporal_restart_keeps_times_refuted.
