(** C45–C48, C83–C85: the stream transforms.

    A history is a list of calls on arrays of rows; rows are references into a memory [h], because partial_fit keeps views of
    the caller's rows and transform overwrites them.  [call_of h] reads the rows of a call in the caller's original memory. *)
From Coq Require Import List ZArith QArith Bool Lia Reals Lra Sorted Permutation.
From Verif Require Import Base.Py Base.Num Spec.Lists Spec.TransformSpec Model.FastBuffer Model.Transform
  Proofs.TransformProofs Proofs.TransformReals.
Import ListNotations.
Local Open Scope R_scope.

(** C46: when every array is passed once, every transformed value is the old value standardised by the last [ws] original rows
    before it (population variance, NaNs ignored, 0 deviation read as 1), and no call raises. *)
Theorem standard_scaler_standardises : forall (ws c : nat) (h : list (list (option R))) ops, (1 <= ws)%nat ->
  (forall r, In r h -> length r = c) -> (forall i, In i (flat_map ids_of ops) -> (i < length h)%nat) -> NoDup (flat_map ids_of ops) ->
  exists s, standard_run (Z.of_nat ws) h ops = Ok (s, scale_calls standardised ws [] (map (call_of h) ops)).
Proof.
  intros ws c h ops Hw Hc Hi ND.
  destruct (scale_run_ok standard_cell standard_fun ws c h standard_cell_ok Hw ops [] _ _ ND (start_winv ws c h ops Hc Hi)) as (s & E).
  exists s. unfold standard_run. rewrite E. do 2 f_equal. apply scale_calls_ext. apply standard_fun_R.
Qed.
Print Assumptions standard_scaler_standardises.

(** C45: the minmax scaler maps every value of a column to itself, or to 0 when the window's column is constant. *)
Theorem minmax_scaler_is_identity : forall (ws c : nat) (h : list (list (option R))) ops, (1 <= ws)%nat ->
  (forall r, In r h -> length r = c) -> (forall i, In i (flat_map ids_of ops) -> (i < length h)%nat) -> NoDup (flat_map ids_of ops) ->
  exists f s, minmax_run (Z.of_nat ws) h ops = Ok (s, scale_calls f ws [] (map (call_of h) ops))
    /\ forall column v, (column = [] -> f column v = v)
         /\ (present column <> [] -> constant (present column) -> f column v = Some 0)
         /\ (~ constant (present column) -> f column v = v)
         /\ (column <> [] -> present column = [] -> f column v = None).
Proof.
  intros ws c h ops Hw Hc Hi ND.
  destruct (scale_run_ok minmax_cell minmax_fun ws c h minmax_cell_ok Hw ops [] _ _ ND (start_winv ws c h ops Hc Hi)) as (s & E).
  exists minmax_fun, s. split; [exact E|]. intros column v. destruct (minmax_fun_R column v) as (A & B & C & D). auto.
Qed.
Print Assumptions minmax_scaler_is_identity.

(** C45 refuted: for every pair of different values [lo < hi] with [hi > 1] and every value between them above 1, fitting on lo
    and hi and transforming that value returns it unchanged, outside [0,1]. *)
Theorem minmax_unit_interval_refuted : forall lo hi x : R, lo < hi -> lo <= x <= hi -> 1 < x ->
  exists s y, minmax_run 2 [[Some lo]; [Some hi]; [Some x]] [PartialFit [0; 1]; TransformX [2]]%nat = Ok (s, [[]; [[Some y]]]) /\ ~ (0 <= y <= 1).
Proof.
  intros lo hi x Hl Hx H1.
  destruct (minmax_scaler_is_identity 2 1 [[Some lo]; [Some hi]; [Some x]] [PartialFit [0; 1]; TransformX [2]]%nat) as (f & s & E & F).
  - lia.
  - intros r [<-|[<-|[<-|[]]]]; reflexivity.
  - simpl. intros i [<-|[<-|[<-|[]]]]; lia.
  - simpl. repeat constructor; simpl; lia.
  - exists s, x. split; [|lra]. change (Z.of_nat 2) with 2%Z in E. rewrite E. cbn.
    rewrite (proj1 (proj2 (proj2 (F _ _)))); [reflexivity|]. intros C. specialize (C lo hi). simpl in C. assert (lo = hi) by auto. lra.
Qed.
Print Assumptions minmax_unit_interval_refuted.

(** C47: when every array is passed once, transform replaces exactly the missing cells, by the value the strategy asks for, the
    window being the last [ws] rows up to the current one (earlier ones cleaned). *)
Theorem cleaner_replaces_missing_cells : forall st (markers : list R) nv (ws c : nat) (h : list (list (option R))) ops, (1 <= ws)%nat ->
  (forall r, In r h -> length r = c) -> (forall i, In i (flat_map ids_of ops) -> (i < length h)%nat) -> NoDup (flat_map ids_of ops) ->
  exists f s, cleaner_run st markers nv (Z.of_nat ws) h ops = Ok (s, clean_calls f ws [] (map (call_of h) ops))
    /\ (forall column x, ~ In x markers -> f column (Some x) = Some x)
    /\ (forall column v, v = None \/ (exists x, v = Some x /\ In x markers) ->
          match st with
          | Zero => f column v = Some 0
          | Custom => f column v = nv
          | Unknown => f column v = None
          | Mean => present column <> [] -> f column v = Some (Rmean (present column))
          | Median => present column <> [] -> exists m, f column v = Some m /\ is_median (present column) m
          | Mode => present column <> [] -> exists m, f column v = Some m /\ is_mode (present column) m
          end).
Proof.
  intros st markers nv ws c h ops Hw Hc Hi ND. exists (clean_fun st markers nv).
  assert (M : forall x, is_missing markers (Some x) = true <-> In x markers).
  { intros x. unfold is_missing. rewrite existsb_exists. cbn [neqb NumR]. split.
    - intros (y & Hy & E). destruct (Reqb x y) eqn:Eq; [rcase; now subst|discriminate].
    - intros Hx. exists x. split; auto. destruct (Reqb x x) eqn:Eq; auto. rcase. contradiction. }
  assert (G : (forall column x, ~ In x markers -> clean_fun st markers nv column (Some x) = Some x)
    /\ (forall column v, v = None \/ (exists x, v = Some x /\ In x markers) -> clean_fun st markers nv column v = subst_fun st nv column)).
  { split.
    - intros column x Hx. unfold clean_fun. destruct (is_missing markers (Some x)) eqn:E; auto. apply M in E. contradiction.
    - intros column v [->|(x & -> & Hx)]; unfold clean_fun; [reflexivity|]. now rewrite (proj2 (M x) Hx). }
  destruct G as [G1 G2].
  assert (E : exists s, cleaner_run st markers nv (Z.of_nat ws) h ops = Ok (s, clean_calls (clean_fun st markers nv) ws [] (map (call_of h) ops))).
  { unfold cleaner_run. destruct (windowed st) eqn:W.
    - apply (clean_run_ok st markers nv ws c h Hw W ops [] _ []); auto. now apply start_winv.
    - apply (nw_run st markers nv W ws h ops [] (t_new (Z.of_nat ws) h)); auto. }
  destruct E as (s & E). exists s. split; [exact E|]. split; [exact G1|].
  intros column v Hv. pose proof (G2 column v Hv) as Z.
  destruct st; cbn [subst_fun] in Z; try exact Z; intros Hp; rewrite Z; unfold stat_or; (destruct column as [|c0 cs]; [contradiction|]).
  - rewrite nanmean_R. destruct (present (c0 :: cs)); [contradiction|reflexivity].
  - apply nanmedian_R; auto.
  - apply nanmode_R; auto.
Qed.
Print Assumptions cleaner_replaces_missing_cells.

(** C48 (partial): rows whose last columns are a one-hot block are decoded: blocks become the index of their 1, plain columns are
    copied in order.  Missing: layouts that end with a plain column, which always fail (next theorem). *)
Theorem one_hot_decodes_partial : forall l rows, rows <> [] -> ends_with_block l ->
  Forall (fun ps => Forall well_formed_part ps /\ layout ps = l) rows ->
  forall c, (forall ps, In ps rows -> length (encode ps) = c) ->
  one_hot_transform (categories 0 l) c (map encode rows) = Ok (map decode rows).
Proof.
  intros l rows Hn (l' & k & El) F c Hc.
  assert (B : ends_okb l = true) by (unfold ends_okb; rewrite El, last_last; reflexivity).
  assert (W : new_width c (categories 0 l) = Z.of_nat (length l)).
  { destruct rows as [|ps rows]; [contradiction|]. inversion F as [|? ? [W1 W2] ?]; subst. rewrite <- W2.
    rewrite <- (Hc ps (or_introl eq_refl)). pose proof (new_width_ok ps 0 0 W1) as Z. rewrite !Z.add_0_l in Z.
    unfold new_width. rewrite Z. unfold layout. now rewrite map_length. }
  unfold one_hot_transform. rewrite W. destruct (Z.ltb_spec (Z.of_nat (length l)) 0); [lia|]. rewrite Nat2Z.id.
  clear Hn Hc W H. induction F as [|ps rows [W1 W2] F IH]; [reflexivity|]. cbn [map one_hot_rows].
  pose proof (one_hot_loop_ok ps [] (length (encode ps)) (Forall_nil _) W1 (le_n _)) as L. cbn [app encode flat_map length decode map] in L.
  fold (encode ps) in L. rewrite W2, B in L. replace (length l) with (length ps) by (rewrite <- W2; unfold layout; now rewrite map_length).
  rewrite L. cbn [bind]. replace (length ps) with (length l) by (rewrite <- W2; unfold layout; now rewrite map_length). rewrite IH. reflexivity.
Qed.
Print Assumptions one_hot_decodes_partial.

(** C48 refuted: when a plain column follows the last block (or there is no block), transform raises IndexError, whatever the row. *)
Theorem one_hot_trailing_column_refuted : forall l ps rest, Forall well_formed_part ps -> layout ps = l ++ [None] ->
  one_hot_transform (categories 0 (l ++ [None])) (length (encode ps)) (encode ps :: rest) = Raise IndexError.
Proof.
  intros l ps rest W E. unfold one_hot_transform.
  pose proof (new_width_ok ps 0 0 W) as Z. rewrite !Z.add_0_l, E in Z. unfold new_width. rewrite Z.
  destruct (Z.ltb_spec (Z.of_nat (length ps)) 0); [lia|]. rewrite Nat2Z.id. cbn [one_hot_rows].
  pose proof (one_hot_loop_ok ps [] (length (encode ps)) (Forall_nil _) W (le_n _)) as L. cbn [app encode flat_map length decode map] in L.
  fold (encode ps) in L. rewrite E in L. unfold ends_okb in L. rewrite last_last in L. now rewrite L.
Qed.
Print Assumptions one_hot_trailing_column_refuted.

Local Open Scope Q_scope.
(** C83 refuted: fit on [1],[3] (window of 2), transform the second row of that very array, then a new row [3].  The last two
    original rows are [3],[3], so the new row should be centred to 0; the window holds the overwritten row and the result is 1. *)
Theorem standard_scaler_aliasing_refuted :
  let h := [[Some 1]; [Some 3]; [Some 3]] in
  (exists s out, standard_run (T:=Q) 2 h [PartialFit [0; 1]; TransformX [1]; TransformX [2]]%nat = Ok (s, out) /\ out = [[]; [[Some 1]]; [[Some 1]]])
  /\ (exists s out, standard_run (T:=Q) 2 (h ++ [[Some 3]]) [PartialFit [0; 1]; TransformX [3]; TransformX [2]]%nat = Ok (s, out) /\ out = [[]; [[Some 1]]; [[Some 0]]]).
Proof. cbv zeta. split; apply ok_pair; vm_compute; reflexivity. Qed.
Print Assumptions standard_scaler_aliasing_refuted.

(** C84 refuted: in every successful call the caller's rows hold the transformed values afterwards. *)
Theorem transform_overwrites_input_refuted : forall T {N : Num T} step (s s' : tstate T) ids out,
  t_step true step s (TransformX ids) = Ok (s', out) -> map (hget (t_heap s')) ids = out.
Proof.
  intros T N step s s' ids out E. cbn in E. destruct (each_row step s ids) as [s1|]; [|discriminate]. cbn in E. injection E as <- <-. reflexivity.
Qed.
Theorem standard_scaler_changes_input_refuted :
  exists s out, standard_run (T:=Q) 10 [[Some 1]; [Some 3]; [Some 5]] [PartialFit [0; 1]; TransformX [2]]%nat = Ok (s, out)
    /\ hget (t_heap s) 2 = [Some 3].
Proof. apply ok_pair. vm_compute. reflexivity. Qed.
Print Assumptions transform_overwrites_input_refuted.
Print Assumptions standard_scaler_changes_input_refuted.

(** C85 refuted: with -1 as the missing marker and the mean strategy, [1], [-1]: the only known value is 1, the replacement is 0,
    because the marker itself is averaged. *)
Theorem cleaner_averages_markers_refuted :
  exists s out, cleaner_run (T:=Q) Mean [-1 # 1] (Some 1) 10 [[Some 1]; [Some (-1 # 1)]] [TransformX [0; 1]]%nat = Ok (s, out)
    /\ out = [[[Some 1]; [Some 0]]].
Proof. apply ok_pair. vm_compute. reflexivity. Qed.
Print Assumptions cleaner_averages_markers_refuted.

(** Non-vacuity. *)
Local Open Scope R_scope.
Example standard_scaler_hyps : let h := [[Some 1; None]; [Some 3; Some 2]; [Some 5; Some 4]] : list (list (option R)) in
  let ops := [PartialFit [0]; TransformX [1; 2]]%nat in
  (forall r, In r h -> length r = 2%nat) /\ (forall i, In i (flat_map ids_of ops) -> (i < length h)%nat) /\ NoDup (flat_map ids_of ops)
  /\ scale_calls standardised 1 [] (map (call_of h) ops) = [[]; [[Some 2; None]; [Some 2; Some 2]]].
Proof.
  cbv zeta. split; [intros r [<-|[<-|[<-|[]]]]; reflexivity|]. split; [simpl; intros i [<-|[<-|[<-|[]]]]; lia|].
  split; [simpl; repeat constructor; simpl; lia|].
  unfold standardised. cbn. unfold Rvariance, Rsqdev, Rmean, Rsum. cbn.
  repeat (match goal with |- context[Req_EM_T ?a ?b] => destruct (Req_EM_T a b); [|exfalso; lra] end); repeat f_equal; lra.
Qed.
Example one_hot_hyps : let ps := [Plain 7; Block 3 1; Plain 2; Block 2 1] in
  ends_with_block (layout ps) /\ Forall well_formed_part ps /\ encode ps = [7; 0; 1; 0; 2; 0; 1] /\ decode ps = [7; INR 1; 2; INR 1]
  /\ categories 0 (layout ps) = [[1; 2; 3]; [5; 6]]%nat.
Proof.
  cbv zeta. split; [exists [None; Some 3%nat; None], 2%nat; reflexivity|]. split; [repeat constructor; simpl; lia|]. repeat split.
Qed.
