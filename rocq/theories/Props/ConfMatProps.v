(** C05, C06, C61, C62: the counting matrices of utils/data_structures.py:343-867. *)
From Coq Require Import List ZArith Bool Lia.
From Verif Require Import Base.Py Model.ConfMat Spec.ConfMatSpec Proofs.ConfMatProofs.
Import ListNotations.
Local Open Scope Z_scope.

(** C05.  For every initial size and every history of update / remove / reshape / restart calls with non-negative labels
    (integer weights, calls may fail and the caller goes on): every cell, the diagonal, every row and column and the sample
    count are the tallies of the accepted calls since the last restart; cells outside the matrix have an empty tally. *)
Theorem confusion_matrix_counts :
  forall n s0 ops,
    cm_init n = Ok s0 -> Forall nonneg_op ops ->
    let '(s, h) := cm_run s0 ops in
    (forall i j, 0 <= i < cm_size s -> 0 <= j < cm_size s -> cm_value_at s i j = Ok (tally h i j))
    /\ (forall i j, 0 <= i -> 0 <= j -> (cm_size s <= i \/ cm_size s <= j) ->
          cm_value_at s i j = Raise IndexError /\ tally h i j = 0)
    /\ cm_count s = net_calls h
    /\ cm_diagonal s = zsum (map (fun i => tally h i i) (zrange (cm_size s)))
    /\ (forall r, 0 <= r < cm_size s -> cm_row s r = [map (tally h r) (zrange (cm_size s))])
    /\ (forall c, 0 <= c < cm_size s -> cm_column s c = map (fun a => [tally h a c]) (zrange (cm_size s))).
Proof. exact confusion_matrix_counts_proof. Qed.

(** C05.  With both labels inside the matrix, update always succeeds, and so does remove. *)
Theorem confusion_matrix_accepts_inside :
  forall s i j w, 0 <= i < cm_size s -> 0 <= j < cm_size s ->
    snd (cm_update s (Some i) (Some j) w) = Ok true /\ snd (cm_remove s (Some i) (Some j)) = Ok true.
Proof.
  intros s i j w Hi Hj. unfold cm_update, cm_remove, cm_bump. rewrite !np_index_in by auto.
  split; zcase; try reflexivity; lia.
Qed.

(** C06 (partial): labels beyond the matrix are accepted, with the matrix grown, only when the second label is 0; in
    every other case the call raises AxisError.  Missing: second labels other than 0 (false, next theorem). *)
Theorem confusion_matrix_grows_partial :
  forall s i j w, 0 <= cm_size s -> 0 <= i -> 0 <= j -> (cm_size s <= i \/ cm_size s <= j) ->
    match cm_update s (Some i) (Some j) w with
    | (s', Ok true) => j = 0 /\ cm_size s' = i + 1 /\ cm_value_at s' i 0 = Ok w
    | (s', Ok false) => False
    | (s', Raise e) => j <> 0 /\ e = AxisError /\ s' = s
    end.
Proof. exact update_beyond. Qed.

(** C06 is false: reporting the new class 2 on a 2x2 matrix fails. *)
Theorem confusion_matrix_grows_refuted :
  exists s, cm_init (Some 2) = Ok s /\ snd (cm_update s (Some 2) (Some 2) 1) = Raise AxisError
            /\ snd (cm_update s (Some 1) (Some 2) 1) = Raise AxisError.
Proof. eexists. split; [reflexivity|]. split; reflexivity. Qed.

(** C61: remove outside the matrix.  Beyond the size it answers False, but exactly at the size it raises IndexError. *)
Theorem confusion_matrix_remove_outside_refuted :
  forall s i j, 0 <= cm_size s -> 0 <= i -> 0 <= j -> (cm_size s <= i \/ cm_size s <= j) ->
    cm_remove s (Some i) (Some j)
    = (s, if (i <=? cm_size s) && (j <=? cm_size s) then Raise IndexError else Ok false).
Proof. exact remove_outside. Qed.

Example confusion_matrix_run :
  exists s0, cm_init (Some 2) = Ok s0 /\
  let '(s, h) := cm_run s0 [CUpdate (Some 0) (Some 1) 3; CUpdate (Some 2) (Some 0) 2; CRemove (Some 0) (Some 1);
                            CUpdate (Some 2) (Some 2) 5; CRemove (Some 3) (Some 3)] in
  cm_size s = 3 /\ cm_value_at s 0 1 = Ok 2 /\ cm_value_at s 2 0 = Ok 2 /\ cm_value_at s 2 2 = Ok 5 /\ cm_count s = 2
  /\ cm_diagonal s = 5 /\ map snd h = [Ok true; Ok true; Ok true; Ok true; Raise IndexError].
Proof. eexists. split; [reflexivity|]. vm_compute. repeat split. Qed.

(** C62.  MOLConfusionMatrix: cells, diagonal sum, discordance and total are the tallies of the accepted calls. *)
Theorem mol_confusion_matrix_counts :
  forall n s0 ops,
    mol_init n = Ok s0 -> mol_sane_run s0 ops ->
    let '(s, h) := mol_run s0 ops in
    let targets := zrange (mo_size s) in
    (forall t i j, 0 <= t < mo_size s -> 0 <= i < 2 -> 0 <= j < 2 -> mol_value_at s t i j = Ok (mtally h t i j))
    /\ (forall t i j, mo_size s <= t -> mtally h t i j = 0)
    /\ mol_diagonal s = zsum (map (fun t => mtally h t 0 0 + mtally h t 1 1) targets)
    /\ mol_discordance s = zsum (map (fun t => mtally h t 0 1 + mtally h t 1 0) targets)
    /\ mol_total s = mol_diagonal s + mol_discordance s.
Proof. exact mol_counts_proof. Qed.

(** C62.  Which updates are accepted (non-negative target): labels 0/1 and a target at most one beyond the last. *)
Theorem mol_update_accepts :
  forall s t i j w, 0 <= mo_size s -> 0 <= t ->
    snd (mol_update s (Some t) (Some i) (Some j) w)
    = Ok ((0 <=? i) && (i <=? 1) && (0 <=? j) && (j <=? 1) && (t <=? mo_size s)).
Proof.
  intros s t i j w Hs Ht. unfold mol_update. zcase.
  - unfold mol_bump. rewrite !np_index_in by lia. simpl. f_equal. symmetry.
    repeat (apply andb_true_intro; split); apply Z.leb_le; lia.
  - zcase.
    + simpl. f_equal. symmetry. repeat rewrite andb_false_iff. rewrite !Z.leb_gt. 
      repeat match goal with H : _ \/ _ |- _ => destruct H; zb end; lia.
    + zcase.
      * simpl. f_equal. symmetry. repeat rewrite andb_false_iff. rewrite !Z.leb_gt. lia.
      * assert (t = mo_size s) by lia. subst t. unfold mol_reshape.
        replace (mo_size s + 1 <? mo_size s + 1) with false by (symmetry; apply Z.ltb_ge; lia). simpl.
        zcase; [lia|]. zcase; [lia|]. unfold mol_bump; simpl. rewrite !np_index_in by lia. simpl. f_equal. symmetry.
        repeat (apply andb_true_intro; split); apply Z.leb_le; lia.
Qed.

(** Why targets must be non-negative in C62: update(-1, 0, 0) wipes all recorded counts and then raises IndexError. *)
Theorem mol_negative_target_refuted :
  exists s0, mol_init (Some 2) = Ok s0 /\
  let '(s, h) := mol_run s0 [MUpdate (Some 0) (Some 1) (Some 1) 7; MUpdate (Some (-1)) (Some 0) (Some 0) 1] in
  map snd h = [Ok true; Raise IndexError] /\ mo_size s = 0 /\ mol_total s = 0.
Proof. eexists. split; [reflexivity|]. vm_compute. repeat split. Qed.

Example mol_run_example :
  exists s0, mol_init (Some 1) = Ok s0 /\
  let ops := [MUpdate (Some 0) (Some 1) (Some 1) 2; MUpdate (Some 1) (Some 0) (Some 1) 1; MUpdate (Some 5) (Some 0) (Some 0) 1;
              MRemove (Some 0) (Some 1) (Some 1); MRemove (Some 0) (Some 2) (Some 0)] in
  mol_sane_run s0 ops /\
  let '(s, h) := mol_run s0 ops in
  mo_size s = 2 /\ mol_diagonal s = 1 /\ mol_discordance s = 1
  /\ map snd h = [Ok true; Ok true; Ok false; Ok true; Raise IndexError].
Proof. eexists. split; [reflexivity|]. vm_compute. repeat split; discriminate. Qed.

Print Assumptions confusion_matrix_counts.
Print Assumptions confusion_matrix_grows_partial.
Print Assumptions confusion_matrix_remove_outside_refuted.
Print Assumptions mol_confusion_matrix_counts.
Print Assumptions mol_update_accepts.
Print Assumptions mol_negative_target_refuted.
