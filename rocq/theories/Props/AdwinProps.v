(** C07 - C14: ADWIN (drift_detection/adwin.py). *)
From Coq Require Import List ZArith QArith Reals PrimFloat.
From Verif Require Import Base.Py Base.Num Base.NumFloat Spec.Lists Spec.AdwinSpec Model.Adwin Proofs.AdwinHistory Proofs.AdwinDecision.
Import ListNotations.
Open Scope Z_scope.

(** C07.  In every reachable state and for every allowed call (any interleaving of add_element, detected_change,
    delete_element, reset, set_clock, reset_change; any arithmetic, so also NaN and infinities; any outcome of the cut
    test) the call returns normally: no array access is out of bounds and the shrinking loop terminates. *)
Theorem adwin_never_raises :
  forall (T : Type) (N : Num T) (delta : T) ops s o,
    reached delta ops s -> allowed s o -> exists s', adwin_step s o = Ok (Some s').
Proof. intros; eapply adwin_never_raises_proof; eauto. Qed.

(** C07.  The width is the number of elements the stored buckets stand for; row sizes stay between 4 and 5 (at most 5
    in the last row), and each row's array has 6 cells. *)
Theorem adwin_width_is_bucket_sum :
  forall (T : Type) (N : Num T) (delta : T) ops s,
    reached delta ops s ->
    ad_width s = Z.of_nat (nsum (map fst (stored_buckets s)))
    /\ ad_rows s <> []
    /\ (forall i r, nth_error (ad_rows s) i = Some r ->
          0 <= it_size r <= MAX_BUCKETS
          /\ ((S i < length (ad_rows s))%nat -> MAX_BUCKETS - 1 <= it_size r)
          /\ length (it_tot r) = 6%nat)
    /\ ad_width s <= Z.of_nat (length (seen ops)).
Proof. intros; eapply adwin_width_proof; eauto. Qed.

(** C08.  The window is the last [width] elements since the last reset: total, estimation and every bucket sum are
    the exact sums of consecutive blocks of it. *)
Theorem adwin_total_is_suffix_sum :
  forall (delta : R) ops (s : adwin R),
    reached delta ops s ->
    let window := lastn (Z.to_nat (ad_width s)) (seen ops) in
    (0 <= ad_width s)
    /\ length window = Z.to_nat (ad_width s)
    /\ ad_total s = Rsum window
    /\ adwin_estimation s = (if Nat.eqb (length window) 0 then 0%R else Rmean window)
    /\ (exists blocks, concat blocks = window /\
          Forall2 (fun (b : nat * R) blk => length blk = fst b /\ Rsum blk = snd b) (stored_buckets s) blocks).
Proof. exact adwin_total_proof. Qed.

(** C08, corollary: the estimation of a non-empty window stays within the bounds of the inputs. *)
Theorem adwin_estimation_within_input_bounds :
  forall (delta : R) ops (s : adwin R) lo hi,
    reached delta ops s -> 1 <= ad_width s -> (forall x, In x (seen ops) -> lo <= x <= hi)%R ->
    (lo <= adwin_estimation s <= hi)%R.
Proof. exact adwin_estimation_bounds_proof. Qed.

(** C09.  Logarithmic memory. *)
Theorem adwin_memory_logarithmic :
  forall (T : Type) (N : Num T) (delta : T) ops s,
    reached delta ops s ->
    (length (stored_buckets s) <= 5 * (Nat.log2 (Z.to_nat (ad_width s) + 1) + 1))%nat.
Proof. intros; eapply adwin_log_memory_proof; eauto. Qed.

(** C10.  detected_change returns True exactly when the window shrank; tests happen only on multiples of the clock and
    above the minimal width; otherwise the buckets are untouched; the detection counter counts the True answers. *)
Theorem adwin_detects_iff_shrinks :
  forall (T : Type) (N : Num T) (delta : T) ops s,
    reached delta ops s ->
    exists s' b, adwin_detect s = Ok (Some (s', b))
      /\ (b = true <-> ad_width s' < ad_width s)
      /\ ad_width s' <= ad_width s
      /\ (b = true -> (ad_time s + 1) mod ad_clock s = 0 /\ 10 < ad_width s)
      /\ (b = false -> stored_buckets s' = stored_buckets s)
      /\ ad_n_detections s' = ad_n_detections s + (if b then 1 else 0)
      /\ ad_in_change s' = b
      /\ ad_time s' = ad_time s + 1.
Proof. intros; eapply adwin_detect_iff_shrink_proof; eauto. Qed.

(** C60.  The decision rule.  A call that tests (ordinal a multiple of the clock, more than ten elements) answers True
    exactly when moving some prefix of the movable buckets to the old side leaves two sides of at least five elements
    whose means differ by more than the threshold; and when it returns no such prefix is left. *)
Theorem adwin_decision_rule :
  forall (delta : R) ops (s s' : adwin R) b,
    (0 < delta <= 1)%R -> reached delta ops s -> adwin_detect s = Ok (Some (s', b)) ->
    (b = true <-> ((ad_time s + 1) mod ad_clock s = 0 /\ 10 < ad_width s)
       /\ exists old rest, moved_buckets s = old ++ rest /\ separates delta s old)
    /\ (((ad_time s + 1) mod ad_clock s = 0 /\ 10 < ad_width s) ->
        forall old rest, moved_buckets s' = old ++ rest -> ~ separates delta s' old).
Proof. intros delta ops s s' b _. apply adwin_decision_proof. Qed.

(** C56 for ADWIN: a constant stream never alarms. *)
Theorem adwin_constant_stream_never_alarms :
  forall (delta : R) ops (s s' : adwin R) b c,
    (0 < delta <= 1)%R -> reached delta ops s -> (forall x, In x (seen ops) -> x = c) ->
    adwin_detect s = Ok (Some (s', b)) -> b = false.
Proof. exact adwin_const_proof. Qed.

(** A concrete drift in binary64: 96 zeros then 64 ones with delta = 0.002, testing after each element.  The detector
    shrinks; every hypothesis above is met. *)
#[local] Existing Instance NumF.
Definition drift_ops : list (adwin_op float) :=
  concat (map (fun v => [AAdd v; ADetect]) (repeat 0%float 96 ++ repeat 1%float 64)).

Example adwin_drift_run :
  exists s, run_allowed (adwin_init 0.002%float) drift_ops = Some s
    /\ ad_n_detections s = 2 /\ ad_width s = 96 /\ ad_in_change s = true
    /\ length (stored_buckets s) = 19%nat.
Proof. eexists. split; [vm_compute; reflexivity|]. vm_compute. auto. Qed.

(** C11 (partial).  The variance is exact as long as no element was dropped since the last reset.  Missing: windows
    that shrank, for which the next two theorems say what happens. *)
Theorem adwin_variance_exact_partial :
  forall (delta : R) ops (s : adwin R),
    reached delta ops s -> 1 <= ad_width s -> ad_width s = Z.of_nat (length (seen ops)) ->
    adwin_variance s = Rvariance (seen ops).
Proof. exact adwin_variance_exact_proof. Qed.

(** C11.  In general the reported variance never underestimates the variance of the window. *)
Theorem adwin_variance_upper_bound :
  forall (delta : R) ops (s : adwin R),
    reached delta ops s -> 1 <= ad_width s ->
    (Rvariance (lastn (Z.to_nat (ad_width s)) (seen ops)) <= adwin_variance s)%R.
Proof. exact adwin_variance_upper_proof. Qed.

(** C11 is false once a bucket of level 2 is dropped: compress_buckets adds only the variance of the second merged
    bucket (adwin.py:261), so after dropping 1,-1,0,0 from 1,-1,0,...,0 the window holds twelve zeros, yet the reported
    variance is 1/6. *)
Theorem adwin_variance_refuted :
  exists (ops : list (adwin_op Q)) s,
    reached (1 # 100)%Q ops s /\ ad_width s = 12 /\ lastn 12 (seen ops) = repeat 0%Q 12
    /\ adwin_variance s = (1 # 6)%Q.
Proof.
  set (ops := map AAdd (1%Q :: (-1)%Q :: repeat 0%Q 14) ++ [ADelete]).
  destruct (run_allowed (adwin_init (1 # 100)%Q) ops) as [s|] eqn:E; [|vm_compute in E; discriminate].
  exists ops, s. split.
  - change ops with ([] ++ ops). eapply run_allowed_reached; [constructor|exact E].
  - vm_compute in E. inversion E; subst. vm_compute. auto.
Qed.

(** C12 is false for every window of two or more rows: the scan performs at most (#buckets - #rows) comparisons, fewer
    than the (#buckets - 1) boundaries (adwin.py:317 iterates over range(size - 1)). *)
Theorem adwin_considers_every_boundary_refuted :
  forall (T : Type) (N : Num T) (delta : T) ops s x cs,
    reached delta ops s -> (2 <= length (ad_rows s))%nat -> adwin_scan s = Ok (x, cs) ->
    (length cs < length (stored_buckets s) - 1)%nat.
Proof.
  intros T N delta ops s x cs H H2 E.
  pose proof (adwin_skips_boundaries_proof delta ops s x cs H H2 E). Lia.lia.
Qed.

(** C12, concretely: with eleven elements stored as buckets of sizes 2,2,2,1,1,1,1,1 (oldest first), the boundary after the
    third bucket is never examined, although the scan runs to the end without finding a cut. *)
Example adwin_skipped_boundary :
  exists ops s old new st cs,
    reached (1 # 100)%Q ops s /\ ad_width s = 11 /\ stored_buckets s = old ++ new
    /\ map fst old = [2;2;2]%nat /\ map fst new = [1;1;1;1;1]%nat
    /\ adwin_scan s = Ok (ScanGo st, cs)
    /\ forall c, In c cs -> ~ boundary_comparison old new c.
Proof.
  set (ops := map AAdd (repeat 1%Q 6 ++ repeat 0%Q 5)).
  destruct (run_allowed (adwin_init (1 # 100)%Q) ops) as [s|] eqn:E; [|vm_compute in E; discriminate].
  exists ops, s, [(2%nat, 2%Q); (2%nat, 2%Q); (2%nat, 2%Q)],
    [(1%nat, 0%Q); (1%nat, 0%Q); (1%nat, 0%Q); (1%nat, 0%Q); (1%nat, 0%Q)].
  do 2 eexists.
  split; [change ops with ([] ++ ops); eapply run_allowed_reached; [constructor|exact E]|].
  vm_compute in E. injection E as <-. clear ops.
  split; [reflexivity|]. split; [reflexivity|]. split; [reflexivity|]. split; [reflexivity|].
  split; [vm_compute; reflexivity|].
  intros c Hi. 
  repeat (destruct Hi as [<-|Hi]; [intros (E1 & E2 & E3); vm_compute in E1, E2, E3; discriminate|]). destruct Hi.
Qed.

(** C13 is false: get_change returns False in every reachable state... *)
Theorem adwin_get_change_always_false :
  forall (T : Type) (N : Num T) (delta : T) ops s,
    reached delta ops s -> adwin_get_change s = false.
Proof. intros; eapply adwin_get_change_proof; eauto. Qed.

(** ... in particular after a detected change: detected_change assigns a local variable (adwin.py:344), not the
    attribute that get_change returns. *)
Theorem adwin_get_change_refuted :
  exists ops s s', reached 0.002%float ops s /\ adwin_detect s = Ok (Some (s', true)) /\ adwin_get_change s' = false.
Proof.
  destruct (run_allowed (adwin_init 0.002%float) (removelast drift_ops)) as [s|] eqn:E; [|vm_compute in E; discriminate].
  exists (removelast drift_ops), s. eexists.
  split; [change (removelast drift_ops) with ([] ++ removelast drift_ops); eapply run_allowed_reached; [constructor|exact E]|].
  vm_compute in E. injection E as <-. split; [vm_compute; reflexivity|reflexivity].
Qed.

(** C14.  reset() followed by any later calls behaves as those calls on a new detector with the same delta. *)
Theorem adwin_reset_is_fresh :
  forall (T : Type) (N : Num T) (delta : T) ops s later,
    reached delta ops s -> adwin_run s (AReset :: later) = adwin_run (adwin_init delta) later.
Proof. intros; eapply adwin_reset_fresh_proof; eauto. Qed.

(** Why [allowed] excludes delete_element on a one-element window: it removes the only row, and every later
    add_element raises AttributeError. *)
Theorem adwin_delete_last_refuted :
  forall (T : Type) (N : Num T) (delta a b : T),
    adwin_run (adwin_init delta) [AAdd a; ADelete; AAdd b] = Raise AttributeError.
Proof. reflexivity. Qed.

Print Assumptions adwin_never_raises.
Print Assumptions adwin_width_is_bucket_sum.
Print Assumptions adwin_total_is_suffix_sum.
Print Assumptions adwin_estimation_within_input_bounds.
Print Assumptions adwin_memory_logarithmic.
Print Assumptions adwin_detects_iff_shrinks.
Print Assumptions adwin_decision_rule.
Print Assumptions adwin_constant_stream_never_alarms.
Print Assumptions adwin_drift_run.
Print Assumptions adwin_variance_exact_partial.
Print Assumptions adwin_variance_upper_bound.
Print Assumptions adwin_variance_refuted.
Print Assumptions adwin_considers_every_boundary_refuted.
Print Assumptions adwin_get_change_always_false.
Print Assumptions adwin_get_change_refuted.
Print Assumptions adwin_reset_is_fresh.
Print Assumptions adwin_delete_last_refuted.
