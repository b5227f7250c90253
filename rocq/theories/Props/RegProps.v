(** C36, C68, C69: regression measurements and running times. *)
From Coq Require Import List ZArith Bool Reals Lia Lra QArith.
From Verif Require Import Base.Py Base.Num Model.FastBuffer Model.RegMetrics Spec.Lists Spec.RegSpec Proofs.DdmProofs Proofs.RegProofs.
Import ListNotations.
Local Open Scope Z_scope.

(** C36. After any results the reported errors are the means over all results. *)
Theorem regression_errors_are_means : forall h : list (R * R),
  let s := regm_run regm_new h in
  regm_mse s = Ok (mse h) /\ regm_mae s = Ok (mae h) /\ rm_n s = Z.of_nat (length h) /\ (0 <= mse h)%R /\ (0 <= mae h)%R.
Proof.
  intros h s. destruct (regm_run_ok h regm_new []) as (H1 & H2 & H3); try reflexivity. simpl app in *. fold s in H1, H2, H3.
  unfold regm_mse, regm_mae. rewrite (mean_ok sqerr h _ _ H1 H3), (mean_ok abserr h _ _ H2 H3), <- mse_sqerr.
  repeat split; auto using mse_nonneg, mae_nonneg.
Qed.

(** C36, windowed: means over the last window_size results; add_result never raises. *)
Theorem windowed_regression_errors_are_means : forall (w : nat) (h : list (R * R)), (1 <= w)%nat ->
  exists s, wregm_run (wregm_new (Z.of_nat w)) h = Ok s
    /\ wregm_mse s = Ok (mse (lastn w h)) /\ wregm_mae s = Ok (mae (lastn w h))
    /\ wregm_count s = Z.of_nat (Nat.min w (length h)).
Proof.
  intros w h Hw. destruct (wregm_run_ok w h Hw _ _ (WR_new w)) as (s & Hs & [Hl H1 H2 H3 H4] & _). simpl app in *.
  exists s. split; [exact Hs|].
  assert (Hc : wregm_count s = Z.of_nat (length (lastn w h))).
  { destruct H3 as (_ & Hz & _). unfold wregm_count. rewrite Hz, map_length. reflexivity. }
  unfold wregm_mse, wregm_mae. rewrite (mean_ok sqerr _ _ _ H1 Hc), (mean_ok abserr _ _ _ H2 Hc), <- mse_sqerr.
  repeat split; auto. rewrite Hc. rewrite ListFacts.lastn_length. reflexivity.
Qed.

(** C36: reset gives a new object. *)
Theorem regression_reset_fresh : forall T (N : Num T) (s : regm T) (w : wregm T) (m : mtr T),
  regm_reset s = regm_new /\ wregm_reset w = wregm_new (wr_size w) /\ mtr_reset m = mtr_new.
Proof. intros. split; [|split]; reflexivity. Qed.
(** The windowed multi-target reset keeps the number of targets, which changes no report of any later history. *)
Theorem windowed_multitarget_reset_fresh : forall T (N : Num T) (s : wmtr T) h,
  match wmtr_run (wmtr_reset s) h, wmtr_run (wmtr_new (wt_size s)) h with
  | Ok a, Ok b => wmtr_amse a = wmtr_amse b /\ wmtr_amae a = wmtr_amae b /\ wmtr_armse a = wmtr_armse b
  | Raise e, Raise f => e = f
  | _, _ => False
  end.
Proof.
  intros T N s [|[y p] h].
  - cbn [wmtr_run]. repeat split.
  - cbn [wmtr_run]. replace (wmtr_add (wmtr_reset s) y p) with (wmtr_add (wmtr_new (wt_size s)) y p) by reflexivity.
    destruct (wmtr_add (wmtr_new (wt_size s)) y p) as [s1|e]; cbn [bind]; [|reflexivity]. destruct (wmtr_run s1 h); repeat split.
Qed.

(** C68. Multi-target: averages over the targets of the per-target errors. *)
Theorem multitarget_errors_are_averages : forall (m : nat) (h : list (list R * list R)),
  (1 <= m)%nat -> Forall (fun r => length (fst r) = m /\ length (snd r) = m) h ->
  exists s, mtr_run mtr_new h = Ok s
    /\ mtr_amse s = amse m h /\ mtr_amae s = amae m h /\ mtr_armse s = armse m h.
Proof.
  intros m h Hm Hw. destruct (mtr_run_ok m h mtr_new [] Hw) as (s & Hs & H1 & H2 & H3 & H4);
    try (left; split; reflexivity); try reflexivity; try congruence. simpl app in *.
  exists s. split; [exact Hs|]. unfold mtr_amse, mtr_amae, mtr_armse.
  rewrite (average_ok sqerr m h _ _ Hm _ H1 H3 H4), (average_ok abserr m h _ _ Hm _ H2 H3 H4), (average_root_ok m h _ _ Hm _ H1 H3 H4).
  rewrite amse_sqerr. repeat split; reflexivity.
Qed.

Theorem windowed_multitarget_errors_are_averages : forall (w m : nat) (h : list (list R * list R)),
  (1 <= w)%nat -> (1 <= m)%nat -> Forall (fun r => length (fst r) = m /\ length (snd r) = m) h ->
  exists s, wmtr_run (wmtr_new (Z.of_nat w)) h = Ok s
    /\ wmtr_amse s = amse m (lastn w h) /\ wmtr_amae s = amae m (lastn w h) /\ wmtr_armse s = armse m (lastn w h).
Proof.
  intros w m h Hw Hm Hf. destruct (wmtr_run_ok w m h Hw _ _ (WT_new w m) Hf) as (s & Hs & H & _). simpl app in *.
  exists s. split; [exact Hs|]. pose proof (WT_count _ _ _ _ H) as Hc. destruct H as [Hl H1 H2 H3 H4 H5].
  unfold wmtr_amse, wmtr_amae, wmtr_armse.
  rewrite (average_ok sqerr m _ _ _ Hm _ H1 Hc H5), (average_ok abserr m _ _ _ Hm _ H2 Hc H5), (average_root_ok m _ _ _ Hm _ H1 Hc H5).
  rewrite amse_sqerr. repeat split; reflexivity.
Qed.

(** C69. Training and testing time are the sums of the measured intervals; the total is their sum at the last report. *)
Theorem running_time_accounts : forall l : list action,
  let ops := flat_map (fun a => match a with Train x y => [TrainBegin x; TrainEnd y] | Test x y => [TestBegin x; TestEnd y]
                                | Report n => [Update n] end) l in
  exists s, rtm_run rtm_new ops = Ok s
    /\ rt_tr s = train_time l /\ rt_te s = test_time l /\ rt_n s = samples l
    /\ rt_total s = (train_time (upto_report l) + test_time (upto_report l))%R.
Proof. intros l. exact (rtm_run_ok l). Qed.

(** C69: an end without a begin is rejected. *)
Theorem running_time_needs_begin : forall T (N : Num T) (t : T),
  rtm_run rtm_new [TrainEnd t] = Raise TypeError /\ rtm_run rtm_new [TestEnd t] = Raise TypeError.
Proof. intros. split; reflexivity. Qed.

(** Non-vacuity. *)
Example windowed_regression_run : exists s, wregm_run (wregm_new 2) [(1#1, 0#1); (5#1, 2#1); (2#1, 2#1); (0#1, 4#1)]%Q = Ok s
  /\ wregm_mse s = Ok (8#1)%Q /\ wregm_mae s = Ok (2#1)%Q /\ wregm_count s = 2.
Proof. apply ok_ex. vm_compute. repeat split. Qed.
Example multitarget_run : exists s, wmtr_run (wmtr_new 2) [([1#1; 2#1], [0#1; 0#1]); ([1#1; 2#1], [3#1; 2#1]); ([0#1; 1#1], [0#1; 5#1])]%Q = Ok s
  /\ wmtr_amse s = (5#1)%Q /\ wmtr_amae s = (3#2)%Q.
Proof. apply ok_ex. vm_compute. repeat split. Qed.

Print Assumptions regression_errors_are_means.
Print Assumptions windowed_regression_errors_are_means.
Print Assumptions windowed_multitarget_errors_are_averages.
Print Assumptions running_time_accounts.
