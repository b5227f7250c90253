(** C39, C40: the queue of samples waiting for their label. *)
From Coq Require Import List ZArith Bool Lia Sorted Permutation.
From Verif Require Import Base.Py Model.DataStream Model.TimeManager Proofs.StreamProofs Proofs.TimeManagerProofs.
Import ListNotations.
Local Open Scope Z_scope.

(** C39. Over any history, every sample queued is either handed out (once) or still queued; the queue is in
    order of availability.  [sort] is any sorting of the rows by available time. *)
Theorem time_manager_conserves_samples : forall X Y P W (sort : list (trow X Y P W) -> list (trow X Y P W)),
  (forall l, Permutation (sort l) l /\ by_avail (sort l)) ->
  forall t0 ops s outs, Forall nonneg_next ops -> tm_run sort (tm_new t0) ops = Ok (s, outs) ->
  Permutation (concat outs ++ map sample (tm_queue s)) (map sample (concat (map queued_by ops)))
  /\ by_avail (tm_queue s).
Proof.
  intros X Y P W sort Hs t0 ops s outs F H.
  destruct (tm_run_ok sort Hs ops (tm_new t0) s outs F) as (S1 & tk & E & Pm); auto; [constructor|].
  split; auto. rewrite E, <- map_app. now apply Permutation_map.
Qed.

(** C39. get_available_samples hands out exactly the queued samples whose label is available by now, in order
    of availability, and keeps exactly the others. *)
Theorem available_samples_are_the_due_ones : forall X Y P W (sort : list (trow X Y P W) -> list (trow X Y P W)),
  (forall l, Permutation (sort l) l /\ by_avail (sort l)) ->
  forall t0 ops s outs, Forall nonneg_next ops -> tm_run sort (tm_new t0) ops = Ok (s, outs) ->
  exists due, snd (tm_get_available s) = map sample due
    /\ by_avail due
    /\ (forall r, In r due -> tr_available r <= tm_now s)
    /\ (forall r, In r (tm_queue (fst (tm_get_available s))) -> tm_now s < tr_available r)
    /\ Permutation (due ++ tm_queue (fst (tm_get_available s))) (tm_queue s)
    /\ tm_has_more s = negb (Nat.eqb (length (tm_queue s)) 0).
Proof.
  intros X Y P W sort Hs t0 ops s outs F H.
  destruct (tm_run_ok sort Hs ops (tm_new t0) s outs F) as (S1 & _); auto; [constructor|].
  exists (filter (fun r => tr_available r <=? tm_now s) (tm_queue s)).
  split; [reflexivity|]. split; [now apply filter_sorted|]. split; [|split; [|split]].
  - intros r Hr. apply filter_In in Hr. destruct Hr as [_ Hr]. now apply Z.leb_le in Hr.
  - simpl. intros r Hr. apply filter_In in Hr. destruct Hr as [_ Hr]. rewrite Z.gtb_ltb in Hr. now apply Z.ltb_lt in Hr.
  - apply filter_le_gt.
  - unfold tm_has_more. destruct (tm_queue s); [reflexivity|]. simpl. destruct (Z.gtb_spec (Z.pos (Pos.of_succ_nat (length l))) 0); auto; lia.
Qed.

(** C39. Without next_sample no call ever raises; the clock is the last one set. *)
Theorem time_manager_never_raises : forall X Y P W (sort : list (trow X Y P W) -> list (trow X Y P W)) t0 ops t,
  forallb (fun o => match o with NextSample _ => false | _ => true end) ops = true ->
  exists s outs, tm_run sort (tm_new t0) ops = Ok (s, outs) /\ tm_now (tm_update_timestamp s t) = t
    /\ tm_queue (tm_update_timestamp s t) = tm_queue s.
Proof. intros. destruct (tm_run_total sort ops H (tm_new t0)) as (s & outs & E). exists s, outs. repeat split; auto. Qed.

(** C40, part that holds: once some batch came without weights, next_sample(k) returns the k samples first in
    the queue (all if fewer) and removes exactly those. *)
Theorem next_sample_takes_first_partial : forall X Y P W (sort : list (trow X Y P W) -> list (trow X Y P W)) t0 ops s outs (k : nat),
  tm_run sort (tm_new t0) ops = Ok (s, outs) ->
  (exists xs ys ps arr av, In (Update xs ys ps None arr av) ops) ->
  exists s', tm_next s (Z.of_nat k) = Ok (s', map sample (firstn k (tm_queue s)))
    /\ tm_queue s' = skipn k (tm_queue s) /\ tm_now s' = tm_now s.
Proof.
  intros X Y P W sort t0 ops s outs k H (xs & ys & ps & arr & av & Hin).
  assert (E : tm_use_weight s = false).
  { rewrite (tm_use_weight_run _ _ _ _ _ H). simpl. apply not_true_is_false. intros Hf.
    rewrite forallb_forall in Hf. specialize (Hf _ Hin). discriminate. }
  eexists. rewrite tm_next_ok by auto. split; [reflexivity|]. split; reflexivity.
Qed.

(** C40 refuted: if every batch came with weights (or none came yet), next_sample always raises. *)
Theorem next_sample_with_weights_refuted : forall X Y P W (sort : list (trow X Y P W) -> list (trow X Y P W)) t0 ops s outs b,
  tm_run sort (tm_new t0) ops = Ok (s, outs) ->
  (forall xs ys ps arr av, ~ In (Update xs ys ps None arr av) ops) ->
  tm_next s b = Raise KeyError.
Proof.
  intros X Y P W sort t0 ops s outs b H Hin.
  assert (E : tm_use_weight s = true).
  { rewrite (tm_use_weight_run _ _ _ _ _ H). simpl. apply forallb_forall. intros o Ho.
    destruct o as [t|xs ys ps [ws|] arr av| |b']; auto. destruct (Hin _ _ _ _ _ Ho). }
  unfold tm_next. now rewrite E.
Qed.

(** Non-vacuity: a stable insertion sort is such a [sort], and a run with two batches. *)
Fixpoint ins (r : trow Z Z Z Z) (l : list (trow Z Z Z Z)) : list (trow Z Z Z Z) :=
  match l with [] => [r] | h :: t => if tr_available r <=? tr_available h then r :: l else h :: ins r t end.
Definition isort (l : list (trow Z Z Z Z)) := fold_right ins [] l.
Lemma ins_ok r l : by_avail l -> Permutation (ins r l) (r :: l) /\ by_avail (ins r l).
Proof.
  induction l as [|h t IH]; simpl; intros H; [split; repeat constructor|].
  inversion H as [|? ? H' F]; subst. destruct (Z.leb_spec (tr_available r) (tr_available h)) as [L|L].
  - split; auto. constructor; auto. constructor; auto. eapply Forall_impl; [|exact F]. simpl; intros; lia.
  - destruct (IH H') as [I1 I2]. split.
    + rewrite I1. apply perm_swap.
    + constructor; auto. apply Forall_forall. intros x Hx. eapply Permutation_in in Hx; [|exact I1].
      rewrite Forall_forall in F. destruct Hx as [<-|Hx]; [lia|auto].
Qed.
Lemma isort_ok l : Permutation (isort l) l /\ by_avail (isort l).
Proof.
  induction l as [|a l [I1 I2]]; simpl; [split; constructor|].
  destruct (ins_ok a (isort l) I2) as [J1 J2]. split; auto. rewrite J1. now constructor.
Qed.
Example time_manager_example :
  let ops := [Update [1; 2; 3] [10; 20; 30] [0; 0; 0] None [0; 1; 2] [9; 4; 7]; SetTime 5; GetAvailable;
              Update [4] [40] [0] None [5] [6]; SetTime 7; GetAvailable; NextSample 2] in
  exists s, tm_run isort (tm_new 0) ops = Ok (s, [[]; []; [(2, 20, 0)]; []; []; [(4, 40, 0); (3, 30, 0)]; [(1, 10, 0)]])
    /\ tm_queue s = [].
Proof. eexists. split; reflexivity. Qed.
Example weights_example : exists s, tm_run isort (tm_new 0) [Update [1; 2] [10; 20] [0; 0] (Some [1; 2]) [0; 1] [5; 6]] = Ok (s, [[]])
  /\ length (tm_queue s) = 2%nat /\ tm_next s 1 = Raise KeyError.
Proof. eexists. split; [reflexivity|]. split; reflexivity. Qed.

Print Assumptions time_manager_conserves_samples.
Print Assumptions available_samples_are_the_due_ones.
Print Assumptions time_manager_never_raises.
Print Assumptions next_sample_takes_first_partial.
Print Assumptions next_sample_with_weights_refuted.
