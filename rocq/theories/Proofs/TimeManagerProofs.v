From Coq Require Import List ZArith Bool Lia Sorted Permutation.
From Verif Require Import Base.Py Model.DataStream Model.TimeManager Proofs.StreamProofs.
Import ListNotations.
Local Open Scope Z_scope.

Section TM.
Context {X Y P W : Type}.
Notation row := (trow X Y P W).
Variable sort : list row -> list row.

Definition by_avail (l : list row) : Prop := StronglySorted (fun a b => tr_available a <= tr_available b) l.
Hypothesis sort_ok : forall l, Permutation (sort l) l /\ by_avail (sort l).

Definition sample (r : row) : X * Y * P := (tr_x r, tr_y r, tr_pred r).

(** What a call puts into the queue. *)
Definition queued_by (o : tm_op X Y P W) : list row :=
  match o with
  | Update xs ys ps ws arr av =>
      tm_zip xs ys ps (match ws with Some l => map Some l | None => repeat None (length xs) end) arr av
  | _ => []
  end.

Lemma filter_sorted (f : row -> bool) l : by_avail l -> by_avail (filter f l).
Proof.
  intros H. induction H as [|a l H IH F]; simpl; [constructor|].
  destruct (f a); auto. constructor; auto. rewrite Forall_forall in *. intros x Hx. apply filter_In in Hx. intuition.
Qed.
Lemma sorted_skipn l k : by_avail l -> by_avail (skipn k l).
Proof.
  revert k. induction l as [|a l IH]; intros [|k] H; simpl; auto.
  apply IH. now inversion H.
Qed.
Lemma filter_le_gt l (t : Z) : Permutation (filter (fun r : row => tr_available r <=? t) l ++ filter (fun r => tr_available r >? t) l) l.
Proof.
  induction l as [|a l IH]; simpl; auto.
  destruct (Z.leb_spec (tr_available a) t) as [H|H]; rewrite Z.gtb_ltb; destruct (Z.ltb_spec t (tr_available a)); try lia; simpl.
  - now constructor.
  - apply Permutation_sym, Permutation_cons_app, Permutation_sym. exact IH.
Qed.

Lemma tm_next_ok s (k : nat) : tm_use_weight s = false ->
  tm_next s (Z.of_nat k) = Ok (mkTM (tm_now s) (skipn k (tm_queue s)) false, map sample (firstn k (tm_queue s))).
Proof.
  intros H. unfold tm_next, tm_cleanup. rewrite H. destruct (Z.geb_spec (Z.of_nat (length (tm_queue s)) - Z.of_nat k) 0) as [G|G].
  - rewrite pyslice_to, pyslice_from_nat. reflexivity.
  - rewrite firstn_all2, skipn_all2 by lia. reflexivity.
Qed.

(** One call: nothing is lost or duplicated, and the queue stays in order. *)
Lemma tm_step_ok s o s' out :
  (forall b, o = NextSample b -> 0 <= b) ->
  by_avail (tm_queue s) -> tm_step sort s o = Ok (s', out) ->
  by_avail (tm_queue s') /\ exists taken, out = map sample taken /\ Permutation (taken ++ tm_queue s') (tm_queue s ++ queued_by o).
Proof.
  intros Hb Hs H. destruct o as [t|xs ys ps ws arr av| |b]; simpl in H.
  - injection H as <- <-. split; auto. exists []. rewrite app_nil_r. split; auto.
  - injection H as <- <-. unfold tm_update_queue. destruct ws as [l|]; cbn [tm_queue]; (split; [apply sort_ok|]);
      exists []; (split; [reflexivity|]); apply sort_ok.
  - injection H as <- <-. cbn [tm_queue]. split; [now apply filter_sorted|].
    exists (filter (fun r => tr_available r <=? tm_now s) (tm_queue s)). split; auto. simpl. rewrite app_nil_r. apply filter_le_gt.
  - specialize (Hb b eq_refl). rewrite <- (Z2Nat.id b) in H by lia.
    destruct (tm_use_weight s) eqn:E; [unfold tm_next in H; rewrite E in H; discriminate|].
    rewrite tm_next_ok in H by auto. injection H as <- <-. cbn [tm_queue]. split; [now apply sorted_skipn|].
    exists (firstn (Z.to_nat b) (tm_queue s)). split; auto. simpl. rewrite app_nil_r, firstn_skipn. reflexivity.
Qed.

Definition nonneg_next (o : tm_op X Y P W) : Prop := match o with NextSample b => 0 <= b | _ => True end.

Lemma tm_run_ok ops : forall s s' outs, Forall nonneg_next ops ->
  by_avail (tm_queue s) -> tm_run sort s ops = Ok (s', outs) ->
  by_avail (tm_queue s') /\
  exists taken, concat outs = map sample taken /\ Permutation (taken ++ tm_queue s') (tm_queue s ++ concat (map queued_by ops)).
Proof.
  induction ops as [|o r IH]; intros s s' outs F Hs H; simpl in H.
  - injection H as <- <-. split; auto. exists []. split; auto. simpl. now rewrite app_nil_r.
  - apply bind_Ok in H. destruct H as ([s1 x] & H1 & H). apply bind_Ok in H. destruct H as ([s2 xs] & H2 & H).
    injection H as <- <-. inversion F; subst.
    destruct (tm_step_ok s o s1 x) as (S1 & t1 & E1 & P1); auto.
    { intros b ->. assumption. }
    destruct (IH s1 s2 xs) as (S2 & t2 & E2 & P2); auto.
    split; auto. exists (t1 ++ t2). split.
    + simpl. now rewrite E1, E2, map_app.
    + simpl. rewrite <- app_assoc, P2, !app_assoc, P1. reflexivity.
Qed.

(** Weights are in use until the first update without weights. *)
Lemma tm_use_weight_run ops : forall s s' outs, tm_run sort s ops = Ok (s', outs) ->
  tm_use_weight s' = tm_use_weight s && forallb (fun o => match o with Update _ _ _ None _ _ => false | _ => true end) ops.
Proof.
  induction ops as [|o r IH]; intros s s' outs H; simpl in H.
  - injection H as <- <-. simpl. now rewrite andb_true_r.
  - apply bind_Ok in H. destruct H as ([s1 x] & H1 & H). apply bind_Ok in H. destruct H as ([s2 xs] & H2 & H).
    injection H as <- <-. rewrite (IH _ _ _ H2). simpl. rewrite andb_assoc. f_equal.
    destruct o as [t|xs' ys ps ws arr av| |b]; simpl in H1.
    + injection H1 as <- _. now rewrite andb_true_r.
    + injection H1 as <- _. unfold tm_update_queue. destruct ws; simpl; [now rewrite andb_true_r|now rewrite andb_false_r].
    + injection H1 as <- _. now rewrite andb_true_r.
    + unfold tm_next in H1. destruct (tm_use_weight s) eqn:E; [discriminate|]. injection H1 as <- _. simpl. exact E.
Qed.

Lemma tm_run_total ops : forallb (fun o => match o with NextSample _ => false | _ => true end) ops = true ->
  forall s, exists s' outs, tm_run sort s ops = Ok (s', outs).
Proof.
  induction ops as [|o r IH]; simpl; intros H s; [eauto|]. apply andb_true_iff in H. destruct H as [Ho Hr].
  destruct o as [t|xs' ys ps ws arr av| |b]; try discriminate; simpl.
  - destruct (IH Hr (tm_update_timestamp s t)) as (s' & outs & ->). simpl. eauto.
  - destruct (IH Hr (tm_update_queue sort s xs' ys ps ws arr av)) as (s' & outs & ->). simpl. eauto.
  - destruct (IH Hr (fst (tm_get_available s))) as (s' & outs & E). unfold tm_get_available in *. simpl in *. rewrite E. simpl. eauto.
Qed.
End TM.
