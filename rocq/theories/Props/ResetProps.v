(** C26: reset equals reconstruction, for every detector; C56: constant streams never alarm. *)
From Coq Require Import List ZArith Reals Lra.
From Verif Require Import Base.Py Base.Num Spec.Lists Spec.DetectorSpec Spec.KswinSpec Spec.HddmWSpec
  Model.Ddm Model.Eddm Model.PageHinkley Model.HddmA Model.HddmW Model.Kswin
  Proofs.DdmProofs Proofs.PageHinkleyProofs Proofs.ConstProofs Proofs.KswinProofs.
Import ListNotations.

(** C26.  After reset() every later call sequence runs as on a new detector with the same parameters. *)
Theorem reset_equals_new :
  forall (T : Type) (N : Num T),
    (forall (par : ddm_par T) s ops, drun (ddm_add par) ddm_reset (ddm_reset s) ops = drun (ddm_add par) ddm_reset ddm_init ops)
    /\ (forall s ops, drun eddm_add eddm_reset (eddm_reset s) ops = drun eddm_add eddm_reset (eddm_init (T := T)) ops)
    /\ (forall (par : ph_par T) s ops, drun (ph_add par) ph_reset (ph_reset s) ops = drun (ph_add par) ph_reset ph_init ops)
    /\ (forall (par : ha_par T) s ops,
          drun (hddm_a_add par) hddm_a_reset (hddm_a_reset s) ops = drun (hddm_a_add par) hddm_a_reset hddm_a_init ops)
    /\ (forall (par : hw_par T) s ops,
          drun (hddm_w_add par) hddm_w_reset (hddm_w_reset s) ops = drun (hddm_w_add par) hddm_w_reset hddm_w_init ops).
Proof. intros. repeat split. Qed.

(** KSWIN: reset() keeps the element counter n, which nothing reads; every later call sequence has the same windows,
    p-values, answers and exceptions as on a new detector. *)
Definition forget_n {T} (s : kswin T) : kswin T :=
  mkKswin (ks_alpha s) (ks_window_size s) (ks_stat_size s) (ks_window s) (ks_change s) (ks_p_value s) 0.
Definition same_view {T} (a b : res (kswin T)) : Prop :=
  match a, b with Ok x, Ok y => forget_n x = forget_n y | Raise e, Raise f => e = f | _, _ => False end.

Lemma kswin_add_view {T} {N : Num T} choice ks (s s' : kswin T) x :
  forget_n s = forget_n s' -> same_view (kswin_add choice ks s x) (kswin_add choice ks s' x).
Proof.
  intros H. unfold forget_n in H. inversion H as [[H1 H2 H3 H4 H5 H6]].
  unfold kswin_add. rewrite H1, H2, H3, H4, H6.
  destruct (_ <=? _)%Z; [|reflexivity]. destruct (ks_window s') as [|y v]; [reflexivity|].
  destruct (np_choice _ _ _); [|reflexivity]. cbn [bind]. destruct (ks_2samp _ _ _) as [[? ?]|]; reflexivity.
Qed.

Theorem kswin_reset_equals_new :
  forall (T : Type) (N : Num T) alpha w st data h (s s0 : kswin T) choice ks l,
    khist alpha w st data h s -> kswin_init alpha w st None = Ok s0 ->
    same_view (kfeed choice ks (kswin_reset s) l) (kfeed choice ks s0 l).
Proof.
  intros T N alpha w st data h s s0 choice ks l H E.
  assert (V : forget_n (kswin_reset s) = forget_n s0).
  { pose proof (khist_params _ _ _ _ _ _ H) as (A & B & C & _).
    unfold kswin_init in E. destruct (_ || _)%bool in E; [discriminate|].
    destruct (w <? 0)%Z; [discriminate|]. destruct (w <? st)%Z; [discriminate|]. inversion E; subst.
    unfold forget_n, kswin_reset; simpl. reflexivity. }
  revert V. generalize (kswin_reset s). clear. revert s0. induction l as [|x l IH]; intros s0 s V; simpl; auto.
  pose proof (kswin_add_view choice ks s s0 x V) as H.
  destruct (kswin_add choice ks s x), (kswin_add choice ks s0 x); simpl in *; auto; contradiction.
Qed.

(** C56.  On a constant stream no alarm is ever raised. *)
Theorem constant_stream_never_alarms :
  (forall (par : ddm_par R) seg s c, (c = 0 \/ c = 1)%R ->
     since ddm_init (ddm_add par) ddm_reset dd_change seg s -> (forall x, In x seg -> x = c) ->
     dd_change s = false /\ dd_warning s = false)
  /\ (forall seg (s : eddm R) c,
     since eddm_init eddm_add eddm_reset ed_change seg s -> (forall x, In x seg -> x = c) ->
     ed_change s = false /\ ed_warning s = false)
  /\ (forall (par : ph_par R) seg s c, (0 <= pp_delta par)%R -> (0 <= pp_threshold par)%R ->
     since ph_init (ph_add par) ph_reset ph_change seg s -> (forall x, In x seg -> x = c) -> ph_change s = false)
  /\ (forall (par : ha_par R), (0 < hp_drift par <= 1)%R -> (0 < hp_warn par <= 1)%R ->
     forall hist s c, after hddm_a_init (hddm_a_add par) hist s -> (forall x, In x hist -> x = c) ->
     ha_change s = false /\ ha_warning s = false /\ (hist <> [] -> ha_estimation s = c))
  /\ (forall (par : hw_par R), (0 < wp_drift par <= 1)%R -> (0 < wp_warn par <= 1)%R -> (0 <= wp_lambda par <= 1)%R ->
     forall seg s c, since hddm_w_init (hddm_w_add par) hddm_w_reset hw_change seg s -> (0 <= c)%R ->
     (forall x, In x seg -> x = c) -> hw_change s = false /\ hw_warning s = false).
Proof.
  split; [exact ddm_const_quiet_proof|]. split; [exact eddm_const_quiet_proof|].
  split; [exact ph_const_quiet_proof|]. split; [exact hddm_a_const_quiet_proof|exact hddm_w_const_quiet_proof].
Qed.

(** The parameter hypotheses are met by the library's defaults. *)
Example default_parameters :
  (0 <= pp_delta (mkPhPar 30 (5 / 1000) 50 (9999 / 10000)))%R /\ (0 < hp_drift (mkHaPar (1 / 1000) (5 / 1000) true) <= 1)%R
  /\ (0 <= wp_lambda (mkHwPar (1 / 1000) (5 / 1000) (5 / 100) true) <= 1)%R.
Proof. simpl. lra. Qed.

Print Assumptions reset_equals_new.
Print Assumptions kswin_reset_equals_new.
Print Assumptions constant_stream_never_alarms.
