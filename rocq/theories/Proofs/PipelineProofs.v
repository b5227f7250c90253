(** Pipelines. *)
From Coq Require Import List ZArith Bool Lia.
From Verif Require Import Base.Py Model.Pipeline Spec.PipelineSpec.
Import ListNotations.

Section P.
Context {S D Y C P : Type}.
Notation stepT := (step S D Y C P).
Lemma last_split {A} (l : list A) d : l <> [] -> l = removelast l ++ [last l d].
Proof. apply app_removelast_last. Qed.
Lemma sweep_snoc {A} skip f (g : stepT -> D -> res (A * stepT)) ts n final x : sweep skip f g (ts ++ [(n, final)]) x =
  let '(ts', y) := through skip f ts x in
  match y with
  | Raise e => (ts' ++ [(n, final)], Raise e)
  | Ok x' => match g final x' with Raise e => (ts' ++ [(n, final)], Raise e) | Ok (a, final') => (ts' ++ [(n, final')], Ok a) end
  end.
Proof. unfold sweep. destruct (ts ++ [(n, final)]) as [|z r] eqn:E; [destruct ts; discriminate|]. rewrite <- E. rewrite removelast_last, last_last. reflexivity. Qed.

Lemma through_transform ts : forall x ts' x', through (S := S) (D := D) (Y := Y) (C := C) (P := P) true do_transform ts x = (ts', Ok x') <-> transformed ts x ts' x'.
Proof.
  induction ts as [|[n [[o s]|]] ts IH]; intros x ts' x'; cbn [through].
  - split; [intros H; injection H as <- <-; constructor|intros H; inversion H; reflexivity].
  - unfold do_transform at 1. split.
    + intros H. destruct (o_transform o) as [tr|] eqn:Et; cbn [call bind] in H; [|discriminate]. destruct (tr s x) as [[x1 s1]|e] eqn:E; [|discriminate].
      destruct (through true do_transform ts x1) as [r y] eqn:Er. injection H as <- ->. econstructor; eauto. apply IH; exact Er.
    + intros H. inversion H as [| |? ? tr ? ? s' x1 ? ? ? Et E T]; subst. rewrite Et. cbn [call bind]. rewrite E. apply IH in T. rewrite T. reflexivity.
  - split.
    + intros H. destruct (through true do_transform ts x) as [r y] eqn:Er. injection H as <- ->. constructor. apply IH; exact Er.
    + intros H. inversion H as [|? ? ? ? ? T|]; subst. apply IH in T. rewrite T. reflexivity.
Qed.

(** *** Training: row by row is column by column *)
Definition trainable (s : Z * stepT) : Prop := match snd s with Some (o, _) => plain_transform o | None => False end.
Lemma through_fit ts : Forall trainable ts -> forall x y c ts' x', through false (pfit_one y c) ts x = (ts', Ok x') -> in_a_row ts [(x, y, c)] ts' [(x', y, c)] /\ Forall trainable ts'.
Proof.
  induction 1 as [|[n [[o s]|]] ts Ht F IH]; intros x y c ts' x' H; cbn [through] in H; [injection H as <- <-; split; [constructor|constructor]| |contradiction].
  cbn [trainable snd] in Ht. destruct Ht as ((tr & Et) & (pf & Ep) & (ft & Ef) & En & Ec) eqn:Eq. clear Eq.
  unfold pfit_one at 1 in H. rewrite En in H. cbn [has] in H. unfold with_classes in H. rewrite Ep, Ec in H. cbn [call bind] in H. destruct (pf s x y c) as [s1|e] eqn:E1; cbn [bind] in H; [|discriminate].
  unfold do_transform in H. rewrite Et in H. cbn [call bind] in H. destruct (tr s1 x) as [[x1 s2]|e] eqn:E2; [|discriminate].
  destruct (through false (pfit_one y c) ts x1) as [r z] eqn:Er. injection H as <- ->. apply IH in Er. destruct Er as [R1 R2]. split.
  - econstructor; [|exact R1]. econstructor; eauto. constructor.
  - constructor; [|exact R2]. repeat split; eauto.
Qed.
Lemma through_fit_conv ts : Forall trainable ts -> forall x y c ts' out, in_a_row ts [(x, y, c)] ts' out -> exists x', out = [(x', y, c)] /\ through false (pfit_one y c) ts x = (ts', Ok x').
Proof.
  induction 1 as [|[n [[o s]|]] ts Ht F IH]; intros x y c ts' out H; [inversion H; subst; exists x; split; reflexivity| |contradiction].
  inversion H as [|? ? ? ? s' bs' ? ts2 ? Fd Rw]; subst. inversion Fd as [|pf tr ? ? ? ? s1 x1 s2 ? ? rest' Ep Et E1 E2 Fd']; subst. inversion Fd'; subst. apply IH in Rw. destruct Rw as (x' & -> & R).
  exists x'. split; [reflexivity|]. cbn [through]. cbn [trainable snd] in Ht. destruct Ht as (_ & _ & _ & En & Ec). unfold pfit_one at 1. rewrite En. cbn [has]. unfold with_classes. rewrite Ep, Ec. cbn [call bind]. rewrite E1. cbn [bind]. unfold do_transform. rewrite Et. cbn [call bind]. rewrite E2, R. reflexivity.
Qed.
Lemma fed_app (o : obj S D Y C P) s bs s1 out : fed o s bs s1 out -> forall bs2 s2 out2, fed o s1 bs2 s2 out2 -> fed o s (bs ++ bs2) s2 (out ++ out2).
Proof. induction 1 as [|pf tr s x y c s1 x' s2 rest s' rest' E1 E2 E3 E4 F IH]; intros bs2 t out2 H; cbn [app]; [exact H|]. econstructor; eauto. Qed.
Lemma row_app ts bs ts1 out : in_a_row ts bs ts1 out -> forall bs2 ts2 out2, in_a_row (S := S) (D := D) (Y := Y) (C := C) (P := P) ts1 bs2 ts2 out2 -> in_a_row ts (bs ++ bs2) ts2 (out ++ out2).
Proof.
  induction 1 as [bs|n o s bs s' bs' ts ts' out Fd R IH]; intros bs2 ts2 out2 H; inversion H; subst; [constructor|]. econstructor; [eapply fed_app; eassumption|]. apply IH; assumption.
Qed.
Lemma row_nil_id ts : Forall trainable ts -> in_a_row ts [] ts [].
Proof. induction 1 as [|[n [[o s]|]] ts Ht F IH]; [constructor| |contradiction]. econstructor; [constructor|exact IH]. Qed.
Lemma taught_app (o : obj S D Y C P) s bs s1 : taught o s bs s1 -> forall bs2 s2, taught o s1 bs2 s2 -> taught o s (bs ++ bs2) s2.
Proof. induction 1; intros; cbn [app]; [assumption|]. econstructor; eauto. Qed.
Lemma pipe_columns batches : forall ts n o s steps', Forall trainable ts -> pipe_run (ts ++ [(n, Some (o, s))]) batches = (steps', Ok tt) ->
  exists ts' bs s', in_a_row ts batches ts' bs /\ taught o s bs s' /\ steps' = ts' ++ [(n, Some (o, s'))].
Proof.
  induction batches as [|[[x y] c] batches IH]; intros ts n o s steps' F H; cbn [pipe_run] in H.
  - injection H as <-. exists ts, [], s. split; [apply row_nil_id; exact F|]. split; [constructor|reflexivity].
  - unfold partial_fit in H. rewrite sweep_snoc in H. destruct (through false (pfit_one y c) ts x) as [ts1 [x'|e]] eqn:Et; [|discriminate]. cbn [pfit_final] in H.
    destruct (o_pfit o) as [pf|] eqn:Ep; cbn [call bind] in H; [|discriminate]. destruct (pf s x' y (if o_pfit_classes o then c else None)) as [s1|e] eqn:E1; cbn [bind] in H; [|discriminate].
    apply through_fit in Et; [|exact F]. destruct Et as [R1 F1]. apply IH in H; [|exact F1]. destruct H as (ts' & bs & s' & R2 & T2 & ->).
    exists ts', ((x', y, c) :: bs), s'. split; [apply (row_app _ [(x, y, c)] _ [(x', y, c)] R1); exact R2|]. split; [|reflexivity]. econstructor; eauto.
Qed.
(** ... and the other way round. *)
Lemma fed_cut (o : obj S D Y C P) s b bs s' out : fed o s (b :: bs) s' out -> exists s1 b' bs', out = b' :: bs' /\ fed o s [b] s1 [b'] /\ fed o s1 bs s' bs'.
Proof. intros H. inversion H as [|pf tr ? x y c s1 x' s2 rest ? rest' Ep Et E1 E2 F]; subst. exists s2, (x', y, c), rest'. split; [reflexivity|]. split; [econstructor; eauto; constructor|exact F]. Qed.
Lemma row_cut ts b bs ts' out : in_a_row ts (b :: bs) ts' out -> exists ts1 b' bs', out = b' :: bs' /\ in_a_row (S := S) (D := D) (Y := Y) (C := C) (P := P) ts [b] ts1 [b'] /\ in_a_row ts1 bs ts' bs'.
Proof.
  revert b bs ts' out. induction ts as [|[n st] ts IH]; intros b bs ts' out H; inversion H as [|? o s ? s' bs1 ? ts2 ? Fd R]; subst; [exists [], b, bs; repeat split; constructor|].
  apply fed_cut in Fd. destruct Fd as (s1 & b1 & bs2 & -> & F1 & F2). apply IH in R. destruct R as (ts1 & b' & bs' & -> & R1 & R2). exists ((n, Some (o, s1)) :: ts1), b', bs'. split; [reflexivity|]. split; econstructor; eauto.
Qed.
Lemma row_trainable ts bs ts' out : in_a_row ts bs ts' out -> Forall trainable ts -> Forall trainable ts'.
Proof. induction 1; intros F; [constructor|]. inversion F; subst. constructor; [assumption|]. apply IHin_a_row; assumption. Qed.
Lemma row_empty ts : forall ts' bs, in_a_row (S := S) (D := D) (Y := Y) (C := C) (P := P) ts [] ts' bs -> bs = [] /\ ts' = ts.
Proof. induction ts as [|[n st] ts IH]; intros ts' bs H; inversion H as [|? o s ? s' bs1 ? ts2 ? Fd R]; subst; [auto|]. inversion Fd; subst. apply IH in R. destruct R as [-> ->]. auto. Qed.
Lemma columns_pipe batches : forall ts n o s ts' bs s', Forall trainable ts -> in_a_row ts batches ts' bs -> taught o s bs s' -> pipe_run (ts ++ [(n, Some (o, s))]) batches = (ts' ++ [(n, Some (o, s'))], Ok tt).
Proof.
  induction batches as [|[[x y] c] batches IH]; intros ts n o s ts' bs s' F R T.
  - destruct (row_empty _ _ _ R) as [-> ->]. inversion T; subst. reflexivity.
  - apply row_cut in R. destruct R as (ts1 & b' & bs' & -> & R1 & R2). pose proof (row_trainable _ _ _ _ R1 F) as F1. apply through_fit_conv in R1; [|exact F]. destruct R1 as (x' & Eb & Et). injection Eb as ->.
    inversion T as [|pf ? ? ? ? s1 ? ? Ep E1 T']; subst. cbn [pipe_run]. unfold partial_fit. rewrite sweep_snoc, Et. cbn [pfit_final]. rewrite Ep. cbn [call bind]. rewrite E1. cbn [bind]. eapply IH; eauto.
Qed.
Lemma through_fitted y ts : forall x ts' x', through (S := S) (D := D) (Y := Y) (C := C) (P := P) false (fit_one y) ts x = (ts', Ok x') <-> fitted y ts x ts' x'.
Proof.
  induction ts as [|[n [[o s]|]] ts IH]; intros x ts' x'; cbn [through]; [split; [intros H; injection H as <- <-; constructor|intros H; inversion H; reflexivity]| |split; [discriminate|intros H; inversion H]].
  unfold fit_one at 1. unfold do_transform. split.
  - intros H. destruct (o_fit_transform o) as [ft|] eqn:E0.
    + destruct (ft s x y) as [[x1 s1]|e] eqn:E1; [|discriminate]. destruct (through false (fit_one y) ts x1) as [r z] eqn:Er. injection H as <- ->. eapply fitted_both; eauto. apply IH; exact Er.
    + destruct (o_fit o) as [ft|] eqn:E1; cbn [call bind] in H; [|discriminate]. destruct (ft s x y) as [s1|e] eqn:E2; cbn [bind] in H; [|discriminate]. destruct (o_transform o) as [tr|] eqn:E3; cbn [call bind] in H; [|discriminate]. destruct (tr s1 x) as [[x1 s2]|e] eqn:E4; [|discriminate].
      destruct (through false (fit_one y) ts x1) as [r z] eqn:Er. injection H as <- ->. eapply fitted_two; eauto. apply IH; exact Er.
  - intros H. inversion H as [|? ? ft ? ? s' x1 ? ? ? E0 E1 F|? ? ft tr ? ? s1 s' x1 ? ? ? E0 E1 E3 E2 E4 F]; subst; rewrite E0.
    + rewrite E1. apply IH in F. rewrite F. reflexivity.
    + rewrite E1. cbn [call bind]. rewrite E2. cbn [bind]. rewrite E3. cbn [call bind]. rewrite E4. apply IH in F. rewrite F. reflexivity.
Qed.
Lemma fit_iff ts n (o : obj S D Y C P) s x y steps' : fit (ts ++ [(n, Some (o, s))]) x y = (steps', Ok tt) <->
  exists ts' x' f s', fitted y ts x ts' x' /\ o_fit o = Some f /\ f s x' y = Ok s' /\ steps' = ts' ++ [(n, Some (o, s'))].
Proof.
  unfold fit. rewrite sweep_snoc. destruct (through false (fit_one y) ts x) as [ts1 z] eqn:Et. split.
  - intros H. destruct z as [x'|e]; [|discriminate]. cbn [fit_final] in H. destruct (o_fit o) as [f|] eqn:Ep; cbn [call bind] in H; [|discriminate]. destruct (f s x' y) as [s'|e] eqn:E1; cbn [bind] in H; [|discriminate]. injection H as <-.
    exists ts1, x', f, s'. split; [apply through_fitted; exact Et|]. auto.
  - intros (ts' & x' & f & s' & T & Ep & E1 & ->). apply through_fitted in T. rewrite Et in T. injection T as -> ->. cbn [fit_final]. rewrite Ep. cbn [call bind]. rewrite E1. reflexivity.
Qed.
Lemma predict_iff ts n (o : obj S D Y C P) s x steps' p : predict (ts ++ [(n, Some (o, s))]) x = (steps', Ok p) <->
  exists ts' x' pr, transformed ts x ts' x' /\ o_predict o = Some pr /\ pr s x' = Ok p /\ steps' = ts' ++ [(n, Some (o, s))].
Proof.
  unfold predict. rewrite sweep_snoc. destruct (through true do_transform ts x) as [ts1 y] eqn:Et. split.
  - intros H. destruct y as [x'|e]; [|discriminate]. cbn [do_predict] in H. destruct (o_predict o) as [pr|] eqn:Ep; cbn [call bind] in H; [|discriminate]. destruct (pr s x') as [p'|e] eqn:E1; cbn [bind] in H; [|discriminate]. injection H as <- <-.
    exists ts1, x', pr. split; [apply through_transform; exact Et|]. auto.
  - intros (ts' & x' & pr & T & Ep & E1 & ->). apply through_transform in T. rewrite Et in T. injection T as -> ->. cbn [do_predict]. rewrite Ep. cbn [call bind]. rewrite E1. reflexivity.
Qed.
(** *** partial_fit_predict *)
Definition steady (s : Z * stepT) : Prop := match snd s with Some (o, _) => plain_transform o /\ o_pft o = None /\ (forall tr t x x' t', o_transform o = Some tr -> tr t x = Ok (x', t') -> t' = t) | None => False end.
Lemma pfp_through ts : Forall steady ts -> forall x y ts' x', through false (pfp_one y) ts x = (ts', Ok x') -> through false (pfit_one y None) ts x = (ts', Ok x') /\ transformed ts' x ts' x'.
Proof.
  induction 1 as [|[n [[o s]|]] ts Ht F IH]; intros x y ts' x' H; cbn [through] in *; [injection H as <- <-; split; [reflexivity|constructor]| |contradiction].
  cbn [steady snd] in Ht. destruct Ht as (((tr & Et) & (pf & Ep) & (ft & Ef) & En & Ec) & Eno & St). unfold pfp_one at 1 in H. rewrite Eno, Ep in H. cbn [call bind] in H.
  unfold pfit_one at 1. rewrite En. cbn [has]. unfold with_classes. rewrite Ep, Ec. cbn [call bind]. destruct (pf s x y None) as [s1|e] eqn:E1; cbn [bind] in *; [|discriminate].
  destruct (do_transform o s1 x) as [[x1 s2]|e] eqn:E2; [|discriminate]. destruct (through false (pfp_one y) ts x1) as [r z] eqn:Er. injection H as <- ->. destruct (IH _ _ _ _ Er) as [R1 R2]. rewrite R1. split; [reflexivity|].
  unfold do_transform in E2. rewrite Et in E2. cbn [call bind] in E2. pose proof (St _ _ _ _ _ Et E2) as ->. econstructor; eauto.
Qed.
Lemma pfp_ok ts n (o : obj S D Y C P) s x y steps' p : Forall steady ts -> o_pfp o = None -> partial_fit_predict (ts ++ [(n, Some (o, s))]) x y = (steps', Ok p) ->
  partial_fit (ts ++ [(n, Some (o, s))]) x y None = (steps', Ok tt) /\ predict steps' x = (steps', Ok p).
Proof.
  intros F No H. unfold partial_fit_predict in H. rewrite sweep_snoc in H. destruct (through false (pfp_one y) ts x) as [ts1 [x'|e]] eqn:Et; [|discriminate]. cbn [pfp_final] in H. rewrite No in H.
  destruct (o_pfit o) as [pf|] eqn:Ep; cbn [call bind] in H; [|discriminate]. destruct (pf s x' y None) as [s1|e] eqn:E1; cbn [bind] in H; [|discriminate]. destruct (o_predict o) as [pr|] eqn:Er; cbn [call bind] in H; [|discriminate].
  destruct (pr s1 x') as [p'|e] eqn:E2; cbn [bind] in H; [|discriminate]. injection H as <- <-. apply pfp_through in Et; [|exact F]. destruct Et as [T1 T2]. split.
  - unfold partial_fit. rewrite sweep_snoc, T1. cbn [pfit_final]. rewrite Ep. cbn [call bind]. replace (if o_pfit_classes o then None else None) with (@None C) by (destruct (o_pfit_classes o); reflexivity). rewrite E1. reflexivity.
  - apply predict_iff. exists ts1, x', pr. auto.
Qed.
Lemma validate_snoc ts n final : validate (S := S) (D := D) (Y := Y) (C := C) (P := P) (ts ++ [(n, final)]) =
  if existsb bad_transform (map snd ts) then Raise TypeError else Ok match final with Some (o, _) => has (o_pfit o) | None => true end.
Proof. unfold validate. destruct (ts ++ [(n, final)]) as [|z r] eqn:E; [destruct ts; discriminate|]. rewrite <- E, removelast_last, last_last. reflexivity. Qed.
End P.
