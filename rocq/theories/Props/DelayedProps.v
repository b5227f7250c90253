(** C44, C80, C81, C82: delayed prequential evaluation.

    The learners ([fit_r], [predict_r]), the reporting ([report_r]), the clock ([timeout]) and the sorting of the queue
    ([sort], ties in any order) are arbitrary; learners may raise at any call and may look at the whole history.  The only
    assumption on predictions is their number. *)
From Coq Require Import List ZArith Bool Lia Sorted Permutation.
From Verif Require Import Base.Py Model.Evaluate Model.TimeManager Model.EvaluateDelayed Spec.DelayedSpec
  Proofs.TimeManagerProofs Proofs.DelayedProofs Proofs.DelayedMore.
Import ListNotations.

(** C44 (partial): with a pretraining batch, whatever the learners do and whenever they raise, at every moment of the run
    [delayed_ok] holds: rows are predicted before being scored or trained on, scored once, with the true label and the model's
    own prediction, and used for training once, after being scored, only when the clock reached their availability time or the
    main loop is over.  Missing: pretrain_size = 0, where nothing works (see the refutation below). *)
Theorem delayed_trains_on_available_labels_partial :
  forall X Y P W (src : source (drow X Y W)) weighted sort fit_r predict_r report_r timeout n_models classif batch n_wait max_samples fuel p0 pre,
  (forall l : list (trow (nat * X) Y (list P) W), Permutation (sort l) l /\ by_avail (sort l)) ->
  (forall t i xs ps, predict_r t i xs = Ok ps -> length ps = length xs) ->
  0 < n_models -> 0 < pre ->
  dthroughout (delayed_ok src p0 pre n_models classif)
    (dtr (dr_st (delayed src weighted sort fit_r predict_r report_r timeout n_models classif batch n_wait max_samples fuel p0 pre))).
Proof.
  intros. exact (proj1 (delayed_main src weighted sort H fit_r predict_r H0 report_r timeout n_models H1 classif batch n_wait max_samples p0 pre fuel H2)).
Qed.

(** C44 (partial): when the evaluation returns and no learner raised in the main loop, every row drawn after pretraining was
    scored exactly once for every model, and every model was trained on exactly the pretraining rows followed by the scored
    rows in the order they were scored. *)
Theorem delayed_scores_every_row_once_partial :
  forall X Y P W (src : source (drow X Y W)) weighted sort fit_r predict_r report_r timeout n_models classif batch n_wait max_samples fuel p0 pre,
  (forall l : list (trow (nat * X) Y (list P) W), Permutation (sort l) l /\ by_avail (sort l)) ->
  (forall t i xs ps, predict_r t i xs = Ok ps -> length ps = length xs) ->
  0 < n_models -> 0 < pre ->
  let r := delayed src weighted sort fit_r predict_r report_r timeout n_models classif batch n_wait max_samples fuel p0 pre in
  let drawn := match src_len src with Some n => Nat.min (dpos (dr_st r)) n | None => dpos (dr_st r) end in
  dr_end r <> ByException -> dr_out r = DReturned ->
  forall i, i < n_models ->
    (forall k, p0 + pre <= k < drawn <-> In k (dscored i (dtr (dr_st r)))) /\ NoDup (dscored i (dtr (dr_st r)))
    /\ (exists first, dtrained i (dtr (dr_st r)) = first ++ dscored i (dtr (dr_st r))
                      /\ forall k, In k first <-> p0 <= k < match src_len src with Some n => Nat.min (p0 + pre) n | None => p0 + pre end)
    /\ dcnt (dr_st r) = pre + length (dscored i (dtr (dr_st r))).
Proof.
  intros until pre. intros H H0 H1 H2 r drawn E O i Hi.
  destruct (delayed_main src weighted sort H fit_r predict_r H0 report_r timeout n_models H1 classif batch n_wait max_samples p0 pre fuel H2)
    as (_ & S & _). destruct (S E O i Hi) as (S1 & S2 & S3). fold r in S1, S2, S3. rewrite app_nil_r in S1.
  split; [|split; [|split]].
  - intros k. transitivity (In k (seq (p0 + pre) (stop src (dpos (dr_st r)) - (p0 + pre)))).
    + rewrite in_seq. unfold stop, drawn. destruct (src_len src); lia.
    + split; apply Permutation_in; auto. now symmetry.
  - eapply Permutation_NoDup; [symmetry; exact S1|]. apply seq_NoDup.
  - eexists. split; [exact S2|]. intros k. rewrite in_seq. unfold stop. destruct (src_len src); lia.
  - exact S3.
Qed.

(** C44: on a finite stream the evaluation is over after at most as many iterations as there are rows. *)
Theorem delayed_terminates :
  forall X Y P W (src : source (drow X Y W)) weighted sort fit_r predict_r report_r timeout n_models classif batch n_wait max_samples fuel p0 pre n,
  (forall l : list (trow (nat * X) Y (list P) W), Permutation (sort l) l /\ by_avail (sort l)) ->
  (forall t i xs ps, predict_r t i xs = Ok ps -> length ps = length xs) ->
  0 < n_models -> 0 < pre -> src_len src = Some n -> 0 < batch -> n <= fuel ->
  let r := delayed src weighted sort fit_r predict_r report_r timeout n_models classif batch n_wait max_samples fuel p0 pre in
  dr_end r <> OutOfFuel /\ dr_out r <> DOutOfFuel.
Proof.
  intros X Y P W src weighted sort fit_r predict_r report_r timeout n_models classif batch n_wait max_samples fuel p0 pre n H H0 H1 H2 H3 H4 H5.
  exact (proj2 (proj2 (proj2 (delayed_main src weighted sort H fit_r predict_r H0 report_r timeout n_models H1 classif batch n_wait max_samples p0 pre fuel H2))) n H3 H4 H5).
Qed.

(** C44 is false without pretraining: with pretrain_size = 0 no model is ever asked for a prediction, scored or trained, and
    the evaluation ends in an AttributeError (there is no time manager), for every stream and every learner. *)
Theorem delayed_without_pretraining_refuted :
  forall X Y P W (src : source (drow X Y W)) weighted sort fit_r predict_r report_r timeout n_models classif batch n_wait max_samples fuel p0,
  let r := delayed (P:=P) src weighted sort fit_r predict_r report_r timeout n_models classif batch n_wait max_samples fuel p0 0 in
  dtr (dr_st r) = [DDrain] /\ dr_out r = DRaised AttributeError.
Proof.
  intros. subst r. unfold delayed. cbn [Nat.ltb Nat.leb].
  set (s0 := mkDst p0 0 [] true 0 None).
  assert (L : forall s, dtr s = [] -> dtm s = None ->
    let '(s', e) := dloop src weighted sort fit_r predict_r report_r timeout n_models classif batch n_wait max_samples fuel 0 (dactual_max src max_samples p0) s in
    dtr s' = [] /\ dtm s' = None).
  { intros s Ht Hm. destruct fuel; simpl; (destruct (_ && _ && _); [|auto]); [auto|]. unfold dbody. cbn [dtm]. rewrite Hm. auto. }
  specialize (L s0 eq_refl eq_refl). destruct (dloop _ _ _ _ _ _ _ _ _ _ _ _ _ _ _ s0) as [s2 e]. destruct L as [L1 L2].
  destruct fuel; simpl; rewrite L2; cbn; rewrite L1; auto.
Qed.

(** C44 is false for streams with weights: as soon as one batch was drawn by the main loop and no learner raised there, the
    evaluation ends in a KeyError and the rows still queued are never scored. *)
Theorem delayed_weighted_refuted :
  forall X Y P W (src : source (drow X Y W)) sort fit_r predict_r report_r timeout n_models classif batch n_wait max_samples fuel p0 pre,
  (forall l : list (trow (nat * X) Y (list P) W), Permutation (sort l) l /\ by_avail (sort l)) ->
  (forall t i xs ps, predict_r t i xs = Ok ps -> length ps = length xs) ->
  0 < n_models -> 0 < pre -> 0 < batch -> 0 < fuel ->
  let r := delayed src true sort fit_r predict_r report_r timeout n_models classif batch n_wait max_samples fuel p0 pre in
  dr_end r <> ByException -> p0 + pre < dpos (dr_st r) -> dr_out r = DRaised KeyError.
Proof.
  intros X Y P W src sort fit_r predict_r report_r timeout n_models classif batch n_wait max_samples fuel p0 pre H H0 H1 H2 H3 H4.
  exact (proj1 (proj2 (proj2 (delayed_main src true sort H fit_r predict_r H0 report_r timeout n_models H1 classif batch n_wait max_samples p0 pre fuel H2))) eq_refl H3 H4).
Qed.

(** C81 is false: on a finite stream with at most n_wait rows left, and no more than max_samples, the delayed evaluation never
    updates its metrics and never returns normally (the summary raises, at the latest), whatever the models are. *)
Theorem delayed_never_reports_refuted :
  forall X Y P W (src : source (drow X Y W)) weighted sort fit_r predict_r report_r timeout n_models classif batch n_wait max_samples fuel p0 pre n,
  (forall l : list (trow (nat * X) Y (list P) W), Permutation (sort l) l /\ by_avail (sort l)) ->
  (forall t i xs ps, predict_r t i xs = Ok ps -> length ps = length xs) ->
  0 < n_models -> src_len src = Some n -> p0 + pre <= n -> 0 < pre -> n - p0 <= n_wait -> n - p0 <= max_samples ->
  let r := delayed src weighted sort fit_r predict_r report_r timeout n_models classif batch n_wait max_samples fuel p0 pre in
  dr_end r <> ByException ->
  (forall c, ~ In (DReport c) (dtr (dr_st r))) /\ dr_out r <> DReturned.
Proof.
  intros X Y P W src weighted sort fit_r predict_r report_r timeout n_models classif batch n_wait max_samples fuel p0 pre n H H0 H1 H2 H3 H4 H5 H6 r E.
  destruct (delayed_quiet src weighted sort H fit_r predict_r H0 report_r timeout n_models H1 classif batch n_wait max_samples p0 pre n H2 H3 H4 H5 H6 fuel E) as [Q O].
  split; [|exact O]. intros c C. unfold dquiet in Q. assert (existsb is_dreport (dtr (dr_st r)) = true).
  { apply existsb_exists. exists (DReport c). auto. }
  unfold r in *. congruence.
Qed.

(** C82 is false: when labels only become available after the last arrival, the delayed evaluation draws the whole stream,
    however small max_samples is (above pretrain_size). *)
Theorem delayed_ignores_max_samples_refuted :
  forall X Y P W (src : source (drow X Y W)) weighted sort fit_r predict_r report_r timeout n_models classif batch n_wait max_samples fuel p0 pre n,
  (forall l : list (trow (nat * X) Y (list P) W), Permutation (sort l) l /\ by_avail (sort l)) ->
  (forall t i, fit_r t i = Ok tt) -> (forall t i xs, exists ps, predict_r t i xs = Ok ps /\ length ps = length xs) ->
  (forall i, timeout i = false) -> 0 < n_models -> 0 < batch ->
  (forall i j, d_arr (src_at src i) < d_av (src_at src j))%Z ->
  src_len src = Some n -> 0 < pre -> p0 + pre < n -> n <= fuel -> pre < max_samples ->
  n <= dpos (dr_st (delayed src weighted sort fit_r predict_r report_r timeout n_models classif batch n_wait max_samples fuel p0 pre)).
Proof.
  intros X Y P W src weighted sort fit_r predict_r report_r timeout n_models classif batch n_wait max_samples fuel p0 pre n H H0 H1 H2 H3 H4 H5 H6 H7 H8 H9 H10.
  refine (proj2 (delayed_late src weighted sort H fit_r predict_r H0 H1 report_r timeout H2 n_models H3 classif batch n_wait max_samples H4 p0 pre H5 fuel n H6 H7 _ H9 _)); [lia|].
  unfold dactual_max, dremaining. rewrite H6. destruct (_ || _)%bool; lia.
Qed.

(** ** Concrete runs *)
Fixpoint dins (r : trow (nat * Z) Z (list nat) Z) l : list (trow (nat * Z) Z (list nat) Z) :=
  match l with [] => [r] | h :: t => if (tr_available r <=? tr_available h)%Z then r :: l else h :: dins r t end.
Definition disort l := fold_right dins [] l.
Lemma dins_ok r l : by_avail l -> Permutation (dins r l) (r :: l) /\ by_avail (dins r l).
Proof.
  induction l as [|h t IH]; simpl; intros H; [split; repeat constructor|].
  inversion H as [|? ? H' F]; subst. destruct (Z.leb_spec (tr_available r) (tr_available h)) as [L|L].
  - split; auto. constructor; auto. constructor; auto. eapply Forall_impl; [|exact F]. simpl; intros; lia.
  - destruct (IH H') as [I1 I2]. split.
    + rewrite I1. apply perm_swap.
    + constructor; auto. apply Forall_forall. intros x Hx. eapply Permutation_in in Hx; [|exact I1].
      rewrite Forall_forall in F. destruct Hx as [<-|Hx]; [lia|auto].
Qed.
Lemma disort_ok l : Permutation (disort l) l /\ by_avail (disort l).
Proof.
  induction l as [|a l [I1 I2]]; simpl; [split; constructor|].
  destruct (dins_ok a (disort l) I2) as [J1 J2]. split; auto. rewrite J1. now constructor.
Qed.

(** n rows; row i has label i mod 2, weight 100 + i, arrives at time i and has its label [delay i] later. *)
Definition dsrc (n : nat) (delay : nat -> Z) : source (drow Z Z Z) :=
  mkSource (Some n) (fun i => mkD (Z.of_nat i) (Z.of_nat i mod 2)%Z (100 + Z.of_nat i)%Z (Z.of_nat i) (Z.of_nat i + delay i)%Z).
(** A learner that predicts how many rows model 0 was trained on. *)
Definition tfit (t : list (dev Z Z nat Z)) (i : nat) : res unit := Ok tt.
Definition tpred (t : list (dev Z Z nat Z)) (i : nat) (xs : list Z) : res (list nat) := Ok (map (fun _ => length (dtrained 0 t)) xs).
Lemma tpred_sized t i xs ps : tpred t i xs = Ok ps -> length ps = length xs.
Proof. intros E. injection E as <-. apply map_length. Qed.
Lemma tpred_total t i xs : exists ps, tpred t i xs = Ok ps /\ length ps = length xs.
Proof. eexists. split; [reflexivity|]. apply map_length. Qed.

(** 30 rows, labels 3 or 8 steps late: row 8 is scored after row 10. *)
Example delayed_run :
  let r := delayed (dsrc 30 (fun i => if i mod 4 =? 0 then 8%Z else 3%Z)) false disort tfit tpred (fun _ => Ok tt) (fun _ => false) 2 true 2 5 100 100 0 4 in
  dr_out r = DReturned /\ dr_end r = ByCondition /\ dcnt (dr_st r) = 30
  /\ firstn 10 (dscored 1 (dtr (dr_st r))) = [5; 6; 7; 4; 9; 10; 11; 8; 13; 14]
  /\ length (dscored 1 (dtr (dr_st r))) = 26.
Proof. vm_compute. repeat split; reflexivity. Qed.
(** The hypotheses of [delayed_never_reports_refuted] and [delayed_weighted_refuted] and of the late labels theorem. *)
Example never_reports_run :
  let r := delayed (dsrc 30 (fun _ => 3)%Z) false disort tfit tpred (fun _ => Ok tt) (fun _ => false) 1 true 2 200 1000 100 0 7 in
  dr_out r = DRaised TypeError /\ dr_end r = ByCondition /\ length (dscored 0 (dtr (dr_st r))) = 23.
Proof. vm_compute. repeat split; reflexivity. Qed.
Example weighted_run :
  let r := delayed (dsrc 30 (fun _ => 3)%Z) true disort tfit tpred (fun _ => Ok tt) (fun _ => false) 1 true 2 5 1000 100 0 7 in
  dr_out r = DRaised KeyError /\ dr_end r = ByCondition /\ dpos (dr_st r) = 31 /\ length (dscored 0 (dtr (dr_st r))) = 20.
Proof. vm_compute. repeat split; reflexivity. Qed.
Example late_run :
  let r := delayed (dsrc 60 (fun _ => 1000)%Z) false disort tfit tpred (fun _ => Ok tt) (fun _ => false) 1 true 1 5 20 100 0 4 in
  dr_out r = DReturned /\ dpos (dr_st r) = 60 /\ length (dscored 0 (dtr (dr_st r))) = 56.
Proof. vm_compute. repeat split; reflexivity. Qed.

(** C80 is false: the weights given to partial_fit are those of the rows that just arrived, not of the rows trained on: here
    rows 7 and 8 (weights 107, 108) are
    trained with the weights 110 and 111, and row 4 alone is passed with two weights. *)
Theorem delayed_weights_of_other_rows_refuted :
  let r := delayed (dsrc 30 (fun _ => 3)%Z) true disort tfit tpred (fun _ => Ok tt) (fun _ => false) 1 true 2 5 1000 100 0 4 in
  In (DFit 0 [(7, 7%Z); (8, 8%Z)] [1%Z; 0%Z] (Some [110%Z; 111%Z]) false) (dtr (dr_st r))
  /\ In (DFit 0 [(4, 4%Z)] [0%Z] (Some [106%Z; 107%Z]) false) (dtr (dr_st r))
  /\ d_w (src_at (dsrc 30 (fun _ => 3)%Z) 7) = 107%Z.
Proof. vm_compute. split; [|split; [|reflexivity]]; repeat (first [left; reflexivity | right]). Qed.

Print Assumptions delayed_trains_on_available_labels_partial.
Print Assumptions delayed_scores_every_row_once_partial.
Print Assumptions delayed_terminates.
Print Assumptions delayed_without_pretraining_refuted.
Print Assumptions delayed_weighted_refuted.
Print Assumptions delayed_never_reports_refuted.
Print Assumptions delayed_ignores_max_samples_refuted.
Print Assumptions delayed_weights_of_other_rows_refuted.
