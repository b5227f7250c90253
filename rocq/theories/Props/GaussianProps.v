(** C52, C86, C87: the Gaussian estimator and the Gaussian attribute observer of classification trees.

    [k] is sqrt(2 pi), [phi] the library's normal_probability; nothing but 0 <= phi <= 1 is assumed about it. *)
From Coq Require Import List ZArith QArith Bool Lia Reals Lra.
From Verif Require Import Base.Py Base.Num Base.Dict Spec.Lists Spec.ObserverSpec Model.Suggestion Model.GaussianObs
  Proofs.SuggestionProofs Proofs.GaussianProofs.
Import ListNotations.
Local Open Scope R_scope.

(** C52: weighted mean, total and variance, for every history of weights >= 0; the variance is never negative. *)
Theorem gaussian_estimator_exact : forall h : list (option R * R), (forall p, In p h -> 0 <= snd p) ->
  exists g, g_run g_new h = Ok g /\ g_total g = wtotal (observed h)
    /\ (0 < wtotal (observed h) -> g_mean g = wmean (observed h))
    /\ g_variance g = wvariance (observed h) /\ 0 <= g_variance g.
Proof.
  intros h Hh. destruct (g_run_ok h Hh [] g_new ginv_new) as (g & E & I). cbn [app] in I. exists g. split; auto.
  rewrite (g_variance_R _ _ I). pose proof I as (NN & EW & EM & _). split; [exact EW|]. split; [intros H; apply EM; auto|].
  split; auto. now apply wvariance_nonneg.
Qed.
Print Assumptions gaussian_estimator_exact.

(** C86: after any history the observer reports the normal density fitted to the observations of the class, 0 for a class not
    seen. *)
Theorem gaussian_observer_density : forall (k : R) h, k > 0 -> (forall p, In p h -> 0 <= snd p) ->
  exists o, go_run go_new h = Ok o
    /\ forall c a, go_probability k o a c = Ok (match of_class c h with [] => 0 | obs => normal_density k obs a end).
Proof.
  intros k h Hk Hh. destruct (go_run_ok h [] go_new goinv_new Hh) as (o & E & I). cbn [app] in I. exists o. split; auto.
  intros c a. unfold go_probability. destruct (of_class c h) as [|p l] eqn:Ec.
  - destruct (gi_none _ _ I c Ec) as (-> & _). reflexivity.
  - destruct (gi_some _ _ I c ltac:(congruence)) as (g & mn & mx & -> & _ & _ & Ig & _). rewrite Ec in Ig. apply g_density_R; auto.
Qed.
Print Assumptions gaussian_observer_density.

(** C86: the suggestion is the first of maximal merit among [nb] equidistant cut points strictly between the smallest and the
    largest value; for each of them, the weights of a class on the two sides are not negative, add up to the weight of the
    class, are all on one side when the cut point is outside the range of the class, and otherwise follow the normal
    distribution fitted to the class (when its variance is not 0).  No suggestion exactly when fewer than
    two different values were observed. *)
Theorem gaussian_observer_best_split : forall (k : R) phi nb merit h, k > 0 -> (forall z, 0 <= phi z <= 1) -> (1 <= nb)%nat ->
  (forall p, In p h -> 0 < snd p) ->
  exists o best, go_run go_new h = Ok o /\ go_best k phi nb merit o = Ok best
    /\ ((forall lo hi, is_min (values h) lo -> is_max (values h) hi -> lo = hi) <-> best = None)
    /\ forall lo hi, is_min (values h) lo -> is_max (values h) hi -> lo < hi ->
       let point i := lo + (hi - lo) / (INR nb + 1) * INR i in
       let candidate i l r := go_split k phi o (point i) = Ok (l, r) in
       (forall i, (1 <= i <= nb)%nat -> lo < point i < hi
          /\ exists l r, candidate i l r
             /\ forall c, side l c + side r c = wtotal (of_class c h) /\ 0 <= side l c /\ 0 <= side r c
                /\ ((forall x, In x (map fst (of_class c h)) -> point i < x) -> side l c = 0)
                /\ ((forall x, In x (map fst (of_class c h)) -> x <= point i) -> side r c = 0)
                /\ ((exists x y, In x (map fst (of_class c h)) /\ In y (map fst (of_class c h)) /\ x <= point i < y) ->
                    0 < wvariance (of_class c h) ->
                    side l c = phi ((point i - wmean (of_class c h)) / sqrt (wvariance (of_class c h))) * wtotal (of_class c h)))
       /\ exists i l r, (1 <= i <= nb)%nat /\ candidate i l r /\ best = Some (mkSug (point i) (l, r) (merit l r))
          /\ (forall j l' r', (1 <= j <= nb)%nat -> candidate j l' r' -> merit_le (merit l' r') (merit l r))
          /\ (forall j l' r', (1 <= j < i)%nat -> candidate j l' r' -> ~ merit_le (merit l r) (merit l' r')).
Proof.
  intros k phi nb merit h Hk Hphi Hnb Hh.
  destruct (go_run_ok h [] go_new goinv_new) as (o & E & I); [intros p Hp; specialize (Hh p Hp); lra|]. cbn [app] in I.
  assert (Hw : forall c, of_class c h <> [] -> 0 < wtotal (of_class c h)).
  { assert (P : forall c p, In p (of_class c h) -> 0 < snd p).
    { intros c [v w] H. unfold of_class in H. apply in_flat_map in H. destruct H as ([[[v'|] c'] w'] & H1 & H2); [|destruct H2].
      destruct (Z.eqb c' c); [|destruct H2]. destruct H2 as [[= <- <-]|[]]. exact (Hh _ H1). }
    intros c Hc. specialize (P c). destruct (of_class c h) as [|p l]; [congruence|]. unfold wtotal. cbn [map Rsum].
    pose proof (P p (or_introl eq_refl)). pose proof (wtotal_nonneg l (fun q Hq => Rlt_le _ _ (P q (or_intror Hq)))) as Q. unfold wtotal in Q. lra. }
  destruct (go_points_ok nb h o I) as (pts & Ep & P0 & P1).
  assert (Sp : forall v, exists l r, go_split k phi o v = Ok (l, r)).
  { intros v. destruct (go_split_ok k phi h o v Hk Hphi I Hw) as (l & r & Es & _). eauto. }
  destruct (go_best_loop_ok k phi merit o pts (fun v _ => Sp v) None) as (sugs & Eb & Mt & Md).
  exists o, (fold_left keep_best sugs None). split; auto. split; [unfold go_best; rewrite Ep; cbn [bind]; exact Eb|].
  assert (Len : length sugs = length pts) by (rewrite <- Mt; now rewrite map_length).
  split.
  - split.
    + intros Hsame. destruct (values h) as [|x0 l0] eqn:Ev.
      * rewrite (P0 eq_refl) in Mt. destruct sugs; [reflexivity|discriminate].
      * destruct (go_range_all h o I) as (mn & mx & _ & Hr). rewrite Ev in Hr. destruct mn as [a|], mx as [b|]; simpl in Hr; try contradiction; [|discriminate].
        destruct Hr as [Ha Hb]. rewrite (P1 a b Ha Hb) in Mt. rewrite (Hsame a b Ha Hb) in Mt. destruct (Rlt_dec b b); [lra|].
        destruct sugs; [reflexivity|discriminate].
    + intros Hn lo hi Hlo Hhi. rewrite (P1 lo hi Hlo Hhi) in Mt. destruct (Rlt_dec lo hi) as [L|L].
      * exfalso. destruct sugs as [|s0 sugs]; [destruct nb; [lia|discriminate]|].
        destruct (keep_best_ok (s0 :: sugs) ltac:(discriminate)) as (pre & s & post & _ & Ef & _). rewrite Ef in Hn. discriminate.
      * destruct Hlo as [L1 L2]. specialize (proj2 Hhi _ L1). lra.
  - intros lo hi Hlo Hhi L point candidate. pose proof (P1 lo hi Hlo Hhi) as Epts. destruct (Rlt_dec lo hi); [|contradiction].
    split.
    + intros i Hi. split.
      * unfold point. assert (P : 0 < INR nb + 1) by (pose proof (pos_INR nb); lra).
        assert (Q : INR i < INR nb + 1) by (rewrite <- S_INR; apply lt_INR; lia). assert (P2 : 0 < INR i) by (apply lt_0_INR; lia).
        assert (Bp : 0 < (hi - lo) / (INR nb + 1)) by (apply Rmult_lt_0_compat; [lra|now apply Rinv_0_lt_compat]).
        assert (0 < (hi - lo) / (INR nb + 1) * INR i) by (apply Rmult_lt_0_compat; auto).
        assert ((hi - lo) / (INR nb + 1) * INR i < (hi - lo) / (INR nb + 1) * (INR nb + 1)) by (apply Rmult_lt_compat_l; auto).
        assert ((hi - lo) / (INR nb + 1) * (INR nb + 1) = hi - lo) by (field; lra). lra.
      * destruct (go_split_ok k phi h o (point i) Hk Hphi I Hw) as (l & r' & Es & S0 & S1). exists l, r'. split; auto. intros c.
        destruct (of_class c h) as [|p obs] eqn:Ec.
        -- destruct (S0 c Ec) as [A B]. unfold side. rewrite A, B. unfold wtotal. simpl. split; [lra|]. do 4 (split; [lra|]). intros (x & y & [] & _).
        -- rewrite <- Ec. apply S1. congruence.
    + assert (Ns : sugs <> []).
      { intros ->. rewrite Epts in Mt. destruct nb; [lia|discriminate]. }
      destruct (keep_best_ok sugs Ns) as (pre & s & post & Es & Ef & Mx & Fi).
      assert (Nth : forall j s', nth_error sugs j = Some s' -> (j < nb)%nat /\ sg_test s' = point (S j)).
      { intros j s' Hj. assert (Hm : nth_error (map sg_test sugs) j = Some (sg_test s')) by now apply map_nth_error.
        rewrite Mt, Epts in Hm. assert (Hl : (j < length (map point (seq 1 nb)))%nat) by (apply nth_error_Some; unfold point; rewrite Hm; discriminate).
        rewrite map_length, seq_length in Hl. split; auto. rewrite (map_nth_error _ j _ (d := S j)) in Hm; [injection Hm as <-; reflexivity|].
        rewrite (nth_error_nth' _ 0%nat) by (rewrite seq_length; lia). now rewrite seq_nth by lia. }
      assert (Hs : nth_error sugs (length pre) = Some s) by (rewrite Es, nth_error_app2, Nat.sub_diag by lia; reflexivity).
      destruct (Nth _ _ Hs) as [Hi Ht]. destruct (Md s) as (l & r' & D1 & D2 & D3); [rewrite Es; apply in_or_app; right; now left|].
      exists (S (length pre)), l, r'. split; [lia|]. rewrite Ht in D1. split; [exact D1|].
      split; [rewrite Ef; f_equal; destruct s as [t d m]; cbn in *; subst; reflexivity|].
      assert (Cand : forall j l' r'', (1 <= j <= nb)%nat -> candidate j l' r'' -> exists s', nth_error sugs (j - 1) = Some s' /\ sg_merit s' = merit l' r'').
      { intros j l' r'' Hj Cj. destruct (nth_error sugs (j - 1)) as [s'|] eqn:En.
        - exists s'. split; auto. destruct (Nth _ _ En) as [_ T']. replace (S (j - 1)) with j in T' by lia.
          destruct (Md s' (nth_error_In _ _ En)) as (l1 & r1 & F1 & F2 & F3). rewrite T' in F1. unfold candidate in Cj. rewrite Cj in F1. injection F1 as <- <-. exact F3.
        - apply nth_error_None in En. rewrite Len, Epts, map_length, seq_length in En. lia. }
      split.
      * intros j l' r'' Hj Cj. destruct (Cand j l' r'' Hj Cj) as (s' & F1 & F2). rewrite <- F2, <- D3. apply Mx. eapply nth_error_In; eauto.
      * intros j l' r'' Hj Cj. destruct (Cand j l' r'' ltac:(lia) Cj) as (s' & F1 & F2). rewrite <- F2, <- D3. apply Fi.
        rewrite Es, nth_error_app1 in F1 by lia. eapply nth_error_In; eauto.
Qed.
Print Assumptions gaussian_observer_best_split.

(** C87 refuted: one class, value 0 and value 10 with weight 1/2 each: the estimated weight left of the cut drops from 1 to 0
    when the cut moves from 2 to 7 (the zero-variance branch compares with the mean the wrong way round; the estimated variance
    is 0 while the total weight is at most 1). *)
Theorem gaussian_split_not_monotone_refuted :
  exists o, go_run (T:=Q) go_new [(Some 0, 1%Z, 1#2); (Some 10, 1%Z, 1#2)]%Q = Ok o
    /\ forall k phi, go_split k phi o 2%Q = Ok ([(1%Z, 1)], [(1%Z, 0)])%Q /\ go_split k phi o 7%Q = Ok ([(1%Z, 0)], [(1%Z, 1)])%Q.
Proof. apply ok_ex. vm_compute. intros. split; reflexivity. Qed.
Print Assumptions gaussian_split_not_monotone_refuted.

(** Non-vacuity. *)
Example gaussian_example : exists g, g_run (T:=Q) g_new [(Some 2, 1); (None, 3); (Some 6, 3)]%Q = Ok g
  /\ (g_total g = 4 /\ g_mean g = 5 /\ g_variance g = 4)%Q.
Proof. apply ok_ex. vm_compute. repeat split. Qed.
Example gaussian_observer_example : exists h : list (option R * Z * R), (forall p, In p h -> 0 < snd p) /\ is_min (values h) 1 /\ is_max (values h) 3.
Proof.
  exists [(Some 1, 0%Z, 1); (Some 3, 1%Z, 2); (Some 2, 0%Z, 1)]. split; [intros p [<-|[<-|[<-|[]]]]; simpl; lra|].
  unfold values; simpl; split; (split; [simpl; auto|]); intros x [<-|[<-|[<-|[]]]]; lra.
Qed.
