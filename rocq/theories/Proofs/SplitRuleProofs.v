(** The sorted suggestions and the split rule. *)
From Coq Require Import List ZArith Bool Lia Permutation Sorted.
From Verif Require Import Base.Py Base.Num Base.Dict Model.Suggestion Model.SplitCriteria Model.TreeSkeleton Model.HoeffdingTree Spec.TreeSpec Spec.HoeffdingSpec
  Spec.SplitRuleSpec Proofs.TreeProofs Proofs.HoeffdingProofs.
Import ListNotations.
Local Open Scope Z_scope.

(** The last element of the sorted list is the last of the greatest ones. *)
Lemma insert_last {A} (le : A -> A -> bool) x l : l <> [] ->
  (exists m r, rev l = m :: r /\ (forall y, In y l -> le x y = false) /\ rev (insert_stable le x l) = x :: rev l)
  \/ (exists m r r', rev l = m :: r /\ (exists y, In y l /\ le x y = true) /\ rev (insert_stable le x l) = m :: r').
Proof.
  induction l as [|y l IH]; intros Ne; [contradiction|]. cbn [insert_stable]. destruct (le x y) eqn:Eb.
  - right. cbn [rev]. destruct (rev l ++ [y]) as [|m r] eqn:Er; [now destruct (rev l)|]. exists m, r, (r ++ [x]). split; auto. split; [|reflexivity].
    exists y. split; [now left|auto].
  - cbn [rev]. destruct l as [|z l]; [left; cbn; exists y, []; repeat split; auto; intros u [->|[]]; auto|]. destruct (IH ltac:(discriminate)) as [(m & r & E1 & E2 & E3)|(m & r & r' & E1 & (u & Hu & E2) & E3)].
    + left. rewrite E3, E1. exists m, (r ++ [y]). split; auto. split; [intros u [->|Hu]; auto|]. reflexivity.
    + right. rewrite E3, E1. exists m, (r ++ [y]), (r' ++ [y]). split; auto. split; auto. exists u. split; [now right|auto].
Qed.
Lemma sort_last {A} (le : A -> A -> bool) : (forall a b, le a b = false -> le b a = true) -> (forall a b c, le a b = true -> le b c = true -> le a c = true) ->
  forall l best rest, rev (sort_stable le l) = best :: rest ->
  exists pre post, l = pre ++ best :: post /\ Permutation rest (pre ++ post) /\ (forall o, In o pre -> le o best = true) /\ (forall o, In o post -> le best o = false).
Proof.
  intros Tot Tr. induction l as [|x l IH]; intros best rest H; cbn [sort_stable fold_right] in H; [discriminate|]. fold (sort_stable le l) in H.
  assert (PS := sort_stable_perm le l). destruct (sort_stable le l) as [|s0 sl] eqn:Es.
  - apply Permutation_sym, Permutation_nil in PS. subst l. cbn in H. injection H as <- <-. exists [], []. repeat split; auto; intros o [].
  - destruct (insert_last le x (s0 :: sl) ltac:(discriminate)) as [(m & r & E1 & E2 & E3)|(m & r & r' & E1 & (u & Hu & E2) & E3)]; rewrite E3 in H; injection H as <- <-.
    + exists [], l. cbn [app]. split; auto. split; [exact (Permutation_trans (Permutation_sym (Permutation_rev (s0 :: sl))) (Permutation_sym PS))|]. split; [intros o []|].
      intros o Ho. apply E2. eapply Permutation_in; [exact PS|exact Ho].
    + destruct (IH _ _ E1) as (pre & post & -> & P & Hp & Hq). exists (x :: pre), post. split; auto. split.
      * apply Permutation_cons_inv with (a := m). eapply Permutation_trans.
        { rewrite <- E3. eapply Permutation_trans; [apply Permutation_sym, Permutation_rev|]. apply Permutation_sym, insert_stable_perm. }
        eapply Permutation_trans; [apply perm_skip, Permutation_sym, PS|]. cbn [app]. eapply Permutation_trans; [|apply perm_swap]. apply perm_skip. apply Permutation_sym, Permutation_middle.
      * split; auto. intros o [<-|Ho]; auto.
        assert (SS : StronglySorted (fun a b => le a b = true) (s0 :: sl)) by (rewrite <- Es; now apply sort_stable_sorted).
        assert (Q : s0 :: sl = rev r ++ [m]) by (rewrite <- (rev_involutive (s0 :: sl)), E1; reflexivity). rewrite Q in SS, Hu.
        apply in_app_or in Hu as [Hu|[<-|[]]]; auto. eapply Tr; [exact E2|]. clear - SS Hu. induction (rev r) as [|a l IH]; [contradiction|]. cbn [app] in SS. inversion SS as [|? ? S' F]; subst.
        destruct Hu as [->|Hu]; [|auto]. rewrite Forall_forall in F. apply F. apply in_or_app. right. now left.
Qed.
Lemma sort_second {A} (le : A -> A -> bool) : (forall a b, le a b = false -> le b a = true) -> (forall a b c, le a b = true -> le b c = true -> le a c = true) ->
  forall l best second rest, rev (sort_stable le l) = best :: second :: rest -> forall o, In o rest -> le o second = true.
Proof.
  intros Tot Tr l best second rest H o Ho. assert (SS := sort_stable_sorted le Tot Tr l). rewrite <- (rev_involutive (sort_stable le l)), H in SS. cbn [rev] in SS. rewrite <- app_assoc in SS.
  apply in_rev in Ho. clear - SS Ho. induction (rev rest) as [|a r IH]; [contradiction|]. cbn [app] in SS. inversion SS as [|? ? S' F]; subst.
  destruct Ho as [->|Ho]; [|auto]. rewrite Forall_forall in F. apply F. apply in_or_app. right. now left.
Qed.

Section Rule.
Context {T : Type} {N : Num T}.
Lemma below_mgt (a b : option T) : below a b <-> mgt b a = true.
Proof. destruct a, b; cbn; intuition discriminate. Qed.
Lemma exceeds_gap eps (a b : option T) : exceeds_by eps a b <-> gap_gt a b eps = true.
Proof. destruct a, b; cbn; intuition discriminate. Qed.
Section Merit.
Context {A D : Type}.
Definition sle (a b : suggestion A D T) : bool := negb (mgt (sg_merit a) (sg_merit b)).
Lemma sle_tot : ordered T -> forall a b, sle a b = false -> sle b a = true.
Proof. intros [O1 _] a b H. unfold sle in *. apply negb_false_iff in H. apply negb_true_iff. destruct (sg_merit a), (sg_merit b); cbn in *; auto; try discriminate. Qed.
Lemma sle_trans : ordered T -> forall a b c, sle a b = true -> sle b c = true -> sle a c = true.
Proof. intros [_ O2] a b c H1 H2. unfold sle in *. apply negb_true_iff in H1, H2. apply negb_true_iff. destruct (sg_merit a), (sg_merit b), (sg_merit c); cbn in *; auto; try discriminate. eauto. Qed.
Lemma sle_below a b : sle a b = true <-> ~ below (sg_merit b) (sg_merit a).
Proof. unfold sle. rewrite below_mgt. destruct (mgt _ _); cbn; intuition discriminate. Qed.
Lemma sle_nbelow a b : sle b a = false <-> below (sg_merit a) (sg_merit b).
Proof. unfold sle. rewrite below_mgt. destruct (mgt _ _); cbn; intuition discriminate. Qed.
Lemma best_sorted bs best rest : ordered T -> rev (sort_stable sle bs) = best :: rest -> exists others, best_is bs best others /\ Permutation rest others.
Proof.
  intros Hord H. destruct (sort_last _ (sle_tot Hord) (sle_trans Hord) _ _ _ H) as (pre & post & -> & P & Hp & Hq). exists (pre ++ post). split; auto. exists pre, post. split; auto. split; auto. split.
  - intros o Ho. apply sle_below. auto.
  - intros o Ho. apply sle_nbelow. auto.
Qed.
Lemma best_is_unique (bs : list (suggestion A D T)) : forall b1 o1 b2 o2, ordered T -> best_is bs b1 o1 -> best_is bs b2 o2 -> b1 = b2 /\ o1 = o2.
Proof.
  intros b1 o1 b2 o2 Hord (p1 & q1 & E1 & -> & P1 & Q1) (p2 & q2 & E2 & -> & P2 & Q2).
  assert (Q : forall p1 p2 : list (suggestion A D T), p1 ++ b1 :: q1 = p2 ++ b2 :: q2 -> (forall o, In o p1 -> ~ below (sg_merit b1) (sg_merit o)) -> (forall o, In o p2 -> ~ below (sg_merit b2) (sg_merit o)) -> p1 = p2 /\ b1 = b2 /\ q1 = q2).
  { clear p1 p2 E1 E2 P1 P2. induction p1 as [|a p1 IH]; intros [|c p2] E P1 P2; cbn [app] in E.
    - injection E as -> ->. auto.
    - injection E as <- ->. exfalso. apply (P2 b1); [now left|]. apply Q1. apply in_or_app. right. now left.
    - injection E as -> <-. exfalso. apply (P1 b2); [now left|]. apply Q2. apply in_or_app. right. now left.
    - injection E as -> E. destruct (IH p2 E) as (-> & -> & ->); auto; intros o Ho; [apply P1|apply P2]; now right. }
  subst bs. destruct (Q p1 p2 E2 P1 P2) as (-> & -> & ->). auto.
Qed.
End Merit.

Lemma pure_mixed (l : leaf T) : NoDup (dkeys (lf_stats l)) -> leaf_pure l = false <-> mixed (lf_stats l).
Proof.
  intros ND. unfold leaf_pure, mixed. rewrite Nat.ltb_ge. set (d := lf_stats l) in *. clearbody d. clear l. set (f := fun kv : Z * T => negb (snd kv =? n0)%num). split.
  - intros L. destruct (filter f d) as [|[a u] [|[b v] r]] eqn:E; cbn in L; try lia.
    assert (Ha : In (a, u) (filter f d)) by (rewrite E; now left). assert (Hb : In (b, v) (filter f d)) by (rewrite E; right; now left). apply filter_In in Ha as [Ha Fa], Hb as [Hb Fb].
    exists a, b, u, v. split.
    + intros <-. assert (NF : NoDup (map fst (filter f d))).
      { clear - ND. unfold dkeys in ND. induction d as [|[k w] d IH]; [constructor|]. cbn in ND. inversion ND as [|? ? Hn ND']; subst. cbn [filter]. destruct (f (k, w)); [cbn; constructor; auto|auto].
        intros C. apply Hn. apply in_map_iff in C as (p & <- & Hp). apply filter_In in Hp as [Hp _]. now apply in_map. }
      rewrite E in NF. cbn in NF. inversion NF as [|? ? Hn _]. apply Hn. now left.
    + split; [now apply In_dget|]. split; [now apply In_dget|]. unfold f in Fa, Fb. apply negb_true_iff in Fa, Fb. auto.
  - intros (a & b & u & v & Ne & Ea & Eb & Fu & Fv). apply dget_In in Ea, Eb.
    assert (Ha : In (a, u) (filter f d)) by (apply filter_In; split; auto; apply negb_true_iff; exact Fu). assert (Hb : In (b, v) (filter f d)) by (apply filter_In; split; auto; apply negb_true_iff; exact Fv).
    destruct (filter f d) as [|x [|y r]]; [contradiction| |cbn; lia]. destruct Ha as [->|[]], Hb as [Hb|[]]. congruence.
Qed.

Variables (k : T) (phi : T -> T) (cfg : ht_config T).
Definition bound_of (l : leaf T) : T := epsilon (cr_range (h_crit cfg) (lf_stats l)) (h_confidence cfg) (leaf_weight l).
Lemma decide_iff l d te ds : ordered T -> subtractive T -> NoDup (dkeys (lf_stats l)) -> decide k phi cfg l = Ok d ->
  ((exists l2, d = SplitOn l2 te ds) <->
   mixed (lf_stats l) /\ exists bs best others, suggestions k phi cfg l = Ok bs /\ best_is bs best others /\ sg_test best = Some te /\ sg_dists best = ds /\ wins (bound_of l) (h_tie cfg) best others).
Proof.
  intros Hord Hsub ND. unfold decide. cbv zeta. destruct (leaf_pure l) eqn:Ep.
  { intros [= <-]. split; [intros [l2 C]; discriminate|]. intros [C _]. apply pure_mixed in C; auto. congruence. }
  apply pure_mixed in Ep; auto. intros H. apply bind_Ok in H as (bs & Eb & H).
  change (fun a b : suggestion (option (htest T)) (list (list (Z * T))) T => negb (mgt (sg_merit a) (sg_merit b))) with (@sle (option (htest T)) (list (list (Z * T)))) in H.
  destruct (rev (sort_stable sle bs)) as [|best rest] eqn:Er.
  { injection H as <-. split; [intros [l2 C]; discriminate|]. intros (_ & bs' & best & others & Eb' & (pre & post & E & _) & _). rewrite Eb in Eb'. injection Eb' as <-.
    apply (f_equal (@rev _)) in Er. rewrite rev_involutive in Er. cbn in Er. assert (P := sort_stable_perm sle bs). rewrite Er in P. apply Permutation_sym, Permutation_nil in P. subst bs. now destruct pre. }
  destruct (best_sorted _ _ _ Hord Er) as (others & B & P).
  assert (FL : forall X, (mixed (lf_stats l) /\ exists bs0 best0 others0, suggestions k phi cfg l = Ok bs0 /\ best_is bs0 best0 others0 /\ X best0 others0) <-> X best others).
  { intros X. split; [|intros HX; split; auto; exists bs, best, others; auto]. intros (_ & bs0 & b0 & o0 & E0 & B0 & HX). rewrite Eb in E0. injection E0 as <-. destruct (best_is_unique _ _ _ _ _ Hord B B0) as [-> ->]. exact HX. }
  rewrite (FL (fun best others => sg_test best = Some te /\ sg_dists best = ds /\ wins (bound_of l) (h_tie cfg) best others)).
  destruct rest as [|second rest].
  - apply Permutation_nil in P. subst others. injection H as <-. destruct (sg_test best) as [te0|].
    + split; [intros [l2 [= <- <- <-]]; split; [reflexivity|split; [reflexivity|left; intros o []]]|]. intros ([= ->] & <- & _). eauto.
    + split; [intros [l2 C]; discriminate|]. intros (C & _). discriminate.
  - apply bind_Ok in H as (bound & Ebd & H). apply bind_Ok in H as (poor & _ & H).
    assert (EB : bound = bound_of l). { unfold hoeffding_bound in Ebd. apply bind_Ok in Ebd as (i & Ei & Ebd). injection Ebd as <-. unfold pydiv in Ei. destruct (_ =? _)%num; [discriminate|]. injection Ei as <-. reflexivity. }
    subst bound. assert (Q2 : forall o, In o others -> sle o second = true).
    { intros o Ho. apply (Permutation_in _ (Permutation_sym P)) in Ho as [<-|Ho].
      + destruct (sle second second) eqn:Q; auto. apply (sle_tot Hord) in Q as Q'. congruence.
      + exact (sort_second _ (sle_tot Hord) (sle_trans Hord) _ _ _ _ Er _ Ho). }
    assert (W : wins (bound_of l) (h_tie cfg) best others <-> gap_gt (sg_merit best) (sg_merit second) (bound_of l) || (bound_of l <? h_tie cfg)%num = true).
    { rewrite orb_true_iff, <- exceeds_gap. unfold wins. split; (intros [H1|H1]; [left|right; exact H1]).
      - apply H1. eapply Permutation_in; [exact P|now left].
      - intros o Ho. specialize (Q2 o Ho). revert H1 Q2. unfold sle, exceeds_by. destruct (sg_merit best) as [b|], (sg_merit second) as [m|], (sg_merit o) as [m'|]; cbn; auto; try discriminate.
        intros A1 A2. apply negb_true_iff in A2. eauto. }
    rewrite W. injection H as <-. destruct (_ || _); [destruct (sg_test best) as [te0|]|].
    + split; [intros [l2 [= <- <- <-]]; auto|]. intros ([= ->] & <- & _). eauto.
    + split; [intros [l2 C]; discriminate|]. intros (C & _). discriminate.
    + split; [intros [l2 C]; discriminate|]. intros (_ & _ & C). discriminate.
Qed.
End Rule.
