(** Multi-target trees: the mean of every target stays within the range of the values seen for that target. *)
From Coq Require Import List ZArith Bool Reals Lra Lia Permutation.
From Verif Require Import Base.Py Base.Num Base.Dict Model.Suggestion Model.TargetStats Model.Ebst Model.NominalObs Model.SplitTests
  Model.SplitCriteria Model.Knn Model.TreeSkeleton Model.HoeffdingTree Model.HoeffdingRegressor Model.ISoup Spec.TreeSpec Spec.ISoupSpec
  Proofs.SplitTestProofs Proofs.TreeProofs Proofs.HoeffdingProofs Proofs.StatRangeProofs Proofs.ISoupInvProofs.
Import ListNotations.
Local Open Scope R_scope.
Local Notation st := (stat R nat).

Section Range.
Variables (ix : nat) (lo hi : R).
Local Notation pair_ok := (pair_ok lo hi).
Local Notation cone := (cone ix lo hi).
Local Notation binv := (binv ix lo hi).
Local Notation bs := (bs ix).
Local Notation dall := (dall ix lo hi).
Local Notation ds := (ds ix).
Variables (key : R -> Z) (cfg : htr_config R) (nt : nat) (M : model R).
(** ** Leaves *)
Definition robs_ok (pre : st) (o : mobs R) : Prop :=
  match o with
  | MNum t => binv t /\ pair_ok (st_w pre - bw t) (st_s pre ix - bs t)
  | MNom d => dall d /\ pair_ok (st_w pre - dw d) (st_s pre ix - ds d)
  | MNull => True
  end.
Definition preof (s : option st) : st := match s with Some s => s | None => s_zero end.
Definition leaf_ok (l : mleaf M) : Prop := cone (preof (ml_stats M l)) /\ forall k o, In (k, o) (ml_obs M l) -> robs_ok (preof (ml_stats M l)) o.
Definition inactive_ok (i : minactive M) : Prop := cone (preof (mn_stats M i)).
Definition in_range (x : list R) (y : nat -> R) (w : R) : Prop := lo <= y ix <= hi /\ 0 <= w.
Definition present (s : option st) : Prop := match s with Some s => cone s | None => False end.

Lemma stats_add_ok s y w : cone (preof s) -> lo <= y ix <= hi -> 0 <= w -> cone (mstats_add s y w) /\ st_w (mstats_add s y w) = st_w (preof s) + w /\ st_s (mstats_add s y w) ix = st_s (preof s) ix + w * y ix.
Proof.
  intros H Hy Hw. assert (E : st_w (mstats_add s y w) = st_w (preof s) + w /\ st_s (mstats_add s y w) ix = st_s (preof s) ix + w * y ix).
  { unfold mstats_add. destruct s; cbn; change (@n0 R NumR) with 0; split; ring. }
  split; auto. unfold cone. destruct E as [-> ->]. apply ok_add; auto. now apply ok_one.
Qed.
Lemma robs_mono pre pre' y w o : lo <= y ix <= hi -> 0 <= w -> st_w pre' = st_w pre + w -> st_s pre' ix = st_s pre ix + w * y ix -> robs_ok pre o -> robs_ok pre' o.
Proof.
  intros Hy Hw E1 E2. destruct o as [t|d|]; cbn; auto; intros [A B]; split; auto; rewrite E1, E2; refine (ok_eq _ _ _ _ (ok_add _ _ _ _ B (ok_one (y ix) w Hy Hw)) _ _); ring.
Qed.
Lemma robs_update_ok pre pre' v y w o : lo <= y ix <= hi -> 0 <= w -> st_w pre' = st_w pre + w -> st_s pre' ix = st_s pre ix + w * y ix -> robs_ok pre o -> robs_ok pre' (mobs_update key o v y w).
Proof.
  intros Hy Hw E1 E2. destruct o as [t|d|]; cbn [mobs_update robs_ok]; auto; intros [A B].
  - destruct (insert_ok v y w t Hy Hw A) as (C & D & E). split; auto. rewrite E1, E2, D, E. refine (ok_eq _ _ _ _ B _ _); ring.
  - destruct (nr_update_ok d (key v) y w Hy Hw A) as (C & D & E). split; auto. rewrite E1, E2, D, E. refine (ok_eq _ _ _ _ B _ _); ring.
Qed.
Lemma in_dset {V} (d : list (Z * V)) i v k o : NoDup (dkeys d) -> In (k, o) (dset d i v) -> k = i /\ o = v \/ k <> i /\ In (k, o) d.
Proof.
  intros ND H. pose proof (In_dget _ _ _ (NoDup_dset d i v ND) H) as G. rewrite dget_dset in G. destruct (i =? k)%Z eqn:E; [apply Z.eqb_eq in E; injection G as <-; auto|].
  apply Z.eqb_neq in E. right. split; [congruence|]. now apply dget_In.
Qed.
Lemma update_robs_ok pre pre' y w : lo <= y ix <= hi -> 0 <= w -> st_w pre' = st_w pre + w -> st_s pre' ix = st_s pre ix + w * y ix -> cone pre ->
  forall x obs i, NoDup (dkeys obs) -> (forall k o, In (k, o) obs -> if (k <? i)%Z then robs_ok pre' o else robs_ok pre o) -> forall k o, In (k, o) (update_mobs key cfg obs i x y w) -> robs_ok pre' o.
Proof.
  intros Hy Hw E1 E2 Hp. induction x as [|v x IH]; intros obs i ND H k o Hin; cbn [update_mobs] in Hin.
  - specialize (H k o Hin). destruct (k <? i)%Z; auto. exact (robs_mono pre pre' y w o Hy Hw E1 E2 H).
  - refine (IH _ (i + 1)%Z _ _ k o Hin); [now apply NoDup_dset|]. clear Hin k o. intros k o Hin. apply in_dset in Hin as [[-> ->]|[Ne Hin]]; auto.
    + rewrite (proj2 (Z.ltb_lt i (i + 1)%Z)) by lia. apply (robs_update_ok pre pre'); auto. destruct (dget obs i) as [o0|] eqn:Eo.
      * apply dget_In in Eo. specialize (H _ _ Eo). now rewrite Z.ltb_irrefl in H.
      * unfold mobs_new. destruct (r_nominal cfg i); cbn; (split; [try exact Logic.I; constructor|]); refine (ok_eq _ _ _ _ Hp _ _); ring.
    + specialize (H k o Hin). destruct (k <? i)%Z eqn:L.
      * apply Z.ltb_lt in L. rewrite (proj2 (Z.ltb_lt k (i + 1)%Z)) by lia. auto.
      * apply Z.ltb_ge in L. rewrite (proj2 (Z.ltb_ge k (i + 1)%Z)) by lia. auto.
Qed.
Lemma learn_ok l i y w l' : mkeys M l -> leaf_ok l -> in_range (mi_x i) y w -> mleaf_learn key cfg M l i y w = Ok l' -> leaf_ok l' /\ present (ml_stats M l').
Proof.
  intros [ND _] [Hc Ho] [Hy Hw] H. unfold mleaf_learn in H. cbv zeta in H. apply bind_Ok in H as (p & _ & H). injection H as <-.
  destruct (stats_add_ok _ _ _ Hc Hy Hw) as (A & B & C). unfold leaf_ok. cbn [ml_stats ml_obs preof present]. split; auto. split; auto.
  apply (update_robs_ok (preof (ml_stats M l)) _ y w Hy Hw B C Hc (mi_x i) (ml_obs M l) 0 ND). intros k o Hin. destruct (k <? 0)%Z; [|exact (Ho k o Hin)]. apply (robs_mono _ _ y w _ Hy Hw B C). exact (Ho k o Hin).
Qed.
Lemma disable_ok p : forall l, mkeys M l -> leaf_ok l -> leaf_ok (fold_left (mdisable M) p l).
Proof.
  induction p as [|a p IH]; intros l K H; cbn [fold_left]; auto. destruct (mdisable_keys M l a K) as [K1 _]. apply IH; auto. unfold mdisable. destruct (dmem (ml_obs M l) a); auto.
  destruct H as [A B]. split; auto. cbn [ml_stats ml_obs]. intros k o Hin. apply in_dset in Hin as [[-> ->]|[_ Hin]]; [exact Logic.I|eauto|apply K].
Qed.
Lemma manage_ok l pre r s e l' : leaf_ok l -> ml_stats M l = Some pre -> mmanage nt M l pre r s e = Ok l' -> leaf_ok l'.
Proof.
  intros [A B] Es H. unfold mmanage in H. apply bind_Ok in H as (obs & E & H). injection H as <-. unfold leaf_ok. cbn [ml_stats ml_obs]. split; auto.
  intros k o Hin. destruct (mapM_in _ _ _ E _ Hin) as ([k0 o0] & Hin0 & E0). cbn [fst snd] in E0. apply bind_Ok in E0 as (o1 & E1 & E0). injection E0 as -> ->.
  specialize (B _ _ Hin0). rewrite Es in *. cbn [preof] in *. destruct o0 as [t|d|]; [|injection E1 as <-; auto|injection E1 as <-; auto].
  apply bind_Ok in E1 as (t' & Ep & E1). injection E1 as <-. destruct B as [B1 B2]. exact (ebst_prune_range pre _ _ _ _ _ _ B1 B2 Ep).
Qed.
Lemma children_ok l l' te dd : mkeys M l -> leaf_ok l -> mdecide cfg nt M l = Ok (SplitOn l' te dd) -> forall x, In x dd -> present x.
Proof.
  intros K [Hc Ho] H x Hx. apply mdecide_cases in H as (pre & bs0 & Es & Eb & _ & best & Hin & Et & <-). rewrite Es in *. cbn [preof] in *.
  destruct (msuggestions_in _ _ _ _ _ _ _ Eb Hin) as [->|(i & o & Hio & E)]; [discriminate Et|]. specialize (Ho _ _ Hio).
  destruct o as [t|d|]; cbn [mbest_of] in E; [| |discriminate].
  - apply bind_Ok in E as (s & Ee & E). injection E as <-. destruct Ho as [B1 B2]. pose proof (ebst_best_range pre _ _ _ B1 B2 Ee) as Q. unfold esug_ok in Q.
    destruct (sg_test s); [|discriminate Et]. destruct (sg_dists s) as [[a b]|]; [|discriminate Et]. cbn [sg_dists] in Hx. destruct Hx as [<-|[<-|[]]]; cbn; tauto.
  - destruct (nr_best _ _ _ _) as [s|] eqn:En; [|discriminate]. injection E as <-. destruct Ho as [B1 B2]. pose proof (nr_best_range _ _ _ _ _ B1 B2 En) as Q.
    cbn [sg_dists] in Hx. apply in_map_iff in Hx as (s0 & <- & Hs). rewrite Forall_forall in Q. exact (Q _ Hs).
Qed.
Lemma range_keeps : keeps key cfg nt M leaf_ok inactive_ok in_range.
Proof.
  constructor.
  - split; [exact ok_0|intros k o []].
  - intros l [H _]. exact H.
  - intros i H. split; [exact H|intros k o []].
  - intros l i y w l' K H S E. exact (proj1 (learn_ok _ _ _ _ _ K H S E)).
  - intros l i y w l' H [Hy Hw] E. unfold minactive_learn in E. cbv zeta in E. apply bind_Ok in E as (p & _ & E). injection E as <-. unfold inactive_ok. cbn [mn_stats preof]. now apply stats_add_ok.
  - intros l d K H E. pose proof E as E'. apply mdecide_cases in E as (pre & bs0 & Es & Eb & D). destruct d as [l'|l'|l' te dd].
    + destruct D as (l1 & [p [->|(pre0 & r & s & e & l2 & Es0 & -> & Mg)]] & ->).
      * pose proof (disable_ok p l K H) as [A B]. split; auto.
      * pose proof (disable_ok p l K H) as D. destruct (mdisable_all_stats M p l) as [S1 _]. rewrite <- S1 in Es0. destruct (manage_ok _ _ _ _ _ _ D Es0 Mg) as [A B]. split; auto.
    + destruct D as (p & ->). now apply disable_ok.
    + intros x Hx. pose proof (children_ok l l' te dd K H E' x Hx) as C. destruct x as [x|]; [|contradiction]. split; [exact C|intros k o []].
Qed.
Lemma range_run sz es s : mt_run key cfg nt M sz (mt_new M) es = Ok s -> (forall x y w, In (x, y, w) (mlive es) -> in_range x y w) ->
  hinv key cfg nt M leaf_ok inactive_ok present s.
Proof.
  intros H S. refine (hinv_run key cfg nt M leaf_ok inactive_ok in_range range_keeps sz present _ _ _ es s H S).
  - intros l i y w l' [A _] [Hy Hw] E. unfold mleaf_learn in E. cbv zeta in E. apply bind_Ok in E as (p & _ & E). injection E as <-. cbn. now apply stats_add_ok.
  - intros l i y w l' A [Hy Hw] E. unfold minactive_learn in E. cbv zeta in E. apply bind_Ok in E as (p & _ & E). injection E as <-. cbn. now apply stats_add_ok.
  - exact children_ok.
Qed.
End Range.
