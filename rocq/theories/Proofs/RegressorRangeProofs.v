(** Statistics of targets within [lo, hi] and non-negative weights stay consistent: through E-BST and nominal observers, splits and pruning. *)
From Coq Require Import List ZArith Bool Reals Lra Lia Permutation.
From Verif Require Import Base.Py Base.Num Base.Dict Model.Suggestion Model.TargetStats Model.Ebst Model.NominalObs Model.SplitTests
  Model.SplitCriteria Model.Knn Model.TreeSkeleton Model.HoeffdingTree Model.HoeffdingRegressor Spec.TreeSpec Spec.HoeffdingRegressorSpec
  Proofs.SplitTestProofs Proofs.TreeProofs Proofs.HoeffdingProofs Proofs.HoeffdingRegressorProofs.
Import ListNotations.
Local Open Scope R_scope.
Local Notation st := (stat R unit).

Section Range.
Variables lo hi : R.
(** Weight [a] and sum [b] of targets within [lo, hi] *)
Definition pair_ok (a b : R) : Prop := 0 <= a /\ lo * a <= b <= hi * a.
Definition cone (s : st) : Prop := pair_ok (st_w s) (st_s s tt).
Lemma ok_0 : pair_ok 0 0. Proof. unfold pair_ok. lra. Qed.
Lemma ok_add a b c d : pair_ok a b -> pair_ok c d -> pair_ok (a + c) (b + d).
Proof. unfold pair_ok. intros (A & B & C) (D & E & F). rewrite !Rmult_plus_distr_l. lra. Qed.
Lemma ok_eq a b c d : pair_ok a b -> a = c -> b = d -> pair_ok c d. Proof. now intros H <- <-. Qed.
Lemma ok_one y w : lo <= y <= hi -> 0 <= w -> pair_ok w (w * y).
Proof. intros [A B] C. unfold pair_ok. repeat split; auto; rewrite (Rmult_comm w); apply Rmult_le_compat_r; auto. Qed.
Lemma cone_mean s m : cone s -> mean_of (Some s) = Some m -> lo <= m <= hi.
Proof.
  intros (A & B & C) H. unfold mean_of, quot in H. change (@neqb R NumR) with Reqb in H. change (@n0 R NumR) with 0 in H. destruct (Reqb (st_w s) 0) eqn:E; [discriminate|].
  apply Reqb_false in E. injection H as <-. change (@ndiv R NumR) with Rdiv. assert (P : 0 < st_w s) by lra.
  split; [apply Rmult_le_reg_r with (st_w s)|apply Rmult_le_reg_r with (st_w s)]; auto; unfold Rdiv; rewrite Rmult_assoc, Rinv_l by lra; lra.
Qed.

(** ** E-BST: the weight and the sum of all the samples of a tree *)
Fixpoint bw (t : bst R unit) : R := match t with Leaf => 0 | Node _ s _ r => st_w s + bw r end.
Fixpoint bs (t : bst R unit) : R := match t with Leaf => 0 | Node _ s _ r => st_s s tt + bs r end.
Fixpoint binv (t : bst R unit) : Prop :=
  match t with Leaf => True | Node _ s l r => pair_ok (st_w s - bw l) (st_s s tt - bs l) /\ binv l /\ binv r end.
Lemma binv_ok t : binv t -> pair_ok (bw t) (bs t).
Proof.
  induction t as [|v s l IHl r IHr]; cbn; [intros; apply ok_0|]. intros (A & B & C).
  refine (ok_eq _ _ _ _ (ok_add _ _ _ _ (ok_add _ _ _ _ A (IHl B)) (IHr C)) _ _); ring.
Qed.
Lemma insert_ok v y w t : lo <= y <= hi -> 0 <= w -> binv t ->
  let t' := bst_insert v (fun _ => y) w t in binv t' /\ bw t' = bw t + w /\ bs t' = bs t + w * y.
Proof.
  intros Hy Hw. cbv zeta. assert (O1 := ok_one y w Hy Hw). induction t as [|v0 s l IHl r IHr]; intros H.
  - cbn. repeat split; try (rewrite ?Rminus_0_r; apply O1); cbn; ring.
  - cbn [bst_insert]. destruct H as (A & B & C). destruct (v =? v0)%num; [|destruct (v <? v0)%num]; cbn.
    + split; [split; [refine (ok_eq _ _ _ _ (ok_add _ _ _ _ A O1) _ _); cbn; ring|auto]|split; ring].
    + destruct (IHl B) as (Bl & Wl & Sl). rewrite Wl, Sl. split; [|split; ring]. split; [|auto]. refine (ok_eq _ _ _ _ A _ _); ring.
    + destruct (IHr C) as (Br & Wr & Sr). rewrite Wr, Sr. split; [|split; ring]. auto.
Qed.

Section Pre.
Variable pre : st.
Variable merit : st -> st -> option R.
Definition esug_ok (s : esug R unit) : Prop := match sg_dists s with Some (a, b) => cone a /\ cone b | None => True end.
Lemma find_best_range t : forall cand aux, binv t -> esug_ok cand -> cone aux -> pair_ok (st_w pre - st_w aux - bw t) (st_s pre tt - st_s aux tt - bs t) ->
  esug_ok (fst (find_best merit pre t cand aux)) /\ st_w (snd (find_best merit pre t cand aux)) = st_w aux /\ st_s (snd (find_best merit pre t cand aux)) tt = st_s aux tt.
Proof.
  induction t as [|v s l IHl r IHr]; intros cand aux H Hc Ha Hp; cbn [find_best fst snd]; auto. destruct H as (A & B & C). cbn [bw bs] in Hp.
  pose proof (binv_ok _ C) as Or. pose proof (binv_ok _ B) as Ol.
  destruct (IHl cand aux B Hc Ha) as (D & E & F).
  { refine (ok_eq _ _ _ _ (ok_add _ _ _ _ (ok_add _ _ _ _ Hp A) Or) _ _); ring. }
  destruct (find_best merit pre l cand aux) as [c1 a1] eqn:E1. cbn [fst snd] in D, E, F.
  assert (Os : pair_ok (st_w s) (st_s s tt)) by (refine (ok_eq _ _ _ _ (ok_add _ _ _ _ A Ol) _ _); ring).
  assert (C1 : cone a1) by (unfold cone; rewrite E, F; exact Ha).
  set (left := s_add s a1). set (right := s_sub pre left). set (m := merit left right).
  set (cand' := if mgt m (sg_merit c1) then mkSug (Some v) (Some (left, right)) m else c1).
  assert (Oc : esug_ok cand').
  { unfold cand'. destruct (mgt _ _); auto. split; unfold cone; cbn.
    - exact (ok_add _ _ _ _ Os C1).
    - rewrite E, F. refine (ok_eq _ _ _ _ (ok_add _ _ _ _ Hp Or) _ _); cbn; ring. }
  clearbody cand'. destruct r as [|v1 s1 l1 r1]; [cbn [fst snd]; auto|]. set (r := Node v1 s1 l1 r1) in *.
  destruct (IHr cand' (s_add a1 s) C Oc) as (G & I & J).
  { exact (ok_add _ _ _ _ C1 Os). }
  { cbn [st_w st_s s_add]. rewrite E, F. refine (ok_eq _ _ _ _ Hp _ _); cbn; ring. }
  destruct (find_best merit pre r cand' (s_add a1 s)) as [rc a2]. cbn [fst snd] in *. split; [destruct (mgt _ _); auto|].
  cbn [fst snd st_w st_s s_sub]. rewrite I, J. cbn. rewrite E, F. split; ring.
Qed.
Lemma prune_range ratio sdr e t : forall aux t' b aux', binv t -> remove_bad merit pre ratio sdr e t aux = Ok (t', b, aux') -> binv t' /\ pair_ok (bw t - bw t') (bs t - bs t').
Proof.
  induction t as [|v s l IHl r IHr]; intros aux t' b aux' H E; cbn [remove_bad] in E.
  - injection E as <- <- <-. cbn. split; auto. unfold pair_ok. lra.
  - destruct H as (A & B & C). apply bind_Ok in E as ([[l' bl] a1] & El & E). destruct (IHl _ _ _ _ B El) as [Bl Dl].
    apply bind_Ok in E as ([[r' br] a2] & Er & E).
    assert (Q : binv r' /\ pair_ok (bw r - bw r') (bs r - bs r')).
    { assert (Same : binv r /\ pair_ok (bw r - bw r) (bs r - bs r)) by (split; auto; unfold pair_ok; lra).
      destruct bl; [|injection Er as <- <- <-; auto]. destruct r as [|v1 s1 l1 r1]; [injection Er as <- <- <-; auto|].
      apply bind_Ok in Er as ([[r2 b2] a3] & Er & E2). injection E2 as <- <- <-. exact (IHr _ _ _ _ C Er). }
    destruct Q as [Br Dr].
    assert (Kept : binv (Node v s l' r') /\ pair_ok (bw (Node v s l r) - bw (Node v s l' r')) (bs (Node v s l r) - bs (Node v s l' r'))).
    { cbn. split; [split; auto; refine (ok_eq _ _ _ _ (ok_add _ _ _ _ A Dl) _ _); ring|]. refine (ok_eq _ _ _ _ Dr _ _); ring. }
    destruct br; [|injection E as <- <- <-; exact Kept]. apply bind_Ok in E as (bb & _ & E). destruct bb; injection E as <- <- <-; [|exact Kept].
    split; [exact Logic.I|]. assert (BB : binv (Node v s l r)) by (cbn; auto). refine (ok_eq _ _ _ _ (binv_ok _ BB) _ _); cbn; ring.
Qed.
Lemma ebst_prune_range ratio sdr e t t' : binv t -> pair_ok (st_w pre - bw t) (st_s pre tt - bs t) -> ebst_prune merit pre ratio sdr e t = Ok t' ->
  binv t' /\ pair_ok (st_w pre - bw t') (st_s pre tt - bs t').
Proof.
  intros H P E. destruct t as [|v s l r]; [discriminate|]. cbn [ebst_prune] in E. apply bind_Ok in E as ([[t1 b] a] & E & E1). injection E1 as <-.
  destruct (prune_range _ _ _ _ _ _ _ _ H E) as [A B]. split; auto. refine (ok_eq _ _ _ _ (ok_add _ _ _ _ P B) _ _); ring.
Qed.
Lemma ebst_best_range t s : binv t -> pair_ok (st_w pre - bw t) (st_s pre tt - bs t) -> ebst_best merit pre t = Ok s -> esug_ok s.
Proof.
  intros H P E. destruct t as [|v s0 l r]; [discriminate|]. cbn [ebst_best] in E. injection E as <-. refine (proj1 (find_best_range (Node v s0 l r) _ s_zero H _ _ _)).
  - exact Logic.I.
  - exact ok_0.
  - cbn [st_w st_s s_zero]. refine (ok_eq _ _ _ _ P _ _); change (@n0 R NumR) with 0; ring.
Qed.
End Pre.

(** ** Nominal observers *)
Fixpoint dw (d : list (Z * st)) : R := match d with [] => 0 | (_, s) :: r => st_w s + dw r end.
Fixpoint ds (d : list (Z * st)) : R := match d with [] => 0 | (_, s) :: r => st_s s tt + ds r end.
Definition dall (d : list (Z * st)) : Prop := Forall (fun p => cone (snd p)) d.
Lemma dall_ok d : dall d -> pair_ok (dw d) (ds d).
Proof. induction 1 as [|[k s] d H _ IH]; cbn; [apply ok_0|apply ok_add; auto]. Qed.
Lemma dsum_perm d d' : Permutation d d' -> dw d' = dw d /\ ds d' = ds d.
Proof. induction 1 as [|[k s] d d' _ [A B]|[k s] [k' s'] d|a b c _ [A B] _ [C D]]; cbn; split; auto; try lra; congruence. Qed.
Lemma dall_perm d d' : Permutation d d' -> dall d -> dall d'.
Proof. intros P H. unfold dall in *. rewrite Forall_forall in *. intros x Hx. apply H. eapply Permutation_in; [apply Permutation_sym; exact P|exact Hx]. Qed.
Lemma nr_update_ok d a y w : lo <= y <= hi -> 0 <= w -> dall d -> let d' := nr_update d (Some a) (fun _ => y) w in dall d' /\ dw d' = dw d + w /\ ds d' = ds d + w * y.
Proof.
  intros Hy Hw H. cbv zeta. assert (O1 := ok_one y w Hy Hw). unfold nr_update. destruct (dget d a) as [s|] eqn:E.
  - destruct (dset_perm d a s E) as (rest & P1 & P2). specialize (P2 (s_add s (s_one (fun _ => y) w))). pose proof (dall_perm _ _ P1 H) as H1. inversion H1 as [|x l Hs Hr]; subst. cbn [snd] in Hs.
    destruct (dsum_perm _ _ P1) as [W1 S1]. destruct (dsum_perm _ _ P2) as [W2 S2]. cbn in W1, S1, W2, S2. split; [|lra].
    apply (dall_perm _ _ (Permutation_sym P2)). constructor; auto. exact (ok_add _ _ _ _ Hs O1).
  - apply dget_None in E. rewrite dset_new by auto. set (e := (a, s_one (fun _ : unit => y) w)).
    assert (P : Permutation (dsort (d ++ [e])) (e :: d)) by (eapply perm_trans; [apply Permutation_sym, dsort_perm|apply Permutation_sym, Permutation_cons_append]).
    destruct (dsum_perm _ _ (Permutation_sym P)) as [W S]. rewrite W, S. cbn. split; [|lra]. apply (dall_perm _ _ (Permutation_sym P)). constructor; auto.
Qed.
Lemma dget_part d k s : dall d -> dget d k = Some s -> cone s /\ pair_ok (dw d - st_w s) (ds d - st_s s tt).
Proof.
  intros H E. destruct (dset_perm d k s E) as (rest & P & _). pose proof (dall_perm _ _ P H) as H1. inversion H1 as [|x l Hs Hr]; subst. split; auto.
  destruct (dsum_perm _ _ P) as [W S]. cbn in W, S. rewrite <- W, <- S. refine (ok_eq _ _ _ _ (dall_ok _ Hr) _ _); ring.
Qed.
Lemma nr_best_range merit pre binary d s : dall d -> pair_ok (st_w pre - dw d) (st_s pre tt - ds d) -> nr_best merit pre binary d = Some s -> Forall cone (sg_dists s).
Proof.
  intros H P E. unfold nr_best in E. cbv zeta in E. rewrite fold_keep in E.
  assert (Q : forall k, cone (match dget d k with Some s => s | None => s_zero end) /\ pair_ok (st_w pre - st_w (match dget d k with Some s => s | None => s_zero end)) (st_s pre tt - st_s (match dget d k with Some s => s | None => s_zero end) tt)).
  { intros k. destruct (dget d k) as [s0|] eqn:Ed.
    - destruct (dget_part _ _ _ H Ed) as [A B]. split; auto. refine (ok_eq _ _ _ _ (ok_add _ _ _ _ P B) _ _); ring.
    - split; [exact ok_0|]. refine (ok_eq _ _ _ _ (ok_add _ _ _ _ P (dall_ok _ H)) _ _); cbn; change (@n0 R NumR) with 0; ring. }
  apply keep_best_in in E as [E|E].
  - apply in_map_iff in E as (a & <- & _). cbn [sg_dists]. destruct (Q a) as [Q1 Q2]. constructor; [exact Q1|constructor; [exact Q2|constructor]].
  - destruct binary; [discriminate|]. injection E as <-. cbn [sg_dists]. apply Forall_forall. intros s0 Hs. apply in_map_iff in Hs as (k & <- & _). apply Q.
Qed.

(** ** Leaves *)
Definition robs_ok (pre : st) (o : robs R) : Prop :=
  match o with
  | RNum t => binv t /\ pair_ok (st_w pre - bw t) (st_s pre tt - bs t)
  | RNom d => dall d /\ pair_ok (st_w pre - dw d) (st_s pre tt - ds d)
  | RNull => True
  end.
Definition preof (s : option st) : st := match s with Some s => s | None => s_zero end.
Definition leaf_ok (l : rleaf R) : Prop := cone (preof (rl_stats l)) /\ forall k o, In (k, o) (rl_obs l) -> robs_ok (preof (rl_stats l)) o.
Definition inactive_ok (i : rinactive R) : Prop := cone (preof (ri_stats i)).
Definition in_range (x : list R) (y w : R) : Prop := lo <= y <= hi /\ 0 <= w.
Definition present (s : option st) : Prop := match s with Some s => cone s | None => False end.
Variables (key : R -> Z) (int_of : R -> Z) (cfg : htr_config R).

Lemma stats_add_ok s y w : cone (preof s) -> lo <= y <= hi -> 0 <= w -> cone (rstats_add s y w) /\ st_w (rstats_add s y w) = st_w (preof s) + w /\ st_s (rstats_add s y w) tt = st_s (preof s) tt + w * y.
Proof.
  intros H Hy Hw. assert (E : st_w (rstats_add s y w) = st_w (preof s) + w /\ st_s (rstats_add s y w) tt = st_s (preof s) tt + w * y).
  { unfold rstats_add. destruct s; cbn; change (@n0 R NumR) with 0; split; ring. }
  split; auto. unfold cone. destruct E as [-> ->]. apply ok_add; auto. now apply ok_one.
Qed.
Lemma robs_mono pre pre' y w o : lo <= y <= hi -> 0 <= w -> st_w pre' = st_w pre + w -> st_s pre' tt = st_s pre tt + w * y -> robs_ok pre o -> robs_ok pre' o.
Proof.
  intros Hy Hw E1 E2. destruct o as [t|d|]; cbn; auto; intros [A B]; split; auto; rewrite E1, E2; refine (ok_eq _ _ _ _ (ok_add _ _ _ _ B (ok_one y w Hy Hw)) _ _); ring.
Qed.
Lemma robs_update_ok pre pre' v y w o : lo <= y <= hi -> 0 <= w -> st_w pre' = st_w pre + w -> st_s pre' tt = st_s pre tt + w * y -> robs_ok pre o -> robs_ok pre' (robs_update key o v y w).
Proof.
  intros Hy Hw E1 E2. destruct o as [t|d|]; cbn [robs_update robs_ok]; auto; intros [A B].
  - destruct (insert_ok v y w t Hy Hw A) as (C & D & E). split; auto. rewrite E1, E2, D, E. refine (ok_eq _ _ _ _ B _ _); ring.
  - destruct (nr_update_ok d (key v) y w Hy Hw A) as (C & D & E). split; auto. rewrite E1, E2, D, E. refine (ok_eq _ _ _ _ B _ _); ring.
Qed.
Lemma in_dset {V} (d : list (Z * V)) i v k o : NoDup (dkeys d) -> In (k, o) (dset d i v) -> k = i /\ o = v \/ k <> i /\ In (k, o) d.
Proof.
  intros ND H. pose proof (In_dget _ _ _ (NoDup_dset d i v ND) H) as G. rewrite dget_dset in G. destruct (i =? k)%Z eqn:E; [apply Z.eqb_eq in E; injection G as <-; auto|].
  apply Z.eqb_neq in E. right. split; [congruence|]. now apply dget_In.
Qed.
Lemma update_robs_ok pre pre' y w : lo <= y <= hi -> 0 <= w -> st_w pre' = st_w pre + w -> st_s pre' tt = st_s pre tt + w * y -> cone pre ->
  forall x obs i, NoDup (dkeys obs) -> (forall k o, In (k, o) obs -> if (k <? i)%Z then robs_ok pre' o else robs_ok pre o) -> forall k o, In (k, o) (update_robs key cfg obs i x y w) -> robs_ok pre' o.
Proof.
  intros Hy Hw E1 E2 Hp. induction x as [|v x IH]; intros obs i ND H k o Hin; cbn [update_robs] in Hin.
  - specialize (H k o Hin). destruct (k <? i)%Z; auto. exact (robs_mono pre pre' y w o Hy Hw E1 E2 H).
  - refine (IH _ (i + 1)%Z _ _ k o Hin); [now apply NoDup_dset|]. clear Hin k o. intros k o Hin. apply in_dset in Hin as [[-> ->]|[Ne Hin]]; auto.
    + rewrite (proj2 (Z.ltb_lt i (i + 1)%Z)) by lia. apply (robs_update_ok pre pre'); auto. destruct (dget obs i) as [o0|] eqn:Eo.
      * apply dget_In in Eo. specialize (H _ _ Eo). now rewrite Z.ltb_irrefl in H.
      * unfold robs_new. destruct (r_nominal cfg i); cbn; (split; [try exact Logic.I; constructor|]); refine (ok_eq _ _ _ _ Hp _ _); ring.
    + specialize (H k o Hin). destruct (k <? i)%Z eqn:L.
      * apply Z.ltb_lt in L. rewrite (proj2 (Z.ltb_lt k (i + 1)%Z)) by lia. auto.
      * apply Z.ltb_ge in L. rewrite (proj2 (Z.ltb_ge k (i + 1)%Z)) by lia. auto.
Qed.
Lemma learn_ok l i y w l' : rkeys l -> leaf_ok l -> in_range (i_x i) y w -> rleaf_learn key int_of cfg l i y w = Ok l' -> leaf_ok l' /\ present (rl_stats l').
Proof.
  intros [ND _] [Hc Ho] [Hy Hw] H. unfold rleaf_learn in H. cbv zeta in H. apply bind_Ok in H as (p & _ & H). injection H as <-.
  destruct (stats_add_ok _ _ _ Hc Hy Hw) as (A & B & C). unfold leaf_ok. cbn [rl_stats rl_obs preof present]. split; auto. split; auto.
  apply (update_robs_ok (preof (rl_stats l)) _ y w Hy Hw B C Hc (i_x i) (rl_obs l) 0 ND). intros k o Hin. destruct (k <? 0)%Z; [|exact (Ho k o Hin)]. apply (robs_mono _ _ y w _ Hy Hw B C). exact (Ho k o Hin).
Qed.
Lemma disable_ok p : forall l, rkeys l -> leaf_ok l -> leaf_ok (fold_left (@rdisable R) p l).
Proof.
  induction p as [|a p IH]; intros l K H; cbn [fold_left]; auto. destruct (rdisable_keys l a K) as [K1 _]. apply IH; auto. unfold rdisable. destruct (dmem (rl_obs l) a); auto.
  destruct H as [A B]. split; auto. cbn [rl_stats rl_obs]. intros k o Hin. apply in_dset in Hin as [[-> ->]|[_ Hin]]; [exact Logic.I|eauto|apply K].
Qed.
Lemma manage_ok l pre r s e l' : leaf_ok l -> rl_stats l = Some pre -> rmanage int_of l pre r s e = Ok l' -> leaf_ok l'.
Proof.
  intros [A B] Es H. unfold rmanage in H. apply bind_Ok in H as (obs & E & H). injection H as <-. unfold leaf_ok. cbn [rl_stats rl_obs]. split; auto.
  intros k o Hin. destruct (mapM_in _ _ _ E _ Hin) as ([k0 o0] & Hin0 & E0). cbn [fst snd] in E0. apply bind_Ok in E0 as (o1 & E1 & E0). injection E0 as -> ->.
  specialize (B _ _ Hin0). rewrite Es in *. cbn [preof] in *. destruct o0 as [t|d|]; [|injection E1 as <-; auto|injection E1 as <-; auto].
  apply bind_Ok in E1 as (t' & Ep & E1). injection E1 as <-. destruct B as [B1 B2]. exact (ebst_prune_range pre _ _ _ _ _ _ B1 B2 Ep).
Qed.
Lemma children_ok l l' te dd : rkeys l -> leaf_ok l -> rdecide int_of cfg l = Ok (SplitOn l' te dd) -> forall x, In x dd -> present x.
Proof.
  intros K [Hc Ho] H x Hx. apply rdecide_cases in H as (pre & bs0 & Es & Eb & _ & best & Hin & Et & <-). rewrite Es in *. cbn [preof] in *.
  destruct (rsuggestions_in _ _ _ _ _ _ Eb Hin) as [->|(i & o & Hio & E)]; [discriminate Et|]. specialize (Ho _ _ Hio).
  destruct o as [t|d|]; cbn [rbest_of] in E; [| |discriminate].
  - apply bind_Ok in E as (s & Ee & E). injection E as <-. destruct Ho as [B1 B2]. pose proof (ebst_best_range pre _ _ _ B1 B2 Ee) as Q. unfold esug_ok in Q.
    destruct (sg_test s); [|discriminate Et]. destruct (sg_dists s) as [[a b]|]; [|discriminate Et]. cbn [sg_dists] in Hx. destruct Hx as [<-|[<-|[]]]; cbn; tauto.
  - destruct (nr_best _ _ _ _) as [s|] eqn:En; [|discriminate]. injection E as <-. destruct Ho as [B1 B2]. pose proof (nr_best_range _ _ _ _ _ B1 B2 En) as Q.
    cbn [sg_dists] in Hx. apply in_map_iff in Hx as (s0 & <- & Hs). rewrite Forall_forall in Q. exact (Q _ Hs).
Qed.
Lemma range_keeps : keeps key int_of cfg leaf_ok inactive_ok in_range.
Proof.
  constructor.
  - split; [exact ok_0|intros k o []].
  - intros l [H _]. exact H.
  - intros i H. split; [exact H|intros k o []].
  - intros l i y w l' K H S E. exact (proj1 (learn_ok _ _ _ _ _ K H S E)).
  - intros l i y w l' H [Hy Hw] E. unfold rinactive_learn in E. cbv zeta in E. apply bind_Ok in E as (p & _ & E). injection E as <-. unfold inactive_ok. cbn [ri_stats preof]. now apply stats_add_ok.
  - intros l d K H E. pose proof E as E'. apply rdecide_cases in E as (pre & bs0 & Es & Eb & D). destruct d as [l'|l'|l' te dd].
    + destruct D as (l1 & [p [->|(pre0 & r & s & e & l2 & Es0 & -> & M)]] & ->).
      * pose proof (disable_ok p l K H) as [A B]. split; auto.
      * pose proof (disable_ok p l K H) as D. destruct (rdisable_all_stats p l) as [S1 _]. rewrite <- S1 in Es0. destruct (manage_ok _ _ _ _ _ _ D Es0 M) as [A B]. split; auto.
    + destruct D as (p & ->). now apply disable_ok.
    + intros x Hx. pose proof (children_ok l l' te dd K H E' x Hx) as C. destruct x as [x|]; [|contradiction]. split; [exact C|intros k o []].
Qed.
Lemma range_run sz es s : htr_run key int_of cfg sz htr_new es = Ok s -> (forall x y w, In (x, y, w) (live_samples es) -> in_range x y w) ->
  hinv key int_of cfg leaf_ok inactive_ok present s.
Proof.
  intros H S. refine (hinv_run key int_of cfg leaf_ok inactive_ok in_range range_keeps sz present _ _ _ es s H S).
  - intros l i y w l' [A _] [Hy Hw] E. unfold rleaf_learn in E. cbv zeta in E. apply bind_Ok in E as (p & _ & E). injection E as <-. cbn. now apply stats_add_ok.
  - intros l i y w l' A [Hy Hw] E. unfold rinactive_learn in E. cbv zeta in E. apply bind_Ok in E as (p & _ & E). injection E as <-. cbn. now apply stats_add_ok.
  - exact children_ok.
Qed.
End Range.
