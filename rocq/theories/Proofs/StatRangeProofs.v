(** Statistics of targets within [lo, hi] and non-negative weights stay consistent through E-BST and nominal observers; [ix] is the target looked at. *)
From Coq Require Import List ZArith Bool Reals Lra Lia Permutation.
From Verif Require Import Base.Py Base.Num Base.Dict Model.Suggestion Model.TargetStats Model.Ebst Model.NominalObs Model.SplitTests
  Model.SplitCriteria Model.Knn Model.TreeSkeleton Model.HoeffdingTree Model.HoeffdingRegressor Spec.TreeSpec Spec.HoeffdingRegressorSpec
  Proofs.SplitTestProofs Proofs.TreeProofs Proofs.HoeffdingProofs Proofs.HoeffdingRegressorProofs.
Import ListNotations.
Local Open Scope R_scope.
Section Range.
Context {I : Type} (ix : I).
Variables lo hi : R.
Local Notation st := (stat R I).
(** Weight [a] and sum [b] of targets within [lo, hi] *)
Definition pair_ok (a b : R) : Prop := 0 <= a /\ lo * a <= b <= hi * a.
Definition cone (s : st) : Prop := pair_ok (st_w s) (st_s s ix).
Lemma ok_0 : pair_ok 0 0. Proof. unfold pair_ok. lra. Qed.
Lemma ok_add a b c d : pair_ok a b -> pair_ok c d -> pair_ok (a + c) (b + d).
Proof. unfold pair_ok. intros (A & B & C) (D & E & F). rewrite !Rmult_plus_distr_l. lra. Qed.
Lemma ok_eq a b c d : pair_ok a b -> a = c -> b = d -> pair_ok c d. Proof. now intros H <- <-. Qed.
Lemma ok_one y w : lo <= y <= hi -> 0 <= w -> pair_ok w (w * y).
Proof. intros [A B] C. unfold pair_ok. repeat split; auto; rewrite (Rmult_comm w); apply Rmult_le_compat_r; auto. Qed.
Lemma cone_mean s m : cone s -> quot (st_s s ix) (st_w s) = Some m -> lo <= m <= hi.
Proof.
  intros (A & B & C) H. unfold quot in H. change (@neqb R NumR) with Reqb in H. change (@n0 R NumR) with 0 in H. destruct (Reqb (st_w s) 0) eqn:E; [discriminate|].
  apply Reqb_false in E. injection H as <-. change (@ndiv R NumR) with Rdiv. assert (P : 0 < st_w s) by lra.
  split; [apply Rmult_le_reg_r with (st_w s)|apply Rmult_le_reg_r with (st_w s)]; auto; unfold Rdiv; rewrite Rmult_assoc, Rinv_l by lra; lra.
Qed.

(** ** E-BST: the weight and the sum of all the samples of a tree *)
Fixpoint bw (t : bst R I) : R := match t with Leaf => 0 | Node _ s _ r => st_w s + bw r end.
Fixpoint bs (t : bst R I) : R := match t with Leaf => 0 | Node _ s _ r => st_s s ix + bs r end.
Fixpoint binv (t : bst R I) : Prop :=
  match t with Leaf => True | Node _ s l r => pair_ok (st_w s - bw l) (st_s s ix - bs l) /\ binv l /\ binv r end.
Lemma binv_ok t : binv t -> pair_ok (bw t) (bs t).
Proof.
  induction t as [|v s l IHl r IHr]; cbn; [intros; apply ok_0|]. intros (A & B & C).
  refine (ok_eq _ _ _ _ (ok_add _ _ _ _ (ok_add _ _ _ _ A (IHl B)) (IHr C)) _ _); ring.
Qed.
Lemma insert_ok v y w t : lo <= y ix <= hi -> 0 <= w -> binv t ->
  let t' := bst_insert v y w t in binv t' /\ bw t' = bw t + w /\ bs t' = bs t + w * y ix.
Proof.
  intros Hy Hw. cbv zeta. assert (O1 := ok_one (y ix) w Hy Hw). induction t as [|v0 s l IHl r IHr]; intros H.
  - cbn. repeat split; try (rewrite ?Rminus_0_r; apply O1); cbn; ring.
  - cbn [bst_insert]. destruct H as (A & B & C). destruct (v =? v0)%num; [|destruct (v <? v0)%num]; cbn.
    + split; [split; [refine (ok_eq _ _ _ _ (ok_add _ _ _ _ A O1) _ _); cbn; ring|auto]|split; ring].
    + destruct (IHl B) as (Bl & Wl & Sl). rewrite Wl, Sl. split; [|split; ring]. split; [|auto]. refine (ok_eq _ _ _ _ A _ _); ring.
    + destruct (IHr C) as (Br & Wr & Sr). rewrite Wr, Sr. split; [|split; ring]. auto.
Qed.

Section Pre.
Variable pre : st.
Variable merit : st -> st -> option R.
Definition esug_ok (s : esug R I) : Prop := match sg_dists s with Some (a, b) => cone a /\ cone b | None => True end.
Lemma find_best_range t : forall cand aux, binv t -> esug_ok cand -> cone aux -> pair_ok (st_w pre - st_w aux - bw t) (st_s pre ix - st_s aux ix - bs t) ->
  esug_ok (fst (find_best merit pre t cand aux)) /\ st_w (snd (find_best merit pre t cand aux)) = st_w aux /\ st_s (snd (find_best merit pre t cand aux)) ix = st_s aux ix.
Proof.
  induction t as [|v s l IHl r IHr]; intros cand aux H Hc Ha Hp; cbn [find_best fst snd]; auto. destruct H as (A & B & C). cbn [bw bs] in Hp.
  pose proof (binv_ok _ C) as Or. pose proof (binv_ok _ B) as Ol.
  destruct (IHl cand aux B Hc Ha) as (D & E & F).
  { refine (ok_eq _ _ _ _ (ok_add _ _ _ _ (ok_add _ _ _ _ Hp A) Or) _ _); ring. }
  destruct (find_best merit pre l cand aux) as [c1 a1] eqn:E1. cbn [fst snd] in D, E, F.
  assert (Os : pair_ok (st_w s) (st_s s ix)) by (refine (ok_eq _ _ _ _ (ok_add _ _ _ _ A Ol) _ _); ring).
  assert (C1 : cone a1) by (unfold cone; rewrite E, F; exact Ha).
  set (left := s_add s a1). set (right := s_sub pre left). set (m := merit left right).
  set (cand' := if mgt m (sg_merit c1) then mkSug (Some v) (Some (left, right)) m else c1).
  assert (Oc : esug_ok cand').
  { unfold cand'. destruct (mgt _ _); auto. split; unfold cone; cbn.
    - exact (ok_add _ _ _ _ Os C1).
    - rewrite E, F. refine (ok_eq _ _ _ _ (ok_add _ _ _ _ Hp Or) _ _); cbn; ring. }
  clearbody cand'. destruct r as [|v1 s1 l1 r1]; [cbn [fst snd]; auto|]. set (r := Node v1 s1 l1 r1) in *.
  destruct (IHr cand' (s_add a1 s) C Oc) as (G & I0 & J).
  { exact (ok_add _ _ _ _ C1 Os). }
  { cbn [st_w st_s s_add]. rewrite E, F. refine (ok_eq _ _ _ _ Hp _ _); cbn; ring. }
  destruct (find_best merit pre r cand' (s_add a1 s)) as [rc a2]. cbn [fst snd] in *. split; [destruct (mgt _ _); auto|].
  cbn [fst snd st_w st_s s_sub]. rewrite I0, J. cbn. rewrite E, F. split; ring.
Qed.
Lemma prune_range ratio sdr e t : forall aux t' b aux', binv t -> remove_bad merit pre ratio sdr e t aux = Ok (t', b, aux') -> binv t' /\ pair_ok (bw t - bw t') (bs t - bs t').
Proof.
  induction t as [|v s l IHl r IHr]; intros aux t' b aux' H E; cbn [remove_bad] in E.
  - injection E as <- <- <-. cbn. split; auto. unfold pair_ok. lra.
  - destruct H as (A & B & C). apply bind_Ok in E as ([[l' bl] a1] & El & E). destruct (IHl _ _ _ _ B El) as [Bl Dl].
    apply bind_Ok in E as ([[r' br] a2] & Er & E).
    assert (Q : binv r' /\ pair_ok (bw r - bw r') (bs r - bs r')).
    { assert (Same : binv r /\ pair_ok (bw r - bw r) (bs r - bs r)) by (split; auto; unfold pair_ok; lra).
      destruct bl; [|injection Er as <- <- <-; auto]. destruct r as [|v1 s1 l1 r1]; [injection Er as <- <- <-; auto|].
      apply bind_Ok in Er as ([[r2 b2] a3] & Er & E2). injection E2 as <- <- <-. exact (IHr _ _ _ _ C Er). }
    destruct Q as [Br Dr].
    assert (Kept : binv (Node v s l' r') /\ pair_ok (bw (Node v s l r) - bw (Node v s l' r')) (bs (Node v s l r) - bs (Node v s l' r'))).
    { cbn. split; [split; auto; refine (ok_eq _ _ _ _ (ok_add _ _ _ _ A Dl) _ _); ring|]. refine (ok_eq _ _ _ _ Dr _ _); ring. }
    destruct br; [|injection E as <- <- <-; exact Kept]. apply bind_Ok in E as (bb & _ & E). destruct bb; injection E as <- <- <-; [|exact Kept].
    split; [exact Logic.I|]. assert (BB : binv (Node v s l r)) by (cbn; auto). refine (ok_eq _ _ _ _ (binv_ok _ BB) _ _); cbn; ring.
Qed.
Lemma ebst_prune_range ratio sdr e t t' : binv t -> pair_ok (st_w pre - bw t) (st_s pre ix - bs t) -> ebst_prune merit pre ratio sdr e t = Ok t' ->
  binv t' /\ pair_ok (st_w pre - bw t') (st_s pre ix - bs t').
Proof.
  intros H P E. destruct t as [|v s l r]; [discriminate|]. cbn [ebst_prune] in E. apply bind_Ok in E as ([[t1 b] a] & E & E1). injection E1 as <-.
  destruct (prune_range _ _ _ _ _ _ _ _ H E) as [A B]. split; auto. refine (ok_eq _ _ _ _ (ok_add _ _ _ _ P B) _ _); ring.
Qed.
Lemma ebst_best_range t s : binv t -> pair_ok (st_w pre - bw t) (st_s pre ix - bs t) -> ebst_best merit pre t = Ok s -> esug_ok s.
Proof.
  intros H P E. destruct t as [|v s0 l r]; [discriminate|]. cbn [ebst_best] in E. injection E as <-. refine (proj1 (find_best_range (Node v s0 l r) _ s_zero H _ _ _)).
  - exact Logic.I.
  - exact ok_0.
  - cbn [st_w st_s s_zero]. refine (ok_eq _ _ _ _ P _ _); change (@n0 R NumR) with 0; ring.
Qed.
End Pre.

(** ** Nominal observers *)
Fixpoint dw (d : list (Z * st)) : R := match d with [] => 0 | (_, s) :: r => st_w s + dw r end.
Fixpoint ds (d : list (Z * st)) : R := match d with [] => 0 | (_, s) :: r => st_s s ix + ds r end.
Definition dall (d : list (Z * st)) : Prop := Forall (fun p => cone (snd p)) d.
Lemma dall_ok d : dall d -> pair_ok (dw d) (ds d).
Proof. induction 1 as [|[k s] d H _ IH]; cbn; [apply ok_0|apply ok_add; auto]. Qed.
Lemma dsum_perm d d' : Permutation d d' -> dw d' = dw d /\ ds d' = ds d.
Proof. induction 1 as [|[k s] d d' _ [A B]|[k s] [k' s'] d|a b c _ [A B] _ [C D]]; cbn; split; auto; try lra; congruence. Qed.
Lemma dall_perm d d' : Permutation d d' -> dall d -> dall d'.
Proof. intros P H. unfold dall in *. rewrite Forall_forall in *. intros x Hx. apply H. eapply Permutation_in; [apply Permutation_sym; exact P|exact Hx]. Qed.
Lemma nr_update_ok d a y w : lo <= y ix <= hi -> 0 <= w -> dall d -> let d' := nr_update d (Some a) y w in dall d' /\ dw d' = dw d + w /\ ds d' = ds d + w * y ix.
Proof.
  intros Hy Hw H. cbv zeta. assert (O1 := ok_one (y ix) w Hy Hw). unfold nr_update. destruct (dget d a) as [s|] eqn:E.
  - destruct (dset_perm d a s E) as (rest & P1 & P2). specialize (P2 (s_add s (s_one y w))). pose proof (dall_perm _ _ P1 H) as H1. inversion H1 as [|x l Hs Hr]; subst. cbn [snd] in Hs.
    destruct (dsum_perm _ _ P1) as [W1 S1]. destruct (dsum_perm _ _ P2) as [W2 S2]. cbn in W1, S1, W2, S2. split; [|lra].
    apply (dall_perm _ _ (Permutation_sym P2)). constructor; auto. exact (ok_add _ _ _ _ Hs O1).
  - apply dget_None in E. rewrite dset_new by auto. set (e := (a, s_one (y) w)).
    assert (P : Permutation (dsort (d ++ [e])) (e :: d)) by (eapply perm_trans; [apply Permutation_sym, dsort_perm|apply Permutation_sym, Permutation_cons_append]).
    destruct (dsum_perm _ _ (Permutation_sym P)) as [W S]. rewrite W, S. cbn. split; [|lra]. apply (dall_perm _ _ (Permutation_sym P)). constructor; auto.
Qed.
Lemma dget_part d k s : dall d -> dget d k = Some s -> cone s /\ pair_ok (dw d - st_w s) (ds d - st_s s ix).
Proof.
  intros H E. destruct (dset_perm d k s E) as (rest & P & _). pose proof (dall_perm _ _ P H) as H1. inversion H1 as [|x l Hs Hr]; subst. split; auto.
  destruct (dsum_perm _ _ P) as [W S]. cbn in W, S. rewrite <- W, <- S. refine (ok_eq _ _ _ _ (dall_ok _ Hr) _ _); ring.
Qed.
Lemma nr_best_range merit pre binary d s : dall d -> pair_ok (st_w pre - dw d) (st_s pre ix - ds d) -> nr_best merit pre binary d = Some s -> Forall cone (sg_dists s).
Proof.
  intros H P E. unfold nr_best in E. cbv zeta in E. rewrite fold_keep in E.
  assert (Q : forall k, cone (match dget d k with Some s => s | None => s_zero end) /\ pair_ok (st_w pre - st_w (match dget d k with Some s => s | None => s_zero end)) (st_s pre ix - st_s (match dget d k with Some s => s | None => s_zero end) ix)).
  { intros k. destruct (dget d k) as [s0|] eqn:Ed.
    - destruct (dget_part _ _ _ H Ed) as [A B]. split; auto. refine (ok_eq _ _ _ _ (ok_add _ _ _ _ P B) _ _); ring.
    - split; [exact ok_0|]. refine (ok_eq _ _ _ _ (ok_add _ _ _ _ P (dall_ok _ H)) _ _); cbn; change (@n0 R NumR) with 0; ring. }
  apply keep_best_in in E as [E|E].
  - apply in_map_iff in E as (a & <- & _). cbn [sg_dists]. destruct (Q a) as [Q1 Q2]. constructor; [exact Q1|constructor; [exact Q2|constructor]].
  - destruct binary; [discriminate|]. injection E as <-. cbn [sg_dists]. apply Forall_forall. intros s0 Hs. apply in_map_iff in Hs as (k & <- & _). apply Q.
Qed.

End Range.
Arguments ok_0 {lo hi}. Arguments ok_add {lo hi}. Arguments ok_eq {lo hi}. Arguments ok_one {lo hi}.
Arguments insert_ok {I ix lo hi}. Arguments nr_update_ok {I ix lo hi}. Arguments ebst_prune_range {I ix lo hi}. Arguments ebst_best_range {I ix lo hi}. Arguments nr_best_range {I ix lo hi}.
