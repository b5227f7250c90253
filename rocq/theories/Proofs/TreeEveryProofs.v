(** A property of all nodes of a Hoeffding tree, including the statistics that split nodes keep, is preserved by training. *)
From Coq Require Import List ZArith Bool Lia Permutation.
From Verif Require Import Base.Py Base.Num Base.Dict Model.TreeSkeleton Spec.TreeSpec Proofs.TreeProofs.
Import ListNotations.

Section Every.
Context {X Y T L I S E : Type} {N : Num T} (O : ops X Y T L I S E) (cfg : config T) (sz : sizes T L I S E).
Local Notation node := (node L I S E).
Variables (PL : L -> Prop) (PI : I -> Prop) (PS : S -> Prop).
Inductive every : node -> Prop :=
| every_active l : PL l -> every (Active l)
| every_inactive i : PI i -> every (Inactive i)
| every_split te st ch : PS st -> Forall (fun kc => every (snd kc)) ch -> every (Split te st ch).
Variable Q : Y -> T -> Prop.
Hypothesis Hnew : PL (o_new O).
Hypothesis Hchild : forall l d, PL l -> PS d -> PL (o_child O l d).
Hypothesis Hstop : forall l, PL l -> PI (o_stop O l).
Hypothesis Hstart : forall i, PI i -> PL (o_start O i).
Hypothesis Hlearn : forall l x y w l', Q y w -> PL l -> o_learn O l x y w = Ok l' -> PL l'.
Hypothesis Hlearn' : forall i x y w i', Q y w -> PI i -> o_learn_inactive O i x y w = Ok i' -> PI i'.
Hypothesis Hstats : forall l, PL l -> PS (o_stats O l).
Hypothesis Hdecide : forall l d, PL l -> o_decide O l = Ok d -> match d with Keep l' | NullWins l' => PL l' | SplitOn l' _ ds => PL l' /\ Forall PS ds end.

Lemma every_dget te st ch b c : every (Split te st ch) -> dget ch b = Some c -> every c.
Proof. intros H E0. inversion H as [| |? ? ? _ F]; subst. clear H. induction F as [|[k n] ch Hn F IH]; [discriminate|]. cbn [dget] in E0. destruct (Z.eqb k b); [injection E0 as <-; exact Hn|auto]. Qed.
Lemma every_dset te st ch b c te' : every (Split te st ch) -> every c -> every (Split te' st (dset ch b c)).
Proof.
  intros H Hc. inversion H as [| |? ? ? P F]; subst. constructor; auto. clear H. induction F as [|[k n] ch Hn F IH]; cbn [dset]; [repeat constructor; auto|]. destruct (Z.eqb k b); constructor; auto.
Qed.
Lemma every_update p : forall (t : node) f t', every t -> update_at t p f = Ok t' -> (forall n n', every n -> f n = Ok n' -> every n') -> every t'.
Proof.
  induction p as [|b p IH]; intros t f t' Ht H Hf; cbn [update_at] in H; [eauto|]. destruct t as [l|i|te st ch]; try discriminate. destruct (dget ch b) as [c|] eqn:Ec; [|discriminate].
  apply bind_Ok in H as (c' & E1 & H). injection H as <-. eapply every_dset; eauto. eapply IH; [|exact E1|exact Hf]. eapply every_dget; eauto.
Qed.
Lemma every_set (t : node) b n t' : every t -> every n -> set_child O t b n = Ok t' -> every t'.
Proof. intros Ht Hn H. destruct t as [l|i|te st ch]; cbn [set_child] in H; try discriminate. destruct (_ && _); [discriminate|]. injection H as <-. eapply every_dset; eauto. Qed.
Lemma every_replace (t : node) p n t' : every t -> every n -> replace_at O t p n = Ok t' -> every t'.
Proof. intros Ht Hn H. destruct p as [|b q]; cbn [replace_at] in H; [injection H as <-; auto|]. eapply every_update; [exact Ht|exact H|]. intros m m' Hm. apply every_set; auto. Qed.
Lemma every_place p : forall (t n : node), every t -> node_at t p = Some n -> every n.
Proof. induction p as [|b p IH]; intros t n Ht H; cbn [node_at] in H; [injection H as <-; auto|]. destruct t as [l|i|te st ch]; try discriminate. destruct (dget ch b) as [c|] eqn:Ec; [|discriminate]. eapply IH; [|exact H]. eapply every_dget; eauto. Qed.
Lemma learning_every (t : node) : every t -> forall p n, In (p, n) (learning_nodes t) -> every n.
Proof.
  induction t as [l|i|te st ch IH] using node_rect'; intros Ht p n Hin; cbn [learning_nodes] in Hin; [destruct Hin as [[= <- <-]|[]]; auto..|].
  apply in_flat_map in Hin as (j & _ & Hin). destruct (dget _ (Z.of_nat j)) as [ns|] eqn:Ed; [|destruct Hin]. apply in_map_iff in Hin as ((q & m) & [= <- <-] & Hin). inversion Ht as [| |? ? ? _ F]; subst. clear Ht. rewrite Forall_forall in IH.
  induction ch as [|[k c] ch IHc]; [discriminate|]. inversion F as [|? ? Fc Fch]; subst. cbn [dget] in Ed. destruct (Z.eqb k (Z.of_nat j)); [injection Ed as <-; apply (IH (k, c) (or_introl eq_refl) Fc q); exact Hin|]. apply IHc; auto. intros kc Hk. apply IH. now right.
Qed.
Definition root_every (s : tree T L I S E) : Prop := forall r, t_root s = Some r -> every r.
Lemma every_deactivate s p l s' : root_every s -> PL l -> deactivate O s p l = Ok s' -> root_every s'.
Proof. intros G Hl H. unfold deactivate, root_of in H. destruct (t_root s) as [r|] eqn:Er; [|discriminate]. cbn [bind] in H. apply bind_Ok in H as (r' & E1 & H). injection H as <-. intros r0 [= <-]. eapply every_replace; [|constructor; apply Hstop; exact Hl|exact E1]. auto. Qed.
Lemma every_activate s p i s' : root_every s -> PI i -> activate O s p i = Ok s' -> root_every s'.
Proof. intros G Hl H. unfold activate, root_of in H. destruct (t_root s) as [r|] eqn:Er; [|discriminate]. cbn [bind] in H. apply bind_Ok in H as (r' & E1 & H). injection H as <-. intros r0 [= <-]. eapply every_replace; [|constructor; apply Hstart; exact Hl|exact E1]. auto. Qed.
Lemma every_deactivate_all l : forall s s', root_every s -> Forall (fun pn => every (snd pn)) l -> deactivate_all O s l = Ok s' -> root_every s'.
Proof.
  induction l as [|[p n] l IH]; intros s s' G F H; cbn [deactivate_all] in H; [injection H as <-; auto|]. inversion F as [|? ? Fn Fl]; subst. destruct n as [a|i|te st ch]; eauto.
  apply bind_Ok in H as (s1 & E1 & H). eapply IH; [|exact Fl|exact H]. eapply every_deactivate; [exact G| |exact E1]. cbn in Fn. now inversion Fn.
Qed.
Lemma every_activate_all l : forall s s', root_every s -> Forall (fun pn => every (snd pn)) l -> activate_all O s l = Ok s' -> root_every s'.
Proof.
  induction l as [|[p n] l IH]; intros s s' G F H; cbn [activate_all] in H; [injection H as <-; auto|]. inversion F as [|? ? Fn Fl]; subst. destruct n as [a|i|te st ch]; eauto.
  apply bind_Ok in H as (s1 & E1 & H). eapply IH; [|exact Fl|exact H]. eapply every_activate; [exact G| |exact E1]. cbn in Fn. now inversion Fn.
Qed.
Lemma every_enforce s s' : root_every s -> enforce O cfg s = Ok s' -> root_every s'.
Proof.
  intros G H. unfold enforce in H. cbv zeta in H. destruct (_ && _); [injection H as <-; exact G|]. apply bind_Ok in H as (s1 & E1 & H).
  set (found := match t_root s with Some r => learning_nodes r | None => [] end) in *. set (sorted := sort_stable _ found) in *. set (cut := (length sorted - _)%nat) in *.
  assert (F : Forall (fun pn => every (snd pn)) sorted).
  { apply Forall_forall. intros [p n] Hin. eapply Permutation_in in Hin; [|apply Permutation_sym, sort_stable_perm]. unfold found in Hin. destruct (t_root s) as [r|] eqn:Er; [|destruct Hin]. eapply learning_every; [|exact Hin]. auto. }
  rewrite <- (firstn_skipn cut sorted) in F. apply Forall_app in F as [F1 F2].
  eapply every_activate_all; [|exact F2|exact H]. eapply every_deactivate_all; [exact G|exact F1|exact E1].
Qed.
Lemma every_estimate s s' : root_every s -> estimate O cfg sz s = Ok s' -> root_every s'.
Proof.
  intros G H. unfold estimate in H. cbv zeta in H. apply bind_Ok in H as (ae & _ & H). apply bind_Ok in H as (ie & _ & H). apply bind_Ok in H as (oh & _ & H).
  destruct (_ <? _)%num; [|injection H as <-; exact G]. eapply every_enforce; [|exact H]. exact G.
Qed.
Lemma every_add ds : forall (t : node) l i t', every t -> PL l -> Forall PS ds -> add_children O t l i ds = Ok t' -> every t'.
Proof. induction ds as [|d ds IH]; intros t l i t' Ht Hl F H; cbn [add_children] in H; [injection H as <-; auto|]. inversion F; subst. apply bind_Ok in H as (t1 & E1 & H). eapply IH; [|exact Hl| |exact H]; auto. eapply every_set; [exact Ht| |exact E1]. constructor. auto. Qed.
Lemma every_apply s p d s' : root_every s -> match d with Keep l' | NullWins l' => PL l' | SplitOn l' _ ds => PL l' /\ Forall PS ds end -> apply_decision O cfg s p d = Ok s' -> root_every s'.
Proof.
  intros G Hd H. destruct d as [l|l|l te ds]; cbn [apply_decision] in H.
  - unfold root_of in H. destruct (t_root s) as [r|] eqn:Er; [|discriminate]. cbn [bind] in H. apply bind_Ok in H as (r' & E1 & H). injection H as <-. intros r0 [= <-]. eapply every_update; [apply G; exact Er|exact E1|]. intros n n' _ [= <-]. now constructor.
  - apply bind_Ok in H as (s1 & E1 & H). eapply every_enforce; [|exact H]. eapply every_deactivate; eauto.
  - destruct Hd as [Hl F]. apply bind_Ok in H as (n & E1 & H). unfold root_of in H. destruct (t_root s) as [r|] eqn:Er; [|discriminate]. cbn [bind] in H. apply bind_Ok in H as (r' & E2 & H). eapply every_enforce; [|exact H].
    intros r0 [= <-]. eapply every_replace; [apply G; exact Er| |exact E2]. eapply every_add; [|exact Hl|exact F|exact E1]. constructor; auto.
Qed.
Lemma every_found s p n x y w s' : Q y w -> root_every s -> every n -> learn_found O cfg s p n x y w = Ok s' -> root_every s'.
Proof.
  intros Hy G Hn H. unfold learn_found in H. destruct n as [l|i|te st ch].
  - apply bind_Ok in H as (l' & El & H). assert (Hl' : PL l') by (inversion Hn; subst; eauto). unfold root_of in H. destruct (t_root s) as [r|] eqn:Er; [|discriminate]. cbn [bind] in H. apply bind_Ok in H as (r' & E1 & H). cbv zeta in H.
    assert (G1 : root_every (with_root s r' 0 0 0)). { intros r0 [= <-]. eapply every_update; [apply G; exact Er|exact E1|]. intros m m' _ [= <-]. now constructor. }
    destruct (_ && _); [|injection H as <-; exact G1]. apply bind_Ok in H as (d & Ed & H). eapply every_apply; [exact G1| |exact H]. exact (Hdecide _ _ Hl' Ed).
  - apply bind_Ok in H as (i' & Ei & H). assert (Hi' : PI i') by (inversion Hn; subst; eauto). unfold root_of in H. destruct (t_root s) as [r|] eqn:Er; [|discriminate]. cbn [bind] in H. apply bind_Ok in H as (r' & E1 & H). injection H as <-.
    intros r0 [= <-]. eapply every_update; [apply G; exact Er|exact E1|]. intros m m' _ [= <-]. now constructor.
  - destruct (o_multiway O te); [|injection H as <-; exact G]. apply bind_Ok in H as ([te' b] & Ea & H). apply bind_Ok in H as (l' & El & H). unfold root_of in H. destruct (t_root s) as [r|] eqn:Er; [|discriminate]. cbn [bind] in H. apply bind_Ok in H as (r' & E1 & H). injection H as <-.
    intros r0 [= <-]. eapply every_update; [apply G; exact Er|exact E1|]. intros m m' _ Hs. eapply every_set; [|constructor; eapply Hlearn; [exact Hy|exact Hnew|exact El]|exact Hs]. inversion Hn; subst. now constructor.
Qed.
Lemma every_fit_one s x y w s' : Q y w -> root_every s -> fit_one O cfg sz s x y w = Ok s' -> root_every s'.
Proof.
  intros Hy G H. unfold fit_one in H.
  set (sr := match t_root s with Some r => (s, r) | None => _ end) in H. assert (Gsr : root_every (fst sr) /\ every (snd sr)).
  { unfold sr. destruct (t_root s) as [r|] eqn:Er; cbn; [split; auto|]. split; [intros r [= <-]|]; constructor; exact Hnew. }
  destruct sr as [s0 r]. cbn [fst snd] in Gsr. destruct Gsr as [G0 Hr]. apply bind_Ok in H as ([p n] & R & H). apply bind_Ok in H as (s1 & E1 & H).
  assert (G1 : root_every s1).
  { destruct n as [n|].
    - eapply every_found; [exact Hy|exact G0| |exact E1]. destruct (route_found O _ _ _ _ R) as [R' _]. eapply every_place; eauto.
    - apply bind_Ok in E1 as (r' & Er & E1). eapply every_found; [exact Hy| | |exact E1]; [|constructor; exact Hnew]. intros r0 [= <-]. eapply every_replace; [exact Hr| |exact Er]. constructor. exact Hnew. }
  destruct (c_period_due _ _); [|injection H as <-; exact G1]. eapply every_estimate; eauto.
Qed.
Lemma every_fit_weighted s x y w s' : (neqb w n0 = false -> Q y w) -> root_every s -> fit_weighted O cfg sz s x y w = Ok s' -> root_every s'.
Proof. intros Hy G H. unfold fit_weighted in H. destruct (w =? n0)%num; [injection H as <-; exact G|]. eapply every_fit_one; [auto| |exact H]. exact G. Qed.
(** The node that answers is one of them. *)
Lemma every_answering s x n : root_every s -> answering O s x = Ok (Some n) -> every n.
Proof.
  intros G H. unfold answering in H. destruct (t_root s) as [r|] eqn:Er; [|discriminate]. specialize (G r Er). apply bind_Ok in H as ([p m] & R & H). destruct m as [m|].
  - injection H as ->. destruct (route_found O _ _ _ _ R) as [R' _]. eapply every_place; eauto.
  - clear R Er. revert G H. generalize (removelast p). intros q. revert r. induction q as [|b q IH]; intros r G H; [injection H as <-; exact G|]. destruct r as [l|i|te st ch]; try discriminate. destruct (dget ch b) as [c|] eqn:Ec; [|discriminate]. eapply IH; [|exact H]. eapply every_dget; eauto.
Qed.
End Every.
