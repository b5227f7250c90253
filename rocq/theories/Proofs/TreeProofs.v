(** Lemmas about the common part of the Hoeffding trees. *)
From Coq Require Import List ZArith Bool Lia Permutation Sorted.
From Verif Require Import Base.Py Base.Num Base.Dict Model.TreeSkeleton Spec.TreeSpec.
Import ListNotations.

Section Ind.
Context {L I S E : Type}.
Local Notation node := (node L I S E).
(** Induction over the children *)
Lemma node_rect' (P : node -> Prop) : (forall l, P (Active l)) -> (forall i, P (Inactive i)) ->
  (forall te st ch, Forall (fun kc => P (snd kc)) ch -> P (Split te st ch)) -> forall t, P t.
Proof.
  intros HA HI HS. fix F 1. intros [l|i|te st ch]; [apply HA|apply HI|]. apply HS.
  induction ch as [|[k c] ch IH]; constructor; [apply F|exact IH].
Qed.

Definition count_all (f : node -> bool) (ch : list (Z * node)) : Z := fold_right Z.add 0%Z (map (fun kc => count f (snd kc)) ch).
Lemma count_leaf f (t : node) : is_split t = false -> count f t = if f t then 1%Z else 0%Z.
Proof. destruct t; try discriminate; intros _; unfold count; cbn; destruct (f _); reflexivity. Qed.
Lemma count_split f te st (ch : list (Z * node)) : count f (Split te st ch) = ((if f (Split te st ch) then 1 else 0) + count_all f ch)%Z.
Proof.
  unfold count. cbn [nodes filter].
  set (go := fix go (l : list (Z * node)) : list node := match l with [] => [] | (_, c) :: r => nodes c ++ go r end).
  assert (G : Z.of_nat (length (filter f (go ch))) = count_all f ch).
  { induction ch as [|[k c] ch IH]; [reflexivity|]. change (go ((k, c) :: ch)) with (nodes c ++ go ch). rewrite filter_app, app_length, Nat2Z.inj_add, IH. reflexivity. }
  destruct (f (Split te st ch)); cbn [length]; lia.
Qed.
Lemma count_all_dset f (ch : list (Z * node)) b c c' : dget ch b = Some c ->
  count_all f (dset ch b c') = (count_all f ch - count f c + count f c')%Z.
Proof.
  induction ch as [|[k x] ch IH]; [discriminate|]. cbn [dget dset]. destruct (Z.eqb k b); intros H.
  - injection H as ->. unfold count_all. cbn. lia.
  - unfold count_all in *. cbn [map fold_right snd]. rewrite IH by auto. cbn. lia.
Qed.
Lemma count_all_app f (a b : list (Z * node)) : count_all f (a ++ b) = (count_all f a + count_all f b)%Z.
Proof. unfold count_all. rewrite map_app. induction a as [|x a IH]; cbn [app map fold_right]; lia. Qed.

Lemma keys_contiguous (ch : list (Z * node)) b : dkeys ch = map Z.of_nat (seq 0 (length ch)) ->
  (In b (dkeys ch) <-> (0 <= b < Z.of_nat (length ch))%Z).
Proof.
  intros ->. rewrite in_map_iff. split.
  - intros (i & <- & H). apply in_seq in H. lia.
  - intros H. exists (Z.to_nat b). split; [lia|]. apply in_seq. lia.
Qed.
Lemma length_dset (ch : list (Z * node)) b c c' : dget ch b = Some c -> length (dset ch b c') = length ch.
Proof.
  intros H. assert (E0 : dkeys (dset ch b c') = dkeys ch) by (apply dset_old, dget_Some; eauto).
  apply (f_equal (@length Z)) in E0. unfold dkeys in E0. now rewrite !map_length in E0.
Qed.

Lemma same_stats_refl {X Y T} (O : ops X Y T L I S E) (t : node) : same_stats O t t.
Proof.
  induction t as [l|i|te st ch IH] using node_rect'; try (constructor; auto; fail).
  apply same_split. induction IH; constructor; auto.
Qed.
End Ind.

Section Proofs.
Context {X Y T L I S E : Type} {N : Num T} (O : ops X Y T L I S E).
Local Notation node := (node L I S E).

(** ** Routing *)
Lemma route_split te st (ch : list (Z * node)) x : route O (Split te st ch) x =
  (b <- o_branch O te x ;;
   if (0 <=? b)%Z then match dget ch b with Some c => ' (p, n) <- route O c x ;; Ok (b :: p, n) | None => Ok ([b], None) end
   else Ok ([], Some (Split te st ch))).
Proof.
  cbn [route]. destruct (o_branch O te x) as [b|e]; cbn [bind]; auto. destruct (0 <=? b)%Z; auto.
  induction ch as [|[k c] r IH]; auto. cbn [dget]. destruct (k =? b)%Z; auto.
Qed.

(** The node found is at the place found; a split node is found only when its test has no branch. *)
Lemma route_found (t : node) x p n : route O t x = Ok (p, Some n) ->
  node_at t p = Some n /\ match n with Split te _ _ => exists b, o_branch O te x = Ok b /\ (b < 0)%Z | _ => True end.
Proof.
  revert p. induction t as [l|i|te st ch IH] using node_rect'; intros p H.
  - cbn in H. injection H as <- <-. auto.
  - cbn in H. injection H as <- <-. auto.
  - rewrite route_split in H. apply bind_Ok in H as (b & Eb & H). destruct (Z.leb_spec 0 b) as [Lb|Lb].
    + destruct (dget ch b) as [c|] eqn:Ec; [|discriminate]. apply bind_Ok in H as ([q m] & Eq & H). injection H as <- ->.
      rewrite Forall_forall in IH. apply dget_In in Ec as Ei. destruct (IH _ Ei q Eq) as [A B]. cbn [node_at]. rewrite Ec. auto.
    + injection H as <- <-. split; auto. eauto.
Qed.

(** ** Changing one node *)
Definition kind (g : node -> bool) : Prop := forall te st ch te' st' ch', g (Split te st ch) = g (Split te' st' ch').
Lemma kind_active : kind is_active. Proof. now intros ? ? ? ? ? ?. Qed.
Lemma kind_inactive : kind is_inactive. Proof. now intros ? ? ? ? ? ?. Qed.
Lemma kind_split : kind is_split. Proof. now intros ? ? ? ? ? ?. Qed.

Lemma update_at_inv p : forall (t : node) f t', update_at t p f = Ok t' -> exists n n', node_at t p = Some n /\ f n = Ok n' /\ node_at t' p = Some n'
  /\ (forall g, kind g -> count g t' = (count g t - count g n + count g n')%Z).
Proof.
  induction p as [|b q IH]; intros t f t' H; cbn [update_at] in H.
  - exists t, t'. repeat split; auto. intros; lia.
  - destruct t as [l|i|te st ch]; try discriminate. destruct (dget ch b) as [c|] eqn:Ec; [|discriminate].
    apply bind_Ok in H as (c' & E1 & H). injection H as <-. destruct (IH _ _ _ E1) as (n & n' & A & B & C & D). exists n, n'.
    cbn [node_at]. rewrite Ec, dget_dset, Z.eqb_refl. repeat split; auto. intros g Kg. specialize (D g Kg).
    rewrite !count_split, (Kg te st ch te st (dset ch b c')), (count_all_dset g ch b c c' Ec). lia.
Qed.
Lemma update_at_Ok p : forall (t : node) f n n', node_at t p = Some n -> f n = Ok n' -> exists t', update_at t p f = Ok t'.
Proof.
  induction p as [|b q IH]; intros t f n n' H Hf; cbn [node_at update_at] in *.
  - injection H as ->. eauto.
  - destruct t as [l|i|te st ch]; try discriminate. destruct (dget ch b) as [c|] eqn:Ec; [|discriminate].
    destruct (IH c f n n' H Hf) as (c' & ->). cbn [bind]. eauto.
Qed.
Lemma update_at_const p : forall (t : node) f n n', node_at t p = Some n -> f n = Ok n' -> update_at t p f = update_at t p (fun _ => Ok n').
Proof.
  induction p as [|b q IH]; intros t f n n' H Hf; cbn [node_at update_at] in *.
  - injection H as ->. auto.
  - destruct t as [l|i|te st ch]; try discriminate. destruct (dget ch b) as [c|] eqn:Ec; [|discriminate]. rewrite (IH c f n n' H Hf). reflexivity.
Qed.
Lemma replace_at_update p : forall (t : node) n n0 t', node_at t p = Some n0 -> replace_at O t p n = Ok t' -> update_at t p (fun _ => Ok n) = Ok t'.
Proof.
  induction p as [|b q IH]; intros t n n0 t' H E0; [exact E0|]. cbn [node_at] in H. destruct t as [l|i|te st ch]; try discriminate.
  destruct (dget ch b) as [c|] eqn:Ec; [|discriminate]. unfold replace_at in E0. destruct q as [|b2 q].
  - cbn [removelast last update_at set_child] in E0. cbn [update_at]. rewrite Ec. cbn [bind]. destruct (_ && _); [discriminate|]. exact E0.
  - change (removelast (b :: b2 :: q)) with (b :: removelast (b2 :: q)) in E0. change (last (b :: b2 :: q) 0%Z) with (last (b2 :: q) 0%Z) in E0.
    cbn [update_at] in E0. rewrite Ec in E0. apply bind_Ok in E0 as (c' & E1 & E0). injection E0 as <-.
    change (update_at (Split te st ch) (b :: b2 :: q) (fun _ => Ok n)) with (match dget ch b with Some c => c' <- update_at c (b2 :: q) (fun _ => Ok n) ;; Ok (Split te st (dset ch b c')) | None => Raise AttributeError end).
    rewrite Ec. rewrite (IH c n n0 c' H); auto.
Qed.
Lemma node_at_other p : forall q (t : node) f t' n m, update_at t p f = Ok t' -> node_at t p = Some n -> is_split n = false ->
  node_at t q = Some m -> is_split m = false -> p <> q -> node_at t' q = Some m.
Proof.
  induction p as [|b p IH]; intros q t f t' n m H Hn Ln Hm Lm Ne; cbn [update_at node_at] in *.
  - injection Hn as ->. destruct q as [|b' q]; [congruence|]. cbn [node_at] in Hm. destruct n; discriminate.
  - destruct t as [l|i|te st ch]; try discriminate. destruct (dget ch b) as [c|] eqn:Ec; [|discriminate].
    apply bind_Ok in H as (c' & E1 & H). injection H as <-. destruct q as [|b' q]; cbn [node_at] in *.
    + injection Hm as <-. discriminate.
    + rewrite dget_dset. destruct (Z.eqb_spec b b') as [<-|Nb]; [|exact Hm]. rewrite Ec in Hm. eapply IH; eauto. congruence.
Qed.

(** ** Routing after a change *)
Lemma route_update x p : forall (t : node) f t' n n' q m, update_at t p f = Ok t' -> node_at t p = Some n -> f n = Ok n' -> route O t x = Ok (q, Some m) ->
  (exists q', q = p ++ q' /\ route O n x = Ok (q', Some m) /\ forall q'' m'', route O n' x = Ok (q'', m'') -> route O t' x = Ok (p ++ q'', m''))
  \/ ((forall q', q <> p ++ q') /\ exists m', route O t' x = Ok (q, Some m') /\ stats_of O m' = stats_of O m /\ (is_split m = false -> m' = m) /\ is_split m' = is_split m).
Proof.
  induction p as [|b p IH]; intros t f t' n n' q m H Hn Hf R; cbn [update_at node_at] in *.
  - injection Hn as <-. left. exists q. split; auto. split; auto. intros q'' m'' E0. cbn [app]. congruence.
  - destruct t as [l|i|te st ch]; try discriminate. destruct (dget ch b) as [c|] eqn:Ec; [|discriminate].
    apply bind_Ok in H as (c' & E1 & H). injection H as <-. rewrite route_split in R. apply bind_Ok in R as (b' & Eb & R).
    destruct (Z.leb_spec 0 b') as [Lb|Lb].
    + destruct (dget ch b') as [c1|] eqn:Ec1; [|discriminate]. apply bind_Ok in R as ([q1 m1] & R1 & R). injection R as <- ->.
      destruct (Z.eqb_spec b b') as [<-|Nb].
      * rewrite Ec in Ec1. injection Ec1 as <-. destruct (IH _ _ _ _ _ _ _ E1 Hn Hf R1) as [(q' & -> & A & B)|(A & m' & B & C)].
        -- left. exists q'. split; auto. split; auto. intros q'' m'' E2. rewrite route_split, Eb. cbn [bind]. rewrite (proj2 (Z.leb_le 0 b) Lb), dget_dset, Z.eqb_refl.
           rewrite (B _ _ E2). reflexivity.
        -- right. split; [intros q' F; injection F as F; exact (A q' F)|]. exists m'. split; auto. rewrite route_split, Eb. cbn [bind].
           rewrite (proj2 (Z.leb_le 0 b) Lb), dget_dset, Z.eqb_refl, B. reflexivity.
      * right. split; [intros q' F; injection F as F _; congruence|]. exists m. split; [|auto]. rewrite route_split, Eb. cbn [bind].
        rewrite (proj2 (Z.leb_le 0 b') Lb), dget_dset. replace (b =? b')%Z with false by (symmetry; now apply Z.eqb_neq). rewrite Ec1, R1. reflexivity.
    + injection R as <- <-. right. split; [discriminate|]. exists (Split te st (dset ch b c')). rewrite route_split, Eb. cbn [bind].
      replace (0 <=? b')%Z with false by (symmetry; now apply Z.leb_gt). repeat split; auto. discriminate.
Qed.

Lemma same_stats_route x (t : node) : forall t' q m, same_stats O t t' -> route O t x = Ok (q, m) ->
  match m with
  | Some m => exists m', route O t' x = Ok (q, Some m') /\ same_stats O m m'
  | None => route O t' x = Ok (q, None)
  end.
Proof.
  induction t as [l|i|te st ch IH] using node_rect'; intros t' q m H R.
  - cbn in R. injection R as <- <-. inversion H; subst. destruct t'; try discriminate; eexists; cbn; eauto.
  - cbn in R. injection R as <- <-. inversion H; subst. destruct t'; try discriminate; eexists; cbn; eauto.
  - inversion H as [? ? D|? ? ? ch' HF]; subst; [discriminate|]. rewrite route_split in R |- *. apply bind_Ok in R as (b & -> & R). cbn [bind].
    destruct (0 <=? b)%Z.
    + assert (G : match dget ch b with Some c => exists c', dget ch' b = Some c' /\ same_stats O c c' | None => dget ch' b = None end).
      { clear - HF. induction HF as [|[k c] [k' c'] ch ch' [A B] HF IH]; cbn [dget]; auto. cbn in A, B. subst k'. destruct (k =? b)%Z; eauto. }
      destruct (dget ch b) as [c|] eqn:Ec.
      * destruct G as (c' & -> & G). apply bind_Ok in R as ([q1 m1] & R1 & R). injection R as <- <-. rewrite Forall_forall in IH.
        apply dget_In in Ec. specialize (IH _ Ec c' q1 m1 G R1). destruct m1 as [m1|]; [destruct IH as (m' & -> & Hm); cbn; eauto|rewrite IH; reflexivity].
      * rewrite G. injection R as <- <-. reflexivity.
    + injection R as <- <-. eauto.
Qed.
Lemma same_stats_eq t t' : same_stats O t t' -> stats_of O t = stats_of O t'.
Proof. destruct 1; auto. Qed.
Lemma same_stats_trans t : forall t' t'', same_stats O t t' -> same_stats O t' t'' -> same_stats O t t''.
Proof.
  induction t as [l|i|te st ch IH] using node_rect'; intros t' t'' H1 H2.
  - inversion H1; subst. inversion H2; subst; [constructor; congruence|discriminate].
  - inversion H1; subst. inversion H2; subst; [constructor; congruence|discriminate].
  - inversion H1 as [|? ? ? ch' F1]; subst; [discriminate|]. inversion H2 as [|? ? ? ch'' F2]; subst; [discriminate|]. apply same_split.
    clear H1 H2. revert ch'' F2. induction F1 as [|a b l l' [A1 A2] F1 IH1]; intros l'' F2; inversion F2 as [|? ? ? ? [B1 B2] F2']; subst; constructor.
    + inversion IH; subst. split; [congruence|eauto].
    + inversion IH; subst. auto.
Qed.
Lemma same_stats_update p : forall (t : node) n n' t', node_at t p = Some n -> same_stats O n n' -> update_at t p (fun _ => Ok n') = Ok t' -> same_stats O t t'.
Proof.
  induction p as [|b p IH]; intros t n n' t' Hn Hs H; cbn [update_at node_at] in *.
  - injection Hn as ->. injection H as <-. auto.
  - destruct t as [l|i|te st ch]; try discriminate. destruct (dget ch b) as [c|] eqn:Ec; [|discriminate].
    apply bind_Ok in H as (c' & E1 & H). injection H as <-. apply same_split. specialize (IH _ _ _ _ Hn Hs E1). clear - IH Ec.
    revert Ec. induction ch as [|[k c0] ch IHc]; [discriminate|]. cbn [dget dset]. destruct (Z.eqb_spec k b) as [->|Nk]; intros Ec.
    + injection Ec as ->. constructor; [cbn; auto|]. clear. induction ch; constructor; auto. split; auto. apply same_stats_refl.
    + constructor; [cbn; split; auto; apply same_stats_refl|auto].
Qed.

(** ** Well-formed trees *)
Variables (tinv : E -> nat -> Prop) (linv : L -> Prop) (iinv : I -> Prop).
Inductive wf : node -> Prop :=
| wf_active l : linv l -> wf (Active l)
| wf_inactive i : iinv i -> wf (Inactive i)
| wf_split te st ch : dkeys ch = map Z.of_nat (seq 0 (length ch)) -> tinv te (length ch) -> Forall (fun kc => wf (snd kc)) ch -> wf (Split te st ch).
Lemma wf_child te st ch b c : wf (Split te st ch) -> dget ch b = Some c -> wf c.
Proof. intros H Ec. inversion H as [| |? ? ? _ _ F]; subst. rewrite Forall_forall in F. apply dget_In in Ec. apply (F _ Ec). Qed.
Lemma wf_node_at p : forall (t : node) n, wf t -> node_at t p = Some n -> wf n.
Proof.
  induction p as [|b p IH]; intros t n W H; cbn [node_at] in H; [congruence|]. destruct t as [| |te st ch]; try discriminate.
  destruct (dget ch b) as [c|] eqn:Ec; [|discriminate]. exact (IH c n (wf_child _ _ _ _ _ W Ec) H).
Qed.
Lemma wf_update p : forall (t : node) f t' n n', wf t -> update_at t p f = Ok t' -> node_at t p = Some n -> f n = Ok n' -> wf n' -> wf t'.
Proof.
  induction p as [|b p IH]; intros t f t' n n' W H Hn Hf W'; cbn [update_at node_at] in *.
  - congruence.
  - destruct t as [l|i|te st ch]; try discriminate. destruct (dget ch b) as [c|] eqn:Ec; [|discriminate].
    apply bind_Ok in H as (c' & E1 & H). injection H as <-. pose proof (wf_child _ _ _ _ _ W Ec) as Wc. specialize (IH _ _ _ _ _ Wc E1 Hn Hf W').
    inversion W as [| |? ? ? K TI F]; subst. pose proof (length_dset ch b c c' Ec) as LD. constructor; rewrite ?LD; auto.
    + rewrite dset_old by (apply dget_Some; eauto). exact K.
    + rewrite Forall_forall in *. intros [k x0] Hin. cbn. clear - F IH Hin. induction ch as [|[k1 x1] ch IHc]; cbn [dset] in Hin; [destruct Hin as [[= <- <-]|[]]; auto|].
      destruct (k1 =? b)%Z.
      * destruct Hin as [[= <- <-]|Hin]; auto. apply (F (k, x0)). now right.
      * destruct Hin as [[= <- <-]|Hin]; [apply (F (k1, x1)); now left|]. apply IHc; auto. intros y Hy. apply F. now right.
Qed.

Hypothesis Hbranch : forall te n x b, tinv te n -> o_branch O te x = Ok b -> (b < Z.of_nat n)%Z.
Lemma wf_route_some (t : node) x q m : wf t -> route O t x = Ok (q, m) -> exists n, m = Some n.
Proof.
  revert q m. induction t as [l|i|te st ch IH] using node_rect'; intros q m W R; try (cbn in R; injection R as <- <-; eauto; fail).
  rewrite route_split in R. apply bind_Ok in R as (b & Eb & R). destruct (Z.leb_spec 0 b) as [Lb|Lb]; [|injection R as <- <-; eauto].
  inversion W as [| |? ? ? K TI F]; subst. pose proof (Hbranch _ _ _ _ TI Eb) as Hb.
  assert (Hk : In b (dkeys ch)) by (apply keys_contiguous; auto). apply dget_Some in Hk as (c & Ec). rewrite Ec in R.
  apply bind_Ok in R as ([q1 m1] & R1 & R). injection R as <- <-. rewrite Forall_forall in IH. apply dget_In in Ec as Hi.
  exact (IH _ Hi q1 m1 (wf_child _ _ _ _ _ W Ec) R1).
Qed.

(** ** Learning nodes *)
Lemma learning_split te st (ch : list (Z * node)) : wf (Split te st ch) ->
  learning_nodes (Split te st ch) = flat_map (fun kc => map (fun pn => (fst kc :: fst pn, snd pn)) (learning_nodes (snd kc))) ch.
Proof.
  intros W. inversion W as [| |? ? ? K _ _]; subst. cbn [learning_nodes].
  set (go := fix go (l : list (Z * node)) : list (Z * list (list Z * node)) := match l with [] => [] | (k, c) :: r => (k, learning_nodes c) :: go r end).
  assert (G : forall l, go l = map (fun kc => (fst kc, learning_nodes (snd kc))) l) by (induction l as [|[k c] l IH]; [reflexivity|cbn; now f_equal]).
  rewrite G.
  assert (Q : forall l a, dkeys l = map Z.of_nat (seq a (length l)) -> forall sub, (forall k c, In (k, c) l -> dget sub k = Some (learning_nodes c)) ->
     flat_map (fun i => match dget sub (Z.of_nat i) with Some ns => map (fun pn : list Z * node => (Z.of_nat i :: fst pn, snd pn)) ns | None => [] end) (seq a (length l))
     = flat_map (fun kc => map (fun pn : list Z * node => (fst kc :: fst pn, snd pn)) (learning_nodes (snd kc))) l).
  { induction l as [|[k c] l IH]; intros a Ka sub Hs; [reflexivity|]. cbn [length seq flat_map dkeys map fst snd] in *. injection Ka as Ek Ka.
    rewrite <- Ek, (Hs k c (or_introl eq_refl)). f_equal. apply IH; auto. intros k' c' H'. apply Hs. now right. }
  apply Q; auto. intros k c Hin. apply In_dget; [|apply in_map_iff; exists (k, c); auto].
  unfold dkeys. rewrite map_map. cbn [fst]. change (NoDup (dkeys ch)). rewrite K. clear. apply FinFun.Injective_map_NoDup; [intros a b; lia|apply seq_NoDup].
Qed.
Lemma nodup_keys te st ch : wf (Split te st ch) -> NoDup (dkeys ch).
Proof. intros W. inversion W as [| |? ? ? K _ _]; subst. rewrite K. apply FinFun.Injective_map_NoDup; [intros a b; lia|apply seq_NoDup]. Qed.
Lemma learning_in (t : node) : wf t -> forall p n, In (p, n) (learning_nodes t) <-> node_at t p = Some n /\ is_split n = false.
Proof.
  induction t as [l|i|te st ch IH] using node_rect'; intros W p n.
  - cbn. split; [intros [[= <- <-]|[]]; auto|]. intros [H Hl]. destruct p; [injection H as <-; auto|discriminate].
  - cbn. split; [intros [[= <- <-]|[]]; auto|]. intros [H Hl]. destruct p; [injection H as <-; auto|discriminate].
  - rewrite learning_split by auto. pose proof (nodup_keys _ _ _ W) as ND. rewrite in_flat_map. rewrite Forall_forall in IH. split.
    + intros ([k c] & Hin & Hx). apply in_map_iff in Hx as ([q m] & E0 & Hx). cbn [fst snd] in *. injection E0 as <- <-.
      apply (In_dget _ _ _ ND) in Hin as Ec. apply (IH _ Hin) in Hx; [|eapply wf_child; eauto]. cbn [node_at]. rewrite Ec. exact Hx.
    + intros [H Hl]. destruct p as [|b p]; [injection H as <-; discriminate|]. cbn [node_at] in H. destruct (dget ch b) as [c|] eqn:Ec; [|discriminate].
      apply dget_In in Ec as Hin. exists (b, c). split; auto. apply in_map_iff. exists (p, n). split; auto. cbn [fst snd]. apply (IH _ Hin); auto. eapply wf_child; eauto.
Qed.
Lemma NoDup_flat (ch : list (Z * node)) : NoDup (dkeys ch) -> Forall (fun kc => NoDup (map fst (learning_nodes (snd kc)))) ch ->
  NoDup (map fst (flat_map (fun kc => map (fun pn : list Z * node => (fst kc :: fst pn, snd pn)) (learning_nodes (snd kc))) ch)).
Proof.
  induction ch as [|[k c] ch IH]; intros ND F; cbn [flat_map]; [constructor|]. rewrite map_app, map_map. cbn [fst snd]. inversion F; subst. inversion ND; subst.
  cbn [dkeys map fst] in *.
  assert (A : NoDup (map (fun x : list Z * node => k :: fst x) (learning_nodes c))).
  { rewrite <- (map_map fst (fun p => k :: p)). apply FinFun.Injective_map_NoDup; auto. intros a b E0. now injection E0. }
  induction (learning_nodes c) as [|pn l IHl]; cbn [map app]; [auto|]. inversion A; subst. constructor.
  - rewrite in_app_iff. intros [Hx|Hx]; [contradiction|]. apply in_map_iff in Hx as ([q m] & E0 & Hx). cbn [fst] in E0. apply in_flat_map in Hx as ([k' c'] & Hin & Hx).
    apply in_map_iff in Hx as (pn' & E1 & _). cbn [fst] in *. injection E1 as <- _. injection E0 as -> _. apply H3. apply in_map_iff. exists (k, c'). auto.
  - apply IHl; auto.
Qed.
Lemma learning_nodup (t : node) : wf t -> NoDup (map fst (learning_nodes t)).
Proof.
  induction t as [l|i|te st ch IH] using node_rect'; intros W; try (cbn; constructor; [intros []|constructor]).
  rewrite learning_split by auto. apply NoDup_flat; [eapply nodup_keys; eauto|]. rewrite Forall_forall in *. intros [k c] Hin. apply (IH _ Hin).
  pose proof (nodup_keys _ _ _ W) as ND. eapply wf_child; eauto. apply In_dget; eauto.
Qed.

(** ** Invariant of the tree *)
Definition good (s : tree T L I S E) : Prop := counters_right s /\ match t_root s with Some r => wf r | None => True end.
Lemma good_new : good tree_new. Proof. repeat split. Qed.
Lemma counts_leaf (l : L) : count is_split (@Active L I S E l) = 0%Z /\ count is_active (@Active L I S E l) = 1%Z /\ count is_inactive (@Active L I S E l) = 0%Z.
Proof. repeat split. Qed.
Lemma counts_inactive (i : I) : count is_split (@Inactive L I S E i) = 0%Z /\ count is_active (@Inactive L I S E i) = 0%Z /\ count is_inactive (@Inactive L I S E i) = 1%Z.
Proof. repeat split. Qed.

(** Replacing a node keeps the counters when the counters are changed by the difference of the counts. *)
Lemma good_update s r p f r' n n' dd da di : good s -> t_root s = Some r -> node_at r p = Some n -> f n = Ok n' -> wf n' ->
  update_at r p f = Ok r' ->
  count is_split n' = (count is_split n + dd)%Z -> count is_active n' = (count is_active n + da)%Z -> count is_inactive n' = (count is_inactive n + di)%Z ->
  good (with_root s r' dd da di).
Proof.
  intros [C W] Er Hn Hf W' Hu C1 C2 C3. unfold counters_right in C. rewrite Er in C, W. destruct C as (D1 & D2 & D3).
  destruct (update_at_inv _ _ _ _ Hu) as (n1 & n1' & A1 & A2 & _ & A4). rewrite Hn in A1. injection A1 as <-. rewrite Hf in A2. injection A2 as <-.
  split; [|exact (wf_update p r f r' n n' W Hu Hn Hf W')]. unfold counters_right. cbn [with_root t_root t_decision t_active t_inactive].
  rewrite (A4 _ kind_split), (A4 _ kind_active), (A4 _ kind_inactive). lia.
Qed.
Definition same_rest (s s' : tree T L I S E) : Prop :=
  t_inactive_size s' = t_inactive_size s /\ t_active_size s' = t_active_size s /\ t_overhead s' = t_overhead s /\ t_growth s' = t_growth s /\ t_weight s' = t_weight s
  /\ t_decision s' = t_decision s.
Lemma same_rest_refl s : same_rest s s. Proof. repeat split. Qed.
Lemma same_rest_trans s s' s'' : same_rest s s' -> same_rest s' s'' -> same_rest s s''.
Proof. unfold same_rest. intuition congruence. Qed.

Hypothesis Lstop : forall l, linv l -> iinv (o_stop O l).
Hypothesis Lstart : forall i, iinv i -> linv (o_start O i).
Lemma wf_at_active s r p l : good s -> t_root s = Some r -> node_at r p = Some (Active l) -> linv l.
Proof. intros [_ W] Er Hn. rewrite Er in W. pose proof (wf_node_at _ _ _ W Hn) as Q. now inversion Q. Qed.
Lemma wf_at_inactive s r p i : good s -> t_root s = Some r -> node_at r p = Some (Inactive i) -> iinv i.
Proof. intros [_ W] Er Hn. rewrite Er in W. pose proof (wf_node_at _ _ _ W Hn) as Q. now inversion Q. Qed.
Hypothesis Hstop : forall l, o_stats_inactive O (o_stop O l) = o_stats O l.
Hypothesis Hstart : forall i, o_stats O (o_start O i) = o_stats_inactive O i.

Definition off (n : node) : node := match n with Active l => Inactive (o_stop O l) | n => n end.
Definition on (n : node) : node := match n with Inactive i => Active (o_start O i) | n => n end.
Lemma deactivate_ok s r p l s' : good s -> t_root s = Some r -> node_at r p = Some (Active l) -> deactivate O s p l = Ok s' ->
  good s' /\ same_rest s s' /\ exists r', t_root s' = Some r' /\ same_stats O r r' /\ update_at r p (fun _ => Ok (Inactive (o_stop O l))) = Ok r'.
Proof.
  intros G Er Hn H. unfold deactivate, root_of in H. rewrite Er in H. cbn [bind] in H. apply bind_Ok in H as (r' & H1 & H). injection H as <-.
  apply (replace_at_update p r _ _ _ Hn) in H1. split; [|split].
  - apply (good_update s r p (fun _ => Ok (Inactive (o_stop O l))) r' (Active l) (Inactive (o_stop O l)) 0 (-1) 1 G Er Hn eq_refl (wf_inactive _ (Lstop _ (wf_at_active _ _ _ _ G Er Hn))) H1); reflexivity.
  - repeat split; cbn; lia.
  - exists r'. split; auto. split; auto. eapply same_stats_update; eauto. constructor; cbn; auto.
Qed.
Lemma activate_ok s r p i s' : good s -> t_root s = Some r -> node_at r p = Some (Inactive i) -> activate O s p i = Ok s' ->
  good s' /\ same_rest s s' /\ exists r', t_root s' = Some r' /\ same_stats O r r' /\ update_at r p (fun _ => Ok (Active (o_start O i))) = Ok r'.
Proof.
  intros G Er Hn H. unfold activate, root_of in H. rewrite Er in H. cbn [bind] in H. apply bind_Ok in H as (r' & H1 & H). injection H as <-.
  apply (replace_at_update p r _ _ _ Hn) in H1. split; [|split].
  - apply (good_update s r p (fun _ => Ok (Active (o_start O i))) r' (Inactive i) (Active (o_start O i)) 0 1 (-1) G Er Hn eq_refl (wf_active _ (Lstart _ (wf_at_inactive _ _ _ _ G Er Hn))) H1); reflexivity.
  - repeat split; cbn; lia.
  - exists r'. split; auto. split; auto. eapply same_stats_update; eauto. constructor; cbn; auto.
Qed.

(** The leaves of a tree after (de)activating those of a list. *)
Definition places (l : list (list Z * node)) (r : node) : Prop := NoDup (map fst l) /\ forall p n, In (p, n) l -> node_at r p = Some n /\ is_split n = false.
Definition memb (p : list Z) (l : list (list Z * node)) : bool := if in_dec (list_eq_dec Z.eq_dec) p (map fst l) then true else false.
Lemma memb_cons p q n l : memb p ((q, n) :: l) = (if list_eq_dec Z.eq_dec q p then true else memb p l).
Proof.
  unfold memb. destruct (in_dec _ p (map fst ((q, n) :: l))) as [i|i], (list_eq_dec Z.eq_dec q p) as [e|e]; auto.
  - destruct (in_dec _ p (map fst l)) as [j|j]; auto. destruct i; [contradiction|contradiction].
  - destruct i. now left.
  - destruct (in_dec _ p (map fst l)) as [j|j]; auto. destruct i. now right.
Qed.
Lemma places_tail p n l r r' x : places ((p, n) :: l) r -> update_at r p (fun _ => Ok x) = Ok r' -> is_split x = false -> places l r'.
Proof.
  intros [ND H] Hu _. inversion ND; subst. split; auto. intros q m Hin. destruct (H q m (or_intror Hin)) as [A B]. split; auto.
  destruct (H p n (or_introl eq_refl)) as [A' B']. eapply (node_at_other p q); eauto. intros ->. apply H2. apply in_map_iff. exists (q, m). auto.
Qed.
Lemma deactivate_all_ok l : forall s r s', good s -> t_root s = Some r -> places l r -> deactivate_all O s l = Ok s' ->
  good s' /\ same_rest s s' /\ exists r', t_root s' = Some r' /\ same_stats O r r'
    /\ forall p n, node_at r p = Some n -> is_split n = false -> node_at r' p = Some (if memb p l then off n else n).
Proof.
  induction l as [|[p n] l IH]; intros s r s' G Er P H.
  - cbn in H. injection H as <-. split; auto. split; [apply same_rest_refl|]. exists r. split; auto. split; [apply same_stats_refl|]. intros q m Hq _. exact Hq.
  - destruct (proj2 P p n (or_introl eq_refl)) as [Hn Ln].
    destruct n as [a|i|]; [| |discriminate]; cbn [deactivate_all] in H.
    + apply bind_Ok in H as (s1 & H1 & H). destruct (deactivate_ok _ _ _ _ _ G Er Hn H1) as (G1 & R1 & r1 & Er1 & S1 & U1).
      pose proof (places_tail _ _ _ _ _ _ P U1 eq_refl) as P1. destruct (IH s1 r1 s' G1 Er1 P1 H) as (G2 & R2 & r2 & Er2 & S2 & Q2).
      split; auto. split; [eapply same_rest_trans; eauto|]. exists r2. split; auto. split; [eapply same_stats_trans; eauto|].
      intros q m Hq Lq. rewrite memb_cons. destruct (list_eq_dec Z.eq_dec p q) as [<-|Ne].
      * rewrite Hn in Hq. injection Hq as <-. destruct (update_at_inv _ _ _ _ U1) as (n1 & n1' & _ & B & C & _). injection B as <-.
        rewrite (Q2 p _ C eq_refl). cbn [off]. destruct (memb p l); reflexivity.
      * apply Q2; auto. eapply (node_at_other p q); eauto.
    + assert (P1 : places l r). { destruct P as [ND Pl]. inversion ND; subst. split; auto. intros q m Hin. apply Pl. now right. }
      destruct (IH s r s' G Er P1 H) as (G2 & R2 & r2 & Er2 & S2 & Q2). split; auto. split; auto. exists r2. split; auto. split; auto.
      intros q m Hq Lq. rewrite memb_cons, (Q2 q m Hq Lq). destruct (list_eq_dec Z.eq_dec p q) as [<-|Ne]; auto.
      rewrite Hn in Hq. injection Hq as <-. cbn. destruct (memb p l); reflexivity.
Qed.
Lemma activate_all_ok l : forall s r s', good s -> t_root s = Some r -> places l r -> activate_all O s l = Ok s' ->
  good s' /\ same_rest s s' /\ exists r', t_root s' = Some r' /\ same_stats O r r'
    /\ forall p n, node_at r p = Some n -> is_split n = false -> node_at r' p = Some (if memb p l then on n else n).
Proof.
  induction l as [|[p n] l IH]; intros s r s' G Er P H.
  - cbn in H. injection H as <-. split; auto. split; [apply same_rest_refl|]. exists r. split; auto. split; [apply same_stats_refl|]. intros q m Hq _. exact Hq.
  - destruct (proj2 P p n (or_introl eq_refl)) as [Hn Ln]. destruct n as [a|i|]; [| |discriminate]; cbn [activate_all] in H.
    + assert (P1 : places l r). { destruct P as [ND Pl]. inversion ND; subst. split; auto. intros q m Hin. apply Pl. now right. }
      destruct (IH s r s' G Er P1 H) as (G2 & R2 & r2 & Er2 & S2 & Q2). split; auto. split; auto. exists r2. split; auto. split; auto.
      intros q m Hq Lq. rewrite memb_cons, (Q2 q m Hq Lq). destruct (list_eq_dec Z.eq_dec p q) as [<-|Ne]; auto.
      rewrite Hn in Hq. injection Hq as <-. cbn. destruct (memb p l); reflexivity.
    + apply bind_Ok in H as (s1 & H1 & H). destruct (activate_ok _ _ _ _ _ G Er Hn H1) as (G1 & R1 & r1 & Er1 & S1 & U1).
      pose proof (places_tail _ _ _ _ _ _ P U1 eq_refl) as P1. destruct (IH s1 r1 s' G1 Er1 P1 H) as (G2 & R2 & r2 & Er2 & S2 & Q2).
      split; auto. split; [eapply same_rest_trans; eauto|]. exists r2. split; auto. split; [eapply same_stats_trans; eauto|].
      intros q m Hq Lq. rewrite memb_cons. destruct (list_eq_dec Z.eq_dec p q) as [<-|Ne].
      * rewrite Hn in Hq. injection Hq as <-. destruct (update_at_inv _ _ _ _ U1) as (n1 & n1' & _ & B & C & _). injection B as <-.
        rewrite (Q2 p _ C eq_refl). cbn [on]. destruct (memb p l); reflexivity.
      * apply Q2; auto. eapply (node_at_other p q); eauto.
Qed.

(** ** Sorting *)
Lemma insert_stable_perm {A} (le : A -> A -> bool) x l : Permutation (x :: l) (insert_stable le x l).
Proof.
  induction l as [|y l IH]; cbn; auto. destruct (le x y); auto. etransitivity; [apply perm_swap|]. now constructor.
Qed.
Lemma sort_stable_perm {A} (le : A -> A -> bool) l : Permutation l (sort_stable le l).
Proof. induction l as [|x l IH]; cbn; auto. etransitivity; [|apply insert_stable_perm]. now constructor. Qed.

Variables (cfg : config T) (sz : sizes T L I S E).
Definition ranked (r : node) : list (list Z * node) :=
  sort_stable (fun a b => o_before O (length (fst a), snd a) (length (fst b), snd b)) (learning_nodes r).
Definition budget (s : tree T L I S E) (r : node) : nat := max_active cfg s (length (learning_nodes r)) 0 (length (learning_nodes r)).
Lemma ranked_places r : wf r -> places (ranked r) r.
Proof.
  intros W. pose proof (sort_stable_perm (fun a b : list Z * node => o_before O (length (fst a), snd a) (length (fst b), snd b)) (learning_nodes r)) as P.
  split.
  - eapply Permutation_NoDup; [apply Permutation_map, P|]. now apply learning_nodup.
  - intros p n Hin. apply (learning_in r W). eapply Permutation_in; [apply Permutation_sym, P|exact Hin].
Qed.
Lemma ranked_leaf r p n : wf r -> node_at r p = Some n -> is_split n = false -> In (p, n) (ranked r).
Proof.
  intros W H1 H2. pose proof (sort_stable_perm (fun a b : list Z * node => o_before O (length (fst a), snd a) (length (fst b), snd b)) (learning_nodes r)) as P.
  eapply Permutation_in; [exact P|]. apply (learning_in r W). auto.
Qed.
Lemma memb_In p l : memb p l = true <-> In p (map fst l).
Proof. unfold memb. destruct (in_dec _ p (map fst l)); split; auto; discriminate. Qed.
Lemma places_app a b r : places (a ++ b) r -> places a r /\ places b r /\ forall p, memb p a = true -> memb p b = true -> False.
Proof.
  intros [ND H]. rewrite map_app in ND. assert (Q : NoDup (map fst a) /\ NoDup (map fst b) /\ forall p, In p (map fst a) -> In p (map fst b) -> False).
  { clear - ND. induction a as [|x a IH]; cbn [map app] in *; [repeat split; auto; constructor|]. inversion ND; subst. destruct (IH H2) as (A & B & C).
    repeat split; auto; [constructor; auto; intros Hi; apply H1; apply in_app_iff; auto|]. intros p [<-|Hp] Hb; [|eauto]. apply H1, in_app_iff. auto. }
  destruct Q as (Q1 & Q2 & Q3). split; [split; [exact Q1|intros p n Hp; apply H, in_app_iff; auto]|]. split; [split; [exact Q2|intros p n Hp; apply H, in_app_iff; auto]|].
  intros p A B. apply memb_In in A, B. eauto.
Qed.
Definition only_growth (s s' : tree T L I S E) : Prop := same_rest s (mk_tree (t_root s') (t_decision s') (t_active s') (t_inactive s') (t_inactive_size s') (t_active_size s') (t_overhead s') (t_growth s) (t_weight s'))
  /\ (t_growth s' = t_growth s \/ t_growth s' = false).
Lemma enforce_ok s r s' : good s -> t_root s = Some r -> enforce O cfg s = Ok s' ->
  good s' /\ only_growth s s' /\ exists r', t_root s' = Some r' /\ same_stats O r r'
  /\ (c_stop cfg = true /\ r' = r /\ t_growth s' = false \/ t_growth s' = t_growth s /\ forall p n, node_at r p = Some n -> is_split n = false ->
        node_at r' p = Some (if memb p (firstn (length (ranked r) - budget s r) (ranked r)) then off n else on n)).
Proof.
  intros G Er H. pose proof G as [C W]. rewrite Er in W. unfold enforce in H. rewrite Er in H. destruct (_ && _) eqn:Est.
  { apply andb_true_iff in Est as [_ Est]. injection H as <-. split; [split; [unfold counters_right in *; cbn; rewrite Er in *; auto|cbn; auto; rewrite Er; auto]|].
    split; [split; [repeat split|auto]|]. exists r. cbn. split; auto. split; [apply same_stats_refl|auto]. }
  cbv zeta in H. fold (ranked r) in H.
  assert (EL : length (ranked r) = length (learning_nodes r)) by (symmetry; apply Permutation_length, sort_stable_perm).
  rewrite EL in H |- *. fold (budget s r) in H. set (cut := (length (learning_nodes r) - budget s r)%nat) in *.
  apply bind_Ok in H as (s1 & H1 & H2). pose proof (ranked_places r W) as PL. rewrite <- (firstn_skipn cut (ranked r)) in PL.
  apply places_app in PL as (P1 & P2 & P3).
  destruct (deactivate_all_ok _ _ _ _ G Er P1 H1) as (G1 & R1 & r1 & Er1 & S1 & Q1).
  assert (P2' : places (skipn cut (ranked r)) r1).
  { destruct P2 as [ND Pl]. split; auto. intros p n Hin. destruct (Pl p n Hin) as [A B]. split; auto. rewrite (Q1 p n A B).
    destruct (memb p (firstn cut (ranked r))) eqn:Em; auto. exfalso. apply (P3 p Em). apply memb_In. apply in_map_iff. exists (p, n). auto. }
  destruct (activate_all_ok _ _ _ _ G1 Er1 P2' H2) as (G2 & R2 & r2 & Er2 & S2 & Q2).
  split; auto. pose proof (same_rest_trans _ _ _ R1 R2) as R. split.
  { split; [unfold same_rest in *; cbn; intuition congruence|]. left. apply R. }
  exists r2. split; auto. split; [eapply same_stats_trans; eauto|]. right. split; [apply R|]. intros p n A B.
  specialize (Q1 p n A B). pose proof (ranked_leaf r p n W A B) as Hin. rewrite <- (firstn_skipn cut (ranked r)) in Hin. apply in_app_iff in Hin.
  destruct (memb p (firstn cut (ranked r))) eqn:Em.
  - assert (E2 : memb p (skipn cut (ranked r)) = false) by (destruct (memb p (skipn cut (ranked r))) eqn:E2; auto; exfalso; eauto).
    rewrite (Q2 p _ Q1) by (destruct n; auto). now rewrite E2.
  - assert (E2 : memb p (skipn cut (ranked r)) = true).
    { apply memb_In. destruct Hin as [Hin|Hin]; [|apply in_map_iff; exists (p, n); auto].
      assert (memb p (firstn cut (ranked r)) = true) by (apply memb_In, in_map_iff; exists (p, n); auto). congruence. }
    rewrite (Q2 p _ Q1 B). now rewrite E2.
Qed.
Lemma enforce_empty s s' : t_root s = None -> enforce O cfg s = Ok s' -> t_root s' = None /\ t_decision s' = t_decision s /\ t_active s' = t_active s /\ t_inactive s' = t_inactive s /\ (t_growth s' = t_growth s \/ t_growth s' = false).
Proof. intros Er H. unfold enforce in H. rewrite Er in H. destruct (_ && _); cbn in H; injection H as <-; cbn; auto 6. Qed.

Lemma estimate_ok s r s' : good s -> t_root s = Some r -> estimate O cfg sz s = Ok s' ->
  good s' /\ t_decision s' = t_decision s /\ t_weight s' = t_weight s /\ (t_growth s' = t_growth s \/ t_growth s' = false) /\
  exists r', t_root s' = Some r' /\ same_stats O r r'.
Proof.
  intros G Er H. unfold estimate in H. cbv zeta in H. apply bind_Ok in H as (ae & _ & H). apply bind_Ok in H as (ie & _ & H). apply bind_Ok in H as (oh & _ & H).
  match type of H with (if ?b then enforce O cfg ?s0 else _) = _ => set (s2 := s0) in * end.
  assert (G2 : good s2). { destruct G as [C W]. split; auto. }
  destruct (_ <? _)%num.
  - destruct (enforce_ok s2 r s' G2 Er H) as (G' & [R R'] & r' & Er' & S' & _). split; auto. unfold same_rest in R. cbn in R, R'. repeat split; try tauto. eauto.
  - injection H as <-. split; auto. cbn. repeat split; auto. exists r. split; auto. apply same_stats_refl.
Qed.

(** ** Splitting *)
Lemma add_children_ok ds : forall te st ch l t', dkeys ch = map Z.of_nat (seq 0 (length ch)) -> add_children O (Split te st ch) l (Z.of_nat (length ch)) ds = Ok t' ->
  exists ch', t' = Split te st (ch ++ ch') /\ map snd ch' = map (fun d => Active (o_child O l d)) ds /\ dkeys (ch ++ ch') = map Z.of_nat (seq 0 (length (ch ++ ch'))).
Proof.
  induction ds as [|d ds IH]; intros te st ch l t' K H; cbn [add_children] in H.
  - injection H as <-. exists []. rewrite app_nil_r. auto.
  - apply bind_Ok in H as (t1 & H1 & H). unfold set_child in H1. destruct (_ && _); [discriminate|]. injection H1 as <-.
    assert (E1 : dset ch (Z.of_nat (length ch)) (Active (o_child O l d)) = ch ++ [(Z.of_nat (length ch), Active (o_child O l d))]).
    { assert (Hn : ~ In (Z.of_nat (length ch)) (dkeys ch)) by (rewrite keys_contiguous by auto; lia). clear - Hn.
      induction ch as [|[k c] ch IHc] in Hn |- *; [reflexivity|]. revert Hn. generalize (Z.of_nat (length ((k, c) :: ch))). intros z Hn.
      cbn [dset dkeys map fst In] in *. destruct (Z.eqb_spec k z); [tauto|]. cbn [app]. f_equal.
      clear IHc. induction ch as [|[k' c'] ch IHc]; [reflexivity|]. cbn [dset map fst In] in *. destruct (Z.eqb_spec k' z); [tauto|]. cbn. f_equal. apply IHc. tauto. }
    rewrite E1 in H. assert (LA : length (ch ++ [(Z.of_nat (length ch), Active (o_child O l d))]) = Datatypes.S (length ch)) by (rewrite app_length; cbn; lia).
    assert (K2 : dkeys (ch ++ [(Z.of_nat (length ch), @Active L I S E (o_child O l d))]) = map Z.of_nat (seq 0 (length (ch ++ [(Z.of_nat (length ch), @Active L I S E (o_child O l d))])))).
    { rewrite LA, seq_S. unfold dkeys in *. rewrite !map_app, K. reflexivity. }
    replace (Z.of_nat (length ch) + 1)%Z with (Z.of_nat (length (ch ++ [(Z.of_nat (length ch), @Active L I S E (o_child O l d))]))) in H by (rewrite LA; lia).
    destruct (IH _ _ _ _ _ K2 H) as (ch' & -> & Es & K'). exists ((Z.of_nat (length ch), Active (o_child O l d)) :: ch'). rewrite <- app_assoc in *. cbn [app] in *.
    split; auto. split; auto. cbn. now rewrite Es.
Qed.
Lemma count_all_actives f (ch : list (Z * node)) (ls : list L) : map snd ch = map Active ls -> count_all f ch = fold_right Z.add 0%Z (map (fun l => if f (Active l) then 1%Z else 0%Z) ls).
Proof.
  revert ls. induction ch as [|[k c] ch IH]; intros [|l ls] H; try discriminate; [reflexivity|]. cbn [map snd] in H. injection H as -> H.
  unfold count_all in *. cbn [map fold_right snd]. rewrite (IH ls H), count_leaf; auto.
Qed.
Hypothesis Hsplit : forall l l' te ds, linv l -> o_decide O l = Ok (SplitOn l' te ds) -> tinv te (length ds) /\ forall d, In d ds -> linv (o_child O l' d).

Lemma new_split_ok te st l ds t' : tinv te (length ds) -> (forall d, In d ds -> linv (o_child O l d)) -> add_children O (Split te st []) l 0 ds = Ok t' ->
  wf t' /\ (exists ch', t' = Split te st ch' /\ map snd ch' = map (fun d => Active (o_child O l d)) ds) /\
  count is_split t' = 1%Z /\ count is_active t' = Z.of_nat (length ds) /\ count is_inactive t' = 0%Z.
Proof.
  intros TI LD H. destruct (add_children_ok ds te st [] l t' eq_refl H) as (ch' & -> & Es & K). cbn [app] in *.
  assert (LE : length ch' = length ds) by (apply (f_equal (@length _)) in Es; now rewrite !map_length in Es).
  assert (Es' : map snd ch' = map Active (map (o_child O l) ds)) by (rewrite map_map; exact Es).
  split; [|split; [eauto|]].
  - constructor; auto; [now rewrite LE|]. assert (LA : Forall linv (map (o_child O l) ds)) by (apply Forall_forall; intros x Hx; apply in_map_iff in Hx as (d & <- & Hd); auto).
    clear - Es' LA. revert Es' LA. generalize (map (o_child O l) ds). intros ls. revert ls.
    induction ch' as [|[k c] ch IH]; intros [|l0 ls] Es' LA; try discriminate; constructor; inversion LA; subst; [injection Es' as -> _; now constructor|injection Es' as _ Es'; eauto].
  - rewrite !count_split, !(count_all_actives _ ch' _ Es'). cbn [is_split is_active is_inactive].
    clear. rewrite !map_map. repeat split; induction ds; cbn [map fold_right length]; lia.
Qed.

Definition room (s : tree T L I S E) : Prop := c_stop cfg = false /\ forall n m, (c_max_bytes cfg <? active_bytes s n m)%num = false.
Lemma max_active_all (s : tree T L I S E) n k : forall m, (forall n m, (c_max_bytes cfg <? active_bytes s n m)%num = false) -> max_active cfg s n m k = (m + k)%nat.
Proof. induction k as [|k IH]; intros m R; cbn; [lia|]. rewrite R, IH by auto. lia. Qed.
Lemma enforce_room s r s' : good s -> t_root s = Some r -> room s -> enforce O cfg s = Ok s' ->
  t_growth s' = t_growth s /\ exists r', t_root s' = Some r' /\ forall p n, node_at r p = Some n -> is_split n = false -> node_at r' p = Some (on n).
Proof.
  intros G Er [R1 R2] H. pose proof G as [C W]. rewrite Er in W. unfold enforce in H. rewrite Er, R1, andb_false_r in H. cbv zeta in H. fold (ranked r) in H.
  rewrite max_active_all in H by auto. rewrite Nat.add_0_l, Nat.sub_diag in H. cbn [firstn skipn deactivate_all bind] in H.
  destruct (activate_all_ok _ _ _ _ G Er (ranked_places r W) H) as (G2 & R & r2 & Er2 & S2 & Q2). split; [apply R|].
  exists r2. split; auto. intros p n A B. rewrite (Q2 p n A B). replace (memb p (ranked r)) with true; auto. symmetry. apply memb_In, in_map_iff. exists (p, n). split; auto. now apply ranked_leaf.
Qed.

(** ** One sample *)
Variable sok : X -> Y -> T -> Prop.
Hypothesis Lnew : linv (o_new O).
Hypothesis Llearn : forall l x y w l', linv l -> sok x y w -> o_learn O l x y w = Ok l' -> linv l'.
Hypothesis Llearn_inactive : forall i x y w i', iinv i -> sok x y w -> o_learn_inactive O i x y w = Ok i' -> iinv i'.
Hypothesis Ldecide : forall l d, linv l -> o_decide O l = Ok d -> match d with Keep l' | NullWins l' => linv l' | _ => True end.
Hypothesis Hkeep : forall l d, o_decide O l = Ok d -> match d with Keep l' | NullWins l' | SplitOn l' _ _ => o_stats O l' = o_stats O l end.
Hypothesis Hadd : forall te n x b te' b', tinv te n -> o_multiway O te = true -> o_branch O te x = Ok b -> (b < 0)%Z -> o_add O te x = Ok (te', b') ->
  b' = Z.of_nat n /\ tinv te' (n + 1) /\ forall x2 b2, o_branch O te x2 = Ok b2 -> (0 <= b2)%Z -> o_branch O te' x2 = Ok b2.

Definition learned (n : node) (x : X) (y : Y) (w : T) (n' : node) : Prop :=
  match n with
  | Active l => exists l', o_learn O l x y w = Ok l' /\ stats_of O n' = o_stats O l'
  | Inactive i => exists i', o_learn_inactive O i x y w = Ok i' /\ n' = Inactive i'
  | Split te st ch =>
      if o_multiway O te then exists te' b l', o_add O te x = Ok (te', b) /\ o_learn O (o_new O) x y w = Ok l' /\ n' = Split te' st (dset ch b (Active l'))
      else n' = n
  end.
(** What is left after the leaves were (de)activated *)
Definition settled (s : tree T L I S E) (r r' : node) : Prop :=
  same_stats O r r' /\ (room s -> r' = r \/ forall q m, node_at r q = Some m -> is_split m = false -> node_at r' q = Some (on m)).
Lemma settled_refl s r : settled s r r. Proof. split; [apply same_stats_refl|auto]. Qed.

Lemma dset_fresh (ch : list (Z * node)) b c : ~ In b (dkeys ch) -> dset ch b c = ch ++ [(b, c)].
Proof. induction ch as [|[k c0] ch IH]; intros H; [reflexivity|]. cbn [dset dkeys map fst In] in *. destruct (Z.eqb_spec k b); [tauto|]. cbn [app]. f_equal. apply IH. tauto. Qed.

Lemma update_const p : forall (t : node) n, node_at t p = Some n -> forall n', exists t', update_at t p (fun _ => Ok n') = Ok t'.
Proof. intros t n H n'. eapply update_at_Ok; eauto. Qed.
Lemma update_twice p : forall (t : node) a b t1 t2, update_at t p (fun _ => Ok a) = Ok t1 -> update_at t1 p (fun _ => Ok b) = Ok t2 -> update_at t p (fun _ => Ok b) = Ok t2.
Proof.
  induction p as [|k p IH]; intros t a b t1 t2 H1 H2; cbn [update_at] in *; auto. destruct t as [| |te st ch]; try discriminate.
  destruct (dget ch k) as [c|] eqn:Ec; [|discriminate]. apply bind_Ok in H1 as (c1 & A1 & H1). injection H1 as <-.
  rewrite dget_dset, Z.eqb_refl in H2. apply bind_Ok in H2 as (c2 & A2 & H2). injection H2 as <-. rewrite (IH _ _ _ _ _ A1 A2). cbn [bind]. do 2 f_equal.
  clear. induction ch as [|[k0 c0] ch IH]; cbn [dset]; [now rewrite Z.eqb_refl|]. destruct (k0 =? k)%Z eqn:Ek; cbn [dset]; [now rewrite Z.eqb_refl|]. rewrite Ek. now f_equal.
Qed.

Lemma apply_decision_ok s r p l d s' : good s -> t_root s = Some r -> node_at r p = Some (Active l) -> o_decide O l = Ok d -> apply_decision O cfg s p d = Ok s' ->
  good s' /\ (t_decision s' = t_decision s + match d with SplitOn _ _ _ => 1 | _ => 0 end)%Z /\ (t_growth s' = t_growth s \/ t_growth s' = false) /\ t_weight s' = t_weight s /\
  exists n' r1 r', update_at r p (fun _ => Ok n') = Ok r1 /\ t_root s' = Some r' /\ settled s r1 r' /\ stats_of O n' = o_stats O l
    /\ match d with Keep l' => n' = Active l' /\ r' = r1 | NullWins l' => n' = Inactive (o_stop O l')
       | SplitOn l' te ds => exists ch, n' = Split te (o_stats O l') ch /\ map snd ch = map (fun d => Active (o_child O l' d)) ds end.
Proof.
  intros G Er Hn Ed H. pose proof (Hkeep _ _ Ed) as HK. pose proof (wf_at_active _ _ _ _ G Er Hn) as LL. pose proof (Ldecide _ _ LL Ed) as LD. destruct d as [l'|l'|l' te ds]; cbn [apply_decision] in H.
  - unfold root_of in H. rewrite Er in H. cbn [bind] in H. apply bind_Ok in H as (r' & H1 & H). injection H as <-.
    split; [apply (good_update s r p _ r' (Active l) (Active l') 0 0 0 G Er Hn eq_refl (wf_active _ LD) H1); reflexivity|]. cbn. split; [lia|]. split; auto. split; auto.
    exists (Active l'), r', r'. split; auto. split; auto. split; [apply settled_refl|]. auto.
  - apply bind_Ok in H as (s1 & H1 & H).
    assert (D : deactivate O s p l' = Ok s1) by exact H1. unfold deactivate, root_of in D. rewrite Er in D. cbn [bind] in D. apply bind_Ok in D as (r1 & D1 & D). injection D as <-.
    apply (replace_at_update p r _ _ _ Hn) in D1.
    assert (G1 : good (with_root s r1 0 (-1) 1)) by (apply (good_update s r p _ r1 (Active l) (Inactive (o_stop O l')) 0 (-1) 1 G Er Hn eq_refl (wf_inactive _ (Lstop _ LD)) D1); reflexivity).
    destruct (enforce_ok _ r1 _ G1 eq_refl H) as (G2 & [R R'] & r2 & Er2 & S2 & _). unfold same_rest in R. cbn in R, R'. split; auto. split; [lia|]. split; auto. split; [tauto|].
    exists (Inactive (o_stop O l')), r1, r2. split; auto. split; auto. split; [|cbn; rewrite Hstop; auto]. split; auto. intros RM.
    right. destruct (enforce_room _ r1 _ G1 eq_refl RM H) as (_ & r3 & Er3 & Q). rewrite Er2 in Er3. injection Er3 as <-. exact Q.
  - apply bind_Ok in H as (n' & HA & H). destruct (new_split_ok _ _ _ _ _ (proj1 (Hsplit _ _ _ _ LL Ed)) (proj2 (Hsplit _ _ _ _ LL Ed)) HA) as (Wn & (ch & -> & Ech) & C1 & C2 & C3).
    unfold root_of in H. rewrite Er in H. cbn [bind] in H. apply bind_Ok in H as (r1 & D1 & H). apply (replace_at_update p r _ _ _ Hn) in D1.
    assert (G1 : good (with_root s r1 1 (Z.of_nat (length ds) - 1) 0)).
    { apply (good_update s r p _ r1 (Active l) _ 1 (Z.of_nat (length ds) - 1) 0 G Er Hn eq_refl Wn D1); cbn [is_split] in *; rewrite ?C1, ?C2, ?C3.
      - reflexivity.
      - rewrite (proj1 (proj2 (counts_leaf l))). lia.
      - reflexivity. }
    destruct (enforce_ok _ r1 _ G1 eq_refl H) as (G2 & [R R'] & r2 & Er2 & S2 & _). unfold same_rest in R. cbn in R, R'. split; auto. split; [tauto|]. split; auto. split; [tauto|].
    exists (Split te (o_stats O l') ch), r1, r2. split; auto. split; auto. split; [|cbn; eauto]. split; auto. intros RM.
    right. destruct (enforce_room _ r1 _ G1 eq_refl RM H) as (_ & r3 & Er3 & Q). rewrite Er2 in Er3. injection Er3 as <-. exact Q.
Qed.

Lemma learn_found_ok s r p n x y w s' : sok x y w -> good s -> t_root s = Some r -> node_at r p = Some n ->
  match n with Split te _ _ => exists b, o_branch O te x = Ok b /\ (b < 0)%Z | _ => True end -> learn_found O cfg s p n x y w = Ok s' ->
  good s' /\ (t_decision s' = t_decision s \/ t_decision s' = t_decision s + 1 /\ t_growth s = true)%Z /\ (t_growth s' = t_growth s \/ t_growth s' = false) /\ t_weight s' = t_weight s /\
  exists n' r1 r', update_at r p (fun _ => Ok n') = Ok r1 /\ t_root s' = Some r' /\ settled s r1 r' /\ learned n x y w n'.
Proof.
  intros OK G Er Hn Hb H. destruct n as [l|i|te st ch]; cbn [learn_found] in H.
  - apply bind_Ok in H as (l' & EL & H). pose proof (Llearn _ _ _ _ _ (wf_at_active _ _ _ _ G Er Hn) OK EL) as LL'. unfold root_of in H. rewrite Er in H. cbn [bind] in H. apply bind_Ok in H as (r1 & U1 & H). cbv zeta in H.
    assert (G1 : good (with_root s r1 0 0 0)) by (apply (good_update s r p _ r1 (Active l) (Active l') 0 0 0 G Er Hn eq_refl (wf_active _ LL') U1); reflexivity).
    destruct (t_growth s && o_due O l') eqn:Eg.
    + apply andb_true_iff in Eg as [Eg _]. apply bind_Ok in H as (d & Ed & H).
      destruct (update_at_inv _ _ _ _ U1) as (n1 & n1' & _ & B & Hn1 & _). injection B as <-.
      destruct (apply_decision_ok _ r1 p l' d s' G1 eq_refl Hn1 Ed H) as (G2 & D2 & Gr & Wt & n' & r2 & r3 & U2 & Er3 & St & Sn & _). cbn in D2, Gr, Wt.
      split; auto. split; [destruct d; [left; lia|left; lia|right; split; [lia|auto]]|]. split; auto. split; auto.
      exists n', r2, r3. split; [eapply update_twice; eauto|]. split; auto. split; [exact St|]. cbn. eauto.
    + injection H as <-. split; auto. cbn. split; [left; lia|]. split; auto. split; auto. exists (Active l'), r1, r1. split; auto. split; auto. split; [apply settled_refl|]. cbn. eauto.
  - apply bind_Ok in H as (i' & EL & H). unfold root_of in H. rewrite Er in H. cbn [bind] in H. apply bind_Ok in H as (r1 & U1 & H). injection H as <-.
    split; [apply (good_update s r p _ r1 (Inactive i) (Inactive i') 0 0 0 G Er Hn eq_refl (wf_inactive _ (Llearn_inactive _ _ _ _ _ (wf_at_inactive _ _ _ _ G Er Hn) OK EL)) U1); reflexivity|]. cbn. split; [left; lia|]. split; auto. split; auto.
    exists (Inactive i'), r1, r1. split; auto. split; auto. split; [apply settled_refl|]. cbn. eauto.
  - unfold learned. destruct (o_multiway O te) eqn:Em.
    + apply bind_Ok in H as ([te' b'] & EA & H). apply bind_Ok in H as (l' & EL & H). unfold root_of in H. rewrite Er in H. cbn [bind] in H. apply bind_Ok in H as (r1 & U1 & H). injection H as <-.
      destruct Hb as (b & Eb & Lb). pose proof (proj2 G) as W. rewrite Er in W. pose proof (wf_node_at _ _ _ W Hn) as Wn. inversion Wn as [| |? ? ? K TI F]; subst.
      destruct (Hadd _ _ _ _ _ _ TI Em Eb Lb EA) as (-> & TI' & _).
      assert (SC : set_child O (Split te' st ch) (Z.of_nat (length ch)) (Active l') = Ok (Split te' st (dset ch (Z.of_nat (length ch)) (Active l')))).
      { unfold set_child in *. destruct (_ && _) eqn:Eq; [|reflexivity]. exfalso. clear - U1 Hn Eq.
        destruct (update_at_inv _ _ _ _ U1) as (n1 & n1' & _ & B & _). discriminate. }
      rewrite SC in U1. rewrite dset_fresh in * by (rewrite keys_contiguous by auto; lia).
      assert (LA : length (ch ++ [(Z.of_nat (length ch), @Active L I S E l')]) = (length ch + 1)%nat) by (rewrite app_length; cbn; lia).
      split.
      { apply (good_update s r p (fun _ => Ok (Split te' st (ch ++ [(Z.of_nat (length ch), Active l')]))) r1 (Split te st ch) (Split te' st (ch ++ [(Z.of_nat (length ch), Active l')])) 0 1 0 G Er Hn eq_refl); auto.
        - constructor; rewrite ?LA; auto; [|apply Forall_app; split; auto; constructor; [constructor; exact (Llearn _ _ _ _ _ Lnew OK EL)|constructor]].
          unfold dkeys in *. rewrite map_app, K, Nat.add_1_r, seq_S, map_app. reflexivity.
        - rewrite !count_split, count_all_app. change (count_all is_split [(Z.of_nat (length ch), Active l')]) with 0%Z. cbn [is_split]. lia.
        - rewrite !count_split, count_all_app. change (count_all is_active [(Z.of_nat (length ch), Active l')]) with 1%Z. cbn [is_active]. lia.
        - rewrite !count_split, count_all_app. change (count_all is_inactive [(Z.of_nat (length ch), Active l')]) with 0%Z. cbn [is_inactive]. lia. }
      cbn. split; [left; lia|]. split; auto. split; auto. eexists _, r1, r1. split; [exact U1|]. split; auto. split; [apply settled_refl|].
      exists te', (Z.of_nat (length ch)), l'. split; auto. split; auto. f_equal. symmetry. apply dset_fresh. rewrite keys_contiguous by auto; lia.
    + injection H as <-. split; auto. split; [left; lia|]. split; auto. split; auto. exists (Split te st ch), r, r. split; [|split; auto; split; [apply settled_refl|auto]].
      clear - Hn. revert r Hn. induction p as [|k p IH]; intros r Hn; cbn [node_at update_at] in *; [congruence|]. destruct r as [| |te0 st0 ch0]; try discriminate.
      destruct (dget ch0 k) as [c|] eqn:Ec; [|discriminate]. rewrite (IH c Hn). cbn [bind]. do 2 f_equal. clear - Ec.
      induction ch0 as [|[k0 c0] ch0 IH]; [discriminate|]. cbn [dget dset] in *. destruct (Z.eqb_spec k0 k) as [->|]; [congruence|]. now rewrite (IH Ec).
Qed.

(** The tree a sample is learned by: an empty tree gets a leaf first. *)
Definition root_or_new (s : tree T L I S E) : node := match t_root s with Some r => r | None => Active (o_new O) end.
Definition planted (s : tree T L I S E) : tree T L I S E :=
  match t_root s with Some r => s
  | None => mk_tree (Some (Active (o_new O))) (t_decision s) 1 (t_inactive s) (t_inactive_size s) (t_active_size s) (t_overhead s) (t_growth s) (t_weight s) end.
Lemma planted_good s : good s -> good (planted s) /\ t_root (planted s) = Some (root_or_new s).
Proof.
  intros [C W]. unfold planted, root_or_new, good, counters_right in *. destruct (t_root s) as [r|] eqn:Er; [rewrite Er; auto|]. cbn. destruct C as (A & B & C).
  repeat split; auto. now constructor.
Qed.
Lemma planted_room s : room s <-> room (planted s).
Proof. unfold planted. destruct (t_root s); tauto. Qed.
Lemma fit_one_ok s x y w s' : sok x y w -> good s -> fit_one O cfg sz s x y w = Ok s' ->
  good s' /\ (t_decision s' = t_decision s \/ t_decision s' = t_decision s + 1 /\ t_growth s = true)%Z /\ (t_growth s' = t_growth s \/ t_growth s' = false) /\ t_weight s' = t_weight s /\
  exists p n n' r1 r', route O (root_or_new s) x = Ok (p, Some n) /\ update_at (root_or_new s) p (fun _ => Ok n') = Ok r1 /\ t_root s' = Some r' /\ same_stats O r1 r'
    /\ (c_period_due cfg (t_weight s) = false -> settled s r1 r') /\ learned n x y w n'.
Proof.
  intros OK G H. unfold fit_one in H.
  assert (E0 : (let '(s0, r) := match t_root s with Some r => (s, r) | None => let r := Active (o_new O) in (mk_tree (Some r) (t_decision s) 1 (t_inactive s) (t_inactive_size s) (t_active_size s) (t_overhead s) (t_growth s) (t_weight s), r) end in (s0, r)) = (planted s, root_or_new s)).
  { unfold planted, root_or_new. destruct (t_root s); reflexivity. }
  destruct (match t_root s with Some r => (s, r) | None => _ end) as [s0 r] eqn:Ep. injection E0 as -> ->. clear Ep.
  destruct (planted_good s G) as [Gp Erp].
  assert (Fd : t_decision (planted s) = t_decision s /\ t_growth (planted s) = t_growth s /\ t_weight (planted s) = t_weight s) by (unfold planted; destruct (t_root s); auto).
  destruct Fd as (Fd & Fg & Fw). rewrite <- Fd, <- Fg, <- Fw in *.
  apply bind_Ok in H as ([p n] & R & H). pose proof (proj2 Gp) as W. rewrite Erp in W. destruct (wf_route_some _ _ _ _ W R) as (n0 & ->).
  destruct (route_found _ _ _ _ R) as [Hn Hb]. apply bind_Ok in H as (s1 & H1 & H).
  destruct (learn_found_ok _ _ _ _ _ _ _ _ OK Gp Erp Hn Hb H1) as (G1 & D1 & Gr1 & W1 & n' & r1 & r2 & U & Er2 & St & Le).
  rewrite W1 in H. destruct (c_period_due cfg (t_weight (planted s))) eqn:Ed.
  - destruct (estimate_ok _ _ _ G1 Er2 H) as (G2 & D2 & W2 & Gr2 & r3 & Er3 & S3). split; auto. rewrite D2. split; auto. split; [destruct Gr2 as [->| ->]; auto|]. split; [congruence|].
    exists p, n0, n', r1, r3. split; auto. split; auto. split; auto. split; [|split; [discriminate|exact Le]]. eapply same_stats_trans; [apply St|exact S3].
  - injection H as <-. split; auto. split; auto. split; auto. split; auto. exists p, n0, n', r1, r2. split; auto. split; auto. split; auto. split; [apply St|]. split; [|exact Le].
    intros _. destruct St as [A B]. split; auto. intros RM. apply B. now apply planted_room in RM.
Qed.

(** Samples that go elsewhere keep their place and its statistics. *)
Lemma fit_one_frame s x y w s' p n x2 q m : sok x y w -> good s -> fit_one O cfg sz s x y w = Ok s' -> route O (root_or_new s) x = Ok (p, n) ->
  route O (root_or_new s) x2 = Ok (q, Some m) -> q <> p ->
  exists m' r', t_root s' = Some r' /\ route O r' x2 = Ok (q, Some m') /\ stats_of O m' = stats_of O m
    /\ (c_period_due cfg (t_weight s) = false -> room s -> is_active m = true -> m' = m).
Proof.
  intros OK G H R R2 Ne. destruct (fit_one_ok _ _ _ _ _ OK G H) as (G' & _ & _ & _ & p0 & n0 & n' & r1 & r' & R0 & U & Er' & SS & St & Le).
  rewrite R in R0. injection R0 as -> ->. rename p0 into p. destruct (route_found _ _ _ _ R) as [Hn Hb].
  assert (Q : exists m1, route O r1 x2 = Ok (q, Some m1) /\ stats_of O m1 = stats_of O m /\ (is_split m = false -> m1 = m)).
  { destruct (route_update x2 p _ _ _ _ n' q m U Hn eq_refl R2) as [(q' & -> & Rn & Rt)|(_ & m' & A & B & C & _)]; [|eauto].
    destruct q' as [|b q']; [rewrite app_nil_r in Ne; contradiction|].
    destruct n0 as [l|i|te st ch]; try (cbn in Rn; discriminate). cbn [learned] in Le. destruct (o_multiway O te) eqn:Em.
    - destruct Le as (te' & b' & l' & EA & EL & ->). destruct (planted_good s G) as [[_ W] Erp]. rewrite Erp in W. pose proof (wf_node_at _ _ _ W Hn) as Wn.
      inversion Wn as [| |? ? ? K TI F]; subst. destruct Hb as (b0 & Eb & Lb). destruct (Hadd _ _ _ _ _ _ TI Em Eb Lb EA) as (-> & TI' & HX).
      rewrite route_split in Rn. apply bind_Ok in Rn as (b2 & Eb2 & Rn). destruct (Z.leb_spec 0 b2) as [L2|L2]; [|discriminate].
      pose proof (Hbranch _ _ _ _ TI Eb2) as Hlt. destruct (dget ch b2) as [c|] eqn:Ec; [|discriminate]. apply bind_Ok in Rn as ([q1 m1] & R1 & Rn). injection Rn as -> -> ->.
      exists m. split; [|auto]. apply Rt. rewrite route_split, (HX _ _ Eb2 L2). cbn [bind]. rewrite (proj2 (Z.leb_le 0 b) L2), dget_dset.
      replace (Z.of_nat (length ch) =? b)%Z with false by (symmetry; apply Z.eqb_neq; lia). rewrite Ec, R1. reflexivity.
    - subst n'. exists m. split; [|auto]. apply Rt. exact Rn. }
  destruct Q as (m1 & R1 & S1 & E1). destruct (same_stats_route x2 r1 r' q (Some m1) SS R1) as (m' & R' & SM).
  exists m', r'. split; auto. split; auto. split; [rewrite <- S1; symmetry; now apply same_stats_eq|].
  intros Nd Rm Am. destruct (St Nd) as [_ St']. assert (Lm : is_split m = false) by (destruct m; auto; discriminate). specialize (E1 Lm). subst m1.
  destruct (St' Rm) as [->|Q']; [congruence|]. destruct (route_found _ _ _ _ R1) as [Hq _]. destruct (route_found _ _ _ _ R') as [Hq' _].
  rewrite (Q' q m Hq Lm) in Hq'. injection Hq' as <-. destruct m; auto; discriminate.
Qed.

(** ** What the memory limit leaves active *)
Lemma count_learning f (t : node) : (forall te st ch, f (Split te st ch) = false) -> wf t -> count f t = Z.of_nat (length (filter (fun pn => f (snd pn)) (learning_nodes t))).
Proof.
  intros Hf. induction t as [l|i|te st ch IH] using node_rect'; intros W; [rewrite count_leaf by auto; cbn; now destruct (f _)|rewrite count_leaf by auto; cbn; now destruct (f _)|].
  rewrite count_split, Hf, learning_split by auto. inversion W as [| |? ? ? K TI F]; subst. clear W K TI. cbn [Z.add].
  induction ch as [|[k c] ch IHc]; [reflexivity|]. inversion IH; subst. inversion F; subst. cbn [flat_map fst snd] in *. rewrite filter_app, app_length.
  unfold count_all in *. cbn [map fold_right snd]. rewrite (IHc H2 H4), (H1 H3), Nat2Z.inj_add. f_equal. f_equal. clear. induction (learning_nodes c) as [|[p n] l IHl]; [reflexivity|]. cbn [map filter snd]. destruct (f n); cbn [length]; auto.
Qed.
Definition actives (l : list (list Z * node)) : Z := Z.of_nat (length (filter (fun pn => is_active (snd pn)) l)).
Definition inactives (l : list (list Z * node)) : Z := Z.of_nat (length (filter (fun pn => is_inactive (snd pn)) l)).
Lemma deactivate_all_count l : forall s s', deactivate_all O s l = Ok s' -> (t_active s' = t_active s - actives l)%Z.
Proof.
  unfold actives. induction l as [|[p [a|i|te st ch]] l IH]; intros s s' H; cbn [deactivate_all filter snd is_active length] in *; [injection H as <-; lia| |auto|auto].
  apply bind_Ok in H as (s1 & H1 & H). rewrite (IH _ _ H). unfold deactivate in H1. apply bind_Ok in H1 as (r & _ & H1). apply bind_Ok in H1 as (r' & _ & H1). injection H1 as <-. cbn [with_root t_active]. lia.
Qed.
Lemma activate_all_count l : forall s s', activate_all O s l = Ok s' -> (t_active s' = t_active s + inactives l)%Z.
Proof.
  unfold inactives. induction l as [|[p [a|i|te st ch]] l IH]; intros s s' H; cbn [activate_all filter snd is_inactive length] in *; [injection H as <-; lia|auto| |auto].
  apply bind_Ok in H as (s1 & H1 & H). rewrite (IH _ _ H). unfold activate in H1. apply bind_Ok in H1 as (r & _ & H1). apply bind_Ok in H1 as (r' & _ & H1). injection H1 as <-. cbn [with_root t_active]. lia.
Qed.
Lemma max_active_spec (s : tree T L I S E) n k : forall m, let b := max_active cfg s n m k in
  (m <= b <= m + k)%nat /\ (forall j, (m < j <= b)%nat -> (c_max_bytes cfg <? active_bytes s n j)%num = false) /\ ((b < m + k)%nat -> (c_max_bytes cfg <? active_bytes s n (Datatypes.S b))%num = true).
Proof.
  induction k as [|k IH]; intros m; cbn [max_active]; [repeat split; try lia|].
  destruct (c_max_bytes cfg <? active_bytes s n (Datatypes.S m))%num eqn:Eb; [repeat split; try lia; auto|]. destruct (IH (Datatypes.S m)) as (A & B & C). repeat split; try lia.
  - intros j Hj. destruct (Nat.eq_dec j (Datatypes.S m)) as [->|]; auto. apply B. lia.
  - intros H. apply C. lia.
Qed.
Lemma enforce_count s r s' : good s -> t_root s = Some r -> c_stop cfg = false -> enforce O cfg s = Ok s' -> t_active s' = Z.of_nat (budget s r).
Proof.
  intros G Er Hs H. pose proof G as [C W]. rewrite Er in W. unfold counters_right in C. rewrite Er in C. destruct C as (_ & C2 & _).
  unfold enforce in H. rewrite Er, Hs, andb_false_r in H. cbv zeta in H. fold (ranked r) in H.
  assert (EL : length (ranked r) = length (learning_nodes r)) by (symmetry; apply Permutation_length, sort_stable_perm).
  rewrite EL in H. fold (budget s r) in H. set (cut := (length (learning_nodes r) - budget s r)%nat) in *. apply bind_Ok in H as (s1 & H1 & H2).
  rewrite (activate_all_count _ _ _ H2), (deactivate_all_count _ _ _ H1), C2, (count_learning is_active) by auto.
  assert (A : actives (learning_nodes r) = actives (ranked r)).
  { unfold actives. f_equal. apply Permutation_length. assert (P := sort_stable_perm (fun a b : list Z * node => o_before O (length (fst a), snd a) (length (fst b), snd b)) (learning_nodes r)).
    fold (ranked r) in P. clear - P. induction P; cbn; auto. { destruct (is_active (snd x)); auto. } { destruct (is_active (snd x)), (is_active (snd y)); auto. apply perm_swap. } { etransitivity; eauto. } }
  fold (actives (learning_nodes r)). rewrite A. rewrite <- (firstn_skipn cut (ranked r)) at 1. unfold actives at 1. rewrite filter_app, app_length, Nat2Z.inj_add. fold (actives (firstn cut (ranked r))) (actives (skipn cut (ranked r))).
  assert (B : (actives (skipn cut (ranked r)) + inactives (skipn cut (ranked r)))%Z = Z.of_nat (length (skipn cut (ranked r)))).
  { assert (Q : forall pn, In pn (skipn cut (ranked r)) -> is_split (snd pn) = false).
    { intros [p n] Hin. apply (proj2 (ranked_places r W) p n). rewrite <- (firstn_skipn cut (ranked r)). apply in_app_iff. auto. }
    clear - Q. unfold actives, inactives. induction (skipn cut (ranked r)) as [|[p n] l IH]; [reflexivity|]. specialize (IH (fun pn Hpn => Q pn (or_intror Hpn))).
    specialize (Q (p, n) (or_introl eq_refl)). cbn [snd] in Q. cbn [filter snd length]. destruct n; [| |discriminate]; cbn [is_active is_inactive length]; lia. }
  rewrite skipn_length, EL in B. destruct (max_active_spec s (length (learning_nodes r)) (length (learning_nodes r)) 0) as (D & _). fold (budget s r) in D. lia.
Qed.
Lemma sort_stable_sorted {A} (le : A -> A -> bool) : (forall a b, le a b = false -> le b a = true) -> (forall a b c, le a b = true -> le b c = true -> le a c = true) ->
  forall l, StronglySorted (fun a b => le a b = true) (sort_stable le l).
Proof.
  intros Tot Tr. induction l as [|x l IH]; cbn [sort_stable fold_right]; [constructor|]. fold (sort_stable le l). induction IH as [|y l' S' IH' F]; cbn [insert_stable]; [repeat constructor|].
  destruct (le x y) eqn:Eb.
  - constructor; [constructor; auto|]. constructor; auto. eapply Forall_impl; [|exact F]. eauto.
  - constructor; auto. apply Tot in Eb. clear - Eb F. assert (P := insert_stable_perm le x l'). eapply Permutation_Forall; [exact P|]. constructor; auto.
Qed.
Lemma sorted_split {A} (R : A -> A -> Prop) l k : StronglySorted R l -> forall a b, In a (firstn k l) -> In b (skipn k l) -> R a b.
Proof.
  intros Hl. revert k. induction Hl as [|x l Hl IH F]; intros k a b Ha Hb; [destruct k; contradiction|]. destruct k as [|k]; [contradiction|]. cbn [firstn skipn In] in *.
  destruct Ha as [<-|Ha]; [|eauto]. rewrite Forall_forall in F. apply F. rewrite <- (firstn_skipn k l). apply in_app_iff. auto.
Qed.
(** The leaves left inactive come before the leaves left active. *)
Lemma enforce_top s r s' r' : (forall a b, o_before O a b = false -> o_before O b a = true) -> (forall a b c, o_before O a b = true -> o_before O b c = true -> o_before O a c = true) ->
  good s -> t_root s = Some r -> c_stop cfg = false -> enforce O cfg s = Ok s' -> t_root s' = Some r' ->
  forall p n q m, node_at r' p = Some n -> is_inactive n = true -> node_at r' q = Some m -> is_active m = true ->
  exists n0 m0, stats_of O n0 = stats_of O n /\ stats_of O m0 = stats_of O m /\ o_before O (length p, n0) (length q, m0) = true /\ is_split n0 = false /\ is_split m0 = false.
Proof.
  intros Tot Tr G Er Hs H Er' p n q m Hp In1 Hq Am. destruct (enforce_ok _ _ _ G Er H) as (G' & _ & r2 & Er2 & SS & [[C _]|[_ Q]]); [congruence|].
  rewrite Er' in Er2. injection Er2 as <-. pose proof (proj2 G) as W. rewrite Er in W.
  assert (B : forall p n, node_at r' p = Some n -> is_split n = false -> exists n0, node_at r p = Some n0 /\ is_split n0 = false /\ stats_of O n0 = stats_of O n).
  { clear - SS. revert r' SS. induction r as [l|i|te st ch IH] using node_rect'; intros r' SS p n Hp Ln.
    - inversion SS; subst. destruct r'; try discriminate; (destruct p; [|discriminate]); injection Hp as <-; eexists; (split; [reflexivity|]); auto.
    - inversion SS; subst. destruct r'; try discriminate; (destruct p; [|discriminate]); injection Hp as <-; eexists; (split; [reflexivity|]); auto.
    - inversion SS as [|? ? ? ch' F]; subst; [discriminate|]. destruct p as [|b p]; [injection Hp as <-; discriminate|]. cbn [node_at] in *. clear SS.
      induction F as [|[k1 a] [k2 a'] l l' [E1 E2] F IHF]; [discriminate|]. cbn [fst snd] in *. subst k2. inversion IH; subst. cbn [dget] in *. destruct (k1 =? b)%Z; [eapply H1; eauto|auto]. }
  assert (Ln : is_split n = false) by (destruct n; auto; discriminate). assert (Lm : is_split m = false) by (destruct m; auto; discriminate).
  destruct (B p n Hp Ln) as (n0 & P0 & L0 & S0). destruct (B q m Hq Lm) as (m0 & Q0 & M0 & T0). exists n0, m0. split; auto. split; auto. split; auto.
  rewrite (Q _ _ P0 L0) in Hp. rewrite (Q _ _ Q0 M0) in Hq. set (cut := (length (ranked r) - budget s r)%nat) in *.
  destruct (memb p (firstn cut (ranked r))) eqn:Mp; [|injection Hp as <-; destruct n0; discriminate].
  destruct (memb q (firstn cut (ranked r))) eqn:Mq; [injection Hq as <-; destruct m0; discriminate|].
  pose proof (ranked_leaf r p n0 W P0 L0) as I1. pose proof (ranked_leaf r q m0 W Q0 M0) as I2.
  assert (In (p, n0) (firstn cut (ranked r))).
  { apply memb_In, in_map_iff in Mp as ([p' n'] & E0 & Hin). cbn in E0. subst p'.
    assert (Hr : In (p, n') (ranked r)) by (rewrite <- (firstn_skipn cut (ranked r)); apply in_app_iff; auto). apply (proj2 (ranked_places r W)) in Hr as [Hr _]. congruence. }
  assert (In (q, m0) (skipn cut (ranked r))).
  { rewrite <- (firstn_skipn cut (ranked r)) in I2. apply in_app_iff in I2 as [I2|I2]; auto. exfalso. assert (memb q (firstn cut (ranked r)) = true) by (apply memb_In, in_map_iff; exists (q, m0); auto). congruence. }
  assert (SO := sort_stable_sorted (fun a b : list Z * node => o_before O (length (fst a), snd a) (length (fst b), snd b)) (fun a b => Tot _ _) (fun a b c => Tr _ _ _) (learning_nodes r)).
  fold (ranked r) in SO. exact (sorted_split _ _ cut SO _ _ H0 H1).
Qed.
(** A split is followed by the limit. *)
Lemma split_enforced s x y w s' : sok x y w -> good s -> fit_one O cfg sz s x y w = Ok s' -> c_period_due cfg (t_weight s) = false -> t_decision s' = (t_decision s + 1)%Z ->
  exists s1 r1, good s1 /\ t_root s1 = Some r1 /\ t_active_size s1 = t_active_size s /\ t_inactive_size s1 = t_inactive_size s /\ t_overhead s1 = t_overhead s /\ enforce O cfg s1 = Ok s'.
Proof.
  intros OK G H Nd D. unfold fit_one in H.
  assert (E0 : (let '(s0, r) := match t_root s with Some r => (s, r) | None => let r := Active (o_new O) in (mk_tree (Some r) (t_decision s) 1 (t_inactive s) (t_inactive_size s) (t_active_size s) (t_overhead s) (t_growth s) (t_weight s), r) end in (s0, r)) = (planted s, root_or_new s)).
  { unfold planted, root_or_new. destruct (t_root s); reflexivity. }
  destruct (match t_root s with Some r => (s, r) | None => _ end) as [s0 r] eqn:Ep. injection E0 as -> ->. clear Ep.
  destruct (planted_good s G) as [Gp Erp].
  assert (Fd : t_decision (planted s) = t_decision s /\ t_active_size (planted s) = t_active_size s /\ t_inactive_size (planted s) = t_inactive_size s /\ t_overhead (planted s) = t_overhead s /\ t_weight (planted s) = t_weight s) by (unfold planted; destruct (t_root s); auto).
  destruct Fd as (Fd & F1 & F2 & F3 & Fw). rewrite <- Fd, <- F1, <- F2, <- F3, <- Fw in *.
  apply bind_Ok in H as ([p n] & R & H). pose proof (proj2 Gp) as W. rewrite Erp in W. destruct (wf_route_some _ _ _ _ W R) as (n0 & ->).
  destruct (route_found _ _ _ _ R) as [Hn Hb]. apply bind_Ok in H as (s1 & H1 & H).
  destruct (learn_found_ok _ _ _ _ _ _ _ _ OK Gp Erp Hn Hb H1) as (_ & _ & _ & W1 & _). rewrite W1, Nd in H. injection H as <-.
  destruct n0 as [l|i|te st ch]; cbn [learn_found] in H1.
  - apply bind_Ok in H1 as (l' & EL & H). pose proof (Llearn _ _ _ _ _ (wf_at_active _ _ _ _ Gp Erp Hn) OK EL) as LL'. unfold root_of in H. rewrite Erp in H. cbn [bind] in H. apply bind_Ok in H as (r1 & U1 & H). cbv zeta in H.
    assert (G1 : good (with_root (planted s) r1 0 0 0)) by (apply (good_update _ _ p _ r1 (Active l) (Active l') 0 0 0 Gp Erp Hn eq_refl (wf_active _ LL') U1); reflexivity).
    destruct (t_growth (planted s) && o_due O l'); [|injection H as <-; cbn in D; lia]. apply bind_Ok in H as (d & Ed & H).
    destruct (update_at_inv _ _ _ _ U1) as (n1 & n1' & _ & B & Hn1 & _). injection B as <-.
    destruct (apply_decision_ok _ r1 p l' d s1 G1 eq_refl Hn1 Ed H) as (_ & D2 & _). cbn [with_root t_decision] in D2.
    destruct d as [l2|l2|l2 te ds]; [lia|lia|]. cbn [apply_decision] in H.
    apply bind_Ok in H as (n' & HA & H). destruct (new_split_ok _ _ _ _ _ (proj1 (Hsplit _ _ _ _ LL' Ed)) (proj2 (Hsplit _ _ _ _ LL' Ed)) HA) as (Wn & _ & C1 & C2 & C3).
    unfold root_of in H. cbn [with_root t_root bind] in H. apply bind_Ok in H as (r2 & D1 & H). apply (replace_at_update p r1 _ _ _ Hn1) in D1.
    exists (with_root (with_root (planted s) r1 0 0 0) r2 1 (Z.of_nat (length ds) - 1) 0), r2. split; [|repeat split; try reflexivity; exact H].
    apply (good_update (with_root (planted s) r1 0 0 0) r1 p _ r2 (Active l') _ 1 (Z.of_nat (length ds) - 1) 0 G1 eq_refl Hn1 eq_refl Wn D1); rewrite ?C1, ?C2, ?C3.
    + reflexivity.
    + rewrite (proj1 (proj2 (counts_leaf l'))). lia.
    + reflexivity.
  - apply bind_Ok in H1 as (i' & EL & H). unfold root_of in H. rewrite Erp in H. cbn [bind] in H. apply bind_Ok in H as (r1 & U1 & H). injection H as <-. cbn in D. lia.
  - destruct (o_multiway O te).
    + apply bind_Ok in H1 as ([te' b'] & EA & H). apply bind_Ok in H as (l' & EL & H). unfold root_of in H. rewrite Erp in H. cbn [bind] in H. apply bind_Ok in H as (r1 & U1 & H). injection H as <-. cbn in D. lia.
    + injection H1 as <-. lia.
Qed.

Lemma Forall2_len {A B} (P : A -> B -> Prop) l m : Forall2 P l m -> length l = length m.
Proof. induction 1; cbn; congruence. Qed.
(** A place keeps its node up to switched leaves. *)
Lemma same_stats_at p : forall (t t' : node) n, same_stats O t t' -> node_at t p = Some n -> exists n', node_at t' p = Some n' /\ same_stats O n n'.
Proof.
  induction p as [|b p IH]; intros t t' n SS Hn; cbn [node_at] in *; [injection Hn as <-; eauto|].
  destruct t as [l|i|te st ch]; try discriminate. destruct (dget ch b) as [c|] eqn:Ec; [|discriminate]. inversion SS as [|? ? ? ch' F2]; subst; [discriminate|].
  assert (exists c', dget ch' b = Some c' /\ same_stats O c c') as (c' & Ec' & Sc).
  { clear - F2 Ec. induction F2 as [|[k1 a] [k2 a'] l l' [E1 E2] F2 IH]; [discriminate|]. cbn in E1, E2. subst k2. cbn [dget] in *. destruct (k1 =? b)%Z; [injection Ec as <-; eauto|auto]. }
  rewrite Ec'. eauto.
Qed.
(** A sample makes a split exactly when it arrives at an active leaf, growth is allowed, an attempt is due and it decides so. *)
Lemma split_cause s x y w s' : sok x y w -> good s -> fit_one O cfg sz s x y w = Ok s' ->
  ((t_decision s' = t_decision s + 1)%Z <-> exists p l l' l2 te ds, route O (root_or_new s) x = Ok (p, Some (Active l)) /\ o_learn O l x y w = Ok l' /\
     t_growth s = true /\ o_due O l' = true /\ o_decide O l' = Ok (SplitOn l2 te ds)) /\
  (forall p l l' l2 te ds, route O (root_or_new s) x = Ok (p, Some (Active l)) -> o_learn O l x y w = Ok l' -> t_growth s = true -> o_due O l' = true -> o_decide O l' = Ok (SplitOn l2 te ds) ->
     exists r' ch, t_root s' = Some r' /\ node_at r' p = Some (Split te (o_stats O l') ch) /\ dkeys ch = map Z.of_nat (seq 0 (length ds)) /\
       map (fun c => stats_of O (snd c)) ch = map (fun d => o_stats O (o_child O l2 d)) ds /\ Forall (fun c => is_split (snd c) = false) ch).
Proof.
  intros OK G H. unfold fit_one in H.
  assert (E0 : (let '(s0, r) := match t_root s with Some r => (s, r) | None => let r := Active (o_new O) in (mk_tree (Some r) (t_decision s) 1 (t_inactive s) (t_inactive_size s) (t_active_size s) (t_overhead s) (t_growth s) (t_weight s), r) end in (s0, r)) = (planted s, root_or_new s)).
  { unfold planted, root_or_new. destruct (t_root s); reflexivity. }
  destruct (match t_root s with Some r => (s, r) | None => _ end) as [s0 r] eqn:Ep. injection E0 as -> ->. clear Ep.
  destruct (planted_good s G) as [Gp Erp].
  assert (Fd : t_decision (planted s) = t_decision s /\ t_growth (planted s) = t_growth s /\ t_weight (planted s) = t_weight s) by (unfold planted; destruct (t_root s); auto).
  destruct Fd as (Fd & Fg & Fw). rewrite <- Fd, <- Fg in *.
  apply bind_Ok in H as ([p n] & R & H). pose proof (proj2 Gp) as W. rewrite Erp in W. destruct (wf_route_some _ _ _ _ W R) as (n0 & ->). rewrite R.
  destruct (route_found _ _ _ _ R) as [Hn Hb]. apply bind_Ok in H as (s1 & H1 & H).
  destruct (learn_found_ok _ _ _ _ _ _ _ _ OK Gp Erp Hn Hb H1) as (G1 & _ & _ & _ & _ & _ & ra & _ & Era & _ & _).
  assert (D' : t_decision s' = t_decision s1 /\ exists r', t_root s' = Some r' /\ same_stats O ra r').
  { destruct (c_period_due cfg (t_weight s1)); [destruct (estimate_ok _ _ _ G1 Era H) as (_ & A & _ & _ & B); auto|]. injection H as <-. split; auto. exists ra. split; auto. apply same_stats_refl. }
  destruct D' as (D' & r' & Er' & SSr). rewrite D'. clear H D'.
  destruct n0 as [l|i|te st ch]; cbn [learn_found] in H1.
  - apply bind_Ok in H1 as (l' & EL & H). pose proof (Llearn _ _ _ _ _ (wf_at_active _ _ _ _ Gp Erp Hn) OK EL) as LL'. unfold root_of in H. rewrite Erp in H. cbn [bind] in H. apply bind_Ok in H as (r1 & U1 & H). cbv zeta in H.
    assert (Gx : good (with_root (planted s) r1 0 0 0)) by (apply (good_update _ _ p _ r1 (Active l) (Active l') 0 0 0 Gp Erp Hn eq_refl (wf_active _ LL') U1); reflexivity).
    destruct (t_growth (planted s) && o_due O l') eqn:Eg.
    + apply andb_true_iff in Eg as [Eg Ed]. apply bind_Ok in H as (d & Edd & H).
      destruct (update_at_inv _ _ _ _ U1) as (n1 & n1' & _ & B & Hn1 & _). injection B as <-.
      destruct (apply_decision_ok _ r1 p l' d s1 Gx eq_refl Hn1 Edd H) as (_ & D2 & _ & _ & n' & r2 & r3 & U2 & Er3 & [SS _] & Sn & Dn). cbn [with_root t_decision] in D2. rewrite Era in Er3. injection Er3 as <-.
      split.
      * split.
        -- intros D. destruct d as [l2|l2|l2 te ds]; [lia|lia|]. exists p, l, l', l2, te, ds. auto.
        -- intros (p1 & l1 & l1' & l2 & te & ds & R1 & EL1 & _ & _ & Ed1). injection R1 as <- <-. rewrite EL in EL1. injection EL1 as <-. rewrite Edd in Ed1. injection Ed1 as ->. lia.
      * intros p1 l1 l1' l2 te ds R1 EL1 _ _ Ed1. injection R1 as <- <-. rewrite EL in EL1. injection EL1 as <-. rewrite Edd in Ed1. injection Ed1 as ->.
        destruct Dn as (ch & -> & Ech). destruct (update_at_inv _ _ _ _ U2) as (n2 & n2' & _ & B2 & Hn2 & _). injection B2 as <-.
        destruct (same_stats_at p _ _ _ SS Hn2) as (n3 & Hn3 & S3). destruct (same_stats_at p _ _ _ SSr Hn3) as (n4 & Hn4 & S4). pose proof (same_stats_trans _ _ _ S3 S4) as S5.
        inversion S5 as [? ? C|? ? ? ch' F2]; subst; [discriminate|]. exists r', ch'. split; auto. cbn [stats_of] in Sn. rewrite Sn in Hn4. split; auto.
        pose proof (proj2 G1) as W1. rewrite Era in W1. pose proof (wf_node_at _ _ _ W1 Hn3) as Wn. inversion S3 as [? ? C|? ? ? ch3 F3]; subst; [discriminate|]. inversion Wn as [| |? ? ? K3 _ _]; subst.
        assert (L3 : length ch3 = length ds) by (apply (f_equal (@length _)) in Ech; rewrite !map_length in Ech; apply Forall2_len in F3; lia).
        assert (KE : forall a b : list (Z * node), Forall2 (fun a b => fst a = fst b /\ same_stats O (snd a) (snd b)) a b -> dkeys a = dkeys b).
        { clear. induction 1 as [|? ? ? ? [A _] F IH]; [reflexivity|]. unfold dkeys in *. cbn [map]. now rewrite A, IH. }
        split; [rewrite <- (KE _ _ F2), (KE _ _ F3), K3, L3; reflexivity|]. clear - F2 Ech. revert ds Ech. induction F2 as [|[ka a] [kb b] la lb [_ Sab] F IH]; intros [|d ds] Ech; try discriminate; [split; constructor|].
        cbn [map] in *. injection Ech as Ea Ech. subst a. destruct (IH ds Ech) as [I1 I2]. cbn [snd] in *. split; [f_equal; [|exact I1]|constructor; [|exact I2]].
        -- symmetry. now apply same_stats_eq in Sab.
        -- cbn. inversion Sab; subst; auto.
    + injection H as <-. cbn [with_root t_decision]. split; [split; [lia|]|]; intros.
      * destruct H as (p1 & l1 & l1' & l2 & te & ds & R1 & EL1 & Eg1 & Ed1 & _). injection R1 as <- <-. rewrite EL in EL1. injection EL1 as <-. rewrite Eg1, Ed1 in Eg. discriminate.
      * injection H as <- <-. rewrite EL in H0. injection H0 as <-. rewrite H1, H2 in Eg. discriminate.
  - apply bind_Ok in H1 as (i' & EL & H). unfold root_of in H. rewrite Erp in H. cbn [bind] in H. apply bind_Ok in H as (r1 & U1 & H). injection H as <-. cbn [with_root t_decision].
    split; [split; [lia|intros (p1 & l1 & l1' & l2 & te & ds & R1 & _); discriminate]|intros p1 l1 l1' l2 te ds R1; discriminate].
  - assert (D : t_decision s1 = t_decision (planted s)).
    { destruct (o_multiway O te).
      + apply bind_Ok in H1 as ([te' b'] & EA & H). apply bind_Ok in H as (l' & EL & H). unfold root_of in H. rewrite Erp in H. cbn [bind] in H. apply bind_Ok in H as (r1 & U1 & H). injection H as <-. cbn. lia.
      + injection H1 as <-. reflexivity. }
    split; [split; [lia|intros (p1 & l1 & l1' & l2 & te' & ds & R1 & _); discriminate]|intros p1 l1 l1' l2 te' ds R1; discriminate].
Qed.

Lemma node_at_app p : forall (t : node) n q, node_at t p = Some n -> node_at t (p ++ q) = node_at n q.
Proof. induction p as [|b p IH]; intros t n q H; cbn [app node_at] in *; [now injection H as ->|]. destruct t as [| |te st ch]; try discriminate. destruct (dget ch b); [|discriminate]. now apply IH. Qed.
Lemma dget_nth (ch : list (Z * node)) i c : dkeys ch = map Z.of_nat (seq 0 (length ch)) -> nth_error (map snd ch) i = Some c -> dget ch (Z.of_nat i) = Some c.
Proof.
  intros K H. assert (ND : NoDup (dkeys ch)) by (rewrite K; apply FinFun.Injective_map_NoDup; [intros a b; apply Nat2Z.inj|apply seq_NoDup]).
  assert (Li : (i < length ch)%nat) by (rewrite <- (map_length snd); apply nth_error_Some; congruence).
  rewrite nth_error_map in H. destruct (nth_error ch i) as [[j c']|] eqn:En; [|discriminate]. cbn in H. injection H as ->. apply In_dget; auto.
  assert (Ej : nth_error (dkeys ch) i = Some j) by (unfold dkeys; rewrite nth_error_map, En; reflexivity). rewrite K, nth_error_map in Ej.
  rewrite (nth_error_nth' _ 0%nat) in Ej by (rewrite seq_length; lia). rewrite seq_nth in Ej by lia. cbn in Ej. injection Ej as <-. eapply nth_error_In; eauto.
Qed.
(** With enough memory the leaves made by a split are new and active. *)
Lemma split_children s x y w s' p l l' l2 te ds : sok x y w -> good s -> fit_one O cfg sz s x y w = Ok s' -> c_period_due cfg (t_weight s) = false -> room s ->
  route O (root_or_new s) x = Ok (p, Some (Active l)) -> o_learn O l x y w = Ok l' -> t_growth s = true -> o_due O l' = true -> o_decide O l' = Ok (SplitOn l2 te ds) ->
  exists r', t_root s' = Some r' /\ forall i d, nth_error ds i = Some d -> node_at r' (p ++ [Z.of_nat i]) = Some (Active (o_child O l2 d)).
Proof.
  intros OK G H ND RM R EL Hg Hd Edd. unfold fit_one in H.
  assert (E0 : (let '(s0, r) := match t_root s with Some r => (s, r) | None => let r := Active (o_new O) in (mk_tree (Some r) (t_decision s) 1 (t_inactive s) (t_inactive_size s) (t_active_size s) (t_overhead s) (t_growth s) (t_weight s), r) end in (s0, r)) = (planted s, root_or_new s)).
  { unfold planted, root_or_new. destruct (t_root s); reflexivity. }
  destruct (match t_root s with Some r => (s, r) | None => _ end) as [s0 r] eqn:Ep. injection E0 as -> ->. clear Ep.
  destruct (planted_good s G) as [Gp Erp]. apply planted_room in RM.
  assert (Fd : t_growth (planted s) = t_growth s /\ t_weight (planted s) = t_weight s) by (unfold planted; destruct (t_root s); auto). destruct Fd as (Fg & Fw).
  rewrite R in H. cbn [bind] in H. destruct (route_found _ _ _ _ R) as [Hn Hb]. apply bind_Ok in H as (s1 & H1 & H).
  cbn [learn_found] in H1. rewrite EL in H1. cbn [bind] in H1. pose proof (Llearn _ _ _ _ _ (wf_at_active _ _ _ _ Gp Erp Hn) OK EL) as LL'. unfold root_of in H1. rewrite Erp in H1. cbn [bind] in H1.
  apply bind_Ok in H1 as (r1 & U1 & H1). cbv zeta in H1. rewrite Fg, Hg, Hd in H1. cbn [andb] in H1. rewrite Edd in H1. cbn [bind] in H1.
  assert (Gx : good (with_root (planted s) r1 0 0 0)) by (apply (good_update _ _ p _ r1 (Active l) (Active l') 0 0 0 Gp Erp Hn eq_refl (wf_active _ LL') U1); reflexivity).
  destruct (update_at_inv _ _ _ _ U1) as (n1 & n1' & _ & B & Hn1 & _). injection B as <-.
  destruct (apply_decision_ok _ r1 p l' _ s1 Gx eq_refl Hn1 Edd H1) as (G1 & _ & _ & W1 & n' & r2 & r3 & U2 & Er3 & [SS RM2] & Sn & ch & -> & Ech).
  cbn [with_root t_weight] in W1. rewrite W1, Fw, ND in H. injection H as <-. exists r3. split; auto. intros i d Hi.
  destruct (update_at_inv _ _ _ _ U2) as (n2 & n2' & _ & B2 & Hn2 & _). injection B2 as <-.
  pose proof (proj2 G1) as W3. rewrite Er3 in W3. destruct (same_stats_at p _ _ _ SS Hn2) as (n3 & Hn3 & S3). pose proof (wf_node_at _ _ _ W3 Hn3) as Wn3.
  inversion S3 as [? ? C|? ? ? ch3 F3]; subst; [discriminate|]. inversion Wn3 as [| |? ? ? K3 _ _]; subst.
  assert (K : dkeys ch = map Z.of_nat (seq 0 (length ch))).
  { rewrite (Forall2_len _ _ _ F3), <- K3. clear - F3. induction F3 as [|? ? ? ? [A _] F IH]; [reflexivity|]. unfold dkeys in *. cbn [map]. now rewrite A, IH. }
  assert (Hc : node_at r2 (p ++ [Z.of_nat i]) = Some (Active (o_child O l2 d))).
  { rewrite (node_at_app _ _ _ _ Hn2). cbn [node_at]. rewrite (dget_nth ch i (Active (o_child O l2 d)) K); auto. rewrite Ech, nth_error_map, Hi. reflexivity. }
  destruct (RM2 RM) as [->|Q]; auto. exact (Q _ _ Hc eq_refl).
Qed.
(** When an estimate is due, it is made after the sample was learned. *)
Lemma fit_due s x y w s' : sok x y w -> good s -> fit_one O cfg sz s x y w = Ok s' -> c_period_due cfg (t_weight s) = true ->
  exists s1 r1, good s1 /\ t_root s1 = Some r1 /\ t_weight s1 = t_weight s /\ estimate O cfg sz s1 = Ok s'.
Proof.
  intros OK G H ND. unfold fit_one in H.
  assert (E0 : (let '(s0, r) := match t_root s with Some r => (s, r) | None => let r := Active (o_new O) in (mk_tree (Some r) (t_decision s) 1 (t_inactive s) (t_inactive_size s) (t_active_size s) (t_overhead s) (t_growth s) (t_weight s), r) end in (s0, r)) = (planted s, root_or_new s)).
  { unfold planted, root_or_new. destruct (t_root s); reflexivity. }
  destruct (match t_root s with Some r => (s, r) | None => _ end) as [s0 r] eqn:Ep. injection E0 as -> ->. clear Ep.
  destruct (planted_good s G) as [Gp Erp]. assert (Fw : t_weight (planted s) = t_weight s) by (unfold planted; destruct (t_root s); auto).
  apply bind_Ok in H as ([p n] & R & H). pose proof (proj2 Gp) as W. rewrite Erp in W. destruct (wf_route_some _ _ _ _ W R) as (n0 & ->).
  destruct (route_found _ _ _ _ R) as [Hn Hb]. apply bind_Ok in H as (s1 & H1 & H).
  destruct (learn_found_ok _ _ _ _ _ _ _ _ OK Gp Erp Hn Hb H1) as (G1 & _ & _ & W1 & _ & _ & ra & _ & Era & _ & _).
  rewrite W1, Fw, ND in H. exists s1, ra. split; auto. split; auto. split; auto. congruence.
Qed.

(** With enough memory every leaf is active again after the limit was enforced. *)
Lemma activate_all_inactive l : forall s s', activate_all O s l = Ok s' -> (t_inactive s' = t_inactive s - inactives l)%Z.
Proof.
  induction l as [|[p n] l IH]; intros s s' H; cbn [activate_all] in H; [injection H as <-; cbn; lia|]. unfold inactives in *. cbn [filter snd]. destruct n as [a|i|te st ch]; cbn [is_inactive].
  - apply IH in H. exact H.
  - apply bind_Ok in H as (s1 & H1 & H). apply IH in H. unfold activate in H1. apply bind_Ok in H1 as (r & _ & H1). apply bind_Ok in H1 as (r' & _ & H1). injection H1 as <-. cbn [with_root t_inactive length] in *. lia.
  - apply IH in H. exact H.
Qed.
Lemma room_inactive s r s' : good s -> t_root s = Some r -> room s -> enforce O cfg s = Ok s' -> t_inactive s' = 0%Z.
Proof.
  intros G Er [R1 R2] H. pose proof G as [C W]. rewrite Er in W. unfold counters_right in C. rewrite Er in C. destruct C as (_ & _ & C3).
  unfold enforce in H. rewrite Er, R1, andb_false_r in H. cbv zeta in H. fold (ranked r) in H.
  rewrite max_active_all in H by auto. rewrite Nat.add_0_l, Nat.sub_diag in H. cbn [firstn skipn deactivate_all bind] in H.
  rewrite (activate_all_inactive _ _ _ H), C3, (count_learning is_inactive) by auto.
  assert (A : inactives (learning_nodes r) = inactives (ranked r)).
  { unfold inactives. f_equal. apply Permutation_length. assert (P := sort_stable_perm (fun a b : list Z * node => o_before O (length (fst a), snd a) (length (fst b), snd b)) (learning_nodes r)).
    fold (ranked r) in P. clear - P. induction P; cbn; auto. { destruct (is_inactive (snd x)); auto. } { destruct (is_inactive (snd x)), (is_inactive (snd y)); auto. apply perm_swap. } { etransitivity; eauto. } }
  fold (inactives (learning_nodes r)). lia.
Qed.
Definition same_sizes (s s' : tree T L I S E) : Prop := t_inactive_size s' = t_inactive_size s /\ t_active_size s' = t_active_size s /\ t_overhead s' = t_overhead s.
Lemma same_sizes_room s s' : same_sizes s s' -> room s -> room s'.
Proof. intros (A & B & C) [R1 R2]. split; auto. intros n m. specialize (R2 n m). unfold active_bytes in *. now rewrite A, B, C. Qed.
Lemma never_inactive s x y w s' : sok x y w -> good s -> fit_one O cfg sz s x y w = Ok s' -> c_period_due cfg (t_weight s) = false -> room s -> t_inactive s = 0%Z ->
  t_inactive s' = 0%Z /\ same_sizes s s'.
Proof.
  intros OK G H Nd RM I0. unfold fit_one in H.
  assert (E0 : (let '(s0, r) := match t_root s with Some r => (s, r) | None => let r := Active (o_new O) in (mk_tree (Some r) (t_decision s) 1 (t_inactive s) (t_inactive_size s) (t_active_size s) (t_overhead s) (t_growth s) (t_weight s), r) end in (s0, r)) = (planted s, root_or_new s)).
  { unfold planted, root_or_new. destruct (t_root s); reflexivity. }
  destruct (match t_root s with Some r => (s, r) | None => _ end) as [s0 r] eqn:Ep. injection E0 as -> ->. clear Ep.
  destruct (planted_good s G) as [Gp Erp]. apply planted_room in RM.
  assert (Fd : t_inactive (planted s) = t_inactive s /\ same_sizes s (planted s) /\ t_weight (planted s) = t_weight s) by (unfold planted, same_sizes; destruct (t_root s); auto).
  destruct Fd as (Fd & Fs & Fw). rewrite <- Fd in *.
  apply bind_Ok in H as ([p n] & R & H). pose proof (proj2 Gp) as W. rewrite Erp in W. destruct (wf_route_some _ _ _ _ W R) as (n0 & ->).
  destruct (route_found _ _ _ _ R) as [Hn Hb]. apply bind_Ok in H as (s1 & H1 & H).
  destruct (learn_found_ok _ _ _ _ _ _ _ _ OK Gp Erp Hn Hb H1) as (_ & _ & _ & W1 & _). rewrite W1, Fw, Nd in H. injection H as <-.
  destruct n0 as [l|i|te st ch]; cbn [learn_found] in H1.
  - apply bind_Ok in H1 as (l' & EL & H). pose proof (Llearn _ _ _ _ _ (wf_at_active _ _ _ _ Gp Erp Hn) OK EL) as LL'. unfold root_of in H. rewrite Erp in H. cbn [bind] in H. apply bind_Ok in H as (r1 & U1 & H). cbv zeta in H.
    assert (G1 : good (with_root (planted s) r1 0 0 0)) by (apply (good_update _ _ p _ r1 (Active l) (Active l') 0 0 0 Gp Erp Hn eq_refl (wf_active _ LL') U1); reflexivity).
    destruct (t_growth (planted s) && o_due O l'); [|injection H as <-; cbn; rewrite I0; split; [reflexivity|exact Fs]]. apply bind_Ok in H as (d & Ed & H).
    destruct (update_at_inv _ _ _ _ U1) as (n1 & n1' & _ & B & Hn1 & _). injection B as <-. pose proof (Ldecide _ _ LL' Ed) as LD.
    assert (EN : forall sx rx, good sx -> t_root sx = Some rx -> same_sizes s sx -> enforce O cfg sx = Ok s1 -> t_inactive s1 = 0%Z /\ same_sizes s s1).
    { intros sx rx Gx Erx Sx En. assert (Rx : room sx) by (apply (same_sizes_room _ _ Sx); now apply planted_room). split; [exact (room_inactive _ _ _ Gx Erx Rx En)|].
      destruct (enforce_ok _ rx _ Gx Erx En) as (_ & [Q _] & _). unfold same_rest in Q. cbn in Q. destruct Sx as (A & B & C), Q as (A' & B' & C' & _). repeat split; congruence. }
    destruct d as [l2|l2|l2 te ds]; cbn [apply_decision] in H.
    + unfold root_of in H. cbn [with_root t_root bind] in H. apply bind_Ok in H as (r2 & _ & H). injection H as <-. cbn. rewrite I0. split; [reflexivity|exact Fs].
    + apply bind_Ok in H as (s2 & D & H). unfold deactivate, root_of in D. cbn [with_root t_root bind] in D. apply bind_Ok in D as (r2 & D1 & D). injection D as <-. apply (replace_at_update p r1 _ _ _ Hn1) in D1.
      refine (EN (with_root (with_root (planted s) r1 0 0 0) r2 0 (-1) 1) r2 _ eq_refl Fs H). exact (good_update (with_root (planted s) r1 0 0 0) r1 p _ r2 (Active l') (Inactive (o_stop O l2)) 0 (-1) 1 G1 eq_refl Hn1 eq_refl (wf_inactive _ (Lstop _ LD)) D1 eq_refl eq_refl eq_refl).
    + apply bind_Ok in H as (n' & HA & H). destruct (new_split_ok _ _ _ _ _ (proj1 (Hsplit _ _ _ _ LL' Ed)) (proj2 (Hsplit _ _ _ _ LL' Ed)) HA) as (Wn & _ & C1 & C2 & C3).
      unfold root_of in H. cbn [with_root t_root bind] in H. apply bind_Ok in H as (r2 & D1 & H). apply (replace_at_update p r1 _ _ _ Hn1) in D1.
      refine (EN (with_root (with_root (planted s) r1 0 0 0) r2 1 (Z.of_nat (length ds) - 1) 0) r2 _ eq_refl Fs H).
      apply (good_update (with_root (planted s) r1 0 0 0) r1 p _ r2 (Active l') _ 1 (Z.of_nat (length ds) - 1) 0 G1 eq_refl Hn1 eq_refl Wn D1); rewrite ?C1, ?C2, ?C3.
      * reflexivity.
      * rewrite (proj1 (proj2 (counts_leaf l'))). lia.
      * reflexivity.
  - apply bind_Ok in H1 as (i' & EL & H). unfold root_of in H. rewrite Erp in H. cbn [bind] in H. apply bind_Ok in H as (r1 & U1 & H). injection H as <-. cbn. rewrite I0. split; [reflexivity|exact Fs].
  - destruct (o_multiway O te).
    + apply bind_Ok in H1 as ([te' b'] & EA & H). apply bind_Ok in H as (l' & EL & H). unfold root_of in H. rewrite Erp in H. cbn [bind] in H. apply bind_Ok in H as (r1 & U1 & H). injection H as <-. cbn. rewrite I0. split; [reflexivity|exact Fs].
    + injection H1 as <-. rewrite I0. split; [reflexivity|exact Fs].
Qed.

(** ** Histories *)
Lemma fit_weighted_ok s x y w s' : (w =? n0)%num = true \/ sok x y w -> good s -> fit_weighted O cfg sz s x y w = Ok s' ->
  good s' /\ (t_decision s' = t_decision s \/ t_decision s' = t_decision s + 1 /\ t_growth s = true)%Z /\ (t_growth s' = t_growth s \/ t_growth s' = false).
Proof.
  intros OK G H. unfold fit_weighted in H. destruct (w =? n0)%num; [injection H as <-; auto|]. destruct OK as [OK|OK]; [discriminate|].
  match type of H with fit_one _ _ _ ?a _ _ _ = _ => set (s1 := a) in * end. assert (G1 : good s1) by (destruct G as [C W]; split; auto).
  destruct (fit_one_ok _ _ _ _ _ OK G1 H) as (A & B & C & _). auto.
Qed.

(** ** A property of the statistics of every node *)
Definition every (P : S -> Prop) (t : node) : Prop := forall q m, node_at t q = Some m -> P (stats_of O m).
Lemma every_same (P : S -> Prop) q : forall t t' m, same_stats O t t' -> (forall q m, node_at t q = Some m -> P (stats_of O m)) -> node_at t' q = Some m -> P (stats_of O m).
Proof.
  induction q as [|b q IH]; intros t t' m SS Ev Hm; cbn [node_at] in Hm.
  - injection Hm as <-. rewrite <- (same_stats_eq _ _ SS). apply (Ev []). reflexivity.
  - destruct t' as [| |te' st' ch']; try discriminate. destruct (dget ch' b) as [c'|] eqn:Ec'; [|discriminate]. inversion SS as [? ? ? D|? ? ch ? F2]; subst; [discriminate|].
    assert (exists c, dget ch b = Some c /\ same_stats O c c') as (c & Ec & Sc).
    { clear - F2 Ec'. induction F2 as [|[k1 a] [k2 a'] l l' [E1 E2] F2 IH]; [discriminate|]. cbn in E1, E2. subst k2. cbn [dget] in *. destruct (k1 =? b)%Z; [injection Ec' as <-; eauto|auto]. }
    apply (IH c c' m Sc); auto. intros q0 m0 H0. apply (Ev (b :: q0)). cbn [node_at]. now rewrite Ec.
Qed.
Lemma every_update (P : S -> Prop) p : forall (t : node) n' t', p = [] \/ every P t -> every P n' -> update_at t p (fun _ => Ok n') = Ok t' -> every P t'.
Proof.
  induction p as [|b p IH]; intros t n' t' Ht Hn H; cbn [update_at] in H; [injection H as <-; auto|]. destruct Ht as [Ht|Ht]; [discriminate|].
  destruct t as [l|i|te st ch]; try discriminate. destruct (dget ch b) as [c|] eqn:Ec; [|discriminate]. apply bind_Ok in H as (c' & E1 & H). injection H as <-.
  assert (Hc : every P c) by (intros q m Hq; apply (Ht (b :: q)); cbn [node_at]; now rewrite Ec).
  specialize (IH c n' c' (or_intror Hc) Hn E1). intros q m Hq. destruct q as [|b' q]; cbn [node_at] in Hq.
  - injection Hq as <-. exact (Ht [] _ eq_refl).
  - rewrite dget_dset in Hq. destruct (Z.eqb_spec b b') as [<-|Nb]; [exact (IH _ _ Hq)|]. apply (Ht (b' :: q)). exact Hq.
Qed.
Lemma every_leaf (P : S -> Prop) (t : node) : is_split t = false -> P (stats_of O t) -> every P t.
Proof. intros Hs HP q m Hq. destruct q; [injection Hq as <-; auto|]. destruct t; discriminate. Qed.
Variable P : S -> Prop.
Hypothesis Plearn : forall l x y w l', linv l -> sok x y w -> o_learn O l x y w = Ok l' -> P (o_stats O l').
Hypothesis Plearn_inactive : forall i x y w i', iinv i -> sok x y w -> o_learn_inactive O i x y w = Ok i' -> P (o_stats_inactive O i').
Hypothesis Psplit : forall l l' te ds, linv l -> o_decide O l = Ok (SplitOn l' te ds) -> forall d, In d ds -> P (o_stats O (o_child O l' d)).
Lemma apply_decision_every s r p l d s' : good s -> t_root s = Some r -> node_at r p = Some (Active l) -> o_decide O l = Ok d -> apply_decision O cfg s p d = Ok s' ->
  P (o_stats O l) -> p = [] \/ every P r -> exists r', t_root s' = Some r' /\ every P r'.
Proof.
  intros G Er Hn Ed H Pl Ev. pose proof (wf_at_active _ _ _ _ G Er Hn) as LL.
  destruct (apply_decision_ok _ _ _ _ _ _ G Er Hn Ed H) as (_ & _ & _ & _ & n' & r1 & r' & U & Er' & [SS _] & Sn & Hd). exists r'. split; auto.
  assert (Nn : every P n').
  { destruct d as [l'|l'|l' te ds].
    - destruct Hd as [-> _]. apply every_leaf; [reflexivity|]. now rewrite Sn.
    - subst n'. apply every_leaf; [reflexivity|]. now rewrite Sn.
    - destruct Hd as (ch & -> & Ech). intros q m Hq. destruct q as [|b q]; [injection Hq as <-; now rewrite Sn|]. cbn [node_at] in Hq. destruct (dget ch b) as [c|] eqn:Ec; [|discriminate].
      apply dget_In in Ec. assert (Hc : In c (map snd ch)) by (apply in_map_iff; exists (b, c); auto). rewrite Ech in Hc. apply in_map_iff in Hc as (d & <- & Hd).
      destruct q; [|discriminate]. injection Hq as <-. cbn. exact (Psplit _ _ _ _ LL Ed d Hd). }
  intros q m Hq. exact (every_same P q r1 r' m SS (every_update P p r n' r1 Ev Nn U) Hq).
Qed.
Lemma fit_one_every s x y w s' : sok x y w -> good s -> fit_one O cfg sz s x y w = Ok s' -> match t_root s with None => True | Some r => every P r end ->
  exists r', t_root s' = Some r' /\ every P r'.
Proof.
  intros OK G H Ev. unfold fit_one in H.
  assert (E0 : (let '(s0, r) := match t_root s with Some r => (s, r) | None => let r := Active (o_new O) in (mk_tree (Some r) (t_decision s) 1 (t_inactive s) (t_inactive_size s) (t_active_size s) (t_overhead s) (t_growth s) (t_weight s), r) end in (s0, r)) = (planted s, root_or_new s)).
  { unfold planted, root_or_new. destruct (t_root s); reflexivity. }
  destruct (match t_root s with Some r => (s, r) | None => _ end) as [s0 r] eqn:Ep. injection E0 as -> ->. clear Ep.
  destruct (planted_good s G) as [Gp Erp]. apply bind_Ok in H as ([p n] & R & H). pose proof (proj2 Gp) as W. rewrite Erp in W. destruct (wf_route_some _ _ _ _ W R) as (n0 & ->).
  destruct (route_found _ _ _ _ R) as [Hn Hb]. apply bind_Ok in H as (s1 & H1 & H).
  assert (Ev0 : p = [] \/ every P (root_or_new s)).
  { unfold root_or_new in *. destruct (t_root s) as [r|]; [now right|]. left. cbn in R. now injection R as <- _. }
  destruct (learn_found_ok _ _ _ _ _ _ _ _ OK Gp Erp Hn Hb H1) as (G1 & _ & _ & W1 & _).
  assert (A : exists r1, t_root s1 = Some r1 /\ every P r1).
  { destruct n0 as [l|i|te st ch]; cbn [learn_found] in H1.
    - apply bind_Ok in H1 as (l' & EL & H1). pose proof (wf_at_active _ _ _ _ Gp Erp Hn) as LL. pose proof (Llearn _ _ _ _ _ LL OK EL) as LL'. pose proof (Plearn _ _ _ _ _ LL OK EL) as PL'.
      unfold root_of in H1. rewrite Erp in H1. cbn [bind] in H1. apply bind_Ok in H1 as (r1 & U1 & H1). cbv zeta in H1.
      assert (Gx : good (with_root (planted s) r1 0 0 0)) by (apply (good_update _ _ p _ r1 (Active l) (Active l') 0 0 0 Gp Erp Hn eq_refl (wf_active _ LL') U1); reflexivity).
      assert (Ev1 : every P r1) by (exact (every_update P p _ _ _ Ev0 (every_leaf P (Active l') eq_refl PL') U1)).
      destruct (_ && _).
      + apply bind_Ok in H1 as (d & Ed & H1). destruct (update_at_inv _ _ _ _ U1) as (n1 & n1' & _ & B & Hn1 & _). injection B as <-.
        exact (apply_decision_every _ r1 p l' d s1 Gx eq_refl Hn1 Ed H1 PL' (or_intror Ev1)).
      + injection H1 as <-. eexists. split; [reflexivity|exact Ev1].
    - apply bind_Ok in H1 as (i' & EL & H1). pose proof (Plearn_inactive _ _ _ _ _ (wf_at_inactive _ _ _ _ Gp Erp Hn) OK EL) as PL'.
      unfold root_of in H1. rewrite Erp in H1. cbn [bind] in H1. apply bind_Ok in H1 as (r1 & U1 & H1). injection H1 as <-. eexists. split; [reflexivity|].
      exact (every_update P p _ _ _ Ev0 (every_leaf P (Inactive i') eq_refl PL') U1).
    - assert (Evr : every P (root_or_new s)).
      { destruct Ev0 as [->|Ev0]; auto. unfold root_or_new in *. destruct (t_root s); [exact Ev|]. discriminate. }
      assert (Evn : every P (Split te st ch)).
      { intros q m Hq. apply (Evr (p ++ q)). clear - Hn Hq. revert Hn. generalize (root_or_new s). induction p as [|b p IH]; intros t Hn; cbn [node_at app] in *; [congruence|].
        destruct t as [| |te0 st0 ch0]; try discriminate. destruct (dget ch0 b); [auto|discriminate]. }
      destruct (o_multiway O te).
      + apply bind_Ok in H1 as ([te' b'] & EA & H1). apply bind_Ok in H1 as (l' & EL & H1). unfold root_of in H1. rewrite Erp in H1. cbn [bind] in H1. apply bind_Ok in H1 as (r1 & U1 & H1). injection H1 as <-.
        eexists. split; [reflexivity|]. unfold set_child in U1. destruct (_ && _) eqn:Eq; [destruct (update_at_inv _ _ _ _ U1) as (n1 & n1' & _ & B & _); discriminate|].
        refine (every_update P p _ _ _ Ev0 _ U1). intros q m Hq. destruct q as [|b q]; cbn [node_at] in Hq; [injection Hq as <-; exact (Evn [] _ eq_refl)|].
        rewrite dget_dset in Hq. destruct (Z.eqb_spec b' b) as [<-|Nb]; [|apply (Evn (b :: q)); exact Hq]. destruct q; [|discriminate]. injection Hq as <-. cbn. exact (Plearn _ _ _ _ _ Lnew OK EL).
      + injection H1 as <-. rewrite Erp. eauto. }
  destruct A as (r1 & Er1 & Ev1). destruct (c_period_due cfg (t_weight s1)).
  - destruct (estimate_ok _ _ _ G1 Er1 H) as (_ & _ & _ & _ & r3 & Er3 & S3). exists r3. split; auto. intros q m Hq. exact (every_same P q r1 r3 m S3 Ev1 Hq).
  - injection H as <-. eauto.
Qed.
End Proofs.

(** ** Routing and the relation [reaches] *)
Section Reaches.
Context {X Y T L I S E : Type} (O : ops X Y T L I S E).
Local Notation node := (node L I S E).
Lemma route_reaches (t : node) x p n : route O t x = Ok (p, Some n) <-> reaches O t x p n.
Proof.
  split.
  - revert p n. induction t as [l|i|te st ch IH] using node_rect'; intros p n H; try (cbn in H; injection H as <- <-; constructor; fail).
    rewrite route_split in H. apply bind_Ok in H as (b & Eb & H). destruct (Z.leb_spec 0 b) as [Lb|Lb].
    + destruct (dget ch b) as [c|] eqn:Ec; [|discriminate]. apply bind_Ok in H as ([p1 n1] & R & H). injection H as <- ->.
      rewrite Forall_forall in IH. apply dget_In in Ec as Hi. eapply reach_down; eauto. exact (IH _ Hi _ _ R).
    + injection H as <- <-. econstructor; eauto.
  - induction 1 as [l x|i x|te st ch x b Eb Lb|te st ch x b c p n Eb Lb Ec R IH]; try reflexivity; rewrite route_split, Eb; cbn [bind].
    + replace (0 <=? b)%Z with false by (symmetry; now apply Z.leb_gt). reflexivity.
    + replace (0 <=? b)%Z with true by (symmetry; now apply Z.leb_le). rewrite Ec, IH. reflexivity.
Qed.
Lemma depth_ok (t : node) : has_depth t (depth t).
Proof.
  induction t as [l|i|te st ch IH] using node_rect'; [apply depth_active|apply depth_inactive|]. cbn [depth].
  set (go := fix go (l : list (Z * node)) : nat := match l with [] => 0 | (_, c) :: r => Nat.max (depth c) (go r) end).
  assert (G : (forall k c, In (k, c) ch -> depth c <= go ch) /\ (ch = [] /\ go ch = 0 \/ exists k c, In (k, c) ch /\ depth c = go ch)).
  { clear IH. induction ch as [|[k c] ch [IH1 IH2]]; [split; [intros k c []|auto]|]. change (go ((k, c) :: ch)) with (Nat.max (depth c) (go ch)). split.
    - intros k' c' [[= <- <-]|H]; [lia|]. specialize (IH1 _ _ H). lia.
    - right. destruct (Nat.max_spec (depth c) (go ch)) as [[Hlt ->]|[Hge ->]]; [|exists k, c; split; [now left|auto]].
      destruct IH2 as [[-> H0]|(k' & c' & Hin & Hd)]; [lia|]. exists k', c'. split; [now right|auto]. }
  destruct G as [G1 G2]. rewrite Forall_forall in IH. apply depth_split.
  - intros k c Hin. exists (depth c). split; [exact (IH _ Hin)|eauto].
  - destruct G2 as [G2|(k & c & Hin & Hd)]; [now left|]. right. exists k, c. split; auto. rewrite <- Hd. exact (IH _ Hin).
Qed.
Lemma same_stats_sym (t : node) : forall t', same_stats O t t' -> same_stats O t' t.
Proof.
  induction t as [l|i|te st ch IH] using node_rect'; intros t' H.
  - inversion H; subst; apply same_leaf; auto.
  - inversion H; subst; apply same_leaf; auto.
  - inversion H as [|? ? ? ch' F]; subst; [discriminate|]. apply same_split. clear H. induction F as [|a b l l' [A B] F IHF]; constructor; inversion IH; subst; auto.
Qed.
Lemma route_prefix x p : forall (t : node) f t' m q' m', update_at t p f = Ok t' -> route O t x = Ok (p, Some m) -> route O t' x = Ok (q', m') -> exists e, q' = p ++ e.
Proof.
  induction p as [|b p IH]; intros t f t' m q' m' U R R'; [exists q'; reflexivity|].
  destruct t as [l|i|te st ch]; try (cbn in R; discriminate). cbn [update_at] in U. destruct (dget ch b) as [c|] eqn:Ec; [|discriminate].
  apply bind_Ok in U as (c' & E1 & U). injection U as <-. rewrite route_split in R, R'. apply bind_Ok in R as (b1 & Eb & R). rewrite Eb in R'. cbn [bind] in R'.
  destruct (Z.leb_spec 0 b1) as [Lb|Lb]; [|discriminate]. destruct (dget ch b1) as [c1|] eqn:Ec1; [|discriminate].
  apply bind_Ok in R as ([p1 m1] & R1 & R). injection R as -> -> ->. rewrite Ec in Ec1. injection Ec1 as <-. rewrite dget_dset, Z.eqb_refl in R'.
  apply bind_Ok in R' as ([p2 m2] & R2 & R'). injection R' as <- <-. destruct (IH _ _ _ _ _ _ E1 R1 R2) as (e & ->). exists e. reflexivity.
Qed.
End Reaches.

(** ** Size of a tree *)
Section Size.
Context {L I S E : Type}.
Lemma count_sum (t : node L I S E) : (count is_split t + count is_active t + count is_inactive t = Z.of_nat (length (nodes t)))%Z.
Proof.
  unfold count. induction (nodes t) as [|n l IH]; [reflexivity|]. cbn [filter length]. destruct n; cbn [is_split is_active is_inactive length]; lia.
Qed.
End Size.
