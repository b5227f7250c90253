(** Object sizes: lemmas. *)
From Coq Require Import List ZArith Bool Lia Permutation.
From Verif Require Import Base.Py Base.Num Model.ObjectSize Spec.ObjectSizeSpec.
Import ListNotations.

Lemma appended_part h o p : In p (appended (kind_of h o)) <-> part h o p.
Proof.
  split.
  - destruct (kind_of h o) as [items|d|items|] eqn:E; cbn [appended]; intros H.
    + apply in_app_iff in H as [H|H]; apply in_map_iff in H as ([k v] & <- & H); [eapply part_value|eapply part_key]; eauto.
    + destruct H as [<-|[]]. now apply part_attrs.
    + eapply part_elem; eauto.
    + destruct H.
  - intros [items k v E H|items k v E H|d E|items e E H]; rewrite E; cbn [appended]; auto; [apply in_app_iff; right; change k with (fst (k, v))|apply in_app_iff; left; change v with (snd (k, v))|now left]; now apply in_map.
Qed.
Lemma existsb_In x l : existsb (Nat.eqb x) l = true <-> In x l.
Proof. rewrite existsb_exists. split; [intros (y & H & E); apply Nat.eqb_eq in E; now subst|intros H; exists x; split; auto; apply Nat.eqb_refl]. Qed.
(** Rounds that objects not seen yet can still cost *)
Fixpoint cost (h : heap) (U seen : list nat) : nat :=
  match U with [] => 0 | x :: U => (if existsb (Nat.eqb x) seen then 0 else S (length (appended (kind_of h x)))) + cost h U seen end.
Lemma cost_le h U o seen : cost h U (o :: seen) <= cost h U seen.
Proof. induction U as [|x U IH]; cbn [cost existsb]; [lia|]. destruct (Nat.eqb x o); cbn [orb]; destruct (existsb _ seen); lia. Qed.
Lemma cost_new h U o seen : In o U -> existsb (Nat.eqb o) seen = false -> cost h U (o :: seen) + S (length (appended (kind_of h o))) <= cost h U seen.
Proof.
  intros Ho Hs. induction U as [|x U IH]; [destruct Ho|]. cbn [cost existsb]. destruct (Nat.eqb_spec x o) as [->|Ne]; cbn [orb].
  - rewrite Hs. pose proof (cost_le h U o seen). lia.
  - destruct Ho as [E|Ho]; [congruence|]. specialize (IH Ho). destruct (existsb _ seen); lia.
Qed.
Lemma loop_ends h o U : (forall p, holds h o p -> In p U) -> forall fuel seen q acc, length q + cost h U seen < fuel ->
  NoDup seen -> acc = total h seen -> (forall p, In p seen \/ In p q -> holds h o p) -> (forall p x, In p seen -> part h p x -> In x seen \/ In x q) -> In o seen \/ In o q ->
  exists l, NoDup l /\ (forall p, In p l <-> holds h o p) /\ size_loop fuel h seen q acc = Some (total h l).
Proof.
  intros HU. induction fuel as [|fuel IH]; intros seen q acc Lt ND Ea Hr Hc Ho; [lia|]. cbn [size_loop]. destruct q as [|x q].
  - exists seen. split; auto. split; [|now subst]. intros p. split; [intros H; apply Hr; auto|]. intros H. induction H as [|p r H IHp Pr]; [destruct Ho as [Ho|[]]; auto|]. destruct (Hc _ _ IHp Pr) as [?|[]]; auto.
  - destruct (existsb (Nat.eqb x) seen) eqn:E.
    + apply existsb_In in E as E'. apply IH; auto; [cbn in Lt; lia| | |].
      * intros p [H|H]; apply Hr; [auto|right; now right].
      * intros p y Hp Py. destruct (Hc p y Hp Py) as [?|[<-|?]]; auto.
      * destruct Ho as [?|[<-|?]]; auto.
    + assert (Hx : holds h o x) by (apply Hr; right; now left). pose proof (cost_new h U x seen (HU x Hx) E) as Q. apply IH.
      * rewrite app_length. cbn [length] in Lt. lia.
      * constructor; auto. intros H. apply existsb_In in H. congruence.
      * subst acc. cbn [total]. lia.
      * intros p [[<-|H]|H]; auto. apply in_app_iff in H as [H|H]; [apply Hr; right; now right|]. apply appended_part in H. eapply holds_part; eauto.
      * intros p y [<-|Hp] Py; [right; apply in_app_iff; right; now apply appended_part|]. destruct (Hc p y Hp Py) as [?|[<-|?]]; [left; now right|left; now left|right; apply in_app_iff; now left].
      * destruct Ho as [?|[<-|?]]; [left; now right|left; now left|right; apply in_app_iff; now left].
Qed.
Lemma total_perm h l l' : Permutation l l' -> total h l = total h l'.
Proof. induction 1; cbn [total]; lia. Qed.
Lemma total_unique h l l' : NoDup l -> NoDup l' -> (forall p, In p l <-> In p l') -> total h l = total h l'.
Proof. intros A B C. apply total_perm. now apply NoDup_Permutation. Qed.
Lemma total_incl h l l' : (forall p, In p l' -> 0 <= own_size h p)%Z -> NoDup l -> (forall p, In p l -> In p l') -> (total h l <= total h l')%Z.
Proof.
  intros Hs ND. revert l' Hs. induction ND as [|x l Hx ND IH]; intros l' Hs Hi.
  - cbn [total]. clear Hi. induction l' as [|y l' IH]; cbn [total]; [lia|]. pose proof (Hs y (or_introl eq_refl)). specialize (IH ltac:(intros; apply Hs; now right)). lia.
  - destruct (in_split x l' (Hi x (or_introl eq_refl))) as (a & b & ->). rewrite (total_perm h (a ++ x :: b) (x :: a ++ b)) by (symmetry; apply Permutation_middle). cbn [total].
    specialize (IH (a ++ b)). assert (total h l <= total h (a ++ b))%Z; [|lia]. apply IH.
    + intros p Hp. apply Hs. apply in_app_iff in Hp as [?|?]; apply in_app_iff; [auto|right; now right].
    + intros p Hp. specialize (Hi p (or_intror Hp)). apply in_app_iff in Hi as [?|[<-|?]]; [apply in_app_iff; auto|contradiction|apply in_app_iff; auto].
Qed.
Lemma holds_trans h o p q : holds h o p -> holds h p q -> holds h o q.
Proof. intros A B. induction B; auto. eapply holds_part; eauto. Qed.
