(** Python dictionaries with integer keys: association lists in insertion order. *)
From Coq Require Import List ZArith Bool Lia Sorted Permutation.
Import ListNotations.
Local Open Scope Z_scope.

Section Dict.
Context {V : Type}.
Notation dict := (list (Z * V)).

Definition dkeys (d : dict) : list Z := map fst d.
Definition dvals (d : dict) : list V := map snd d.
(** d.get(k) *)
Fixpoint dget (d : dict) (k : Z) : option V :=
  match d with [] => None | (k', v) :: r => if k' =? k then Some v else dget r k end.
(** k in d *)
Definition dmem (d : dict) (k : Z) : bool := match dget d k with Some _ => true | None => false end.
(** d[k] = v *)
Fixpoint dset (d : dict) (k : Z) (v : V) : dict :=
  match d with [] => [(k, v)] | (k', x) :: r => if k' =? k then (k, v) :: r else (k', x) :: dset r k v end.
(** dict(sorted(d.items())): keys are distinct, so only keys are compared *)
Fixpoint dinsert (p : Z * V) (d : dict) : dict :=
  match d with [] => [p] | q :: r => if fst p <=? fst q then p :: q :: r else q :: dinsert p r end.
Definition dsort (d : dict) : dict := fold_right dinsert [] d.

Lemma dget_dset d k v j : dget (dset d k v) j = if k =? j then Some v else dget d j.
Proof.
  induction d as [|[k' x] d IH]; simpl; auto. destruct (Z.eqb_spec k' k) as [->|N]; simpl.
  - destruct (k =? j); auto.
  - rewrite IH. destruct (Z.eqb_spec k' j) as [->|]; auto. destruct (Z.eqb_spec k j) as [->|]; congruence.
Qed.
Lemma dget_In d k v : dget d k = Some v -> In (k, v) d.
Proof. induction d as [|[k' x] d IH]; simpl; [discriminate|]. destruct (Z.eqb_spec k' k) as [->|]; [intros [= ->]; auto|auto]. Qed.
Lemma dget_None d k : dget d k = None <-> ~ In k (dkeys d).
Proof.
  induction d as [|[k' x] d IH]; simpl; [tauto|]. destruct (Z.eqb_spec k' k) as [->|].
  - split; [discriminate|tauto].
  - rewrite IH. tauto.
Qed.
Lemma dget_Some d k : (exists v, dget d k = Some v) <-> In k (dkeys d).
Proof.
  split.
  - intros (v & E). destruct (in_dec Z.eq_dec k (dkeys d)) as [H|H]; auto. apply dget_None in H. congruence.
  - intros H. destruct (dget d k) eqn:E; eauto. apply dget_None in E. contradiction.
Qed.
Lemma In_dget d k v : NoDup (dkeys d) -> In (k, v) d -> dget d k = Some v.
Proof.
  induction d as [|[k' x] d IH]; simpl; [tauto|]. intros N H. inversion N; subst. destruct (Z.eqb_spec k' k) as [->|Hk].
  - destruct H as [[= ->]|H]; auto. exfalso. apply H2. apply in_map_iff. exists (k, v). auto.
  - destruct H as [[= -> ->]|H]; [contradiction|auto].
Qed.
Lemma dmem_true d k : dmem d k = true <-> In k (dkeys d).
Proof. unfold dmem. rewrite <- dget_Some. destruct (dget d k); split; intros; eauto; [discriminate|destruct H; discriminate]. Qed.

Lemma dkeys_dset d k v : dkeys (dset d k v) = if dmem d k then dkeys d else dkeys d ++ [k].
Proof.
  unfold dmem. induction d as [|[k' x] d IH]; simpl; auto. destruct (Z.eqb_spec k' k) as [->|]; simpl; auto.
  unfold dkeys in *. rewrite IH. destruct (dget d k); reflexivity.
Qed.
Lemma NoDup_dset d k v : NoDup (dkeys d) -> NoDup (dkeys (dset d k v)).
Proof.
  intros N. rewrite dkeys_dset. destruct (dmem d k) eqn:E; auto.
  assert (~ In k (dkeys d)) by (rewrite <- dmem_true; congruence).
  apply NoDup_rev in N. rewrite <- (rev_involutive (dkeys d ++ [k])). apply NoDup_rev. rewrite rev_app_distr. simpl. constructor; auto.
  now rewrite <- in_rev.
Qed.
Lemma In_dkeys_dset d k v j : In j (dkeys (dset d k v)) <-> j = k \/ In j (dkeys d).
Proof.
  rewrite dkeys_dset. destruct (dmem d k) eqn:E.
  - apply dmem_true in E. split; [auto|]. intros [->|]; auto.
  - rewrite in_app_iff. simpl. split; intros [?|?]; auto. destruct H; auto. contradiction.
Qed.
(** Updating an existing key leaves the order alone and changes just that entry. *)
Lemma dset_old d k v : In k (dkeys d) -> dkeys (dset d k v) = dkeys d.
Proof. intros H. rewrite dkeys_dset. apply dmem_true in H. now rewrite H. Qed.
Lemma dset_new d k v : ~ In k (dkeys d) -> dset d k v = d ++ [(k, v)].
Proof. induction d as [|[k' x] d IH]; simpl; auto. intros H. destruct (Z.eqb_spec k' k) as [->|]; [tauto|]. f_equal. apply IH. tauto. Qed.

Lemma dinsert_perm p d : Permutation (p :: d) (dinsert p d).
Proof. induction d as [|q d IH]; simpl; auto. destruct (_ <=? _); auto. rewrite perm_swap. now constructor. Qed.
Lemma dsort_perm d : Permutation d (dsort d).
Proof. induction d as [|p d IH]; simpl; auto. rewrite <- dinsert_perm. now constructor. Qed.
Lemma dkeys_dsort_perm d : Permutation (dkeys d) (dkeys (dsort d)).
Proof. apply Permutation_map, dsort_perm. Qed.
Lemma NoDup_dsort d : NoDup (dkeys d) -> NoDup (dkeys (dsort d)).
Proof. apply Permutation_NoDup, dkeys_dsort_perm. Qed.
Lemma In_dkeys_dsort d k : In k (dkeys (dsort d)) <-> In k (dkeys d).
Proof. split; apply Permutation_in; [symmetry|]; apply dkeys_dsort_perm. Qed.
Lemma dget_perm d d' : NoDup (dkeys d) -> Permutation d d' -> forall k, dget d' k = dget d k.
Proof.
  intros N P k. assert (N' : NoDup (dkeys d')) by (eapply Permutation_NoDup; [|exact N]; now apply Permutation_map).
  destruct (dget d k) as [v|] eqn:E.
  - apply In_dget; auto. eapply Permutation_in; eauto. now apply dget_In.
  - apply dget_None. apply dget_None in E. intros C. apply E. eapply Permutation_in; [|exact C]. symmetry. now apply Permutation_map.
Qed.
Lemma dget_dsort d k : NoDup (dkeys d) -> dget (dsort d) k = dget d k.
Proof. intros N. apply dget_perm; auto. apply dsort_perm. Qed.
Lemma dinsert_keys p d : StronglySorted Z.le (dkeys d) -> StronglySorted Z.le (dkeys (dinsert p d)).
Proof.
  induction d as [|q d IH]; simpl; intros S; [constructor; constructor|]. inversion S as [|? ? S' F]; subst.
  destruct (Z.leb_spec (fst p) (fst q)); simpl.
  - constructor; auto. constructor; auto. eapply Forall_impl; [|exact F]. simpl. lia.
  - constructor; auto. apply Forall_forall. intros z Hz. assert (Hz' : In z (fst p :: dkeys d)).
    { eapply Permutation_in; [|exact Hz]. symmetry. apply (Permutation_map fst (dinsert_perm p d)). }
    rewrite Forall_forall in F. destruct Hz' as [<-|]; [lia|auto].
Qed.
Lemma dsort_sorted d : StronglySorted Z.le (dkeys (dsort d)).
Proof. induction d; simpl; [constructor|]. now apply dinsert_keys. Qed.
Lemma dsort_strict d : NoDup (dkeys d) -> StronglySorted Z.lt (dkeys (dsort d)).
Proof.
  intros N. apply NoDup_dsort in N. pose proof (dsort_sorted d) as S. induction S as [|x l S IH F]; constructor; inversion N; subst; auto.
  rewrite Forall_forall in *. intros z Hz. specialize (F z Hz). assert (x <> z) by (intros ->; contradiction). lia.
Qed.
End Dict.

(** Strictly sorted lists are determined by their elements. *)
Lemma sorted_ext (l m : list Z) : StronglySorted Z.lt l -> StronglySorted Z.lt m -> (forall x, In x l <-> In x m) -> l = m.
Proof.
  intros Sl. revert m. induction Sl as [|x l Sl IH Fl]; intros m Sm E.
  - destruct m as [|y m]; auto. destruct (proj2 (E y) (or_introl eq_refl)).
  - destruct Sm as [|y m Sm Fm]; [destruct (proj1 (E x) (or_introl eq_refl))|].
    rewrite Forall_forall in *.
    assert (x = y).
    { destruct (proj1 (E x) (or_introl eq_refl)) as [->|Hx]; auto. destruct (proj2 (E y) (or_introl eq_refl)) as [->|Hy]; auto.
      specialize (Fl _ Hy). specialize (Fm _ Hx). lia. }
    subst y. f_equal. apply IH; auto. intros z. split; intros Hz.
    + destruct (proj1 (E z) (or_intror Hz)) as [->|]; auto. specialize (Fl _ Hz). lia.
    + destruct (proj2 (E z) (or_intror Hz)) as [->|]; auto. specialize (Fm _ Hz). lia.
Qed.

(** Dictionaries with strictly sorted keys are determined by their contents. *)
Lemma dict_ext {V} (d e : list (Z * V)) : StronglySorted Z.lt (dkeys d) -> StronglySorted Z.lt (dkeys e) -> (forall k, dget d k = dget e k) -> d = e.
Proof.
  intros Sd Se E. assert (K : dkeys d = dkeys e).
  { apply sorted_ext; auto. intros k. rewrite <- !dget_Some. now rewrite E. }
  assert (ND : NoDup (dkeys d)).
  { clear - Sd. induction Sd as [|x l S IH F]; constructor; auto. rewrite Forall_forall in F. intros H. specialize (F _ H). lia. }
  clear Sd Se. revert e E K. induction d as [|[k v] d IH]; intros [|[k' v'] e] E K; try discriminate; auto.
  cbn in K. injection K as <- K. cbn in ND. inversion ND as [|? ? N1 N2]; subst. f_equal.
  - specialize (E k). cbn in E. rewrite Z.eqb_refl in E. now injection E as ->.
  - apply IH; auto. intros j. specialize (E j). cbn in E. destruct (Z.eqb_spec k j) as [Hj|]; auto. subst j.
    assert (dget d k = None) by now apply dget_None. assert (dget e k = None) by (apply dget_None; unfold dkeys; now rewrite <- K). congruence.
Qed.
Lemma dset_perm {V} (d : list (Z * V)) k x : dget d k = Some x -> exists rest, Permutation d ((k, x) :: rest) /\ forall y, Permutation (dset d k y) ((k, y) :: rest).
Proof.
  induction d as [|[k' x'] d IH]; cbn; [discriminate|]. destruct (Z.eqb_spec k' k) as [->|N].
  - intros [= ->]. exists d. auto.
  - intros E. destruct (IH E) as (rest & P1 & P2). exists ((k', x') :: rest). split.
    + rewrite P1. constructor.
    + intros y. rewrite (P2 y). constructor.
Qed.
