(** Dictionary helpers: lemmas. *)
From Coq Require Import List ZArith Bool Lia Reals Lra.
From Verif Require Import Base.Py Base.Num Base.Dict Model.DictUtils Spec.Lists.
Import ListNotations.

Section Cells.
Context {T : Type}.
Lemma store_length (h : @cells T) r d : length (store h r d) = length h.
Proof. revert r. induction h as [|c h IH]; intros [|r]; cbn; auto. Qed.
Lemma cell_store (h : @cells T) r d q : (r < length h)%nat -> cell (store h r d) q = if Nat.eqb r q then d else cell h q.
Proof.
  unfold cell. revert r q. induction h as [|c h IH]; intros r q L; [cbn in L; lia|]. destruct r as [|r], q as [|q]; cbn; auto. apply IH. cbn in L. lia.
Qed.
Lemma target_spec (h : @cells T) r inplace r' h' : (r < length h)%nat -> target h r inplace = (r', h') ->
  (r' < length h')%nat /\ cell h' r' = cell h r /\ (forall q, (q < length h)%nat -> cell h' q = cell h q) /\ (length h <= length h')%nat /\ (if inplace then r' = r else r' = length h).
Proof.
  intros L. unfold target. destruct inplace; intros [= <- <-]; [auto 6|]. unfold cell. rewrite app_length, app_nth2, Nat.sub_diag by lia. cbn [nth length]. split; [lia|]. split; [reflexivity|]. split; [|split; [lia|reflexivity]].
  intros q Lq. now rewrite app_nth1.
Qed.
End Cells.
Lemma scale_fold (f : R) (items : list (Z * R)) : forall d : list (Z * R), NoDup (dkeys items) -> forall k,
  dget (fold_left (fun d kv => dset d (fst kv) (snd kv / f)%R) items d) k = match dget items k with Some v => Some (v / f)%R | None => dget d k end.
Proof.
  induction items as [|[k0 v0] items IH]; intros d ND k; [reflexivity|]. cbn [fold_left fst snd]. inversion ND as [|? ? Hk ND']; subst. rewrite IH by exact ND'. cbn [dget]. rewrite dget_dset.
  destruct (Z.eqb_spec k0 k) as [->|Ne]; [|reflexivity]. rewrite (proj2 (dget_None items k)) by exact Hk. reflexivity.
Qed.
Lemma set_fold_keys (g : list (Z * R) -> Z * R -> R) items : forall d : list (Z * R), incl (dkeys items) (dkeys d) -> dkeys (fold_left (fun d kv => dset d (fst kv) (g d kv)) items d) = dkeys d.
Proof.
  induction items as [|kv items IH]; intros d I; [reflexivity|]. cbn [fold_left]. assert (E : dkeys (dset d (fst kv) (g d kv)) = dkeys d) by (apply dset_old, I; now left). rewrite IH; auto. rewrite E. intros x Hx. apply I. now right.
Qed.
Lemma add_fold (items : list (Z * R)) : forall d : list (Z * R), NoDup (dkeys items) -> forall k,
  dget (fold_left (fun d kv => match dget d (fst kv) with Some v => dset d (fst kv) (v + snd kv)%R | None => dset d (fst kv) (snd kv) end) items d) k
  = match dget items k, dget d k with Some b, Some a => Some (a + b)%R | Some b, None => Some b | None, a => a end.
Proof.
  induction items as [|[k0 v0] items IH]; intros d ND k; [reflexivity|]. cbn [fold_left fst snd]. inversion ND as [|? ? Hk ND']; subst. rewrite IH by exact ND'. cbn [dget].
  destruct (Z.eqb_spec k0 k) as [->|Ne].
  - rewrite (proj2 (dget_None items k)) by exact Hk. destruct (dget d k) eqn:E; rewrite dget_dset, Z.eqb_refl; reflexivity.
  - assert (Q : forall v, dget (dset d k0 v) k = dget d k) by (intros v; rewrite dget_dset; destruct (Z.eqb_spec k0 k); [contradiction|reflexivity]). destruct (dget d k0); rewrite Q; reflexivity.
Qed.
(** A dictionary is determined by its keys in order and its values. *)
Lemma dict_ext (a b : list (Z * R)) : NoDup (dkeys a) -> dkeys a = dkeys b -> (forall k, dget a k = dget b k) -> a = b.
Proof.
  revert b. induction a as [|[k v] a IH]; intros [|[k' v'] b] ND E H; try discriminate; [reflexivity|]. cbn in E. injection E as -> E. inversion ND as [|? ? Hk ND']; subst.
  pose proof (H k') as H0. cbn [dget] in H0. rewrite Z.eqb_refl in H0. injection H0 as ->. f_equal. apply IH; auto. intros j. specialize (H j). cbn [dget] in H. destruct (Z.eqb_spec k' j) as [->|]; [|exact H].
  rewrite (proj2 (dget_None a j)) by exact Hk. symmetry. apply dget_None. unfold dkeys. rewrite <- E. exact Hk.
Qed.
Lemma dget_map (f : R -> R) (d : list (Z * R)) k : dget (map (fun kv => (fst kv, f (snd kv))) d) k = match dget d k with Some v => Some (f v) | None => None end.
Proof. induction d as [|[k' v] d IH]; cbn; [reflexivity|]. destruct (k' =? k)%Z; auto. Qed.
Lemma Rsum_fold (l : list R) : forall a, fold_left Rplus l a = (a + Rsum l)%R.
Proof. induction l as [|u l IH]; intros a; cbn; [unfold Rsum; cbn; lra|rewrite IH; unfold Rsum; cbn; lra]. Qed.
Lemma Rsum_scale (f : R) (l : list R) : Rsum (map (fun v => v / f)%R l) = (Rsum l / f)%R.
Proof. induction l as [|u l IH]; unfold Rsum in *; cbn [map fold_right] in *; [unfold Rdiv; ring|]. cbn in *. rewrite IH. unfold Rdiv. ring. Qed.
