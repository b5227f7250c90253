(** Lemmas about split tests. *)
From Coq Require Import List ZArith Bool Lia Reals Lra.
From Verif Require Import Base.Py Base.Num Base.Dict Model.SplitTests.
Import ListNotations.
Local Open Scope Z_scope.

Lemma at_index_in {A} (X : list A) i v : 0 <= i -> nth_error X (Z.to_nat i) = Some v -> at_index X i = Ok v.
Proof. intros H E. unfold at_index. destruct (Z.ltb_spec i 0); [lia|]. destruct (Z.ltb_spec i 0); [lia|]. now rewrite E. Qed.
Lemma has_attribute {A} (X : list A) i v : 0 <= i -> nth_error X (Z.to_nat i) = Some v -> no_attribute i X = false.
Proof.
  intros H E. unfold no_attribute. assert (L : (Z.to_nat i < length X)%nat) by (apply nth_error_Some; congruence).
  destruct (Z.ltb_spec (Z.of_nat (length X)) i); [lia|]. destruct (Z.ltb_spec i 0); [lia|reflexivity].
Qed.
Lemma no_attribute_spec {A} (X : list A) i : i < 0 \/ Z.of_nat (length X) < i <-> no_attribute i X = true.
Proof. unfold no_attribute. rewrite orb_true_iff, !Z.ltb_lt. tauto. Qed.

(** ** Multiway tests *)
Definition inverse (t : multitest) : Prop :=
  NoDup (dkeys (mw_map t)) /\ forall v b, dget (mw_map t) v = Some b <-> dget (mw_rev t) b = Some v.
Lemma in_dvals {V} (d : list (Z * V)) x : NoDup (dkeys d) -> (In x (dvals d) <-> exists k, dget d k = Some x).
Proof.
  intros ND. unfold dvals. rewrite in_map_iff. split.
  - intros ([k y] & <- & H). exists k. now apply In_dget.
  - intros (k & H). exists (k, x). split; auto. now apply dget_In.
Qed.
Lemma multi_new_inverse att m : NoDup (dkeys m) -> NoDup (dvals m) -> inverse (multi_new att m).
Proof.
  intros NK NV. split; auto. cbn [multi_new mw_map mw_rev].
  assert (G : forall r, (forall b, In b (dvals m) -> dget r b = None) -> forall v b, dget (fold_left (fun r p => dset r (snd p) (fst p)) m r) b = Some v <-> dget m v = Some b \/ dget r b = Some v).
  { clear att. induction m as [|[k x] m IH]; intros r Hr v b; cbn [fold_left dget fst snd]; [split; [auto|intros [|]; [discriminate|auto]]|].
    inversion NK as [|? ? K1 K2]; subst. inversion NV as [|? ? V1 V2]; subst. rewrite IH; auto.
    - rewrite dget_dset. destruct (Z.eqb_spec x b) as [Hx|Hx], (Z.eqb_spec k v) as [Hk|Hk]; subst.
      + split; intros [H|H]; auto; left; auto.
      + assert (dget m v <> Some b) by (intros E; apply V1; apply in_dvals; eauto). split; intros [H'|H']; auto; try congruence.
        rewrite Hr in H' by now left. discriminate.
      + split; intros [H|H]; auto; try (injection H; congruence). exfalso. assert (dget m v = None) by now apply dget_None. congruence.
      + tauto.
    - intros c Hc. rewrite dget_dset. destruct (Z.eqb_spec x c) as [Hx|]; [subst; contradiction|]. apply Hr. now right. }
  intros v b. rewrite (G []); [cbn; intuition congruence|reflexivity].
Qed.
Lemma fold_max_ge l : forall x, x <= fold_left Z.max l x /\ forall y, In y l -> y <= fold_left Z.max l x.
Proof.
  induction l as [|a l IH]; intros x; cbn [fold_left]; [split; [lia|intros y []]|]. destruct (IH (Z.max x a)) as [A B]. split; [lia|].
  intros y [<-|H]; [lia|auto].
Qed.
Lemma multi_add_ok t v : inverse t -> mw_map t <> [] -> dget (mw_map t) v = None ->
  exists t' b, multi_add t v = Ok (t', b) /\ inverse t' /\ mw_att t' = mw_att t /\ mw_map t' <> [] /\ (forall u, dget (mw_map t') u = if Z.eqb v u then Some b else dget (mw_map t) u)
    /\ (forall u c, dget (mw_map t) u = Some c -> c < b).
Proof.
  intros [ND I] NE Hv. unfold multi_add. destruct (dvals (mw_map t)) as [|x l] eqn:E; [destruct (mw_map t); [congruence|discriminate]|].
  set (b := fold_left Z.max l x + 1). exists (mkMulti (mw_att t) (dset (mw_map t) v b) (dset (mw_rev t) b v)), b. split; auto. cbn [mw_att mw_map mw_rev].
  assert (LT : forall u c, dget (mw_map t) u = Some c -> c < b).
  { intros u c Hc. assert (H : In c (dvals (mw_map t))) by (apply in_dvals; eauto). rewrite E in H. destruct (fold_max_ge l x) as [A B].
    destruct H as [<-|H]; [unfold b; lia|]. specialize (B _ H). unfold b. lia. }
  split; [|split; [auto|split; [|split; [|exact LT]]]].
  - split; [now apply NoDup_dset|]. intros u c. cbn [mw_map mw_rev]. rewrite !dget_dset. destruct (Z.eqb_spec v u) as [Hu|Hu], (Z.eqb_spec b c) as [Hc|Hc]; subst.
    + tauto.
    + split; [intros [= ?]; contradiction|]. intros H. apply I in H. congruence.
    + split; [intros H; specialize (LT _ _ H); lia|intros [= ?]; contradiction].
    + apply I.
  - destruct (mw_map t) as [|[k y] d]; cbn; [discriminate|]. destruct (k =? v); discriminate.
  - intros u. apply dget_dset.
Qed.
