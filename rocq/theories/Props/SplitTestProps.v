(** C53, C54, C92, C93: split tests, rule predicates, and the binary-tree class observer. *)
From Coq Require Import List ZArith QArith Bool Lia Reals Lra Floats.
From Verif Require Import Base.Py Base.Num Base.NumFloat Base.Dict Spec.SplitTestSpec Model.SplitTests Model.NominalObs Proofs.SplitTestProofs.
Import ListNotations.

(** C54: an instance that has the attribute goes to branch 0 or 1, and the rule of exactly that branch covers it. *)
Theorem numeric_test_branch : forall (t : numtest (T:=R)) X v, attribute X (nt_att t) v ->
  exists b, num_branch t X = Ok b /\ (b = 0 \/ b = 1)%Z
    /\ forall b', (b' = 0 \/ b' = 1)%Z -> covers (num_rule t b') X = Ok (Z.eqb b' b).
Proof.
  intros [att c e] X v [H E]. cbn [nt_att nt_value nt_equal] in *. unfold num_branch, covers, num_rule. cbn [nt_att nt_value nt_equal p_att p_op p_value].
  rewrite (has_attribute X att v H E), (at_index_in X att v H E). cbn [bind neqb nltb nleb NumR].
  destruct (Reqb v c) eqn:E1; [|destruct (Rltb v c) eqn:E2]; repeat rcase.
  - subst v. exists (if e then 0 else 1)%Z. split; auto. split; [destruct e; auto|]. 
    intros b' [-> | ->]; destruct e; cbn -[Rltb Rleb Reqb]; f_equal; solve [apply Rltb_true; lra | apply Rltb_false; lra | apply Rleb_true; lra | apply Rleb_false; lra].
  - exists 0%Z. split; auto. split; auto.
    intros b' [-> | ->]; destruct e; cbn -[Rltb Rleb Reqb]; f_equal; solve [apply Rltb_true; lra | apply Rltb_false; lra | apply Rleb_true; lra | apply Rleb_false; lra].
  - exists 1%Z. split; auto. split; auto.
    intros b' [-> | ->]; destruct e; cbn -[Rltb Rleb Reqb]; f_equal; solve [apply Rltb_true; lra | apply Rltb_false; lra | apply Rleb_true; lra | apply Rleb_false; lra].
Qed.
Print Assumptions numeric_test_branch.

(** C54: the same for the binary test on nominal values; for every number type, nan included. *)
Theorem nominal_test_branch : forall {T} {N : Num T} (t : nomtest (T:=T)) X v, attribute X (mt_att t) v ->
  exists b, nom_branch t X = Ok b /\ (b = 0 \/ b = 1)%Z
    /\ forall b', (b' = 0 \/ b' = 1)%Z -> covers (nom_rule t b') X = Ok (Z.eqb b' b).
Proof.
  intros T N [att c] X v [H E]. cbn [mt_att mt_value] in *. unfold nom_branch, covers, nom_rule. cbn [mt_att mt_value p_att p_op p_value].
  rewrite (has_attribute X att v H E), (at_index_in X att v H E). cbn [bind]. exists (if (v =? c)%num then 0 else 1)%Z. split; auto.
  split; [destruct (neqb v c); auto|]. intros b' [-> | ->]; destruct (neqb v c); reflexivity.
Qed.
Print Assumptions nominal_test_branch.

(** C54: multiway test built from a value-to-branch table, then extended with new branches for unseen values any number of times:
    values that had a branch keep it, and the instances that go to branch b are those that satisfy the rule of b. *)
Theorem multiway_test_branch : forall att m us t, NoDup (dkeys m) -> NoDup (dvals m) -> (forall b, In b (dvals m) -> (0 <= b)%Z) ->
  branches_added (multi_new att m) us t ->
  (forall v b, dget m v = Some b -> dget (mw_map t) v = Some b)
  /\ (forall v, In v us -> exists b, dget (mw_map t) v = Some b /\ ~ In b (dvals m))
  /\ forall X v, attribute X att v ->
     exists b, multi_branch t X = Ok b /\ (b = -1 <-> dget m v = None /\ ~ In v us)%Z
       /\ (b <> -1 -> multi_rule t b = Ok (mkPred att OEq v))%Z
       /\ forall b' v', multi_rule t b' = Ok (mkPred att OEq v') -> (v' = v <-> b' = b)%Z.
Proof.
  intros att m us t NK NV NN H. set (t0 := multi_new att m) in *.
  assert (G : forall t1, branches_added t1 us t -> inverse t1 -> mw_att t1 = att -> (us <> [] -> mw_map t1 <> []) -> (forall u c, dget (mw_map t1) u = Some c -> (0 <= c)%Z) ->
     inverse t /\ mw_att t = att /\ (forall v b, dget (mw_map t1) v = Some b -> dget (mw_map t) v = Some b)
     /\ (forall v, In v us -> exists b, dget (mw_map t) v = Some b /\ forall u c, dget (mw_map t1) u = Some c -> (c < b)%Z)
     /\ (forall v, dget (mw_map t) v = None <-> dget (mw_map t1) v = None /\ ~ In v us) /\ (forall u c, dget (mw_map t) u = Some c -> (0 <= c)%Z)).
  { clear H. intros t1 H. induction H as [t|t v us t1 t2 b X Hx Hb Ha H IH]; intros I A NE P.
    - split; [auto|]. split; [auto|]. split; [auto|]. split; [intros v []|]. split; [intros v; cbn; tauto|auto].
    - assert (Hv : dget (mw_map t) v = None).
      { destruct Hx as [X1 X2]. unfold multi_branch in Hb. rewrite (has_attribute _ _ _ X1 X2), (at_index_in _ _ _ X1 X2) in Hb. cbn [bind] in Hb.
        destruct (dget (mw_map t) v) as [c|] eqn:E; auto. injection Hb as ->. specialize (P _ _ E). lia. }
      destruct (multi_add_ok t v I (NE ltac:(discriminate)) Hv) as (t' & b' & E & I' & A' & N' & D' & L'). rewrite Ha in E. injection E as <- <-.
      destruct IH as (J1 & J2 & J3 & J4 & J5 & J6); auto; [congruence| |].
      { intros u c. rewrite D'. destruct (Z.eqb_spec v u); [intros [= <-]|apply P]. destruct (mw_map t) as [|[k y] d] eqn:Em; [now destruct NE|]. specialize (P k y). specialize (L' k y). cbn in P, L'. rewrite Z.eqb_refl in *. specialize (P eq_refl). specialize (L' eq_refl). lia. }
      split; [auto|]. split; [auto|]. split; [|split; [|split; [|auto]]].
      + intros u c Hu. apply J3. rewrite D'. destruct (Z.eqb_spec v u); [subst; congruence|auto].
      + intros u [<-|Hu].
        * exists b. split; [apply J3; rewrite D'; now rewrite Z.eqb_refl|auto].
        * destruct (J4 u Hu) as (c & C1 & C2). exists c. split; auto. intros u' c' Hc. destruct (Z.eqb_spec v u') as [->|]; [congruence|]. apply (C2 u' c'). rewrite D'. destruct (Z.eqb_spec v u'); [contradiction|auto].
      + intros u. rewrite J5, D'. cbn. destruct (Z.eqb_spec v u) as [->|Hu]; split; intros [H1 H2]; split; auto; try discriminate; try tauto. }
  assert (GetNN : forall u c, dget (mw_map t0) u = Some c -> (0 <= c)%Z) by (intros u c Hc; apply NN, in_dvals; eauto).
  assert (NE : us <> [] -> mw_map t0 <> []).
  { intros Hu E. inversion H as [|? v us' t1 ? b X Hx Hb Ha H' E1]; subst; [congruence|]. unfold multi_add in Ha. rewrite E in Ha. discriminate. }
  destruct (G t0 H (multi_new_inverse att m NK NV) eq_refl NE GetNN) as ([ND I] & A & J3 & J4 & J5 & J6). split; [exact J3|]. split.
  - intros v Hv. destruct (J4 v Hv) as (b & B1 & B2). exists b. split; auto. intros Hb. apply in_dvals in Hb as (u & Hu); auto. specialize (B2 u b Hu). lia.
  - intros X v [X1 X2]. unfold multi_branch, multi_rule. rewrite A, (has_attribute _ _ _ X1 X2), (at_index_in _ _ _ X1 X2). cbn [bind]. eexists. split; [reflexivity|].
    destruct (dget (mw_map t) v) as [b|] eqn:E.
    + assert (Pb := J6 _ _ E). split; [|split].
      * split; [lia|]. intros H'. apply J5 in H'. congruence.
      * intros _. apply I in E. now rewrite E.
      * intros b' v' H'. destruct (dget (mw_rev t) b') as [u|] eqn:Eu; [|discriminate]. injection H' as ->. apply I in Eu. split; [intros ->; congruence|].
        intros ->. apply I in Eu. apply I in E. congruence.
    + split; [split; auto; intros _; now apply J5|]. split; [congruence|]. intros b' v' H'. destruct (dget (mw_rev t) b') as [u|] eqn:Eu; [|discriminate]. injection H' as ->. apply I in Eu.
      split; [intros ->; congruence|]. intros ->. specialize (J6 _ _ Eu). lia.
Qed.
Print Assumptions multiway_test_branch.

(** C54: -1 when the attribute index is negative or greater than the length ... *)
Theorem tests_missing_attribute_partial : forall {T} {N : Num T} att (X : list T), (att < 0 \/ Z.of_nat (length X) < att)%Z ->
  (forall c e, num_branch (mkNum att c e) X = Ok (-1)%Z) /\ (forall c, nom_branch (mkNom att c) X = Ok (-1)%Z).
Proof.
  intros T N att X H. apply no_attribute_spec in H. unfold num_branch, nom_branch. cbn [nt_att mt_att]. rewrite H. auto.
Qed.
Print Assumptions tests_missing_attribute_partial.
(** ... but an instance with exactly [att] attributes (it lacks attribute number [att]) makes every test raise IndexError. *)
Theorem tests_missing_attribute_refuted : forall {T} {N : Num T} (X : list T) (XZ : list Z), let att := Z.of_nat (length X) in
  (forall c e, num_branch (mkNum att c e) X = Raise IndexError) /\ (forall c, nom_branch (mkNom att c) X = Raise IndexError)
  /\ (length XZ = length X -> forall m, multi_branch (multi_new att m) XZ = Raise IndexError).
Proof.
  intros T N X XZ att.
  assert (G : forall {A} (Y : list A), length Y = length X -> no_attribute att Y = false /\ at_index Y att = Raise IndexError).
  { intros A Y E. unfold att, no_attribute, at_index. rewrite E. destruct (Z.ltb_spec (Z.of_nat (length X)) (Z.of_nat (length X))); [lia|].
    destruct (Z.ltb_spec (Z.of_nat (length X)) 0); [lia|]. split; auto. destruct (Z.ltb_spec (Z.of_nat (length X)) 0); [lia|]. rewrite Nat2Z.id.
    replace (nth_error Y (length X)) with (@None A); auto. symmetry. apply nth_error_None. lia. }
  destruct (G T X eq_refl) as [A B]. unfold num_branch, nom_branch, multi_branch. cbn [nt_att mt_att mw_att multi_new]. rewrite A, B.
  split; [reflexivity|]. split; [reflexivity|]. intros E m. destruct (G Z XZ E) as [-> ->]. reflexivity.
Qed.
Print Assumptions tests_missing_attribute_refuted.

(** C92 refuted: two predicates that compare equal accept different instances (the value is not compared). *)
Theorem equal_predicates_differ_refuted : exists (p q : predicate Q) X, pred_eqb p q = true /\ covers p X = Ok true /\ covers q X = Ok false.
Proof. exists (mkPred 0%Z OGt 1%Q), (mkPred 0%Z OGt 3%Q), [2%Q]. vm_compute. auto. Qed.
Print Assumptions equal_predicates_differ_refuted.

(** C53 refuted: whatever happened before, recording a value raises KeyError. *)
Theorem binary_tree_observer_refuted : forall {T} {N : Num T} (h : list (option T * Z * T)) v c w,
  ctree_update (ctree_run h) (Some v) c w = Raise KeyError.
Proof.
  intros T N h v c w. assert (E : ctree_run h = CNone).
  { unfold ctree_run. induction h as [|[[[x|] l] y] h IH] using rev_ind; auto; rewrite fold_left_app, IH; reflexivity. }
  rewrite E. reflexivity.
Qed.
Print Assumptions binary_tree_observer_refuted.

(** Non-vacuity *)
Example numeric_test_example : attribute [5; 1; 2]%R 1 1%R.
Proof. split; [lia|reflexivity]. Qed.
Example multiway_example : exists t, branches_added (multi_new 0 (branch_mapping [3; 7]%Z)) [5%Z] t /\ multi_branch t [5%Z] = Ok 2%Z /\ multi_branch t [7%Z] = Ok 1%Z.
Proof.
  eexists. split; [eapply (added_one _ 5%Z [] _ _ _ [5%Z]); [split; [cbn; lia|reflexivity]|reflexivity|reflexivity|constructor]|]. split; reflexivity.
Qed.

(** C54 for floats: an instance whose value is nan goes to branch 1 although no rule covers it. *)
#[local] Existing Instance NumF.
Theorem numeric_test_nan_refuted : forall e, let t := mkNum 0%Z 1%float e in
  num_branch t [nan] = Ok 1%Z /\ covers (num_rule t 0) [nan] = Ok false /\ covers (num_rule t 1) [nan] = Ok false.
Proof. intros [|]; vm_compute; auto. Qed.
Print Assumptions numeric_test_nan_refuted.
