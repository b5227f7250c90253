(** C51, C90, C91: the attribute observers for nominal attributes.  [merit] is the split criterion. *)
From Coq Require Import List ZArith QArith Bool Lia Reals Lra Sorted.
From Verif Require Import Base.Py Base.Num Base.Dict Spec.Lists Spec.ObserverSpec Spec.NominalSpec Spec.EbstSpec Model.Suggestion Model.TargetStats
  Model.NominalObs Proofs.SuggestionProofs Proofs.EbstProofs Proofs.NominalProofs.
Import ListNotations.
Local Open Scope R_scope.

Definition ordered_by_merit {A D} (a b : suggestion A D R) : Prop := merit_le (sg_merit a) (sg_merit b).

(** C51: for every history, the suggestion is the first of maximal merit among the multiway split (unless [binary_only]) and the
    binary splits on the observed values in increasing order.  The distributions handed to the criterion, and returned, are
    exactly the observed weights per class: per value for the multiway split, equal and not equal for a binary split. *)
Theorem nominal_class_best_split : forall (merit : list (list (Z * R)) -> option R) (binary_only : bool) (h : list (option Z * Z * R)),
  let P := present_cells h in
  exists classes vals, increasing_list_of (map (fun x => fst (fst x)) P) classes /\ increasing_list_of (map (fun x => snd (fst x)) P) vals
    /\ let dist (sel : Z -> bool) := class_dist classes sel P in
       let suggest (test : ntest) (l : list (list (Z * R))) := mkSug test l (merit l) in
       let multiway := suggest (Multiway (branch_mapping vals)) (map (fun v => dist (fun a => Z.eqb a v)) vals) in
       let binary v := suggest (Binary v) [dist (fun a => Z.eqb a v); dist (fun a => negb (Z.eqb a v))] in
       let candidates := (if binary_only then [] else [multiway]) ++ map binary vals in
       match no_best merit binary_only (no_run h) with
       | None => candidates = []
       | Some s => first_best ordered_by_merit candidates s
       end.
Proof.
  intros merit b h P. pose proof (no_run_ok h) as H. exists (dkeys (no_dist (no_run h))), (no_values (no_run h)).
  split; [now apply (classes_ok P)|]. split; [now apply (no_values_ok P)|]. cbv zeta. rewrite no_best_fold, (no_multiway_ok P _ H).
  match goal with |- context [fold_left keep_best ?l None] => match goal with |- context [first_best _ ?m _] => assert (E : l = m) end end.
  { f_equal. apply map_ext_in. intros v _. now rewrite (no_binary_ok P _ v H). }
  rewrite E. apply keep_first.
Qed.
Print Assumptions nominal_class_best_split.

(** C51: the two sides of a binary split add up to the class distribution, class by class. *)
Theorem nominal_binary_sides_add_up : forall (l : list (Z * Z * R)) v c,
  let w (sel : Z -> Z -> bool) := match weight_of sel l with Some w => w | None => 0 end in
  w (fun c' a => Z.eqb c' c && Z.eqb a v) + w (fun c' a => Z.eqb c' c && negb (Z.eqb a v)) = w (fun c' _ => Z.eqb c' c).
Proof.
  intros l v c w. unfold w. clear w. induction l as [|[[c' a] x] l IH]; [cbn; lra|].
  rewrite (weight_of_cons _ (c', a, x)), (weight_of_cons (fun c' a => Z.eqb c' c && negb (Z.eqb a v)) (c', a, x)), (weight_of_cons (fun c' _ => Z.eqb c' c) (c', a, x)), !weight_of_one.
  destruct (Z.eqb c' c), (Z.eqb a v); cbn [andb negb oplus]; auto;
    destruct (weight_of (fun c' a => Z.eqb c' c && Z.eqb a v) l), (weight_of (fun c' a => Z.eqb c' c && negb (Z.eqb a v)) l), (weight_of (fun c' _ => Z.eqb c' c) l); cbn in *; lra.
Qed.
Print Assumptions nominal_binary_sides_add_up.

(** C90: probabilities given a class are Laplace-smoothed observed frequencies: 0 for a class not seen; over the values seen for
    the class they add up to 1. *)
Theorem nominal_class_probability : forall (h : list (option Z * Z * R)) c, (forall x, In x h -> 0 <= snd x) ->
  let P := present_cells h in
  let w (sel : Z -> Z -> bool) := match weight_of sel P with Some w => w | None => 0 end in
  exists vs, NoDup vs /\ (forall v, In v vs <-> exists x, In (c, v, x) P)
    /\ forall a, exists p, no_probability (no_run h) a c = Ok p
       /\ (vs = [] -> p = 0)
       /\ (vs <> [] -> p = (w (fun c' a' => Z.eqb c' c && Z.eqb a' a) + 1) / (w (fun c' _ => Z.eqb c' c) + INR (length vs)))
       /\ (vs <> [] -> Rsum (map (fun v => (w (fun c' a' => Z.eqb c' c && Z.eqb a' v) + 1) / (w (fun c' _ => Z.eqb c' c) + INR (length vs))) vs) = 1).
Proof.
  intros h c NN P w. pose proof (no_run_ok h) as H. assert (NP : forall x, In x P -> 0 <= snd x).
  { intros [[c' a'] w'] Hx. unfold P, present_cells in Hx. apply in_flat_map in Hx as ([[[a|] c''] w''] & H1 & H2); [|destruct H2]. destruct H2 as [[= <- <- <-]|[]]. exact (NN _ H1). }
  destruct (no_probability_ok P (no_run h) c 0%Z H NP) as [(A & _)|(vs & W & ND & NE & V & EW & WP & SW & _)].
  - exists []. split; [constructor|]. split; [intros v; split; [intros []|intros (x & Hx); destruct (A _ Hx); reflexivity]|].
    intros a. destruct (no_probability_ok P (no_run h) c a H NP) as [(_ & E)|(vs & W & _ & NE & V & _)].
    + exists 0. split; auto. split; auto. split; congruence.
    + destruct vs as [|v vs]; [congruence|]. destruct (proj1 (V v) (or_introl eq_refl)) as (x & Hx). destruct (A _ Hx). reflexivity.
  - exists vs. split; auto. split; auto. intros a. destruct (no_probability_ok P (no_run h) c a H NP) as [(A & _)|(vs' & W' & ND' & NE' & V' & EW' & _ & _ & E)].
    + destruct vs as [|v vs]; [congruence|]. destruct (proj1 (V v) (or_introl eq_refl)) as (x & Hx). destruct (A _ Hx). reflexivity.
    + eexists. split; [exact E|]. split; [congruence|]. assert (EwW : w (fun c' _ => Z.eqb c' c) = W) by (unfold w; now rewrite EW). rewrite EwW.
      assert (EL : length vs' = length vs) by (apply Nat.le_antisymm; apply NoDup_incl_length; auto; intros v Hv; apply V || apply V'; apply V' in Hv || apply V in Hv; exact Hv).
      rewrite EL. rewrite EW' in EW. injection EW as ->. split; [reflexivity|]. intros _.
      assert (L : 0 < INR (length vs)) by (apply lt_0_INR; destruct vs; [congruence|cbn; lia]).
      assert (G : forall u, Rsum (map (fun v => (w (fun c' a' => Z.eqb c' c && Z.eqb a' v) + 1) / (W + INR (length vs))) u)
        = (Rsum (map (fun v => w (fun c' a' => Z.eqb c' c && Z.eqb a' v)) u) + INR (length u)) / (W + INR (length vs))).
      { induction u as [|x u IH]; [cbn; field; lra|]. cbn [map Rsum]. rewrite IH. cbn [length]. rewrite S_INR. field. lra. }
      rewrite G. unfold cell_is in SW. fold w in SW.
      replace (Rsum (map (fun v => w (fun c' a' => Z.eqb c' c && Z.eqb a' v)) vs)) with W by (rewrite <- SW; reflexivity). field. lra.
Qed.
Print Assumptions nominal_class_probability.

(** C91: regression: candidates and their statistics per observed value; the other side of a binary split is the rest of [pre]. *)
Theorem nominal_regression_best_split : forall I (merit : list (stat R I) -> option R) (pre : stat R I) (binary_only : bool) (h : list (option Z * (I -> R) * R)),
  let P := flat_map (fun o => match o with (Some v, y, w) => [(v, y, w)] | _ => [] end) h in
  exists vals, increasing_list_of (map (fun x => fst (fst x)) P) vals
    /\ let of_value v := stats (filter (fun o => Z.eqb (fst (fst o)) v) P) in
       let suggest (test : ntest) (l : list (stat R I)) := mkSug test l (merit l) in
       let multiway := suggest (Multiway (branch_mapping vals)) (map of_value vals) in
       let binary v := suggest (Binary v) [of_value v; minus pre (of_value v)] in
       let candidates := (if binary_only then [] else [multiway]) ++ map binary vals in
       match nr_best merit pre binary_only (nr_run h) with
       | None => candidates = []
       | Some s => first_best ordered_by_merit candidates s
       end.
Proof.
  intros I merit pre b h P. pose proof (nr_run_ok h) as H. change (present_targets h) with P in H. exists (dkeys (nr_run h)).
  split; [now apply (ntable_keys P)|]. cbv zeta. destruct H as (ND & S & E). rewrite nr_best_fold by auto. cbv zeta.
  match goal with |- context [fold_left keep_best ?l None] => match goal with |- context [first_best _ ?m _] => assert (EQ : l = m) end end.
  { assert (G : forall v, sempty (dget (nr_run h) v) = stats (filter (fun o => Z.eqb (fst (fst o)) v) P)) by (intros v; rewrite E; apply stats_at_stats).
    f_equal.
    - destruct b; auto. rewrite (map_ext _ _ G). reflexivity.
    - apply map_ext. intros v. rewrite G, s_sub_minus. reflexivity. }
  rewrite EQ. apply keep_first.
Qed.
Print Assumptions nominal_regression_best_split.

(** Branch ids of a multiway test: the k-th value in increasing order goes to branch k. *)
Theorem nominal_branch_mapping : forall vals k v, NoDup vals -> nth_error vals k = Some v -> dget (branch_mapping vals) v = Some (Z.of_nat k).
Proof.
  intros vals k v ND. unfold branch_mapping.
  assert (G : forall n, nth_error vals k = Some v -> dget (map (fun p => (snd p, Z.of_nat (fst p))) (combine (seq n (length vals)) vals)) v = Some (Z.of_nat (n + k))).
  { revert k. induction vals as [|x l IH]; intros k n H; [now destruct k|]. inversion ND as [|? ? N1 N2]; subst. cbn [length seq combine map dget fst snd]. destruct k as [|k]; cbn in H.
    - injection H as ->. rewrite Z.eqb_refl. do 2 f_equal. lia.
    - destruct (Z.eqb_spec x v) as [Hx|]; [subst; destruct N1; eapply nth_error_In; eauto|]. rewrite (IH N2 k (S n) H). do 2 f_equal. lia. }
  intros H. now rewrite (G 0%nat H).
Qed.
Print Assumptions nominal_branch_mapping.

(** Non-vacuity *)
Example nominal_example :
  let h := [(Some 2%Z, 0%Z, 1); (Some 1%Z, 1%Z, 2); (None, 1%Z, 5); (Some 2%Z, 1%Z, 1); (Some 2%Z, 0%Z, 3)]%Q in
  match no_best (fun l => Some (inject_Z (Z.of_nat (length l)))) false (no_run h) with
  | Some s => sg_dists s = [[(1%Z, 2)]; [(0%Z, 4); (1%Z, 1)]]%Q | None => False end.
Proof. vm_compute. reflexivity. Qed.
Example nominal_probability_example : no_probability (no_run [(Some 2%Z, 0%Z, 1); (Some 1%Z, 0%Z, 2); (Some 2%Z, 1%Z, 1)]%Q) 2 0 = Ok (2#5).
Proof. vm_compute. reflexivity. Qed.
