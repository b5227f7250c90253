(** Validation of weights and seeds. *)
From Coq Require Import List ZArith Bool Lia.
From Verif Require Import Base.Py Model.Weights.
Import ListNotations.

(** C377: check_weights with a number answers an array of as many copies of it as asked for, at least one; a list of numbers, or an array of at least one
    number, is answered unchanged if one copy is asked for, and refused with ValueError otherwise (except an array of one number); whatever holds something
    that is not a number is refused with ValueError. *)
Theorem check_weights_spec : forall T (w : value T) n,
  (forall v, w = Scalar (Number v) -> (1 <= n)%Z -> exists l, check_weights w n = Ok (Arr1 l) /\ Z.of_nat (length l) = n /\ forall i, In i l -> i = Number v)
  /\ (forall v, w = Scalar (Number v) -> (n < 1)%Z -> check_weights w n = Raise ValueError)
  /\ (forall l, w = PyList l \/ (w = Arr1 l /\ l <> []) -> (forall i, In i l -> exists v, i = Number v) -> check_weights w 1 = Ok w)
  /\ (forall l, w = PyList l \/ (w = Arr1 l /\ length l <> 1%nat) -> n <> 1%Z -> check_weights w n = Raise ValueError)
  /\ (w = Scalar Odd \/ (exists l, (w = PyList l \/ w = Arr1 l) /\ In Odd l) \/ (exists r, w = Arr2 r) -> check_weights w n = Raise ValueError).
Proof.
  intros T w n. assert (All : forall l : list (item T), (forall i, In i l -> exists v, i = Number v) -> forallb is_number l = true) by (intros l H; apply forallb_forall; intros i Hi; destruct (H i Hi) as (v & ->); reflexivity).
  assert (Bad : forall l : list (item T), In Odd l -> forallb is_number l = false) by (intros l H; apply not_true_iff_false; intros G; rewrite forallb_forall in G; discriminate (G _ H)).
  split; [|split; [|split; [|split]]].
  - intros v -> Hn. cbn. rewrite (proj2 (Z.leb_le _ _)) by lia. eexists. split; [reflexivity|]. unfold copies. rewrite repeat_length. split; [lia|]. intros i Hi. now apply repeat_spec in Hi.
  - intros v -> Hn. cbn. now rewrite (proj2 (Z.leb_gt _ _)) by lia.
  - intros l [->|[-> Hl]] H; cbn; rewrite (All l H); [reflexivity|]. destruct l as [|i [|j l]]; [congruence| |reflexivity]. destruct (H i (or_introl eq_refl)) as (v & ->). reflexivity.
  - intros l [->|[-> Hl]] Hn; cbn; rewrite (proj2 (Z.eqb_neq _ _)) by exact Hn; [destruct (forallb _ _); reflexivity|]. destruct l as [|i [|j l]]; [reflexivity|cbn in Hl; congruence|]. destruct (_ && _); [reflexivity|destruct i; reflexivity].
  - intros [->|[(l & [->| ->] & H)|(r & ->)]]; cbn; auto; rewrite (Bad l H); auto. rewrite andb_false_r. destruct l as [|i [|j l]]; auto; destruct i; auto. destruct H as [H|[]]. discriminate.
Qed.
(** C378: it is not so that a single weight is replicated into a flat array: an array of one number becomes n rows of one; nor that empty weights are treated
    alike: the empty list is accepted and the empty array refused; nor is ValueError the only exception: an array without dimensions raises IndexError. *)
Theorem check_weights_refuted : forall T (v : T),
  (forall n, (1 < n)%Z -> exists rows, check_weights (Arr1 [Number v]) n = Ok (Arr2 rows) /\ Z.of_nat (length rows) = n /\ forall r, In r rows -> r = [Number v])
  /\ check_weights (PyList (T := T) []) 1 = Ok (PyList []) /\ check_weights (Arr1 (T := T) []) 1 = Raise ValueError
  /\ check_weights (Arr0 (Number v)) 1 = Raise IndexError.
Proof.
  intros T v. split; [|auto]. intros n Hn. cbn. rewrite (proj2 (Z.eqb_neq _ _)), (proj2 (Z.ltb_lt _ _)) by lia. eexists. split; [reflexivity|]. unfold copies. rewrite repeat_length. split; [lia|]. intros r Hr. now apply repeat_spec in Hr.
Qed.

Lemma draws_fresh (h : heap) s : forall k n, fst (draws (h ++ [(s, n)]) (length h) k) = map (fun i => Some (s, i)) (seq n k).
Proof.
  induction k as [|k IH]; intros n; [reflexivity|]. cbn [draws seq map]. unfold draw. rewrite nth_error_app2, Nat.sub_diag by lia. cbn [nth_error]. rewrite firstn_app, Nat.sub_diag, firstn_all. cbn [firstn]. rewrite app_nil_r, skipn_all2 by (rewrite app_length; cbn; lia).
  specialize (IH (S n)). destruct (draws (h ++ [(s, S n)]) (length h) k). cbn in *. now rewrite IH.
Qed.
Lemma draw_other (h : heap) a b : a <> b -> nth_error (snd (draw h a)) b = nth_error h b /\ length (snd (draw h a)) = length h.
Proof.
  intros Ne. unfold draw. destruct (nth_error h a) as [[s n]|] eqn:E; [|auto]. cbn [snd]. assert (La : (a < length h)%nat) by (apply nth_error_Some; congruence). assert (Lf : length (firstn a h) = a) by (rewrite firstn_length; lia). split.
  - destruct (Nat.lt_ge_cases b a) as [H|H].
    + rewrite nth_error_app1 by lia. revert b H Ne. clear. intros b H _. revert a b H. induction h as [|x h IH]; intros [|a] [|b] H; cbn; auto; try lia. apply IH. lia.
    + rewrite nth_error_app2, Lf by lia. destruct (b - a)%nat as [|m] eqn:Em; [lia|]. cbn [nth_error]. replace b with (S a + m)%nat by lia. clear. generalize (S a). intros k. revert k. induction h as [|x h IH]; intros [|k]; cbn; auto. destruct m; reflexivity.
  - rewrite app_length, Lf. cbn [length]. rewrite skipn_length. lia.
Qed.
Lemma draws_other k : forall (h : heap) a b, a <> b -> nth_error (snd (draws h a k)) b = nth_error h b /\ length (snd (draws h a k)) = length h.
Proof.
  induction k as [|k IH]; intros h a b Ne; [auto|]. cbn [draws]. destruct (draw h a) as [x h1] eqn:E. destruct (draw_other h a b Ne) as [E1 L1]. rewrite E in E1, L1. cbn [snd] in *. destruct (IH h1 a b Ne) as [E2 L2]. destruct (draws h1 a k). cbn [snd] in *. split; congruence.
Qed.
(** C379: an integer seed gives a new generator whose draws are the same whatever was drawn before from any generator, and drawing from it changes no other;
    a generator given, and the generator of np.random for None, is answered itself, so that draws are shared with all its users. *)
Theorem random_state_spec : forall (h : heap) z, (0 <= z < 2 ^ 32)%Z ->
  exists a h', check_random_state h (IntSeed z) = Ok (a, h')
    /\ (forall b, (b < length h)%nat -> a <> b /\ nth_error h' b = nth_error h b)
    /\ (forall k, fst (draws h' a k) = map (fun i => Some (Some z, i)) (seq 0 k))
    /\ (forall k b, a <> b -> nth_error (snd (draws h' a k)) b = nth_error h' b)
    /\ (forall g, check_random_state h (Generator g) = Ok (g, h)) /\ check_random_state h NoSeed = Ok (0%nat, h) /\ check_random_state h OtherSeed = Raise ValueError.
Proof.
  intros h z Hz. exists (length h), (h ++ [(Some z, 0%nat)]). cbn [check_random_state]. rewrite (proj2 (Z.leb_le 0 z)), (proj2 (Z.ltb_lt z _)) by lia. split; [reflexivity|]. split; [intros b Hb; split; [lia|now rewrite nth_error_app1]|].
  split; [intros k; apply draws_fresh|]. split; [intros k b Ne; now apply draws_other|]. auto.
Qed.

Example weights_example : check_weights (Scalar (Number 2%Z)) 3 = Ok (Arr1 [Number 2; Number 2; Number 2]%Z) /\ check_weights (PyList [Number 1%Z; Odd]) 1 = Raise ValueError
  /\ fst (draws (snd (draws [(None, 0%nat); (Some 7%Z, 0%nat)] 1 2)) 1 1) = [Some (Some 7%Z, 2%nat)].
Proof. repeat split; reflexivity. Qed.

Print Assumptions check_weights_spec. Print Assumptions check_weights_refuted. Print Assumptions random_state_spec.
