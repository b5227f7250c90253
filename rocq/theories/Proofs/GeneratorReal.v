From Coq Require Import ZArith List Bool Reals Lra Lia Arith.
From Verif Require Import Base.Py Base.Num Model.Generators Spec.GeneratorSpec Proofs.GeneratorProofs.
Import ListNotations.
Local Open Scope R_scope.

Lemma rand_ok {G} (S : Rng G R) g u g' : rng_ok S -> rng_rand S g = (u, g') -> 0 <= u < 1.
Proof. intros [H _] E. specialize (H g). now rewrite E in H. Qed.
Lemma int_ok {G} (S : Rng G R) n g u g' : rng_ok S -> (0 < n)%Z -> rng_int S n g = (u, g') -> (0 <= u < n)%Z.
Proof. intros [_ H] L E. specialize (H n g L). now rewrite E in H. Qed.

Lemma no_hit {G} (S : Rng G R) noise g h g' : rng_ok S -> noise < 1 / 100 -> noise_hit S noise g = (h, g') -> h = false.
Proof.
  intros HS Hn E. unfold noise_hit in E. destruct (rng_rand S g) as [u g1] eqn:Eu. injection E as <- <-.
  pose proof (rand_ok _ _ _ _ HS Eu). apply Rleb_false. unfold cent; cbn. lra.
Qed.

Ltac rands HS :=
  repeat match goal with
  | H : context [let '(_, _) := rng_rand ?S ?g in _] |- _ =>
      let u := fresh "u" in let g' := fresh "g" in let E := fresh "E" in
      destruct (rng_rand S g) as [u g'] eqn:E; apply (rand_ok _ _ _ _ HS) in E
  | H : context [let '(_, _) := rng_int ?S ?n ?g in _] |- _ =>
      let u := fresh "k" in let g' := fresh "g" in let E := fresh "E" in
      destruct (rng_int S n g) as [u g'] eqn:E; apply (int_ok _ _ _ _ _ HS) in E; [|lia]
  end.

Lemma fn_cases4 fn : (0 <= fn < 4)%Z -> (fn = 0 \/ fn = 1 \/ fn = 2 \/ fn = 3)%Z.
Proof. lia. Qed.
Lemma fn_cases3 fn : (0 <= fn < 3)%Z -> (fn = 0 \/ fn = 1 \/ fn = 2)%Z.
Proof. lia. Qed.

(** SEA *)
Lemma sea_one_ok {G} (S : Rng G R) noise fn g0 a g1 row y g' :
  rng_ok S -> noise < 1 / 100 -> (0 <= fn < 4)%Z ->
  bg_draw (sea S noise) g0 = (a, g1) -> bg_finish (sea S noise) a (bg_label (sea S noise) fn a) g1 = (row, y, g') ->
  sea_sample fn row y.
Proof.
  intros HS Hn Hf D F. cbn [bg_draw sea] in D. unfold sea_draw in D. rands HS. injection D as <- <-.
  cbn [bg_finish sea sea_finish] in F.
  match type of F with context [noise_hit ?a ?b ?c] => destruct (noise_hit a b c) as [h gh] eqn:En end.
  apply (no_hit _ _ _ _ _ HS Hn) in En. subst h. injection F as <- <- <-.
  exists (10 * u), (10 * u0), (10 * u1). split; [reflexivity|]. repeat (split; [lra|]).
  unfold bg_label; cbn [bg_funs sea].
  destruct (fn_cases4 _ Hf) as [-> | [-> | [-> | ->]]]; unfold Z.to_nat, Pos.to_nat; cbn;
    match goal with |- context [Rleb ?p ?q] => destruct (Rleb p q) eqn:Ec end;
    (apply Rleb_true in Ec || apply Rleb_false in Ec); split; intros; try reflexivity; exfalso; lra.
Qed.

Lemma all_hit {G} (S : Rng G R) noise g h g' : (forall g, 1 / 100 + fst (rng_rand S g) <= noise) ->
  noise_hit S noise g = (h, g') -> h = true.
Proof.
  intros HS E. unfold noise_hit in E. specialize (HS g). destruct (rng_rand S g) as [u g1] eqn:Eu. injection E as <- <-.
  apply Rleb_true. unfold cent; cbn in *. lra.
Qed.
Lemma sea_one_flipped {G} (S : Rng G R) noise fn g0 a g1 row y g' :
  rng_ok S -> (forall g, 1 / 100 + fst (rng_rand S g) <= noise) -> (0 <= fn < 4)%Z ->
  bg_draw (sea S noise) g0 = (a, g1) -> bg_finish (sea S noise) a (bg_label (sea S noise) fn a) g1 = (row, y, g') ->
  sea_flipped fn row y.
Proof.
  intros HS Hn Hf D F. cbn [bg_draw sea] in D. unfold sea_draw in D. rands HS. injection D as <- <-.
  cbn [bg_finish sea sea_finish] in F.
  match type of F with context [noise_hit ?a ?b ?c] => destruct (noise_hit a b c) as [h gh] eqn:En end.
  apply (all_hit _ _ _ _ _ Hn) in En. subst h. injection F as <- <- <-.
  exists (10 * u), (10 * u0), (10 * u1). split; [reflexivity|]. repeat (split; [lra|]).
  unfold bg_label; cbn [bg_funs sea].
  destruct (fn_cases4 _ Hf) as [-> | [-> | [-> | ->]]]; unfold Z.to_nat, Pos.to_nat; cbn;
    match goal with |- context [Rleb ?p ?q] => destruct (Rleb p q) eqn:Ec end;
    (apply Rleb_true in Ec || apply Rleb_false in Ec); split; intros; try reflexivity; exfalso; lra.
Qed.

(** STAGGER *)
Lemma stagger_one_ok {G} (S : Rng G R) fn g0 a g1 row y g' :
  rng_ok S -> (0 <= fn < 3)%Z ->
  bg_draw (stagger S) g0 = (a, g1) -> bg_finish (stagger S) a (bg_label (stagger S) fn a) g1 = (row, y, g') ->
  stagger_sample fn row y.
Proof.
  intros HS Hf D F. cbn [bg_draw stagger] in D. unfold stagger_draw in D. rands HS. injection D as <- <-.
  cbn [bg_finish stagger stagger_finish] in F. injection F as <- <- <-.
  exists k, k0, k1. split; [reflexivity|]. repeat (split; [lia|]).
  unfold bg_label; cbn [bg_funs stagger].
  destruct (fn_cases3 _ Hf) as [-> | [-> | ->]]; unfold Z.to_nat, Pos.to_nat; cbn;
    match goal with |- context [if ?c then _ else _] => destruct c eqn:Ec end;
    (split; intros; try reflexivity); exfalso; lia.
Qed.

(** Sine *)
Lemma sine_one_ok {G} (S : Rng G R) hn fn g0 a g1 row y g' :
  rng_ok S -> (0 <= fn < 4)%Z ->
  bg_draw (sine S sin PI hn) g0 = (a, g1) ->
  bg_finish (sine S sin PI hn) a (bg_label (sine S sin PI hn) fn a) g1 = (row, y, g') ->
  sine_sample hn fn row y.
Proof.
  intros HS Hf D F. cbn [bg_draw sine] in D. unfold sine_draw in D. rands HS. injection D as <- <-.
  cbn [bg_finish sine] in F. unfold sine_finish in F.
  set (lab := bg_label _ _ _) in F.
  assert (L : (sine_above fn u u0 -> lab = if sine_reversed fn then 1%Z else 0%Z) /\
              (~ sine_above fn u u0 -> lab = if sine_reversed fn then 0%Z else 1%Z)).
  { unfold lab, bg_label; cbn [bg_funs sine].
    destruct (fn_cases4 _ Hf) as [-> | [-> | [-> | ->]]]; unfold Z.to_nat, Pos.to_nat; cbn; unfold wave, half; cbn;
    match goal with |- context [if ?f ?p ?q then _ else _] => destruct (f p q) eqn:Ec end;
    (apply Rleb_true in Ec || apply Rleb_false in Ec || apply Rltb_true in Ec || apply Rltb_false in Ec);
    split; intros K; try reflexivity; exfalso; lra. }
  destruct hn.
  - rands HS. injection F as <- <- <-. exists u, u0, [u1; u2].
    split; [reflexivity|]. split; [reflexivity|]. split; [|exact L].
    repeat (apply Forall_cons; [lra|]). apply Forall_nil.
  - injection F as <- <- <-. exists u, u0, [].
    split; [reflexivity|]. split; [reflexivity|]. split; [|exact L].
    repeat (apply Forall_cons; [lra|]). apply Forall_nil.
Qed.

(** Mixed *)
Lemma mixed_test_ok v w x y :
  mixed_test sin PI (v, w, x, y) = true <-> mixed_positive v w x y.
Proof.
  unfold mixed_test, mixed_positive, wave, half. cbn.
  set (t := 1 / 2 + 3 / 10 * sin (3 * PI * x)).
  replace (5 / 10 + 3 / 10 * sin (3 * PI * x)) with t by (unfold t; lra).
  destruct (Rltb y t) eqn:E; [apply Rltb_true in E|apply Rltb_false in E];
    destruct (Z.eqb_spec v 1), (Z.eqb_spec w 1); cbn; split; intros H; try reflexivity; try discriminate; try tauto;
    exfalso; destruct H as [[? ?]|[[? ?]|[? ?]]]; try lia; lra.
Qed.
Lemma mixed_one_ok {G} (S : Rng G R) fn g0 a g1 row y g' :
  rng_ok S -> (0 <= fn < 2)%Z ->
  bg_draw (mixed S sin PI) g0 = (a, g1) ->
  bg_finish (mixed S sin PI) a (bg_label (mixed S sin PI) fn a) g1 = (row, y, g') ->
  mixed_sample fn row y.
Proof.
  intros HS Hf D F. cbn [bg_draw mixed] in D. unfold mixed_draw in D. rands HS.
  set (v := if (u <? half)%num then 0%Z else 1%Z) in D. set (w := if (u0 <? half)%num then 0%Z else 1%Z) in D.
  assert (Hv : (v = 0 \/ v = 1)%Z) by (unfold v; destruct (u <? half)%num; auto).
  assert (Hw : (w = 0 \/ w = 1)%Z) by (unfold w; destruct (u0 <? half)%num; auto).
  clearbody v w. injection D as <- <-.
  cbn [bg_finish mixed mixed_finish] in F. injection F as <- <- <-. exists v, w, u1, u2. split; [reflexivity|].
  split; [assumption|]. split; [assumption|]. split; [lra|]. split; [lra|].
  unfold bg_label; cbn [bg_funs mixed]; unfold mixed_funs.
  pose proof (mixed_test_ok v w u1 u2) as M.
  assert (C : fn = 0%Z \/ fn = 1%Z) by lia.
  destruct C as [-> | ->]; cbv [Z.to_nat Pos.to_nat Pos.iter_op nth Nat.add];
    destruct (mixed_test sin PI (v, w, u1, u2)); split; intros K; try reflexivity; exfalso.
  - apply K, M. reflexivity.
  - apply M in K. discriminate.
  - apply K, M. reflexivity.
  - apply M in K. discriminate.
Qed.
