From Coq Require Import ZArith List Bool Reals Lra Lia Arith.
From Verif Require Import Base.Py Base.Num Model.Generators Spec.GeneratorSpec.
Import ListNotations.

(** *** The sample loop *)
Lemma gen_rows_app {G X T} (one : G -> X -> out (list T * Z * (G * X))) n m g x i :
  gen_rows one (n + m) g x i =
  obind (gen_rows one n g x i) (fun '(r, y, (g', x', i')) =>
  obind (gen_rows one m g' x' i') (fun '(r', y', fin) => Ret (r ++ r', y ++ y', fin))).
Proof.
  revert g x i; induction n as [|n IH]; intros g x i; cbn [gen_rows plus obind].
  - destruct (gen_rows one m g x i) as [[[r y] f]|e|]; reflexivity.
  - destruct (one g x) as [[[row y] [g1 x1]]|e|]; cbn [obind]; try reflexivity.
    rewrite IH. destruct (gen_rows one n g1 x1 (i + 1)%Z) as [[[r ys] [[g2 x2] i2]]|e|]; cbn [obind]; try reflexivity.
    destruct (gen_rows one m g2 x2 i2) as [[[r' ys'] f]|e|]; reflexivity.
Qed.

Lemma gen_rows_spec {G X T} (one : G -> X -> out (list T * Z * (G * X))) (P : X -> Prop) (Q : list T -> Z -> Prop) :
  (forall g x row y g' x', P x -> one g x = Ret (row, y, (g', x')) -> Q row y /\ P x') ->
  forall n g x i rows ys g' x' i', P x -> gen_rows one n g x i = Ret (rows, ys, (g', x', i')) ->
  Forall2 Q rows ys /\ P x' /\ length rows = n /\ length ys = n /\ i' = (i + Z.of_nat n)%Z.
Proof.
  intros Hone n; induction n as [|n IH]; intros g x i rows ys g' x' i' HP H; cbn [gen_rows] in H.
  - injection H as <- <- <- <- <-. repeat split; auto; lia.
  - destruct (one g x) as [[[row y] [g1 x1]]|e|] eqn:E1; cbn [obind] in H; try discriminate.
    destruct (gen_rows one n g1 x1 (i + 1)%Z) as [[[r yss] [[g2 x2] i2]]|e|] eqn:E2; cbn [obind] in H; try discriminate.
    injection H as <- <- <- <- <-.
    destruct (Hone _ _ _ _ _ _ HP E1) as [HQ HP1].
    destruct (IH _ _ _ _ _ _ _ _ HP1 E2) as (A & B & C & D & E).
    cbn [length]. repeat split; auto; try lia.
Qed.

Lemma next_sample_spec {G X T} (one : G -> X -> out (list T * Z * (G * X))) (P : X -> Prop) (Q : list T -> Z -> Prop) :
  (forall g x row y g' x', P x -> one g x = Ret (row, y, (g', x')) -> Q row y /\ P x') ->
  forall n s rows ys s', P (s_ext s) -> next_sample one n s = Ret (rows, ys, s') ->
  Forall2 Q rows ys /\ P (s_ext s') /\ length rows = n /\ length ys = n /\ s_idx s' = (s_idx s + Z.of_nat n)%Z /\
  last_sample s' = Some (rows, ys).
Proof.
  intros Hone n s rows ys s' HP H. unfold next_sample in H.
  destruct (gen_rows one n (s_rng s) (s_ext s) (s_idx s)) as [[[r y] [[g x] i]]|e|] eqn:E; cbn [obind] in H; try discriminate.
  injection H as <- <- <-. cbn [s_ext s_idx last_sample s_cur].
  destruct (gen_rows_spec one P Q Hone _ _ _ _ _ _ _ _ _ HP E) as (A & B & C & D & F).
  repeat (split; [assumption|]). reflexivity.
Qed.

Lemma next_sample_split {G X T} (one : G -> X -> out (list T * Z * (G * X))) n m s :
  next_sample one (n + m) s =
  obind (next_sample one n s) (fun '(r, y, s1) =>
  obind (next_sample one m s1) (fun '(r', y', s2) =>
  Ret (r ++ r', y ++ y', mk_gst (s_rng s2) (s_ext s2) (s_idx s2) (Some (r ++ r', y ++ y'))))).
Proof.
  unfold next_sample. rewrite gen_rows_app.
  destruct (gen_rows one n (s_rng s) (s_ext s) (s_idx s)) as [[[r y] [[g x] i]]|e|]; cbn [obind s_rng s_ext s_idx]; try reflexivity.
  destruct (gen_rows one m g x i) as [[[r' y'] [[g' x'] i']]|e|]; cbn [obind s_rng s_ext s_idx]; reflexivity.
Qed.

Lemma next_sample_same {G X T} (one : G -> X -> out (list T * Z * (G * X))) n s t :
  same_but_last s t -> next_sample one n s = next_sample one n t.
Proof. intros (A & B & C). unfold next_sample. now rewrite A, B, C. Qed.

Lemma same_refl {G X T} (s : gst G X T) : same_but_last s s.
Proof. repeat split. Qed.

Lemma next_0 {G X T} (one : G -> X -> out (list T * Z * (G * X))) s :
  next_sample one 0 s = Ret ([], [], mk_gst (s_rng s) (s_ext s) (s_idx s) (Some ([], []))).
Proof. reflexivity. Qed.

(** Any way of cutting a stream into batches. *)
Lemma take_batches_sum {G X T} (one : G -> X -> out (list T * Z * (G * X))) bs s :
  match take_batches one bs s, next_sample one (list_sum bs) s with
  | Ret (r, y, s1), Ret (r', y', s2) => r = r' /\ y = y' /\ same_but_last s1 s2
  | Exc e, Exc e' => e = e'
  | Loop, Loop => True
  | _, _ => False
  end.
Proof.
  revert s; induction bs as [|n bs IH]; intros s; cbn [take_batches list_sum fold_right].
  - rewrite next_0. repeat split.
  - change (fold_right Init.Nat.add 0 bs) with (list_sum bs).
    rewrite next_sample_split. destruct (next_sample one n s) as [[[r y] s1]|e|]; cbn [obind]; auto.
    specialize (IH s1). destruct (take_batches one bs s1) as [[[r' y'] s2]|e|];
      destruct (next_sample one (list_sum bs) s1) as [[[r2 y2] s3]|e2|]; cbn [obind]; try contradiction; auto.
    destruct IH as (-> & -> & A & B & C). repeat split; auto.
Qed.

Lemma take_batches_next {G X T} (one : G -> X -> out (list T * Z * (G * X))) bs s r y s' :
  take_batches one bs s = Ret (r, y, s') ->
  exists s2, next_sample one (list_sum bs) s = Ret (r, y, s2) /\ same_but_last s' s2.
Proof.
  intros H. pose proof (take_batches_sum one bs s) as K. rewrite H in K.
  destruct (next_sample one (list_sum bs) s) as [[[r2 y2] s3]|e2|]; try contradiction.
  destruct K as (<- & <- & K). eauto.
Qed.

(** *** The class loop *)
Lemma draw_class_spec {G A} (draw : G -> A * G) label balance fuel zero g a y z' g' :
  draw_class draw label balance fuel zero g = Ret (a, y, (z', g')) ->
  (exists g0, draw g0 = (a, g')) /\ y = label a /\
  (balance = true -> y = (if zero then 0 else 1)%Z /\ z' = negb zero) /\ (balance = false -> z' = zero).
Proof.
  revert g; induction fuel as [|k IH]; intros g H; cbn [draw_class] in H; [discriminate|].
  destruct (draw g) as [a0 g1] eqn:E. destruct balance; cbn [negb] in H.
  - destruct ((zero && (label a0 =? 0)%Z) || (negb zero && (label a0 =? 1)%Z)) eqn:Ec.
    + injection H as <- <- <- <-. split; [eauto|]. split; [reflexivity|]. split; [|discriminate]. intros _.
      split; [|reflexivity]. destruct zero; cbn in Ec.
      * rewrite orb_false_r in Ec. now apply Z.eqb_eq.
      * now apply Z.eqb_eq.
    + eauto.
  - injection H as <- <- <- <-. split; [eauto|]. repeat split; auto; discriminate.
Qed.

Lemma draw_class_fuel {G A} (draw : G -> A * G) label balance fuel fuel' zero g v :
  draw_class draw label balance fuel zero g = Ret v -> fuel <= fuel' ->
  draw_class draw label balance fuel' zero g = Ret v.
Proof.
  revert fuel' g; induction fuel as [|k IH]; intros fuel' g H L; cbn [draw_class] in H; [discriminate|].
  destruct fuel' as [|k']; [lia|]. cbn [draw_class]. destruct (draw g) as [a0 g1].
  destruct (negb balance); [assumption|].
  destruct ((zero && (label a0 =? 0)%Z) || (negb zero && (label a0 =? 1)%Z)); [assumption|].
  apply IH; [assumption|lia].
Qed.

Lemma bg_one_spec {G T A} (b : bgen G T A) balance fuel g x row y g' x' :
  bg_one b balance fuel g x = Ret (row, y, (g', x')) ->
  exists a z1 g0 g1, bg_draw b g0 = (a, g1) /\ bg_finish b a (bg_label b (b_fn x) a) g1 = (row, y, g') /\
    b_fn x' = b_fn x /\ b_zero x' = z1 /\
    (balance = true -> bg_label b (b_fn x) a = (if b_zero x then 0 else 1)%Z /\ z1 = negb (b_zero x)) /\
    (balance = false -> z1 = b_zero x).
Proof.
  unfold bg_one. destruct (draw_class _ _ _ _ _ _) as [[[a y0] [z' g1]]|e|] eqn:E; cbn [obind]; try discriminate.
  destruct (bg_finish b a y0 g1) as [[row' y'] g2] eqn:F. intros H. injection H as <- <- <- <-.
  destruct (draw_class_spec _ _ _ _ _ _ _ _ _ _ E) as ((g0 & D) & -> & B1 & B2).
  exists a, z', g0, g1. cbn [b_fn b_zero]. repeat split; auto; now apply B1.
Qed.

Lemma bg_one_fuel {G T A} (b : bgen G T A) balance fuel fuel' g x v :
  bg_one b balance fuel g x = Ret v -> fuel <= fuel' -> bg_one b balance fuel' g x = Ret v.
Proof.
  unfold bg_one. intros H L. destruct (draw_class _ _ _ fuel _ _) as [p|e|] eqn:E; cbn [obind] in H; try discriminate.
  now rewrite (draw_class_fuel _ _ _ _ fuel' _ _ _ E L).
Qed.

Lemma gen_rows_mono {G X T} (one one' : G -> X -> out (list T * Z * (G * X))) :
  (forall g x v, one g x = Ret v -> one' g x = Ret v) ->
  forall n g x i v, gen_rows one n g x i = Ret v -> gen_rows one' n g x i = Ret v.
Proof.
  intros Hm n; induction n as [|n IH]; intros g x i v H; cbn [gen_rows] in *; [assumption|].
  destruct (one g x) as [[[row y] [g1 x1]]|e|] eqn:E1; cbn [obind] in H; try discriminate.
  rewrite (Hm _ _ _ E1). cbn [obind].
  destruct (gen_rows one n g1 x1 (i + 1)%Z) as [w|e|] eqn:E2; cbn [obind] in H; try discriminate.
  now rewrite (IH _ _ _ _ E2).
Qed.

Lemma next_sample_fuel {G T A} (b : bgen G T A) balance fuel fuel' n s v :
  next_sample (bg_one b balance fuel) n s = Ret v -> fuel <= fuel' ->
  next_sample (bg_one b balance fuel') n s = Ret v.
Proof.
  unfold next_sample. intros H L.
  destruct (gen_rows (bg_one b balance fuel) n _ _ _) as [w|e|] eqn:E; cbn [obind] in H; try discriminate.
  erewrite (gen_rows_mono _ (bg_one b balance fuel')); [exact H| |exact E].
  intros g x u Hu. eapply bg_one_fuel; eauto.
Qed.

(** Labels alternate when the classes are balanced and the label is stored as found. *)
Lemma balanced_alternates {G T A} (b : bgen G T A) fuel :
  (forall a y g row y' g', bg_finish b a y g = (row, y', g') -> y' = y) ->
  forall n g x i rows ys fin, gen_rows (bg_one b true fuel) n g x i = Ret (rows, ys, fin) ->
  ys = alternating (if b_zero x then 0 else 1)%Z n.
Proof.
  intros Hf n; induction n as [|n IH]; intros g x i rows ys fin H; cbn [gen_rows] in H.
  - injection H as <- <- <-. reflexivity.
  - destruct (bg_one b true fuel g x) as [[[row y] [g1 x1]]|e|] eqn:E1; cbn [obind] in H; try discriminate.
    destruct (gen_rows _ n g1 x1 (i + 1)%Z) as [[[r yss] f]|e|] eqn:E2; cbn [obind] in H; try discriminate.
    injection H as <- <- <-.
    destruct (bg_one_spec _ _ _ _ _ _ _ _ _ E1) as (a & z1 & g0 & g2 & D & F & Fn & Fz & B & _).
    destruct (B eq_refl) as [B1 B2]. apply Hf in F. cbn [alternating]. f_equal.
    + rewrite F. exact B1.
    + rewrite (IH _ _ _ _ _ _ E2), Fz, B2. destruct (b_zero x); reflexivity.
Qed.

Lemma bg_fn_kept {G T A} (b : bgen G T A) balance fuel n s rows ys s' :
  next_sample (bg_one b balance fuel) n s = Ret (rows, ys, s') -> b_fn (s_ext s') = b_fn (s_ext s).
Proof.
  intros H.
  assert (K := next_sample_spec (bg_one b balance fuel) (fun x => b_fn x = b_fn (s_ext s)) (fun _ _ => True)).
  edestruct K as (_ & K2 & _); [|reflexivity|exact H|exact K2].
  intros g x row y g' x' HP E. destruct (bg_one_spec _ _ _ _ _ _ _ _ _ E) as (a & z1 & g0 & g2 & D & F & Fn & _).
  rewrite Fn, HP. auto.
Qed.

Lemma bg_fn_kept_batches {G T A} (b : bgen G T A) balance fuel bs s rows ys s' :
  take_batches (bg_one b balance fuel) bs s = Ret (rows, ys, s') -> b_fn (s_ext s') = b_fn (s_ext s).
Proof.
  intros H. destruct (take_batches_next _ _ _ _ _ _ H) as (s2 & E & (_ & -> & _)). eapply bg_fn_kept; eauto.
Qed.

(** What every sample of a balanced-loop generator satisfies. *)
Lemma bg_samples {G T A} (b : bgen G T A) balance fuel (Q : Z -> list T -> Z -> Prop) (P : Z -> Prop) :
  (forall fn g0 a g1 row y g', P fn -> bg_draw b g0 = (a, g1) -> bg_finish b a (bg_label b fn a) g1 = (row, y, g') ->
     Q fn row y) ->
  forall n s rows ys s', P (b_fn (s_ext s)) -> next_sample (bg_one b balance fuel) n s = Ret (rows, ys, s') ->
  Forall2 (Q (b_fn (s_ext s))) rows ys /\ length rows = n.
Proof.
  intros HQ n s rows ys s' HP H.
  assert (K := next_sample_spec (bg_one b balance fuel) (fun x => b_fn x = b_fn (s_ext s)) (Q (b_fn (s_ext s)))).
  edestruct K as (K1 & _ & K3 & _); [|reflexivity|exact H|split; [exact K1|exact K3]].
  intros g x row y g' x' HPx E. destruct (bg_one_spec _ _ _ _ _ _ _ _ _ E) as (a & z1 & g0 & g2 & D & F & Fn & _).
  split; [|now rewrite Fn]. rewrite <- HPx. eapply HQ; eauto. now rewrite HPx.
Qed.
