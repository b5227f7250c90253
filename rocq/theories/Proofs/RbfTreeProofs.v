(** Lemmas about the RBF and random tree generators, over the reals. *)
From Coq Require Import ZArith List Bool Reals Lra Lia Arith.
From Verif Require Import Base.Py Base.Num Model.DataStream Model.Generators Model.GenStreams Spec.GeneratorSpec
  Spec.GenStreamSpec Proofs.GeneratorProofs Proofs.GeneratorReal Proofs.LedHyperProofs Proofs.GenStreamProofs.
Import ListNotations.
Local Open Scope R_scope.

(** *** Loops *)
Lemma next0_spec {G X T} (one : G -> X -> out (list T * Z * (G * X))) (P : X -> Prop) (Q : list T -> Z -> Prop) :
  (forall g x row y g' x', P x -> one g x = Ret (row, y, (g', x')) -> Q row y /\ P x') ->
  forall n s rows ys s', P (s_ext s) -> next_sample0 one n s = Ret (rows, ys, s') ->
  Forall2 Q rows ys /\ P (s_ext s') /\ length rows = n /\ length ys = n.
Proof.
  intros H n s rows ys s' HP E. unfold next_sample0 in E.
  destruct (next_sample one n s) as [[[r y] s1]| |] eqn:E1; cbn [obind] in E; try discriminate.
  injection E as <- <- <-. destruct (next_sample_spec one P Q H n s r y s1 HP E1) as (A & B & C & D & _). auto.
Qed.
Lemma take0_spec {G X T} (one : G -> X -> out (list T * Z * (G * X))) (P : X -> Prop) (Q : list T -> Z -> Prop) :
  (forall g x row y g' x', P x -> one g x = Ret (row, y, (g', x')) -> Q row y /\ P x') ->
  forall bs s rows ys s', P (s_ext s) -> take0 one bs s = Ret (rows, ys, s') ->
  Forall2 Q rows ys /\ P (s_ext s') /\ length rows = list_sum bs.
Proof.
  intros H bs; induction bs as [|n bs IH]; intros s rows ys s' HP E; cbn [take0] in E.
  - injection E as <- <- <-. repeat split; auto.
  - destruct (next_sample0 one n s) as [[[r y] s1]| |] eqn:E1; try discriminate.
    destruct (take0 one bs s1) as [[[r2 y2] s2]| |] eqn:E2; try discriminate. injection E as <- <- <-.
    destruct (next0_spec one P Q H _ _ _ _ _ HP E1) as (A & B & C & _).
    destruct (IH _ _ _ _ B E2) as (A' & B' & C'). split; [now apply Forall2_app|]. split; [exact B'|].
    rewrite app_length, C, C'. reflexivity.
Qed.
Lemma next0_total {G X T} (one : G -> X -> out (list T * Z * (G * X))) (P : X -> Prop) :
  (forall g x, P x -> exists row y g' x', one g x = Ret (row, y, (g', x')) /\ P x') ->
  forall n s, P (s_ext s) -> exists rows ys s', next_sample0 one n s = Ret (rows, ys, s').
Proof.
  intros H n s HP. unfold next_sample0, next_sample.
  assert (K : forall n g x i, P x -> exists rows ys fin, gen_rows one n g x i = Ret (rows, ys, fin)).
  { clear -H. induction n as [|n IH]; intros g x i HP; cbn [gen_rows]; [eauto|].
    destruct (H g x HP) as (row & y & g' & x' & -> & HP'). cbn [obind].
    destruct (IH g' x' (i + 1)%Z HP') as (rows & ys & fin & ->). cbn [obind]. eauto. }
  destruct (K n (s_rng s) (s_ext s) (s_idx s) HP) as (rows & ys & [[g x] i] & ->). cbn [obind]. eauto.
Qed.

(** *** random_index_based_on_weights *)
Lemma fold_left_total l a : fold_left nadd l a = a + Rtotal l.
Proof. revert a; induction l as [|x l IH]; intros a; cbn [fold_left Rtotal]; [lra|]. rewrite IH. cbn [nadd NumR]. ring. Qed.
Lemma Rtotal_nonneg l : Forall (fun w => 0 <= w) l -> 0 <= Rtotal l.
Proof. induction 1; cbn; lra. Qed.

Lemma weight_loop_spec ws : Forall (fun w => 0 <= w) ws -> forall sum val, sum <= val < sum + Rtotal ws ->
  exists i, weight_loop ws sum val = (Z.of_nat i + 1)%Z /\ (i < length ws)%nat /\
    sum + Rtotal (firstn i ws) <= val < sum + Rtotal (firstn (S i) ws).
Proof.
  induction 1 as [|w ws Hw HF IH]; intros sum val Hv; cbn [Rtotal] in Hv; [lra|].
  cbn [weight_loop]. cbn [nleb nadd NumR]. replace (Rleb sum val) with true by (symmetry; apply Rleb_true; lra).
  destruct (Rle_or_lt (sum + w) val) as [L|L].
  -  destruct (IH (sum + w) val) as (i & E & Hi & A); [lra|].
    exists (S i). rewrite E. split; [lia|]. split; [cbn; lia|]. change (firstn (S (S i)) (w :: ws)) with (w :: firstn (S i) ws).
    change (firstn (S i) (w :: ws)) with (w :: firstn i ws). cbn [Rtotal]. lra.
  - exists 0%nat. split; [|split; [cbn; lia|cbn; lra]].
    destruct ws as [|w' ws]; [reflexivity|]. cbn [weight_loop nleb nadd NumR].
    replace (Rleb (sum + w) val) with false by (symmetry; apply Rleb_false; lra). reflexivity.
Qed.

Lemma pyget_ok {A} (l : list A) i : (i < length l)%nat -> exists c, pyget l (Z.of_nat i) = Ok c /\ nth_error l i = Some c.
Proof.
  intros Hi. unfold pyget. replace (Z.of_nat i <? 0)%Z with false by (symmetry; apply Z.ltb_ge; lia). cbv zeta.
  replace (Z.of_nat i <? 0)%Z with false by (symmetry; apply Z.ltb_ge; lia). rewrite Nat2Z.id.
  destruct (nth_error l i) eqn:E; [eauto|]. apply nth_error_None in E. lia.
Qed.

(** *** Norms *)
Lemma Rtotal_scale l k : Rtotal (map (fun x => (x * k) * (x * k)) l) = (k * k) * Rtotal (map (fun x => x * x) l).
Proof. induction l as [|x l IH]; cbn [map Rtotal]; [ring|]. rewrite IH. ring. Qed.
Lemma Rtotal_sq_nonneg l : 0 <= Rtotal (map (fun x => x * x) l).
Proof. apply Rtotal_nonneg. apply Forall_forall. intros y Hy. apply in_map_iff in Hy. destruct Hy as (x & <- & _). nra. Qed.
Lemma norm2_scale l k : norm2 (map (fun x => x * k) l) = Rabs k * norm2 l.
Proof.
  unfold norm2. rewrite map_map. rewrite Rtotal_scale. rewrite sqrt_mult; [|nra|apply Rtotal_sq_nonneg].
  f_equal. exact (sqrt_Rsqr_abs k).
Qed.
Lemma norm2_pos l : (exists x, In x l /\ x <> 0) -> 0 < norm2 l.
Proof.
  intros (x & Hx & Nz). unfold norm2. apply sqrt_lt_R0. induction l as [|y l IH]; [destruct Hx|].
  cbn [map Rtotal]. pose proof (Rtotal_sq_nonneg l). destruct Hx as [->|Hx].
  - nra.
  - specialize (IH Hx). nra.
Qed.
Lemma vsub_offset c vs k : length c = length vs ->
  vsub (map (fun p => fst p + snd p * k) (combine c vs)) c = map (fun v => v * k) vs.
Proof.
  revert vs; induction c as [|a c IH]; intros [|v vs] HL; cbn in *; try discriminate; [reflexivity|].
  unfold vsub in *. cbn. f_equal; [ring|]. apply IH. lia.
Qed.

Lemma offsets_ok {G} (S : Rng G R) n g vs g' : rng_ok S -> offsets S n g = (vs, g') ->
  length vs = n /\ Forall (fun v => -1 <= v < 1) vs /\
  ((0 < n)%nat -> (forall g, fst (rng_rand S g) <> 1 / 2) -> exists x, In x vs /\ x <> 0).
Proof.
  intros HS. revert g vs g'. induction n as [|n IH]; intros g vs g' E; cbn [offsets] in E.
  - injection E as <- <-. repeat split; auto. intros K; lia.
  - destruct (rng_rand S g) as [u g1] eqn:Eu. destruct (offsets S n g1) as [us g2] eqn:Eo. injection E as <- <-.
    destruct (IH _ _ _ Eo) as (A & B & C). pose proof (rand_ok _ _ _ _ HS Eu) as Hu. split; [cbn; lia|]. split.
    + constructor; [cbn; lra|exact B].
    + intros _ Hh. exists (u * 2 - 1). split; [now left|]. specialize (Hh g). rewrite Eu in Hh. cbn in Hh. lra.
Qed.

(** The model's magnitude is the norm. *)
Lemma magnitude_norm vs : nsqrt (fold_left nadd (map (fun v => (v * v)%num) vs) (nofZ 0)) = norm2 vs.
Proof. rewrite fold_left_total. unfold norm2. cbn [nofZ nsqrt NumR nmul]. now rewrite Rplus_0_l. Qed.

Definition cents_ok (nf : nat) (n_classes : Z) (cs : list (centroid R)) : Prop :=
  Forall (fun c => length (ce_centre c) = nf /\ Forall (fun v => 0 <= v <= 1) (ce_centre c) /\
                   (0 <= ce_label c < n_classes)%Z /\ 0 <= ce_std c < 1) cs.

Lemma gen_centroids_ok {G} (S : Rng G R) n nf k g cs ws g' : rng_ok S -> (0 < k)%Z ->
  gen_centroids S n nf k g = (cs, ws, g') ->
  length cs = n /\ length ws = n /\ cents_ok nf k cs /\ Forall (fun w => 0 <= w < 1) ws.
Proof.
  intros HS Hk. revert g cs ws g'. induction n as [|n IH]; intros g cs ws g' E; cbn [gen_centroids] in E.
  - injection E as <- <- <-. repeat split; constructor.
  - destruct (rands S nf g) as [c g1] eqn:E1. destruct (rng_int S k g1) as [l g2] eqn:E2.
    destruct (rng_rand S g2) as [sd g3] eqn:E3. destruct (rng_rand S g3) as [w g4] eqn:E4.
    destruct (gen_centroids S n nf k g4) as [[cs1 ws1] g5] eqn:E5. injection E as <- <- <-.
    destruct (IH _ _ _ _ E5) as (A & B & C & D). destruct (rands_ok _ _ _ _ _ HS E1) as [R1 R2].
    apply (int_ok _ _ _ _ _ HS) in E2; [|exact Hk]. apply (rand_ok _ _ _ _ HS) in E3. apply (rand_ok _ _ _ _ HS) in E4.
    repeat split; try (cbn; lia).
    + constructor; [|exact C]. cbn. repeat split; try assumption; try lia; try lra.
      eapply Forall_impl; [|exact R2]. intros; cbn in *; lra.
    + constructor; [lra|exact D].
Qed.

(** One RBF sample. *)
Lemma rbf_one_ok {G} (S : Rng G R) nf k g x : rng_ok S -> (0 < nf)%nat -> (forall g, fst (rng_rand S g) <> 1 / 2) ->
  cents_ok nf k (r_cents x) -> Forall (fun w => 0 <= w) (r_weights x) -> 0 < Rtotal (r_weights x) ->
  length (r_weights x) = length (r_cents x) ->
  exists row y g' i c u z, rbf_one S nf g x = Ret (row, y, (g', x)) /\ nth_error (r_cents x) i = Some c /\
    u = fst (rng_rand S g) /\ Rtotal (firstn i (r_weights x)) <= u * Rtotal (r_weights x) < Rtotal (firstn (Datatypes.S i) (r_weights x)) /\
    y = ce_label c /\ length row = nf /\ (exists g0, z = fst (rng_normal S g0)) /\
    norm2 (vsub row (ce_centre c)) = Rabs z * ce_std c.
Proof.
  intros HS Hnf Hh HC HW HT HL. unfold rbf_one, random_index.
  destruct (rng_rand S g) as [u g1] eqn:Eu. pose proof (rand_ok _ _ _ _ HS Eu) as Hu. cbv zeta. rewrite fold_left_total.
  cbn [nofZ NumR nmul]. rewrite Rplus_0_l.
  destruct (weight_loop_spec (r_weights x) HW 0 (u * Rtotal (r_weights x))) as (i & E & Hi & K); [nra|].
  rewrite E. replace (Z.of_nat i + 1 - 1)%Z with (Z.of_nat i) by lia.
  destruct (pyget_ok (r_cents x) i) as (c & -> & Ec); [lia|].
  destruct (offsets S nf g1) as [vs g2] eqn:Eo. destruct (offsets_ok _ _ _ _ _ HS Eo) as (L & _ & NZ).
  rewrite magnitude_norm. destruct (rng_normal S g2) as [z g3] eqn:Ez.
  do 7 eexists. split; [reflexivity|]. split; [exact Ec|]. split; [reflexivity|].
  cbn [fst] in *. split; [lra|]. split; [reflexivity|].
  pose proof (proj1 (Forall_forall _ _) HC c (nth_error_In _ _ Ec)) as (C1 & _ & _ & C4).
  split; [rewrite map_length, combine_length, C1, L; apply Nat.min_id|].
  split; [exists g2; now rewrite Ez|]. cbn [fst snd nadd nmul ndiv NumR].
  rewrite (vsub_offset (ce_centre c) vs (z * ce_std c / norm2 vs)) by congruence.
  rewrite norm2_scale. pose proof (norm2_pos vs (NZ Hnf Hh)) as P.
  unfold Rdiv. rewrite !Rabs_mult, (Rabs_pos_eq (ce_std c)) by lra. rewrite Rabs_inv, (Rabs_pos_eq (norm2 vs)) by lra.
  rewrite Rmult_assoc, Rinv_l by lra. ring.
Qed.

(** *** Moving centroids *)
Lemma move_coord_ok speed c s : 0 <= c <= 1 ->
  let r := move_coord speed c s in 0 <= fst r <= 1 /\ Rabs (fst r - c) <= Rabs (s * speed) /\ Rabs (snd r) = Rabs s /\
    (0 <= c + s * speed <= 1 -> fst r = c + s * speed /\ snd r = s).
Proof.
  intros Hc. unfold move_coord. cbn [nadd nmul nltb nofZ nsub NumR]. cbv zeta.
  destruct (Rltb 1 (c + s * speed)) eqn:E1; cbn [orb].
  - apply Rltb_true in E1. cbn [fst snd]. repeat split; try lra.
    + rewrite !Rabs_pos_eq by lra. lra.
    + replace (0 - s) with (- s) by ring. apply Rabs_Ropp.
  - apply Rltb_false in E1. destruct (Rltb (c + s * speed) 0) eqn:E2; cbn [fst snd].
    + apply Rltb_true in E2. repeat split; try lra.
      * rewrite (Rabs_left1 (0 - c)), (Rabs_left (s * speed)) by lra. lra.
      * replace (0 - s) with (- s) by ring. apply Rabs_Ropp.
    + apply Rltb_false in E2. repeat split; try lra. replace (c + s * speed - c) with (s * speed) by ring. lra.
Qed.

Lemma sq_le a b : Rabs a <= Rabs b -> a * a <= b * b.
Proof. intros H. pose proof (Rsqr_le_abs_1 a b H) as K. unfold Rsqr in K. exact K. Qed.
Lemma sq_eq a b : Rabs a = Rabs b -> a * a = b * b.
Proof. intros H. pose proof (Rsqr_eq_asb_1 a b H) as K. unfold Rsqr in K. exact K. Qed.

Lemma move_centre_ok speed c s c' s' : length c = length s -> Forall (fun v => 0 <= v <= 1) c ->
  move_centre speed c s = (c', s') ->
  length c' = length c /\ length s' = length s /\ Forall (fun v => 0 <= v <= 1) c' /\
  Rtotal (map (fun x => x * x) (vsub c' c)) <= (speed * speed) * Rtotal (map (fun x => x * x) s) /\
  Rtotal (map (fun x => x * x) s') = Rtotal (map (fun x => x * x) s).
Proof.
  unfold move_centre. revert s c' s'. induction c as [|a c IH]; intros [|b s] c' s' HL HF E; cbn in HL; try discriminate.
  - cbn in E. injection E as <- <-. cbn. repeat split; auto; lra.
  - inversion HF as [|? ? Ha HF']; subst. cbn [combine map split fst snd] in E.
    pose proof (move_coord_ok speed a b Ha) as K. cbv zeta in K. destruct (move_coord speed a b) as [a' b'] eqn:Em. cbn [fst snd] in K.
    destruct (List.split (map (fun p : R * R => move_coord speed (fst p) (snd p)) (combine c s))) as [c2 s2] eqn:Es.
    cbn [List.split] in E. rewrite Es in E. injection E as <- <-. destruct (IH s c2 s2) as (A & B & C & D & F); [lia|exact HF'|exact Es|].
    destruct K as (K1 & K2 & K3 & _). repeat split; try (cbn; lia).
    + now constructor.
    + change (vsub (a' :: c2) (a :: c)) with ((a' - a) :: vsub c2 c). cbn [map Rtotal].
      pose proof (sq_le _ _ K2). nra.
    + cbn [map Rtotal].
      rewrite F. f_equal. now apply sq_eq.
Qed.

(** What one step does to the centroids: within [0,1]; the first [length sp] move by at most |speed|, their labels and
    deviations stay; the others stay. *)
Lemma move_all_ok speed nf k cs sp cs' sp' : cents_ok nf k cs -> (length sp <= length cs)%nat ->
  Forall (fun s => length s = nf /\ Rtotal (map (fun x => x * x) s) = 1) sp ->
  move_all speed cs sp = (cs', sp') ->
  cents_ok nf k cs' /\ length cs' = length cs /\ length sp' = length sp /\
  Forall (fun s => length s = nf /\ Rtotal (map (fun x => x * x) s) = 1) sp' /\
  Forall2 (fun c c' => ce_label c' = ce_label c /\ ce_std c' = ce_std c /\ norm2 (vsub (ce_centre c') (ce_centre c)) <= Rabs speed)
    (firstn (length sp) cs) (firstn (length sp) cs') /\
  skipn (length sp) cs' = skipn (length sp) cs.
Proof.
  revert sp cs' sp'. induction cs as [|c cs IH]; intros [|s sp] cs' sp' HC HL HS E; cbn [move_all] in E.
  - injection E as <- <-. repeat split; auto. constructor.
  - cbn in HL; lia.
  - injection E as <- <-. repeat split; auto. constructor.
  - inversion HC as [|? ? (C1 & C2 & C3 & C4) HC']; subst. inversion HS as [|? ? (S1 & S2) HS']; subst.
    destruct (move_centre speed (ce_centre c) s) as [ctr s'] eqn:Em.
    destruct (move_all speed cs sp) as [cs2 sp2] eqn:Ea. injection E as <- <-.
    destruct (move_centre_ok speed _ _ _ _ (eq_sym S1) C2 Em) as (M1 & M2 & M3 & M4 & M5).
    destruct (IH sp cs2 sp2 HC' ltac:(cbn in HL; lia) HS' Ea) as (A & B & B2 & D & F & K).
    split. { constructor; [cbn; repeat split; auto; try lia; try lra; congruence|exact A]. }
    split; [cbn; lia|]. split; [cbn; lia|].
    split. { constructor; [split; [congruence|now rewrite M5]|exact D]. }
    split; [|exact K]. cbn [length firstn]. constructor; [|exact F]. cbn. repeat split; auto.
    unfold norm2. rewrite <- (sqrt_Rsqr_abs speed). apply sqrt_le_1_alt. unfold Rsqr. rewrite S2 in M4. unfold vsub in M4. lra.
Qed.

Lemma gen_speeds_ok {G} (S : Rng G R) n nf g sp g' : rng_ok S -> (forall g, fst (rng_rand S g) <> 0) -> (0 < nf)%nat ->
  gen_speeds S n nf g = (sp, g') -> length sp = n /\ Forall (fun s => length s = nf /\ Rtotal (map (fun x => x * x) s) = 1) sp.
Proof.
  intros HS Hz Hnf. revert g sp g'. induction n as [|n IH]; intros g sp g' E; cbn [gen_speeds] in E.
  - injection E as <- <-. repeat split; constructor.
  - destruct (rands S nf g) as [v g1] eqn:E1. cbv zeta in E. rewrite magnitude_norm in E.
    destruct (gen_speeds S n nf g1) as [vs g2] eqn:E2. injection E as <- <-. destruct (IH _ _ _ E2) as [A B].
    split; [cbn; lia|]. constructor; [|exact B]. destruct (rands_ok _ _ _ _ _ HS E1) as [L F].
    split; [now rewrite map_length|].
    assert (NZ : exists x, In x v /\ x <> 0).
    { destruct nf as [|m]; [lia|]. cbn [rands] in E1. destruct (rng_rand S g) as [u g3] eqn:Eu. destruct (rands S m g3) as [us g4].
      injection E1 as <- <-. exists u. split; [now left|]. specialize (Hz g). now rewrite Eu in Hz. }
    pose proof (norm2_pos v NZ) as P.
    rewrite map_map. cbn [ndiv NumR]. unfold Rdiv. rewrite Rtotal_scale.
    replace (Rtotal (map (fun x => x * x) v)) with (norm2 v * norm2 v); [field; lra|].
    unfold norm2. apply sqrt_sqrt. apply Rtotal_sq_nonneg.
Qed.

(** *** Random trees *)
Lemma remove_app_notin a l1 l2 : ~ In a l1 -> remove Nat.eq_dec a (l1 ++ l2) = l1 ++ remove Nat.eq_dec a l2.
Proof. intros H. rewrite remove_app. now rewrite notin_remove. Qed.

Lemma grow_ok {G T} (f : G -> res (rtree T * G)) (P : rtree T -> Prop) n :
  (forall g t g', f g = Ok (t, g') -> P t) -> forall g cs g', grow f n g = Ok (cs, g') -> length cs = n /\ forall c, In c cs -> P c.
Proof.
  intros H. induction n as [|n IH]; intros g cs g' E; cbn [grow] in E.
  - injection E as <- <-. split; [reflexivity|intros c []].
  - destruct (f g) as [[c g1]|] eqn:E1; [|discriminate E]. cbn [bind] in E.
    destruct (grow f n g1) as [[cs1 g2]|] eqn:E2; [|discriminate E]. cbn [bind] in E. injection E as <- <-.
    destruct (IH _ _ _ E2) as [A B]. split; [cbn; lia|]. intros c' [<-|Hc]; eauto.
Qed.

Lemma nth_seq_app n noms k : nth k (seq 0 n ++ noms) 0%nat = if (k <? n)%nat then k else nth (k - n) noms 0%nat.
Proof.
  destruct (Nat.ltb_spec k n).
  - rewrite app_nth1 by (now rewrite seq_length). rewrite seq_nth by lia. reflexivity.
  - rewrite app_nth2 by (now rewrite seq_length). now rewrite seq_length.
Qed.

Lemma nominal_step n noms k : (n <= k < n + length noms)%nat -> Forall (fun a => (n <= a)%nat) noms ->
  let att := nth k (seq 0 n ++ noms) 0%nat in
  In att noms /\ (n <= att)%nat /\ remove Nat.eq_dec att (seq 0 n ++ noms) = seq 0 n ++ remove Nat.eq_dec att noms.
Proof.
  intros Hk HF att. assert (I : In att noms).
  { unfold att. rewrite nth_seq_app. replace (k <? n)%nat with false by (symmetry; apply Nat.ltb_ge; lia). apply nth_In. lia. }
  pose proof (proj1 (Forall_forall _ _) HF att I) as Ha. cbn beta in Ha. repeat split; auto.
  apply remove_app_notin. intros K. apply in_seq in K. lia.
Qed.

Lemma remove_Forall (P : nat -> Prop) a l : Forall P l -> Forall P (remove Nat.eq_dec a l).
Proof. induction 1; cbn; [constructor|]. destruct (Nat.eq_dec a x); auto. Qed.

Lemma gen_tree_ok {G} (S : Rng G R) k n_num n_cats min_leaf frac dmax : rng_ok S -> (0 < k)%Z ->
  forall rem depth noms mins maxs g t g', (depth + rem = dmax)%nat -> Forall (fun a => (n_num <= a)%nat) noms ->
  length mins = n_num -> length maxs = n_num -> (forall i, nth i mins 0 <= nth i maxs 0) ->
  gen_tree S k n_num n_cats min_leaf frac rem depth (seq 0 n_num ++ noms) mins maxs g = Ok (t, g') ->
  tree_ok k n_num n_cats (Nat.min min_leaf dmax) dmax depth mins maxs noms t.
Proof.
  intros HS Hk rem. induction rem as [|rem IH]; intros depth noms mins maxs g t g' HD HN L1 L2 HB E; cbn [gen_tree] in E.
  - destruct (rng_int S k g) as [l g1] eqn:E1. injection E as <- <-. apply (int_ok _ _ _ _ _ HS) in E1; [|exact Hk].
    constructor; [exact E1|lia].
  - cbv zeta in E.
    destruct (if (min_leaf <=? depth)%nat then let '(u, g1) := rng_rand S g in ((nofZ 1 - u <=? frac)%num, g1) else (false, g))
      as [stop g1] eqn:Es.
    assert (Hs : stop = true -> (min_leaf <= depth)%nat).
    { intros ->. destruct (Nat.leb_spec min_leaf depth); [assumption|discriminate Es]. }
    destruct stop.
    { destruct (rng_int S k g1) as [l g2] eqn:E1. injection E as <- <-. apply (int_ok _ _ _ _ _ HS) in E1; [|exact Hk].
      constructor; [exact E1|]. specialize (Hs eq_refl). lia. }
    set (cands := seq 0 n_num ++ noms) in *. destruct (Nat.eqb_spec (length cands) 0) as [|Hc]; [discriminate E|].
    destruct (rng_int S (Z.of_nat (length cands)) g1) as [z g2] eqn:Ez. apply (int_ok _ _ _ _ _ HS) in Ez; [|lia].
    set (c := Z.to_nat z) in *. assert (Lc : (c < n_num + length noms)%nat).
    { unfold c. unfold cands in Ez. rewrite app_length, seq_length in Ez. lia. }
    destruct (Nat.ltb_spec c n_num) as [Hn|Hn].
    + destruct (rng_rand S g2) as [u g3] eqn:Eu. pose proof (rand_ok _ _ _ _ HS Eu) as Hu.
      cbn [nadd nsub nmul nofZ NumR] in E. set (lo := nth c mins 0) in *. set (hi := nth c maxs 0) in *.
      pose proof (HB c) as Hlh. fold lo hi in Hlh. set (v := (hi - lo) * u + lo) in *.
      assert (Hv : lo <= v <= hi) by (unfold v; nra).
      destruct (gen_tree S k n_num n_cats min_leaf frac rem (Datatypes.S depth) cands mins (set_at maxs c v) g3) as [[t1 g4]|] eqn:E1; [|discriminate E].
      cbn [bind] in E.
      destruct (gen_tree S k n_num n_cats min_leaf frac rem (Datatypes.S depth) cands (set_at mins c v) maxs g4) as [[t2 g5]|] eqn:E2; [|discriminate E].
      cbn [bind] in E. injection E as <- <-. constructor; auto.
      * eapply IH; [lia|exact HN|exact L1|now rewrite set_at_length| |exact E1].
        intros i. rewrite set_at_nth by lia. destruct (Nat.eqb_spec i c) as [->|]; [fold lo; lra|apply HB].
      * eapply IH; [lia|exact HN|now rewrite set_at_length|exact L2| |exact E2].
        intros i. rewrite set_at_nth by lia. destruct (Nat.eqb_spec i c) as [->|]; [fold hi; lra|apply HB].
    + destruct (nominal_step n_num noms c) as (A1 & A2 & A3); [lia|exact HN|]. fold cands in A1, A2, A3.
      set (att := nth c cands 0%nat) in *. rewrite A3 in E.
      destruct (grow _ n_cats g2) as [[cs g3]|] eqn:Eg in E; [|discriminate E]. cbn [bind] in E. injection E as <- <-.
      apply (grow_ok _ (tree_ok k n_num n_cats (Nat.min min_leaf dmax) dmax (Datatypes.S depth) mins maxs (remove Nat.eq_dec att noms))) in Eg.
      * destruct Eg as [E1 E2]. constructor; auto.
      * intros g0 t0 g0' E0. eapply IH; [lia|now apply remove_Forall|exact L1|exact L2|exact HB|exact E0].
Qed.

(** Construction returns when there is a numeric attribute or enough nominal ones. *)
Lemma grow_total {G T} (f : G -> res (rtree T * G)) n : (forall g, exists t g', f g = Ok (t, g')) ->
  forall g, exists cs g', grow f n g = Ok (cs, g').
Proof.
  intros H. induction n as [|n IH]; intros g; cbn [grow]; [eauto|].
  destruct (H g) as (t & g1 & ->). cbn [bind]. destruct (IH g1) as (cs & g2 & ->). cbn [bind]. eauto.
Qed.
Lemma remove_length1 a l : NoDup l -> In a l -> length l = S (length (remove Nat.eq_dec a l)).
Proof.
  induction 1 as [|x l Hx HN IH]; intros I; [destruct I|]. cbn [remove length]. destruct (Nat.eq_dec a x) as [->|N].
  - f_equal. now rewrite notin_remove.
  - destruct I as [->|I]; [congruence|]. cbn [length]. f_equal. auto.
Qed.
Lemma remove_NoDup a l : NoDup l -> NoDup (remove Nat.eq_dec a l).
Proof.
  induction 1 as [|x l Hx HN IH]; cbn; [constructor|]. destruct (Nat.eq_dec a x); [exact IH|].
  constructor; [|exact IH]. intros K. apply in_remove in K. now destruct K.
Qed.
Lemma gen_tree_total {G} (S : Rng G R) k n_num n_cats min_leaf frac : rng_ok S ->
  forall rem depth noms mins maxs g, Forall (fun a => (n_num <= a)%nat) noms -> NoDup noms ->
  (0 < n_num)%nat \/ (rem <= length noms)%nat ->
  exists t g', gen_tree S k n_num n_cats min_leaf frac rem depth (seq 0 n_num ++ noms) mins maxs g = Ok (t, g').
Proof.
  intros HS rem. induction rem as [|rem IH]; intros depth noms mins maxs g HN HD HR; cbn [gen_tree].
  - destruct (rng_int S k g); eauto.
  - cbv zeta.
    destruct (if (min_leaf <=? depth)%nat then let '(u, g1) := rng_rand S g in ((nofZ 1 - u <=? frac)%num, g1) else (false, g))
      as [stop g1].
    destruct stop; [destruct (rng_int S k g1); eauto|].
    set (cands := seq 0 n_num ++ noms). assert (Lc : length cands = (n_num + length noms)%nat) by (unfold cands; now rewrite app_length, seq_length).
    destruct (Nat.eqb_spec (length cands) 0) as [|Hc]; [lia|].
    destruct (rng_int S (Z.of_nat (length cands)) g1) as [z g2] eqn:Ez. apply (int_ok _ _ _ _ _ HS) in Ez; [|lia].
    set (c := Z.to_nat z). destruct (Nat.ltb_spec c n_num) as [Hn|Hn].
    + destruct (rng_rand S g2) as [u g3].
      match goal with |- context [gen_tree S k n_num n_cats min_leaf frac rem ?d cands ?mi ?ma g3] =>
        destruct (IH d noms mi ma g3 HN HD ltac:(left; lia)) as (t1 & g4 & E1) end. fold cands in E1. rewrite E1. cbn [bind].
      match goal with |- context [gen_tree S k n_num n_cats min_leaf frac rem ?d cands ?mi ?ma g4] =>
        destruct (IH d noms mi ma g4 HN HD ltac:(left; lia)) as (t2 & g5 & E2) end. fold cands in E2. rewrite E2. cbn [bind]. eauto.
    + destruct (nominal_step n_num noms c) as (A1 & A2 & A3); [lia|exact HN|]. fold cands in A1, A2, A3.
      set (att := nth c cands 0%nat) in *. rewrite A3.
      match goal with |- context [grow ?f n_cats g2] => destruct (grow_total f n_cats) with (g := g2) as (cs & g3 & ->) end.
      * intros g0. apply IH; [now apply remove_Forall|now apply remove_NoDup|].
        destruct HR as [|HR]; [now left|right]. pose proof (remove_length1 att noms HD A1). lia.
      * cbn [bind]. eauto.
Qed.
(** Without numeric attributes, too few nominal ones make every construction raise. *)
Lemma gen_tree_raises {G} (S : Rng G R) k n_cats min_leaf frac : rng_ok S -> (0 < n_cats)%nat ->
  forall rem depth noms mins maxs g, NoDup noms -> (length noms < rem)%nat -> (depth + length noms < min_leaf)%nat ->
  gen_tree S k 0 n_cats min_leaf frac rem depth noms mins maxs g = Raise ValueError.
Proof.
  intros HS Hn rem. induction rem as [|rem IH]; intros depth noms mins maxs g HD HR HL; [lia|]. cbn [gen_tree]. cbv zeta.
  replace (min_leaf <=? depth)%nat with false by (symmetry; apply Nat.leb_gt; lia). destruct (Nat.eqb_spec (length noms) 0) as [|Hc]; [reflexivity|].
  destruct (rng_int S (Z.of_nat (length noms)) g) as [z g2] eqn:Ez. apply (int_ok _ _ _ _ _ HS) in Ez; [|lia].
  change (Z.to_nat z <? 0)%nat with false. cbv iota.
  destruct (nominal_step 0 noms (Z.to_nat z)) as (A1 & A2 & A3); [lia|apply Forall_forall; lia|]. cbn [seq app] in A1, A3.
  set (att := nth (Z.to_nat z) noms 0%nat) in *. pose proof (remove_length1 att noms HD A1).
  destruct n_cats as [|m]; [lia|]. cbn [grow].
  rewrite IH; [reflexivity|now apply remove_NoDup|lia|lia].
Qed.

(** *** Classification *)
Lemma active_spec row i n k : (k < n)%nat -> (forall j, (j < k)%nat -> nth (i + j) row 0 <> 1) -> nth (i + k) row 0 = 1 ->
  active row i n = Some k.
Proof.
  revert i n. induction k as [|k IH]; intros i n Hk HB HE; (destruct n as [|n]; [lia|]); cbn [active]; cbn [neqb nofZ NumR].
  - rewrite Nat.add_0_r in HE. replace (Reqb (nth i row 0) 1) with true by (symmetry; now apply Reqb_true). reflexivity.
  - replace (Reqb (nth i row 0) 1) with false.
    + rewrite (IH (S i) n); [reflexivity|lia| |].
      * intros j Hj. specialize (HB (S j) ltac:(lia)). now replace (S i + j)%nat with (i + S j)%nat by lia.
      * now replace (S i + k)%nat with (i + S k)%nat by lia.
    + symmetry. apply Reqb_false. specialize (HB 0%nat ltac:(lia)). now rewrite Nat.add_0_r in HB.
Qed.
Lemma active_block us blocks n_num n_cats b : length us = n_num -> Forall (is_one_hot n_cats) blocks -> (b < length blocks)%nat ->
  exists k, (k < n_cats)%nat /\ active (us ++ concat blocks) (n_num + b * n_cats) n_cats = Some k.
Proof.
  intros L HF Hb. pose proof (proj1 (Forall_forall _ _) HF (nth b blocks []) (nth_In _ _ Hb)) as (k & Hk & _ & HV).
  exists k. split; [exact Hk|].
  assert (N : forall j, (j < n_cats)%nat -> nth (n_num + b * n_cats + j) (us ++ concat blocks) 0 = nth j (nth b blocks []) 0).
  { intros j Hj. rewrite app_nth2 by lia. replace (n_num + b * n_cats + j - length us)%nat with (b * n_cats + j)%nat by lia.
    apply nth_concat; [|exact Hj]. eapply Forall_impl; [|exact HF]. now intros l (k0 & _ & Q & _). }
  apply active_spec; [exact Hk| |].
  - intros j Hj. rewrite N, HV by lia. destruct (Nat.eqb_spec j k); [lia|lra].
  - rewrite N, HV, Nat.eqb_refl by lia. reflexivity.
Qed.

  Lemma classify_total n_num n_cat n_cats row nc dmin dmax d lo hi free t : tree_row n_num n_cat n_cats row -> tree_ok nc n_num n_cats dmin dmax d lo hi free t ->
    Forall (fun a => (a < n_num + n_cat)%nat) free ->
    exists y, classify n_num n_cats t row = Ok y /\ (0 <= y < nc)%Z.
  Proof.
    intros Hrow. induction 1 as [d lo hi free l Hl _|d lo hi free k v t1 t2 Hk Hv H1 IH1 H2 IH2|d lo hi free att cs Ha Hn HL Hc IH]; intros HF; cbn [classify].
    - eauto.
    - destruct (nth k row (nofZ 0) <? v)%num; auto.
    - destruct Hrow as (us & blocks & -> & L1 & _ & L2 & HB).
      pose proof (proj1 (Forall_forall _ _) HF att Ha) as Hlt. cbn beta in Hlt.
      destruct (active_block us blocks n_num n_cats (att - n_num) L1 HB) as (k & Hk & ->); [lia|].
      rewrite <- HL in Hk. clear HL Hc.
      assert (HF' : Forall (fun a => (a < n_num + n_cat)%nat) (remove Nat.eq_dec att free)).
      { clear -HF. induction HF; cbn; [constructor|]. destruct (Nat.eq_dec att x); auto. }
      revert k Hk. induction cs as [|c cs IHc]; intros k Hk; [cbn in Hk; lia|]. destruct k as [|k].
      + apply IH; [now left|exact HF'].
      + apply IHc; [|cbn in Hk; lia]. intros c' Hc' HF2. apply IH; [now right|exact HF2].
  Qed.

Lemma active_at (row : list R) n : forall i j, active row i n = Some j -> (j < n)%nat /\ nth (i + j) row 0 = 1.
Proof.
  induction n as [|n IH]; intros i j H; cbn [active] in H; [discriminate H|].
  change (nofZ 0) with 0 in H. change (nofZ 1) with 1 in H.
  destruct (neqb (nth i row 0) 1) eqn:Eq.
  - injection H as <-. rewrite Nat.add_0_r. apply Reqb_true in Eq. split; [lia|exact Eq].
  - destruct (active row (S i) n) as [k|] eqn:Ek; [|discriminate H]. injection H as <-. apply IH in Ek.
    rewrite Nat.add_succ_r. split; [lia|apply Ek].
Qed.
Lemma classify_label n_num n_cats (row : list R) : forall t y, classify n_num n_cats t row = Ok y -> tree_label n_num n_cats row t y.
Proof.
  fix IH 1. intros [l|k v t1 t2|att cs] y H; cbn [classify] in H.
  - injection H as <-. constructor.
  - change (nofZ 0) with 0 in H. destruct (nth k row 0 <? v)%num eqn:Eq.
    + apply tl_left; [now apply Rltb_true in Eq|now apply IH].
    + apply tl_right; [apply Rltb_false in Eq; lra|now apply IH].
  - destruct (active row (n_num + (att - n_num) * n_cats) n_cats) as [j|] eqn:Ej; [|discriminate H].
    apply active_at in Ej as [Hj E1].
    enough (exists c, nth_error cs j = Some c /\ tree_label n_num n_cats row c y) as (c & A & B) by (eapply tl_nom; eauto).
    clear Hj E1. revert j H. induction cs as [|c cs IHc]; intros j H; [discriminate H|]. destruct j as [|j].
    + exists c. split; [reflexivity|now apply IH].
    + now apply IHc.
Qed.
Lemma one_hot_ok n z : (0 <= z < Z.of_nat n)%Z -> is_one_hot n (one_hot n z).
Proof.
  intros Hz. exists (Z.to_nat z). split; [lia|]. unfold one_hot. split; [now rewrite map_length, seq_length|].
  intros i Hi. set (f := fun i0 : nat => _). rewrite (nth_indep _ 0 (f 0%nat)) by (now rewrite map_length, seq_length).
  rewrite map_nth, seq_nth by exact Hi. unfold f. cbn [plus nofZ NumR].
  destruct (Z.eqb_spec z (Z.of_nat i)), (Nat.eqb_spec i (Z.to_nat z)); try reflexivity; lia.
Qed.
Lemma hot_blocks_ok {G} (S : Rng G R) n n_cats g hs g' : rng_ok S -> (0 < n_cats)%nat -> hot_blocks S n n_cats g = (hs, g') ->
  exists blocks, hs = concat blocks /\ length blocks = n /\ Forall (is_one_hot n_cats) blocks.
Proof.
  intros HS Hc. revert g hs g'. induction n as [|n IH]; intros g hs g' E; cbn [hot_blocks] in E.
  - injection E as <- <-. exists []. repeat split; constructor.
  - destruct (rng_int S (Z.of_nat n_cats) g) as [v g1] eqn:E1. destruct (hot_blocks S n n_cats g1) as [bs g2] eqn:E2.
    injection E as <- <-. apply (int_ok _ _ _ _ _ HS) in E1; [|lia]. destruct (IH _ _ _ E2) as (bl & -> & L & F).
    exists (one_hot n_cats v :: bl). split; [reflexivity|]. split; [cbn; lia|]. constructor; [now apply one_hot_ok|exact F].
Qed.
Lemma rt_row_ok {G} (S : Rng G R) n_num n_cat n_cats g t row y g' t' : rng_ok S ->
  rt_one S n_num n_cat n_cats g t = Ret (row, y, (g', t')) ->
  tree_row n_num n_cat n_cats row /\ classify n_num n_cats t row = Ok y /\ t' = t /\ (0 < n_cats)%nat.
Proof.
  intros HS E. unfold rt_one in E. destruct (rands S n_num g) as [us g1] eqn:E1. destruct (Nat.eqb_spec n_cats 0) as [|Hc]; [discriminate E|].
  destruct (hot_blocks S n_cat n_cats g1) as [hs g2] eqn:E2. cbv zeta in E.
  destruct (classify n_num n_cats t (us ++ hs)) as [y0|] eqn:E3; [|discriminate E]. injection E as <- <- <- <-.
  destruct (rands_ok _ _ _ _ _ HS E1) as [A B]. destruct (hot_blocks_ok S n_cat n_cats _ _ _ HS ltac:(lia) E2) as (bl & -> & L & F).
  split; [|repeat split; auto; lia]. exists us, bl. repeat split; auto.
Qed.
