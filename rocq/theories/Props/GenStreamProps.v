(** C104 - C112: ConceptDriftStream and the stored, RBF and tree generators. *)
From Coq Require Import ZArith QArith List Bool Reals Lra Lia Arith.
From Verif Require Import Base.Py Base.Num Model.DataStream Model.Generators Model.GenStreams Spec.GeneratorSpec
  Spec.GenStreamSpec Proofs.GeneratorProofs Proofs.GeneratorReal Proofs.LedHyperProofs Proofs.GenStreamProofs
  Proofs.RbfTreeProofs.
Import ListNotations.

(** The runs below are over Q, where the instance's exp is the identity: they only use that probabilities are numbers.
    A child stream for the examples: sample [n] is the row [n; n] with label [k]; [limit] < 0 means infinite. *)
Definition counter (k limit : Z) : child Z Q :=
  mk_child Z Q (fun n => if (0 <=? limit)%Z && (limit <=? n)%Z then Raise ValueError else Ok ([inject_Z n; inject_Z n], k, (n + 1)%Z))
    (fun n => if (limit <? 0)%Z then (-1)%Z else (limit - n)%Z)
    (fun n => if (limit <? 0)%Z then true else (n <? limit)%Z) (fun _ => 0%Z).
Definition tick : Rng nat Q :=
  mk_rng_ops nat Q (fun g => (Qmake (Z.of_nat (g mod 10)) 10, S g)) (fun n g => (Z.of_nat g mod n, S g)%Z) (fun g => (1%Q, S g)).

(** *** C104: a ConceptDriftStream interleaves its two streams without losing, repeating or changing a sample; sample
    number i comes from the drift stream exactly when the i-th random number is at most the sigmoid at i. *)
Theorem concept_drift_interleaves {G A B} (S : Rng G R) (sa : child A R) (sb : child B R) nf position width n s rows ys s' :
  (forall st row y st', ch_next sa st = Ok (row, y, st') -> length row = nf) ->
  (forall st row y st', ch_next sb st = Ok (row, y, st') -> length row = nf) ->
  cds_next S sa sb nf position width n s = Ok (rows, ys, s') ->
  exists choices from_a from_b, merged choices from_a from_b (combine rows ys) /\ length rows = n /\ length ys = n /\
    emits sa (length from_a) (cd_a s) = Ok (from_a, cd_a s') /\ emits sb (length from_b) (cd_b s) = Ok (from_b, cd_b s') /\
    cd_idx s' = (cd_idx s + Z.of_nat n)%Z /\ length choices = n /\ cds_last s' = Some (rows, ys) /\
    (forall i, (i < n)%nat -> (nth i choices false = true <->
       nth i (draws S n (cd_rng s)) 0 <= sigmoid position width (cd_idx s + 1 + Z.of_nat i))%R).
Proof.
  intros HA HB E. unfold cds_next in E.
  destruct (cds_loop S sa sb nf position width n (cd_rng s) (cd_idx s) (cd_a s) (cd_b s)) as [[[r y] [[[g i] a] b]]|] eqn:El;
    [|discriminate E]. cbn [bind] in E. injection E as <- <- <-. cbn [cd_a cd_b cd_idx].
  destruct (cds_loop_spec _ _ _ _ _ _ HA HB _ _ _ _ _ _ _ _ _ _ _ El) as (cs & pa & pb & M & L1 & L2 & L3 & E1 & E2 & E3 & K).
  exists cs, pa, pb. split; [exact M|]. repeat (split; [assumption || reflexivity|]). intros j Hj.
  destruct (K j Hj) as (p & P1 & P2). assert (Hw : (width <> 0)%Z) by (intros ->; discriminate P1).
  rewrite drift_prob_sigmoid in P1 by exact Hw. injection P1 as <-. rewrite P2. cbn [nltb nofZ NumR]. rewrite negb_true_iff.
  split; [apply Rltb_false|intros; now apply Rltb_false].
Qed.
(** Cutting into calls makes no difference. *)
Theorem concept_drift_batches {G A B T} `{Num T} (S : Rng G T) (sa : child A T) (sb : child B T) nf position width n m s :
  cds_next S sa sb nf position width (n + m) s =
  ' (r1, y1, s1) <- cds_next S sa sb nf position width n s ;;
  ' (r2, y2, s2) <- cds_next S sa sb nf position width m s1 ;;
  Ok (r1 ++ r2, y1 ++ y2, mk_cds (cd_rng s2) (cd_idx s2) (cd_a s2) (cd_b s2) (Some (r1 ++ r2, y1 ++ y2))).
Proof.
  unfold cds_next. rewrite cds_loop_split.
  destruct (cds_loop S sa sb nf position width n (cd_rng s) (cd_idx s) (cd_a s) (cd_b s)) as [[[r1 y1] [[[g i] a] b]]|]; [|reflexivity].
  cbn [bind cd_rng cd_idx cd_a cd_b]. destruct (cds_loop S sa sb nf position width m g i a b) as [[[r2 y2] [[[g2 i2] a2] b2]]|]; reflexivity.
Qed.
Example concept_drift_example :
  exists rows s', cds_next tick (counter 0 (-1)) (counter 1 (-1)) 2 2 1 5 (cds_new (fun z => Z.to_nat z) (SeedInt 3) 0%nat 0%Z 0%Z) =
    Ok (rows, [0; 1; 0; 0; 0]%Z, s') /\ cd_a s' = 4%Z /\ cd_b s' = 1%Z.
Proof. do 2 eexists. split; [vm_compute; reflexivity|]. split; reflexivity. Qed.

(** *** C105: the drift schedule *)
Theorem drift_schedule position width : (0 < width)%Z ->
  (sigmoid position width position = 1 / 2)%R /\
  (forall i, (0 < sigmoid position width i < 1)%R) /\
  (forall i j, (i < j)%Z -> (sigmoid position width i < sigmoid position width j)%R) /\
  (forall k, (sigmoid position width (position + k) + sigmoid position width (position - k) = 1)%R).
Proof.
  intros Hw. assert (W : (0 < IZR width)%R) by (now apply (IZR_lt 0)). unfold sigmoid.
  assert (P : forall x, (0 < exp x)%R) by exact exp_pos.
  split; [|split; [|split]].
  - replace (- (4 * (IZR position - IZR position) / IZR width))%R with 0%R by (field; lra). rewrite exp_0. lra.
  - intros i. pose proof (P (- (4 * (IZR i - IZR position) / IZR width))%R). split.
    + apply Rinv_0_lt_compat. lra.
    + rewrite <- Rinv_1. apply Rinv_lt_contravar; lra.
  - intros i j Hij. apply IZR_lt in Hij. apply Rinv_lt_contravar.
    + pose proof (P (- (4 * (IZR i - IZR position) / IZR width))%R). pose proof (P (- (4 * (IZR j - IZR position) / IZR width))%R). nra.
    + apply Rplus_lt_compat_l. apply exp_increasing. apply Ropp_lt_contravar. unfold Rdiv.
      apply Rmult_lt_compat_r; [now apply Rinv_0_lt_compat|]. lra.
  - intros k. rewrite plus_IZR, minus_IZR.
    replace (- (4 * (IZR position + IZR k - IZR position) / IZR width))%R with (- (4 * IZR k / IZR width))%R by (field; lra).
    replace (- (4 * (IZR position - IZR k - IZR position) / IZR width))%R with (4 * IZR k / IZR width)%R by (field; lra).
    rewrite exp_Ropp. set (e := exp (4 * IZR k / IZR width)). pose proof (P (4 * IZR k / IZR width)%R). fold e in H. field. lra.
Qed.
(** Once a random number selects the drift stream at i it does so at every later sample. *)
Theorem drift_once_selected position width i j u : (0 < width)%Z -> (i <= j)%Z ->
  (u <= sigmoid position width i)%R -> (u <= sigmoid position width j)%R.
Proof.
  intros Hw Hij Hu. destruct (Z.eq_dec i j) as [->|N]; [exact Hu|].
  destruct (drift_schedule position width Hw) as (_ & _ & M & _). specialize (M i j ltac:(lia)). lra.
Qed.
(** A zero width is accepted and makes every sample raise. *)
Theorem concept_drift_zero_width_refuted {G A B T} `{Num T} (S : Rng G T) (sa : child A T) (sb : child B T) nf position n s :
  cds_width (T := T) (fun x => x) n0 (fun _ => 0%Z) None 0 = Ok 0%Z /\
  cds_next S sa sb nf position 0 (Datatypes.S n) s = Raise ZeroDivisionError.
Proof. split; reflexivity. Qed.
(** The angle: any alpha in (0, 90] gives a width of at least 1, exactly 1 from 45 degrees up to (not including) 90. *)
Theorem concept_drift_alpha_width trunc alpha width w :
  (forall x, (0 <= x)%R -> (IZR (trunc x) <= x < IZR (trunc x) + 1)%R) ->
  (0 < alpha <= 90)%R -> cds_width tan PI trunc (Some alpha) width = Ok w ->
  (1 <= w)%Z /\ (45 <= alpha < 90 -> w = 1%Z)%R.
Proof.
  intros HT Ha E. unfold cds_width in E. cbn [neqb n0 nofZ nltb nleb ndiv nmul NumR] in E. unfold n0 in E. cbn [nofZ NumR] in E.
  replace (Reqb alpha 0) with false in E by (symmetry; apply Reqb_false; lra).
  replace (Rltb 0 alpha) with true in E by (symmetry; apply Rltb_true; lra).
  replace (Rleb alpha 90) with true in E by (symmetry; apply Rleb_true; lra). cbn [andb] in E. cbv zeta in E.
  set (q := (1 / tan (alpha * PI / 180))%R) in E. injection E as <-. split; [destruct (Z.ltb_spec 0 (trunc q)); lia|].
  intros Hb. pose proof PI_RGT_0 as HP.
  assert (T1 : (1 <= tan (alpha * PI / 180))%R).
  { rewrite <- tan_PI4. destruct (Req_dec alpha 45) as [->|N].
    - right. f_equal. field.
    - left. apply tan_increasing; nra. }
  assert (Q : (0 <= q <= 1)%R).
  { unfold q. unfold Rdiv. rewrite Rmult_1_l. split; [left; apply Rinv_0_lt_compat; lra|]. rewrite <- Rinv_1. apply Rinv_le_contravar; lra. }
  destruct (HT q (proj1 Q)) as [K1 K2]. destruct (Z.ltb_spec 0 (trunc q)) as [L|L]; [|reflexivity].
  assert (IZR (trunc q) <= 1)%R by lra. apply (le_IZR _ 1) in H. lia.
Qed.
Example alpha_example : cds_width tan PI (fun x => (up x - 1)%Z) (Some 60%R) 1000 = Ok 1%Z.
Proof.
  assert (E : exists w, cds_width tan PI (fun x => (up x - 1)%Z) (Some 60%R) 1000 = Ok w).
  { unfold cds_width. cbn [neqb nltb nleb NumR]. unfold n0. cbn [nofZ NumR].
    replace (Reqb 60 0) with false by (symmetry; apply Reqb_false; lra).
    replace (Rltb 0 60) with true by (symmetry; apply Rltb_true; lra).
    replace (Rleb 60 90) with true by (symmetry; apply Rleb_true; lra). cbn [andb]. eauto. }
  destruct E as [w E]. destruct (concept_drift_alpha_width (fun x => (up x - 1)%Z) 60%R 1000 w) as [_ K]; [|lra|exact E|].
  - intros x _. destruct (archimed x) as [A B]. rewrite minus_IZR. split; lra.
  - rewrite E, K by lra. reflexivity.
Qed.

(** *** C106: bookkeeping of ConceptDriftStream *)
(** With an int random_state and children that restart to their initial states, restart gives back the initial stream. *)
Theorem concept_drift_restart {G A B T} `{Num T} mk z (S : Rng G T) (sa : child A T) (sb : child B T) nf position width s a0 b0 amb n :
  ch_restart sa (cd_a s) = a0 -> ch_restart sb (cd_b s) = b0 ->
  cds_next S sa sb nf position width n (cds_restart mk (SeedInt z) sa sb s) =
  cds_next S sa sb nf position width n (cds_new mk (SeedInt z) amb a0 b0).
Proof. intros <- <-. reflexivity. Qed.
(** ... but last_sample still shows the batch from before the restart. *)
Theorem concept_drift_restart_last_refuted {G A B T} mk sd (sa : child A T) (sb : child B T) (s : cds G A B T) :
  cds_last (cds_restart mk sd sa sb s) = cds_last s.
Proof. reflexivity. Qed.
(** n_remaining_samples: the sum for finite streams, -1 for infinite ones ... *)
Theorem concept_drift_remaining_partial {G A B T} (sa : child A T) (sb : child B T) (s : cds G A B T) :
  ((0 <= ch_remaining sa (cd_a s))%Z -> (0 <= ch_remaining sb (cd_b s))%Z ->
     cds_remaining sa sb s = (ch_remaining sa (cd_a s) + ch_remaining sb (cd_b s))%Z) /\
  (ch_remaining sa (cd_a s) = (-1)%Z -> ch_remaining sb (cd_b s) = (-1)%Z -> cds_remaining sa sb s = (-1)%Z).
Proof.
  unfold cds_remaining. split.
  - intros A1 B1. destruct (Z.ltb_spec (ch_remaining sa (cd_a s) + ch_remaining sb (cd_b s)) 0); [lia|reflexivity].
  - intros -> ->. reflexivity.
Qed.
(** ... but with one of each it reports a finite number that is one short, and with an exhausted stream it reports samples
    although has_more_samples is False. *)
Theorem concept_drift_remaining_refuted :
  (cds_remaining (counter 0 (-1)) (counter 1 100) (cds_new (T := Q) (fun z : Z => z) (SeedInt 0) 0%Z 0%Z 0%Z) = 99)%Z /\
  (let s := cds_new (T := Q) (fun z : Z => z) (SeedInt 0) 0%Z 0%Z 3%Z in
   cds_remaining (counter 0 5) (counter 1 3) s = 5%Z /\ cds_more (counter 0 5) (counter 1 3) s = false).
Proof. repeat split. Qed.
(** Two streams built with the default arguments share their children: reading one changes what the other emits. *)
Theorem concept_drift_shared_defaults_refuted :
  exists rows ys s1 r2 y2 s2 r3 y3 s3,
    let new := cds_new (T := Q) (fun z : Z => Z.to_nat z) (SeedInt 1) 0%nat 0%Z 0%Z in
    let next := cds_next tick (counter 0 (-1)) (counter 1 (-1)) 2 5000 1000 in
    next 2%nat new = Ok (rows, ys, s1) /\
    next 2%nat new = Ok (r2, y2, s2) /\ next 2%nat (cds_share s1 new) = Ok (r3, y3, s3) /\ r2 <> r3.
Proof. do 9 eexists. cbv zeta. do 3 (split; [vm_compute; reflexivity|]). discriminate. Qed.

(** *** C107: RegressionGenerator and MultilabelGenerator *)
(** Up to n_samples, reading in any batches delivers the generated data once, in order; n_remaining_samples and
    has_more_samples tell what is left, and restart gives the same data again. *)
Theorem regression_generator_reads {V} (d : V) X y t bs : (0 < t)%nat -> length y = length X -> Forall (fun r => length r = t) y ->
  (list_sum bs <= length X)%nat ->
  exists s', read_all bs (reg_prepare d X y t) = (firstn (list_sum bs) X, firstn (list_sum bs) y, s') /\
    st_remaining s' = (Z.of_nat (length X) - Z.of_nat (list_sum bs))%Z /\
    reg_more s' = (list_sum bs <? length X)%nat /\ st_restart s' = reg_prepare d X y t.
Proof.
  intros Ht HL HF HB. destruct (read_all_spec bs (reg_prepare d X y t) 0 eq_refl) as (cur & E & _).
  eexists. rewrite E. cbn [reg_prepare st_X st_y st_n skipn]. split.
  - do 2 f_equal. pose proof (np_resize_prefix d t y Ht HF) as P. set (r := np_resize d (concat y) (length (concat y)) t) in *.
    clearbody r. transitivity (firstn (list_sum bs) (firstn (length y) r)); [|now rewrite P]. rewrite firstn_firstn. f_equal. lia.
  - unfold st_remaining, reg_more, st_restart. cbn [st_n st_idx st_X st_y]. split; [lia|]. split; [|reflexivity].
    destruct (Z.ltb_spec 0 (Z.of_nat (length X) - Z.of_nat (0 + list_sum bs))), (Nat.ltb_spec (list_sum bs) (length X)); try reflexivity; lia.
Qed.
Theorem multilabel_generator_reads {V} (X y : list (list V)) bs : length y = length X ->
  exists s', read_all bs (ml_prepare X y) = (firstn (list_sum bs) X, firstn (list_sum bs) y, s') /\
    st_remaining s' = (Z.of_nat (length X) - Z.of_nat (list_sum bs))%Z /\ st_restart s' = ml_prepare X y.
Proof.
  intros HL. destruct (read_all_spec bs (ml_prepare X y) 0 eq_refl) as (cur & E & _). eexists. rewrite E.
  cbn [ml_prepare st_X st_y st_n skipn]. split; [reflexivity|]. unfold st_remaining, st_restart. cbn. split; [lia|reflexivity].
Qed.
(** Past the end: with two or more targets, RegressionGenerator returns targets without features (its target matrix holds
    every row n_targets times), ... *)
Theorem regression_generator_overshoot_refuted {V} (d : V) X y t : (2 <= t)%nat -> length y = length X -> X <> [] ->
  Forall (fun r => length r = t) y ->
  let '(xs, ys, s') := st_next (length X + 1) (reg_prepare d X y t) in
  length xs = length X /\ length ys = (length X + 1)%nat /\ last ys [] = nth 0 y [] /\ st_remaining s' = (-1)%Z.
Proof.
  intros Ht HL HX HF. assert (Hn : (0 < length X)%nat) by (destruct X; [congruence|cbn; lia]).
  pose proof (read_all_spec [length X + 1]%nat (reg_prepare d X y t) 0 eq_refl) as (cur & E & _). cbn [read_all] in E.
  destruct (st_next (length X + 1) (reg_prepare d X y t)) as [[xs ys] s'] eqn:EN.
  assert (LR : length (np_resize d (concat y) (length (concat y)) t) = (length X * t)%nat).
  { rewrite np_resize_length, (concat_length_const t y HF). now rewrite HL. }
  apply pair_equal_spec in E. destruct E as [E E3]. apply pair_equal_spec in E. destruct E as [E1 E2].
  rewrite !app_nil_r in *. cbn [list_sum fold_right reg_prepare st_X st_y skipn] in E1, E2. rewrite Nat.add_0_r in E1, E2.
  assert (L2 : length ys = (length X + 1)%nat) by (rewrite E2, firstn_length, LR; nia).
  split; [rewrite E1, firstn_length; lia|]. split; [exact L2|]. split.
  - assert (K : last ys [] = nth (length X) ys []).
    { destruct (exists_last (l := ys)) as (l & x & ->); [intros ->; cbn in L2; lia|]. rewrite last_last.
      rewrite app_length in L2. cbn in L2. rewrite app_nth2 by lia. replace (length X - length l)%nat with 0%nat by lia. reflexivity. }
    rewrite K, E2, nth_firstn_lt by lia. rewrite (np_resize_rows d t y (length X)) by (try assumption; nia || lia).
    rewrite HL, Nat.mod_same by lia. reflexivity.
  - rewrite E3. unfold st_remaining. cbn. lia.
Qed.
(** ... and MultilabelGenerator claims to have more samples for ever. *)
Theorem multilabel_generator_more_refuted {V} (X y : list (list V)) b :
  let '(_, _, s') := st_next (length X) (ml_prepare X y) in
  st_remaining s' = 0%Z /\ ml_more s' = true /\ fst (fst (st_next b s')) = [].
Proof.
  pose proof (read_all_spec [length X] (ml_prepare X y) 0 eq_refl) as (cur & E & _). cbn [read_all] in E.
  destruct (st_next (length X) (ml_prepare X y)) as [[xs ys] s'] eqn:EN.
  apply pair_equal_spec in E. destruct E as [_ ->]. cbn [ml_prepare st_X st_y st_n].
  split; [unfold st_remaining; cbn; lia|]. split; [reflexivity|].
  unfold st_next. cbn [st_idx st_X st_y fst]. rewrite pyslice_firstn. rewrite skipn_all2; [apply firstn_nil|cbn; lia].
Qed.
Example stored_example :
  read_all [2; 1]%nat (reg_prepare 0%Z [[1]; [2]; [3]]%Z [[4; 5]; [6; 7]; [8; 9]]%Z 2) =
  ([[1]; [2]; [3]]%Z, [[4; 5]; [6; 7]; [8; 9]]%Z,
   mk_stored [[1]; [2]; [3]]%Z [[4; 5]; [6; 7]; [8; 9]; [4; 5]; [6; 7]; [8; 9]]%Z 3 3 (Some ([[3]]%Z, [[8; 9]]%Z))).
Proof. reflexivity. Qed.

(** *** C108: AnomalySineGenerator *)
Lemma randn_length {G T} (S : Rng G T) n g : length (fst (randn S n g)) = n.
Proof.
  revert g. induction n as [|n IH]; intros g; cbn [randn]; [reflexivity|]. destruct (rng_normal S g) as [v g1]. specialize (IH g1).
  destruct (randn S n g1) as [vs g2]. cbn in *. lia.
Qed.
Lemma np_choice_ok {G} (raw : Z -> nat -> bool -> G -> list nat * G) a k replace g l g' : choice_ok raw ->
  np_choice raw a k replace g = Ok (l, g') ->
  (0 <= a)%Z /\ length l = k /\ Forall (fun i => (Z.of_nat i < a)%Z) l /\ (replace = false -> NoDup l).
Proof.
  intros HC E. unfold np_choice in E. destruct (Z.ltb_spec a 0); [discriminate E|].
  destruct ((a =? 0)%Z && negb (k =? 0)%nat) eqn:E1; [discriminate E|].
  destruct (negb replace && (a <? Z.of_nat k)%Z) eqn:E2; [discriminate E|]. injection E as E.
  assert (C : (0 < a)%Z \/ k = 0%nat).
  { apply andb_false_iff in E1. destruct E1 as [E1|E1]; [left; apply Z.eqb_neq in E1; lia|right].
    apply negb_false_iff in E1. now apply Nat.eqb_eq. }
  destruct (HC a k replace g H C) as (A & B & D).
  { intros ->. cbn [negb andb] in E2. apply Z.ltb_ge in E2. exact E2. }
  rewrite E in A, B, D. cbn [fst] in *. repeat split; auto.
Qed.
(** A label is 1 exactly at the drawn anomaly positions; at most n_anomalies samples are labelled, exactly n_anomalies
    without replacement; the first attribute is never touched. *)
Theorem anomaly_sine_labels {G} (S : Rng G R) raw nsin ncos n n_anom contextual n_ctx shift noise replace g c0 c1 y g' :
  choice_ok raw ->
  sine_prepare S raw nsin ncos n n_anom contextual n_ctx shift noise replace g = Ok (c0, c1, y, g') ->
  exists anomalies, length anomalies = n_anom /\ Forall (fun i => (i < n)%nat) anomalies /\
    (replace = false -> NoDup anomalies) /\ length c0 = n /\ length c1 = n /\ length y = n /\
    (forall i, (i < n)%nat -> nth i y 0%Z = if in_dec Nat.eq_dec i anomalies then 1%Z else 0%Z) /\
    (contextual = false -> forall i, (i < n)%nat -> ~ In i anomalies ->
       exists z, nth i c1 0%R = (ncos (INR i / 4) + z * noise)%R) /\
    (forall i, (i < n)%nat -> exists z, nth i c0 0%R = (nsin (INR i / 4) + z * noise)%R).
Proof.
  intros HC E. unfold sine_prepare in E. destruct (Nat.ltb_spec n n_anom); [discriminate E|].
  destruct (contextual && (n <? n_ctx)%nat) eqn:Ectx0; [discriminate E|]. cbv zeta in E.
  pose proof (randn_length S n g) as L0. destruct (randn S n g) as [z0 g1]. cbn [fst] in L0.
  pose proof (randn_length S n g1) as L1. destruct (randn S n g1) as [z1 g2]. cbn [fst] in L1.
  set (t := map (fun i => (nofZ (Z.of_nat i) / nofZ 4)%num) (seq 0 n)) in *.
  assert (Lt : length t = n) by (unfold t; now rewrite map_length, seq_length).
  assert (PN : forall (f : R -> R) zs, length zs = n -> length (plus_noise noise (map f t) zs) = n /\
     forall i, (i < n)%nat -> exists z, nth i (plus_noise noise (map f t) zs) 0%R = (f (INR i / 4) + z * noise)%R).
  { intros f zs Lz. unfold plus_noise. split; [rewrite map_length, combine_length, map_length, Lt, Lz; apply Nat.min_id|].
    intros i Hi. exists (nth i zs 0%R). set (h := fun p : R * R => (fst p + snd p * noise)%num).
    rewrite (nth_indep _ 0%R (h (f 0%R, 0%R))) by (rewrite map_length, combine_length, map_length, Lt, Lz; lia).
    rewrite map_nth, combine_nth by (rewrite map_length; lia). unfold h. cbn [fst snd nadd nmul NumR]. f_equal.
    rewrite map_nth. f_equal. unfold t. set (h2 := fun i0 : nat => _).
    rewrite (nth_indep _ 0%R (h2 0%nat)) by (rewrite map_length, seq_length; exact Hi).
    rewrite map_nth, seq_nth by exact Hi. unfold h2. cbn [ndiv nofZ NumR plus]. now rewrite <- INR_IZR_INZ. }
  set (C0 := plus_noise noise (map nsin t) z0) in *. set (C1 := plus_noise noise (map ncos t) z1) in *.
  destruct (PN nsin z0 L0) as [A1 A2]. fold C0 in A1, A2. destruct (PN ncos z1 L1) as [B1 B2]. fold C1 in B1, B2.
  match type of E with (bind ?m _ = _) => destruct m as [[c1' g3]|] eqn:Ec; [|discriminate E] end. cbn [bind] in E.
  assert (D1 : length c1' = n /\ (contextual = false -> c1' = C1)).
  { destruct contextual.
    - destruct (np_choice raw (Z.of_nat n - Z.abs shift) n_ctx replace g2) as [[ctx g4]|]; [|discriminate Ec]. cbn [bind] in Ec.
      injection Ec as <- <-. split; [now rewrite fancy_set_length|discriminate].
    - injection Ec as <- <-. auto. }
  destruct D1 as [D1 D2].
  destruct (np_choice raw (Z.of_nat n) n_anom replace g3) as [[an g4]|] eqn:Ea; [|discriminate E]. cbn [bind] in E.
  destruct (np_choice raw (Z.of_nat n_anom) 1 replace g4) as [[one g5]|] eqn:Eo; [|discriminate E]. cbn [bind] in E.
  pose proof (randn_length S n_anom g5) as L2. destruct (randn S n_anom g5) as [z2 g6]. cbn [fst] in L2.
  destruct (np_choice_ok _ _ _ _ _ _ _ HC Ea) as (_ & N1 & N2 & N3).
  assert (N4 : Forall (fun i => (i < n)%nat) an) by (eapply Forall_impl; [|exact N2]; intros; cbn in *; lia).
  injection E as <- <- <- <-. exists an. split; [exact N1|]. split; [exact N4|]. split; [exact N3|]. split; [exact A1|].
  split; [rewrite fancy_set_length; exact D1|]. split; [rewrite fancy_set_length; apply repeat_length|].
  split; [|split; [|exact A2]].
  - intros i Hi. destruct (fancy_set_nth (repeat 0%Z n) an (repeat 1%Z n_anom) 0%Z i) as [F1 F2].
    + rewrite repeat_length. exact N1.
    + rewrite repeat_length. exact N4.
    + destruct (in_dec Nat.eq_dec i an) as [I|I].
      * destruct (F2 I) as (k & _ & K). apply nth_error_In, repeat_spec in K. exact K.
      * rewrite F1 by exact I. apply nth_repeat.
  - intros Hctx i Hi NI. match goal with |- context [fancy_set c1' an ?v] => destruct (fancy_set_nth c1' an v 0%R i) as [F1 _] end;
      [rewrite map_length; lia|now rewrite D1|].
    rewrite F1 by exact NI. rewrite D2 by exact Hctx. auto.
Qed.
(** A generator without anomalies cannot be built: n_anomalies = 0 passes the check of __init__ and raises later. *)
Theorem anomaly_sine_zero_anomalies_refuted {G} (S : Rng G R) raw nsin ncos n n_ctx shift noise replace g :
  sine_prepare S raw nsin ncos n 0 false n_ctx shift noise replace g = Raise ValueError.
Proof.
  unfold sine_prepare. cbn [Nat.ltb Nat.leb andb]. cbv zeta. destruct (randn S n g) as [z0 g1]. destruct (randn S n g1) as [z1 g2].
  cbn [bind]. unfold np_choice at 1. replace (Z.of_nat n <? 0)%Z with false by (symmetry; apply Z.ltb_ge; lia).
  rewrite andb_false_r. replace (Z.of_nat n <? Z.of_nat 0)%Z with false by (symmetry; apply Z.ltb_ge; lia). rewrite andb_false_r.
  destruct (raw (Z.of_nat n) 0%nat replace g2) as [l g3]. reflexivity.
Qed.
(** Contextual anomalies are not labelled, and the default replace = True labels fewer than n_anomalies samples. *)
Definition raw_low : Z -> nat -> bool -> nat -> list nat * nat :=
  fun a k replace g => (if replace then repeat 0%nat k else seq 0 k, g).
Lemma raw_low_ok : choice_ok raw_low.
Proof.
  intros a k replace g Ha Hk Hr. unfold raw_low. cbn [fst]. destruct replace.
  - split; [apply repeat_length|]. split; [|discriminate]. apply Forall_forall. intros i Hi. apply repeat_spec in Hi as E. subst.
    destruct Hk as [| ->]; [lia|destruct Hi].
  - specialize (Hr eq_refl). split; [apply seq_length|]. split; [|intros _; apply seq_NoDup].
    apply Forall_forall; intros i Hi; apply in_seq in Hi. lia.
Qed.
Theorem anomaly_sine_contextual_refuted :
  exists c0 c1 y g' c1' g2, choice_ok raw_low /\
    sine_prepare tick raw_low (fun _ => 0%Q) (fun _ => 1%Q) 4 1 true 1 1 0%Q true 0%nat = Ok (c0, c1, y, g') /\
    sine_prepare tick raw_low (fun _ => 0%Q) (fun _ => 1%Q) 4 1 false 1 1 0%Q true 0%nat = Ok (c0, c1', y, g2) /\
    nth 1 c1 0%Q <> nth 1 c1' 0%Q /\ nth 1 y 0%Z = 0%Z.
Proof.
  do 6 eexists. split; [exact raw_low_ok|]. split; [vm_compute; reflexivity|]. split; [vm_compute; reflexivity|]. split; [discriminate|reflexivity].
Qed.
Theorem anomaly_sine_count_refuted :
  exists c0 c1 y g', choice_ok raw_low /\
    sine_prepare tick raw_low (fun _ => 0%Q) (fun _ => 1%Q) 4 2 false 0 1 0%Q true 0%nat = Ok (c0, c1, y, g') /\
    count_occ Z.eq_dec y 1%Z = 1%nat.
Proof. do 4 eexists. split; [exact raw_low_ok|]. split; [vm_compute; reflexivity|]. reflexivity. Qed.
(** Without replacement there are exactly n_anomalies labelled samples. *)
Theorem anomaly_sine_count {G} (S : Rng G R) raw nsin ncos n n_anom contextual n_ctx shift noise g c0 c1 y g' :
  choice_ok raw -> sine_prepare S raw nsin ncos n n_anom contextual n_ctx shift noise false g = Ok (c0, c1, y, g') ->
  count_occ Z.eq_dec y 1%Z = n_anom.
Proof.
  intros HC E. destruct (anomaly_sine_labels _ _ _ _ _ _ _ _ _ _ _ _ _ _ _ _ HC E) as (an & L & F & ND & _ & _ & Ly & K & _).
  specialize (ND eq_refl). clear E HC. rewrite <- L. clear L.
  assert (Ey : y = map (fun i => if in_dec Nat.eq_dec i an then 1%Z else 0%Z) (seq 0 n)).
  { set (f := fun i => if in_dec Nat.eq_dec i an then 1%Z else 0%Z). apply nth_ext with (d := 0%Z) (d' := f 0%nat).
    { rewrite map_length, seq_length. exact Ly. }
    intros i Hi. rewrite Ly in Hi. rewrite map_nth, seq_nth by exact Hi. now rewrite K. }
  rewrite Ey. clear K Ly Ey y.
  replace (count_occ Z.eq_dec _ 1%Z) with (length (filter (fun i => if in_dec Nat.eq_dec i an then true else false) (seq 0 n))).
  - apply Nat.le_antisymm; apply NoDup_incl_length.
    + apply NoDup_filter, seq_NoDup.
    + intros i Hi. apply filter_In in Hi. destruct Hi as [_ Hi]. now destruct (in_dec Nat.eq_dec i an).
    + exact ND.
    + intros i Hi. apply filter_In. split; [apply in_seq; pose proof (proj1 (Forall_forall _ _) F i Hi); cbn in *; lia|].
      now destruct (in_dec Nat.eq_dec i an).
  - induction (seq 0 n) as [|i l IH]; [reflexivity|]. cbn [filter map count_occ]. destruct (in_dec Nat.eq_dec i an).
    + cbn [length]. destruct (Z.eq_dec 1 1); [now rewrite IH|congruence].
    + destruct (Z.eq_dec 0 1); [discriminate|exact IH].
Qed.

(** next_sample: batches of any sizes deliver the data once, in order, and stop at the end; restart starts over. *)
Lemma read_sine_spec {V} bs (s : asine V) (i : nat) : as_idx s = Z.of_nat i -> as_n s = Z.of_nat (length (as_X s)) ->
  length (as_y s) = length (as_X s) -> (i <= length (as_X s))%nat ->
  exists k cur, read_sine bs s = (firstn (k - i) (skipn i (as_X s)), firstn (k - i) (skipn i (as_y s)),
      mk_asine (as_X s) (as_y s) (as_n s) (Z.of_nat k) cur) /\ k = Nat.min (i + list_sum bs) (length (as_X s)).
Proof.
  revert s i; induction bs as [|b bs IH]; intros s i Hi Hn Hy HL; cbn [read_sine list_sum fold_right].
  - exists i, (as_cur s). rewrite Nat.sub_diag, <- Hi. destruct s; cbn in *. split; [reflexivity|lia].
  - change (fold_right Nat.add 0%nat bs) with (list_sum bs).
    unfold as_next, as_remaining. rewrite Hi, Hn. set (n := length (as_X s)) in *.
    set (m := Nat.min b (n - i)).
    replace (if (Z.of_nat n - Z.of_nat i <? Z.of_nat b)%Z then (Z.of_nat n - Z.of_nat i)%Z else Z.of_nat b) with (Z.of_nat m)
      by (destruct (Z.ltb_spec (Z.of_nat n - Z.of_nat i) (Z.of_nat b)); unfold m; lia).
    cbv zeta. destruct (Z.ltb_spec 0 (Z.of_nat m)) as [L|L].
    + rewrite !pyslice_firstn. set (s1 := mk_asine _ _ _ _ _).
      destruct (IH s1 (i + m)%nat) as (k & cur & E & Ek); [unfold s1; cbn; lia|reflexivity|exact Hy|unfold s1; cbn; unfold m; lia|].
      rewrite E. cbn [s1 as_X as_y as_n] in *. exists k, cur. fold n in Ek.
      rewrite !firstn_skipn_app. replace (m + (k - (i + m)))%nat with (k - i)%nat by (unfold m in *; lia). split; [reflexivity|].
      unfold m in *. lia.
    + set (s1 := mk_asine _ _ _ _ _).
      destruct (IH s1 i) as (k & cur & E & Ek); [reflexivity|reflexivity|exact Hy|exact HL|].
      rewrite E. exists k, cur. split; [reflexivity|]. cbn [s1 as_X] in Ek. fold n in Ek. unfold m in L. lia.
Qed.
Theorem anomaly_sine_reads {V} (X : list V) y bs : length y = length X ->
  exists s', read_sine bs (mk_asine X y (Z.of_nat (length X)) 0 None) = (firstn (list_sum bs) X, firstn (list_sum bs) y, s') /\
    as_remaining s' = Z.of_nat (length X - list_sum bs) /\ as_restart s' = mk_asine X y (Z.of_nat (length X)) 0 None.
Proof.
  intros HL. destruct (read_sine_spec bs (mk_asine X y (Z.of_nat (length X)) 0 None) 0 eq_refl eq_refl HL ltac:(cbn; lia)) as (k & cur & E & Ek).
  cbn [as_X as_y as_n] in *. eexists. rewrite E. cbn [skipn]. rewrite Nat.sub_0_r. split.
  - assert (K : forall (A : Type) (l : list A), length l = length X -> firstn k l = firstn (list_sum bs) l).
    { intros A l Ll. subst k. cbn [plus]. destruct (Nat.le_ge_cases (list_sum bs) (length X)) as [M|M].
      - now rewrite Nat.min_l.
      - rewrite Nat.min_r by exact M. rewrite !firstn_all2; [reflexivity| |]; lia. }
    rewrite !K by auto. reflexivity.
  - unfold as_remaining, as_restart. cbn. split; [lia|reflexivity].
Qed.
Theorem anomaly_sine_more_refuted {V} (X : list V) y b :
  let s := mk_asine X y (Z.of_nat (length X)) (Z.of_nat (length X)) None in
  as_remaining s = 0%Z /\ as_more s = true /\ fst (as_next b s) = None.
Proof.
  cbv zeta. unfold as_next, as_remaining, as_more. cbn. split; [lia|]. split; [reflexivity|]. rewrite Z.sub_diag.
  destruct (Z.ltb_spec 0 (Z.of_nat b)); [reflexivity|]. replace (Z.of_nat b) with 0%Z by lia. reflexivity.
Qed.

(** *** C109: random_index_based_on_weights picks index i with the probability of its weight: exactly when the random
    number falls into the i-th slice of [0, 1) cut in proportion to the weights. *)
Theorem weighted_index {G} (S : Rng G R) ws g : rng_ok S -> Forall (fun w => 0 <= w)%R ws -> (0 < Rtotal ws)%R ->
  exists i g', random_index S ws g = (Z.of_nat i, g') /\ (i < length ws)%nat /\ (0 < nth i ws 0)%R /\
    (Rtotal (firstn i ws) / Rtotal ws <= fst (rng_rand S g) < Rtotal (firstn i ws) / Rtotal ws + nth i ws 0 / Rtotal ws)%R.
Proof.
  intros HS HW HT. unfold random_index. destruct (rng_rand S g) as [u g'] eqn:Eu. pose proof (rand_ok _ _ _ _ HS Eu) as Hu.
  cbv zeta. rewrite fold_left_total. cbn [nofZ nmul NumR]. rewrite Rplus_0_l.
  destruct (weight_loop_spec ws HW 0%R (u * Rtotal ws)%R) as (i & E & Hi & K); [nra|].
  exists i, g'. rewrite E. replace (Z.of_nat i + 1 - 1)%Z with (Z.of_nat i) by lia. split; [reflexivity|]. split; [exact Hi|].
  assert (F : (Rtotal (firstn (Datatypes.S i) ws) = Rtotal (firstn i ws) + nth i ws 0)%R).
  { clear -Hi. revert i Hi. induction ws as [|w ws IH]; intros i Hi; [cbn in Hi; lia|]. destruct i as [|i].
    - cbn. lra.
    - change (firstn (Datatypes.S (Datatypes.S i)) (w :: ws)) with (w :: firstn (Datatypes.S i) ws).
      change (firstn (Datatypes.S i) (w :: ws)) with (w :: firstn i ws). cbn [Rtotal nth]. rewrite IH by (cbn in Hi; lia). lra. }
  rewrite F in K. split; [lra|]. cbn [fst]. split.
  - apply (Rmult_le_reg_r (Rtotal ws)); [exact HT|]. unfold Rdiv. rewrite Rmult_assoc, Rinv_l by lra. lra.
  - apply (Rmult_lt_reg_r (Rtotal ws)); [exact HT|]. unfold Rdiv. rewrite Rmult_plus_distr_r, !Rmult_assoc, Rinv_l by lra. lra.
Qed.
Example weighted_index_example : random_index tick [1; 2; 7]%Q 2%nat = (1%Z, 3%nat) /\ random_index tick [1; 2; 7]%Q 3%nat = (2%Z, 4%nat).
Proof. split; reflexivity. Qed.
(** No centroids: every sample raises. *)
Theorem rbf_no_centroids_refuted {G T} `{Num T} (S : Rng G T) mk ms ss k nf n :
  next_sample0 (rbf_one S nf) (Datatypes.S n) (rbf_new S mk ms ss k nf 0) = Exc IndexError.
Proof.
  unfold rbf_new. cbn [gen_centroids]. unfold next_sample0, next_sample, gen_rows. cbn [s_rng s_ext s_idx]. unfold rbf_one at 1.
  unfold random_index. cbn [r_weights]. destruct (rng_rand S (mk ss)) as [u g]. reflexivity.
Qed.

(** *** C110: RandomRBF samples.  Reachable states keep the centroids, and the next sample lies around one of them, at
    distance |normal| * std_dev from its centre, with its label. *)
Theorem rbf_samples {G} (S : Rng G R) mk ms ss k nf nc bs rows0 ys0 s :
  rng_ok S -> (0 < k)%Z -> (0 < nf)%nat -> (0 < nc)%nat -> (forall g, fst (rng_rand S g) <> 1 / 2)%R ->
  (forall g, fst (rng_rand S g) <> 0)%R ->
  take0 (rbf_one S nf) bs (rbf_new S mk ms ss k nf nc) = Ret (rows0, ys0, s) ->
  s_ext s = s_ext (rbf_new S mk ms ss k nf nc) /\
  exists row y s', next_sample0 (rbf_one S nf) 1 s = Ret ([row], [y], s') /\ length row = nf /\ (0 <= y < k)%Z /\
    exists c z, In c (r_cents (s_ext s)) /\ y = ce_label c /\ Forall (fun v => 0 <= v <= 1)%R (ce_centre c) /\
      (0 <= ce_std c < 1)%R /\ (exists g, z = fst (rng_normal S g)) /\ norm2 (vsub row (ce_centre c)) = (Rabs z * ce_std c)%R.
Proof.
  intros HS Hk Hnf Hnc Hh Hz E.
  assert (SAME : forall g x row y g' x', rbf_one S nf g x = Ret (row, y, (g', x')) -> x' = x).
  { intros g x row y g' x' H. unfold rbf_one in H. destruct (random_index S (r_weights x) g) as [i g1].
    destruct (pyget (r_cents x) i); [|discriminate H]. destruct (offsets S nf g1) as [vs g2]. cbv zeta in H.
    destruct (rng_normal S g2) as [z g3]. now injection H. }
  edestruct (take0_spec (rbf_one S nf) (fun x => x = s_ext (rbf_new S mk ms ss k nf nc)) (fun _ _ => True)) as (_ & K & _);
    [|reflexivity|exact E|].
  { intros g x row y g' x' -> H. split; [exact I|]. now apply SAME in H. }
  split; [exact K|].
  assert (F : cents_ok nf k (r_cents (s_ext s)) /\ Forall (fun w => 0 <= w)%R (r_weights (s_ext s)) /\
              (0 < Rtotal (r_weights (s_ext s)))%R /\ length (r_weights (s_ext s)) = length (r_cents (s_ext s))).
  { rewrite K. unfold rbf_new. destruct (gen_centroids S nc nf k (mk ms)) as [[cs ws] g] eqn:Eg. cbn [s_ext r_cents r_weights].
    destruct (gen_centroids_ok _ _ _ _ _ _ _ _ HS Hk Eg) as (A & B & C & D). split; [exact C|].
    split; [eapply Forall_impl; [|exact D]; intros; cbn in *; lra|]. split; [|congruence].
    destruct nc as [|m]; [lia|]. cbn [gen_centroids] in Eg. destruct (rands S nf (mk ms)) as [c0 g1].
    destruct (rng_int S k g1) as [l g2]. destruct (rng_rand S g2) as [sd g3]. destruct (rng_rand S g3) as [w g4] eqn:Ew.
    destruct (gen_centroids S m nf k g4) as [[cs1 ws1] g5]. injection Eg as <- <- <-. inversion D as [|? ? D1 D2]; subst.
    cbn [Rtotal]. specialize (Hz g3). rewrite Ew in Hz. cbn in Hz.
    pose proof (Rtotal_nonneg ws1 ltac:(eapply Forall_impl; [|exact D2]; intros; cbn in *; lra)). lra. }
  destruct F as (F1 & F2 & F3 & F4).
  destruct (rbf_one_ok S nf k (s_rng s) (s_ext s) HS Hnf Hh F1 F2 F3 F4) as (row & y & g' & i & c & u & z & H1 & H2 & _ & _ & H5 & H6 & H7 & H8).
  unfold next_sample0, next_sample, gen_rows. rewrite H1. cbn [obind]. do 3 eexists. split; [reflexivity|]. split; [exact H6|].
  pose proof (nth_error_In _ _ H2) as I. pose proof (proj1 (Forall_forall _ _) F1 c I) as (C1 & C2 & C3 & C4).
  split; [now rewrite H5|]. exists c, z. auto 10.
Qed.

(** *** C111: drifting centroids stay in the unit cube, move by at most change_speed per sample, and keep their labels,
    deviations and weights; the centroids after the first num_drift_centroids never move. *)
Definition rbfd_ok (nf : nat) (k : Z) (nc nd : nat) (x : rbf R) : Prop :=
  cents_ok nf k (r_cents x) /\ length (r_cents x) = nc /\ length (r_speed x) = nd /\
  Forall (fun s => length s = nf /\ Rtotal (map (fun v => v * v)%R s) = 1%R) (r_speed x).
Lemma rbfd_one_facts {G} (S : Rng G R) nf k nc nd speed g x row y g' x' : (nd <= nc)%nat ->
  rbfd_ok nf k nc nd x -> rbfd_one S nf speed g x = Ret (row, y, (g', x')) ->
  rbfd_ok nf k nc nd x' /\ r_weights x' = r_weights x /\
  Forall2 (fun c c' => ce_label c' = ce_label c /\ ce_std c' = ce_std c /\ norm2 (vsub (ce_centre c') (ce_centre c)) <= Rabs speed)%R
    (firstn nd (r_cents x)) (firstn nd (r_cents x')) /\ skipn nd (r_cents x') = skipn nd (r_cents x).
Proof.
  intros Hnd (A & B & C & D) E. unfold rbfd_one in E. destruct (move_all speed (r_cents x) (r_speed x)) as [cs sp] eqn:Em.
  assert (LE : (length (r_speed x) <= length (r_cents x))%nat) by lia.
  destruct (move_all_ok speed nf k _ _ _ _ A LE D Em) as (M1 & M2 & M3 & M4 & M5 & M6).
  assert (X : x' = mk_rbf cs (r_weights x) sp).
  { unfold rbf_one in E. cbn [r_weights r_cents] in E. destruct (random_index S (r_weights x) g) as [i g1]. destruct (pyget cs i); [|discriminate E].
    destruct (offsets S nf g1) as [vs g2]. cbv zeta in E. destruct (rng_normal S g2) as [z g3]. now injection E. }
  subst x'. cbn [r_cents r_weights r_speed]. rewrite C in *. repeat split; auto; try (cbn; congruence).
Qed.
Theorem rbf_drift_moves {G} (S : Rng G R) mk ms ss k nf nc nd speed bs rows0 ys0 s row ys s' :
  rng_ok S -> (0 < k)%Z -> (0 < nf)%nat -> (forall g, fst (rng_rand S g) <> 0)%R ->
  take0 (rbfd_one S nf speed) bs (rbfd_new S mk ms ss k nf nc nd) = Ret (rows0, ys0, s) ->
  next_sample0 (rbfd_one S nf speed) 1 s = Ret (row, ys, s') ->
  let d := Nat.min nd nc in
  length (r_cents (s_ext s')) = nc /\
  Forall (fun c => Forall (fun v => 0 <= v <= 1)%R (ce_centre c) /\ length (ce_centre c) = nf) (r_cents (s_ext s')) /\
  Forall2 (fun c c' => ce_label c' = ce_label c /\ ce_std c' = ce_std c /\ norm2 (vsub (ce_centre c') (ce_centre c)) <= Rabs speed)%R
    (firstn d (r_cents (s_ext s))) (firstn d (r_cents (s_ext s'))) /\
  skipn d (r_cents (s_ext s')) = skipn d (r_cents (s_ext s)) /\ r_weights (s_ext s') = r_weights (s_ext s).
Proof.
  intros HS Hk Hnf Hz E N d. assert (Hd : (d <= nc)%nat) by (unfold d; lia).
  assert (I0 : rbfd_ok nf k nc d (s_ext (rbfd_new S mk ms ss k nf nc nd))).
  { unfold rbfd_new. destruct (gen_centroids S nc nf k (mk ms)) as [[cs ws] g] eqn:Eg. fold d.
    destruct (gen_speeds S d nf (mk ms)) as [sp g2] eqn:Es. cbn [s_ext].
    destruct (gen_centroids_ok _ _ _ _ _ _ _ _ HS Hk Eg) as (A & _ & C & _).
    destruct (gen_speeds_ok _ _ _ _ _ _ HS Hz Hnf Es) as (P & Q). repeat split; assumption. }
  edestruct (take0_spec (rbfd_one S nf speed) (rbfd_ok nf k nc d) (fun _ _ => True)) as (_ & K & _); [|exact I0|exact E|].
  { intros g x r y g' x' HP H. split; [exact I|]. now destruct (rbfd_one_facts _ _ _ _ _ _ _ _ _ _ _ _ Hd HP H). }
  unfold next_sample0, next_sample, gen_rows in N.
  destruct (rbfd_one S nf speed (s_rng s) (s_ext s)) as [[[r y] [g' x']]| |] eqn:E1; cbn [obind] in N; try discriminate N.
  injection N as <- <- <-. cbn [s_ext].
  destruct (rbfd_one_facts _ _ _ _ _ _ _ _ _ _ _ _ Hd K E1) as ((P1 & P2 & _) & Q & M & L). split; [exact P2|].
  split; [|auto]. eapply Forall_impl; [|exact P1]. intros c (C1 & C2 & _). auto.
Qed.
Example rbf_example :
  exists row s', next_sample0 (rbfd_one tick 2 (1 # 2)%Q) 1 (rbfd_new tick (fun z => Z.to_nat z) 1 1 3 2 2 1) = Ret ([row], [0%Z], s').
Proof. do 2 eexists. vm_compute. reflexivity. Qed.

(** *** C112: RandomTreeGenerator *)
(** The tree respects the documented shape, and every sample of every history is a valid row labelled by it (left below the
    cut, right otherwise, and by category at nominal nodes): samples with equal features have equal labels, which are
    classes. *)
Theorem random_tree_samples {G} (S : Rng G R) mk ts ss k n_num n_cat n_cats max_depth min_leaf frac s0 bs rows ys s :
  rng_ok S -> (0 < k)%Z ->
  rt_new S mk ts ss k n_num n_cat n_cats max_depth min_leaf frac = Ok s0 ->
  take0 (rt_one S n_num n_cat n_cats) bs s0 = Ret (rows, ys, s) ->
  tree_ok k n_num n_cats (Nat.min min_leaf max_depth) max_depth 0 (repeat 0%R n_num) (repeat 1%R n_num) (seq n_num n_cat) (s_ext s0) /\
  length rows = list_sum bs /\ length ys = list_sum bs /\
  Forall2 (fun row y => tree_row n_num n_cat n_cats row /\ (0 <= y < k)%Z /\ tree_label n_num n_cats row (s_ext s0) y) rows ys /\
  (forall i j, (i < list_sum bs)%nat -> (j < list_sum bs)%nat -> nth i rows [] = nth j rows [] -> nth i ys 0%Z = nth j ys 0%Z).
Proof.
  intros HS Hk E0 E. unfold rt_new, new_tree in E0.
  destruct (gen_tree S k n_num n_cats min_leaf frac max_depth 0 (seq 0 (n_num + n_cat)) (repeat (nofZ 0) n_num) (repeat (nofZ 1) n_num) (mk ts))
    as [[t g]|] eqn:Et; [|discriminate E0]. cbn [bind] in E0. injection E0 as <-. cbn [s_ext].
  rewrite seq_app in Et. cbn [plus nofZ NumR] in Et.
  assert (OK : tree_ok k n_num n_cats (Nat.min min_leaf max_depth) max_depth 0 (repeat 0%R n_num) (repeat 1%R n_num) (seq n_num n_cat) t).
  { eapply gen_tree_ok; [exact HS|exact Hk|reflexivity| | | | |exact Et].
    - apply Forall_forall. intros a Ha. apply in_seq in Ha. lia.
    - apply repeat_length.
    - apply repeat_length.
    - intros i. destruct (Nat.lt_ge_cases i n_num) as [L|L].
      + rewrite nth_repeat. rewrite (nth_indep _ 0%R 1%R) by (now rewrite repeat_length). rewrite nth_repeat. lra.
      + rewrite !nth_overflow by (now rewrite repeat_length). lra. }
  split; [exact OK|].
  edestruct (take0_spec (rt_one S n_num n_cat n_cats) (fun x => x = t)
    (fun row y => tree_row n_num n_cat n_cats row /\ classify n_num n_cats t row = Ok y)) as (K & _ & L);
    [| |exact E|].
  { intros g0 x row y g' x' -> H. destruct (rt_row_ok _ _ _ _ _ _ _ _ _ _ HS H) as (A & B & C & _). auto. }
  { reflexivity. }
  split; [exact L|]. assert (LL : length rows = length ys) by (clear -K; induction K; cbn; congruence). split; [congruence|]. split.
  - clear -K OK. induction K as [|row y rows ys (A & B) K IH]; constructor; [|exact IH]. split; [exact A|].
    destruct (classify_total _ _ _ _ _ _ _ _ _ _ _ _ A OK) as (y' & B' & C').
    { apply Forall_forall. intros a Ha. apply in_seq in Ha. lia. }
    split; [congruence|]. now apply classify_label.
  - intros i j Hi Hj Eq. rewrite <- L in Hi, Hj.
    assert (F : forall i, (i < length rows)%nat -> classify n_num n_cats t (nth i rows []) = Ok (nth i ys 0%Z)).
    { clear -K. induction K as [|r y rows ys [_ H] K IH]; intros [|i] Hi; cbn in *; try lia; [exact H|apply IH; lia]. }
    pose proof (F i Hi) as F1. rewrite Eq, F in F1 by exact Hj. congruence.
Qed.
(** next_sample always returns. *)
Theorem random_tree_total {G} (S : Rng G R) mk ts ss k n_num n_cat n_cats max_depth min_leaf frac :
  rng_ok S -> (0 < k)%Z -> (0 < n_cats)%nat -> (0 < n_num)%nat \/ (max_depth <= n_cat)%nat ->
  exists s0, rt_new S mk ts ss k n_num n_cat n_cats max_depth min_leaf frac = Ok s0 /\
    forall bs rows ys s n, take0 (rt_one S n_num n_cat n_cats) bs s0 = Ret (rows, ys, s) ->
      exists rows' ys' s', next_sample0 (rt_one S n_num n_cat n_cats) n s = Ret (rows', ys', s').
Proof.
  intros HS Hk Hc Hn.
  assert (E0 : exists s0, rt_new S mk ts ss k n_num n_cat n_cats max_depth min_leaf frac = Ok s0).
  { unfold rt_new, new_tree. rewrite seq_app.
    destruct (gen_tree_total S k n_num n_cats min_leaf frac HS max_depth 0 (seq (0 + n_num) n_cat) (repeat (nofZ 0) n_num)
       (repeat (nofZ 1) n_num) (mk ts)) as (t & g & ->).
    - apply Forall_forall. intros a Ha. apply in_seq in Ha. lia.
    - apply seq_NoDup.
    - rewrite seq_length. exact Hn.
    - cbn [bind]. eauto. }
  destruct E0 as [s0 E0]. exists s0. split; [exact E0|]. intros bs rows ys s n E.
  destruct (random_tree_samples _ _ _ _ _ _ _ _ _ _ _ _ _ _ _ _ HS Hk E0 E) as (OK & _).
  edestruct (take0_spec (rt_one S n_num n_cat n_cats) (fun x => x = s_ext s0) (fun _ _ => True)) as (_ & K & _); [|reflexivity|exact E|].
  { intros g0 x row y g' x' -> H. split; [exact I|]. now destruct (rt_row_ok _ _ _ _ _ _ _ _ _ _ HS H) as (_ & _ & C & _). }
  apply (next0_total _ (fun x => x = s_ext s0)); [|exact K]. intros g x ->. unfold rt_one.
  destruct (rands S n_num g) as [us g1] eqn:E1. destruct (Nat.eqb_spec n_cats 0); [lia|].
  destruct (hot_blocks S n_cat n_cats g1) as [hs g2] eqn:E2. cbv zeta.
  destruct (rands_ok _ _ _ _ _ HS E1) as [A B]. destruct (hot_blocks_ok S n_cat n_cats _ _ _ HS Hc E2) as (bl & -> & L & F).
  destruct (classify_total n_num n_cat n_cats (us ++ concat bl) _ _ _ _ _ _ _ _ ltac:(exists us, bl; auto) OK) as (y & -> & _).
  { apply Forall_forall. intros a Ha. apply in_seq in Ha. lia. }
  do 4 eexists. split; reflexivity.
Qed.
(** Without numeric features, a tree deeper than the number of categorical features cannot be built, whatever the seed. *)
Theorem random_tree_categorical_only_refuted {G} (S : Rng G R) mk ts ss k n_cat n_cats max_depth min_leaf frac :
  rng_ok S -> (0 < n_cats)%nat -> (n_cat < max_depth)%nat -> (n_cat < min_leaf)%nat ->
  rt_new S mk ts ss k 0 n_cat n_cats max_depth min_leaf frac = Raise ValueError.
Proof.
  intros HS Hc H1 H2. unfold rt_new, new_tree. cbn [plus].
  rewrite gen_tree_raises; [reflexivity|exact HS|exact Hc|apply seq_NoDup|now rewrite seq_length|rewrite seq_length; lia].
Qed.
Example random_tree_example :
  exists s0 rows ys s, rt_new tick (fun z => Z.to_nat z) 1 2 3 1 1 2 2 1 (1 # 10)%Q = Ok s0 /\
    next_sample0 (rt_one tick 1 1 2) 3 s0 = Ret (rows, ys, s) /\ ys = [1; 1; 1]%Z.
Proof. do 4 eexists. split; [vm_compute; reflexivity|]. split; [vm_compute; reflexivity|]. reflexivity. Qed.

Print Assumptions concept_drift_interleaves.
Print Assumptions concept_drift_batches.
Print Assumptions regression_generator_reads.
Print Assumptions anomaly_sine_labels.
Print Assumptions rbf_drift_moves.
Print Assumptions random_tree_samples.
