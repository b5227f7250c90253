(** Lemmas about ConceptDriftStream and the stored generators. *)
From Coq Require Import ZArith List Bool Reals Lra Lia Arith.
From Verif Require Import Base.Py Base.Num Model.DataStream Model.Generators Model.GenStreams Spec.GenStreamSpec.
Import ListNotations.

(** *** ConceptDriftStream *)
(** The draws of rand() behind [n] samples. *)
Fixpoint draws {G T} (R : Rng G T) (n : nat) (g : G) : list T :=
  match n with O => [] | S k => let '(u, g') := rng_rand R g in u :: draws R k g' end.

Lemma fit_row_same {T} nf (row : list T) : length row = nf -> fit_row nf row = Ok row.
Proof. intros H. unfold fit_row. now rewrite H, Nat.eqb_refl. Qed.

Lemma cds_loop_spec {G A B T} `{Num T} (R : Rng G T) (sa : child A T) (sb : child B T) nf position width :
  (forall s row y s', ch_next sa s = Ok (row, y, s') -> length row = nf) ->
  (forall s row y s', ch_next sb s = Ok (row, y, s') -> length row = nf) ->
  forall n g idx a b rows ys g' idx' a' b',
  cds_loop R sa sb nf position width n g idx a b = Ok (rows, ys, (g', idx', a', b')) ->
  exists cs pa pb, merged cs pa pb (combine rows ys) /\ length cs = n /\ length rows = n /\ length ys = n /\
    emits sa (length pa) a = Ok (pa, a') /\ emits sb (length pb) b = Ok (pb, b') /\ idx' = (idx + Z.of_nat n)%Z /\
    forall i, (i < n)%nat -> exists p, drift_prob position width (idx + 1 + Z.of_nat i) = Ok p /\
      nth i cs false = negb (p <? nth i (draws R n g) (nofZ 0))%num.
Proof.
  intros HA HB n. induction n as [|n IH]; intros g idx a b rows ys g' idx' a' b' E; cbn [cds_loop] in E.
  - injection E as <- <- <- <- <- <-. exists [], [], []. repeat split; try (constructor; fail); try (cbn; lia).
  - cbv zeta in E. destruct (drift_prob position width (idx + 1)) as [p|] eqn:Ep; [|discriminate E]. cbn [bind] in E.
    destruct (rng_rand R g) as [u g1] eqn:Eu.
    assert (D : forall i, (i < S n)%nat -> nth i (draws R (S n) g) (nofZ 0) = match i with O => u | S j => nth j (draws R n g1) (nofZ 0) end).
    { intros i _. cbn [draws]. rewrite Eu. destruct i; reflexivity. }
    destruct (p <? u)%num eqn:Ec.
    + destruct (ch_next sa a) as [[[row y] a1]|] eqn:Ea; [|discriminate E]. cbn [bind] in E.
      rewrite (fit_row_same nf row) in E by eauto. cbn [bind] in E.
      destruct (cds_loop R sa sb nf position width n g1 (idx + 1) a1 b) as [[[rows1 ys1] [[[g2 i2] a2] b2]]|] eqn:El; [|discriminate E].
      cbn [bind] in E. injection E as <- <- <- <- <- <-.
      destruct (IH _ _ _ _ _ _ _ _ _ _ El) as (cs & pa & pb & M & L1 & L2 & L3 & E1 & E2 & E3 & K).
      exists (false :: cs), ((row, y) :: pa), pb. split; [cbn [combine]; now constructor|]. cbn [length].
      repeat (split; [lia|]). split.
      { cbn [emits length]. rewrite Ea, E1. reflexivity. }
      split; [exact E2|]. split; [lia|]. intros i Hi. rewrite D by exact Hi. destruct i as [|j].
      * exists p. rewrite Z.add_0_r. split; [exact Ep|]. cbn [nth]. now rewrite Ec.
      * destruct (K j) as (q & Q1 & Q2); [lia|]. exists q. split; [|exact Q2]. rewrite <- Q1. f_equal. lia.
    + destruct (ch_next sb b) as [[[row y] b1]|] eqn:Eb; [|discriminate E]. cbn [bind] in E.
      rewrite (fit_row_same nf row) in E by eauto. cbn [bind] in E.
      destruct (cds_loop R sa sb nf position width n g1 (idx + 1) a b1) as [[[rows1 ys1] [[[g2 i2] a2] b2]]|] eqn:El; [|discriminate E].
      cbn [bind] in E. injection E as <- <- <- <- <- <-.
      destruct (IH _ _ _ _ _ _ _ _ _ _ El) as (cs & pa & pb & M & L1 & L2 & L3 & E1 & E2 & E3 & K).
      exists (true :: cs), pa, ((row, y) :: pb). split; [cbn [combine]; now constructor|]. cbn [length].
      repeat (split; [lia|]). split; [exact E1|]. split.
      { cbn [emits length]. rewrite Eb, E2. reflexivity. }
      split; [lia|]. intros i Hi. rewrite D by exact Hi. destruct i as [|j].
      * exists p. rewrite Z.add_0_r. split; [exact Ep|]. cbn [nth]. now rewrite Ec.
      * destruct (K j) as (q & Q1 & Q2); [lia|]. exists q. split; [|exact Q2]. rewrite <- Q1. f_equal. lia.
Qed.

Lemma cds_loop_split {G A B T} `{Num T} (R : Rng G T) (sa : child A T) (sb : child B T) nf position width n m g idx a b :
  cds_loop R sa sb nf position width (n + m) g idx a b =
  ' (rows, ys, (g1, i1, a1, b1)) <- cds_loop R sa sb nf position width n g idx a b ;;
  ' (rows', ys', fin) <- cds_loop R sa sb nf position width m g1 i1 a1 b1 ;;
  Ok (rows ++ rows', ys ++ ys', fin).
Proof.
  revert g idx a b. induction n as [|n IH]; intros g idx a b; cbn [cds_loop plus].
  - cbn [bind]. destruct (cds_loop R sa sb nf position width m g idx a b) as [[[r y] f]|]; reflexivity.
  - cbv zeta. destruct (drift_prob position width (idx + 1)) as [p|]; [|reflexivity]. cbn [bind].
    destruct (rng_rand R g) as [u g1].
    destruct (if (p <? u)%num then ' (row, y, a') <- ch_next sa a;; Ok (row, y, a', b)
              else ' (row, y, b') <- ch_next sb b;; Ok (row, y, a, b')) as [[[[row y] a1] b1]|]; [|reflexivity].
    cbn [bind]. destruct (fit_row nf row) as [row'|]; [|reflexivity]. cbn [bind]. rewrite IH.
    destruct (cds_loop R sa sb nf position width n g1 (idx + 1) a1 b1) as [[[r1 y1] [[[g2 i2] a2] b2]]|]; [|reflexivity].
    cbn [bind]. destruct (cds_loop R sa sb nf position width m g2 i2 a2 b2) as [[[r2 y2] f]|]; reflexivity.
Qed.

Lemma drift_prob_sigmoid position width idx : (width <> 0)%Z ->
  drift_prob (T := R) position width idx = Ok (sigmoid position width idx).
Proof.
  intros Hw. unfold drift_prob. rewrite (proj2 (Z.eqb_neq _ _) Hw). f_equal. unfold sigmoid. cbn [ndiv nadd nexp nmul nofZ NumR].
  unfold Rdiv at 1. rewrite Rmult_1_l. do 3 f_equal. rewrite minus_IZR. unfold Rdiv.
  replace (IZR (-4)) with (- 4)%R by (now rewrite opp_IZR || reflexivity). ring.
Qed.

(** *** Stored data *)
Lemma nth_firstn_lt {A} n i (l : list A) d : (i < n)%nat -> nth i (firstn n l) d = nth i l d.
Proof. revert i l; induction n as [|n IH]; intros [|i] [|x l] Hi; cbn; auto; try lia. apply IH; lia. Qed.

Lemma pyslice_firstn {A} (l : list A) (i b : nat) :
  pyslice l (Z.of_nat i + Z.of_nat b - Z.of_nat b) (Z.of_nat i + Z.of_nat b) = firstn b (skipn i l).
Proof.
  unfold pyslice, clip.
  replace (Z.of_nat i + Z.of_nat b - Z.of_nat b)%Z with (Z.of_nat i) by lia.
  replace (Z.of_nat i + Z.of_nat b)%Z with (Z.of_nat (i + b)) by lia.
  rewrite !(proj2 (Z.ltb_ge _ _)) by lia. rewrite <- !Nat2Z.inj_min, !Nat2Z.id.
  rewrite firstn_skipn_comm.
  destruct (Nat.le_ge_cases (length l) i) as [L|L].
  - rewrite (skipn_all2 (n := i)) by (rewrite firstn_length; lia). apply skipn_all2. rewrite firstn_length. lia.
  - rewrite (Nat.min_l i) by exact L. destruct (Nat.le_ge_cases (i + b) (length l)) as [M|M].
    + rewrite Nat.min_l by exact M. reflexivity.
    + rewrite Nat.min_r by exact M. rewrite firstn_all, firstn_all2 by exact M. reflexivity.
Qed.

Lemma firstn_skipn_app {A} (l : list A) i b c : firstn b (skipn i l) ++ firstn c (skipn (i + b) l) = firstn (b + c) (skipn i l).
Proof.
  replace (skipn (i + b) l) with (skipn b (skipn i l)).
  - generalize (skipn i l). clear. intros l. revert l; induction b as [|b IH]; intros [|x l]; cbn; auto; [now rewrite firstn_nil|].
    f_equal. apply IH.
  - revert l; induction i as [|i IH]; intros l; cbn; auto. destruct l; [now rewrite !skipn_nil|apply IH].
Qed.

Lemma read_all_spec {V} bs (s : stored V) i : st_idx s = Z.of_nat i ->
  let t := list_sum bs in
  exists cur, read_all bs s = (firstn t (skipn i (st_X s)), firstn t (skipn i (st_y s)),
               mk_stored (st_X s) (st_y s) (st_n s) (Z.of_nat (i + t)) cur) /\ (bs = [] -> cur = st_cur s).
Proof.
  revert s i; induction bs as [|b bs IH]; intros s i Hi; cbn [read_all list_sum fold_right].
  - exists (st_cur s). cbn. rewrite Nat.add_0_r, <- Hi. destruct s; auto.
  - unfold st_next. rewrite Hi, !pyslice_firstn. cbv zeta.
    set (s1 := mk_stored _ _ _ _ _). destruct (IH s1 (i + b)%nat) as (cur & E & _); [unfold s1; cbn; lia|].
    rewrite E. unfold s1; cbn [st_X st_y st_n]. rewrite !firstn_skipn_app. exists cur. split; [|discriminate].
    change (fold_right Nat.add 0%nat bs) with (list_sum bs).
    do 2 f_equal. lia.
Qed.

Lemma nth_concat {V} (d : V) t (y : list (list V)) i j : Forall (fun r => length r = t) y -> (j < t)%nat ->
  nth (i * t + j) (concat y) d = nth j (nth i y []) d.
Proof.
  intros HF Hj. revert i; induction HF as [|r y Hr HF IH]; intros i; cbn [concat].
  - destruct (i * t + j)%nat, i, j; reflexivity.
  - destruct i as [|i].
    + cbn. rewrite app_nth1 by lia. reflexivity.
    + rewrite app_nth2 by (cbn; nia). replace (S i * t + j - length r)%nat with (i * t + j)%nat by (cbn; lia). cbn. apply IH.
Qed.

Lemma concat_length_const {V} t (y : list (list V)) : Forall (fun r => length r = t) y -> length (concat y) = (length y * t)%nat.
Proof. induction 1 as [|r y Hr HF IH]; cbn; [reflexivity|]. rewrite app_length. lia. Qed.

(** np.resize of an n x t array to (n*t) x t repeats the n rows t times. *)
Lemma np_resize_rows {V} (d : V) t (y : list (list V)) i : (0 < t)%nat -> Forall (fun r => length r = t) y ->
  (i < length y * t)%nat -> nth i (np_resize d (concat y) (length (concat y)) t) [] = nth (i mod length y) y [].
Proof.
  intros Ht HF Hi. unfold np_resize.
  rewrite (concat_length_const t y HF).
  set (f := fun i0 : nat => _). rewrite (nth_indep _ [] (f 0%nat)) by (rewrite map_length, seq_length; exact Hi).
  rewrite map_nth, seq_nth by exact Hi. cbn [plus]. unfold f. clear f.
  assert (Hn : length y <> 0%nat) by (intros E; rewrite E in Hi; lia).
  assert (L : length (nth (i mod length y) y []) = t).
  { apply (proj1 (Forall_forall _ _) HF). apply nth_In. now apply Nat.mod_upper_bound. }
  apply nth_ext with (d := d) (d' := d); rewrite map_length, seq_length; [now rewrite L|].
  intros j Hj. set (f := fun j0 : nat => _). rewrite (nth_indep _ d (f 0%nat)) by (now rewrite map_length, seq_length).
  rewrite map_nth, seq_nth by exact Hj. cbn [plus]. unfold f. rewrite <- (nth_concat d t y (i mod length y) j HF Hj).
  f_equal. rewrite (Nat.mul_comm (length y) t), (Nat.add_comm (i * t)), (Nat.mul_comm i t).
  rewrite (Nat.div_mod i (length y) Hn) at 1. rewrite Nat.mul_add_distr_l, Nat.mul_assoc.
  replace (j + (t * length y * (i / length y) + t * (i mod length y)))%nat
    with (i mod length y * t + j + (i / length y) * (t * length y))%nat by lia.
  rewrite Nat.mod_add by lia. rewrite Nat.mod_small; [lia|].
  pose proof (Nat.mod_upper_bound i (length y) Hn). nia.
Qed.

Lemma np_resize_length {V} (d : V) flat r c : length (np_resize d flat r c) = r.
Proof. unfold np_resize. now rewrite map_length, seq_length. Qed.

Lemma np_resize_prefix {V} (d : V) t (y : list (list V)) : (0 < t)%nat -> Forall (fun r => length r = t) y ->
  firstn (length y) (np_resize d (concat y) (length (concat y)) t) = y.
Proof.
  intros Ht HF. apply nth_ext with (d := []) (d' := []).
  - rewrite firstn_length, np_resize_length, (concat_length_const t y HF). nia.
  - intros i Hi. rewrite firstn_length, np_resize_length, (concat_length_const t y HF) in Hi.
    rewrite nth_firstn_lt by lia. rewrite (np_resize_rows d t y i Ht HF) by nia. f_equal. apply Nat.mod_small. lia.
Qed.

(** *** Index assignments *)
Lemma set_at_length {V} (l : list V) i v : length (set_at l i v) = length l.
Proof.
  unfold set_at. destruct (Nat.ltb_spec i (length l)); [|reflexivity].
  rewrite app_length. cbn [length]. rewrite firstn_length, skipn_length. lia.
Qed.
Lemma set_at_nth {V} (l : list V) i v j d : (i < length l)%nat -> nth j (set_at l i v) d = if Nat.eqb j i then v else nth j l d.
Proof.
  intros Hi. unfold set_at. rewrite (proj2 (Nat.ltb_lt _ _) Hi).
  revert i j Hi; induction l as [|x l IH]; intros [|i] [|j] Hi; cbn in *; try lia; auto. apply IH; lia.
Qed.
Lemma fancy_set_length {V} (l : list V) idx vals : length (fancy_set l idx vals) = length l.
Proof. revert l vals; induction idx as [|i idx IH]; intros l [|v vals]; cbn; auto. now rewrite IH, set_at_length. Qed.
(** A place that is not written keeps its value, a place that is written holds one of the values written there. *)
Lemma fancy_set_nth {V} (l : list V) idx vals d j : length idx = length vals -> Forall (fun i => (i < length l)%nat) idx ->
  (~ In j idx -> nth j (fancy_set l idx vals) d = nth j l d) /\
  (In j idx -> exists k, nth_error idx k = Some j /\ nth_error vals k = Some (nth j (fancy_set l idx vals) d)).
Proof.
  revert l vals; induction idx as [|i idx IH]; intros l [|v vals] HL HF; cbn [fancy_set length] in *; try discriminate.
  - split; [reflexivity|intros []].
  - inversion HF as [|? ? Hi HF']; subst.
    destruct (IH (set_at l i v) vals) as [A B]; [lia|now rewrite set_at_length|]. split.
    + intros NI. rewrite A by (intros K; apply NI; now right). rewrite set_at_nth by exact Hi.
      destruct (Nat.eqb_spec j i); [subst; destruct NI; now left|reflexivity].
    + intros I. destruct (in_dec Nat.eq_dec j idx) as [J|J].
      * destruct (B J) as (k & K1 & K2). exists (S k). auto.
      * destruct I as [->|I]; [|contradiction]. exists 0%nat. split; [reflexivity|]. cbn. f_equal.
        rewrite A by exact J. rewrite set_at_nth by exact Hi. now rewrite Nat.eqb_refl.
Qed.
