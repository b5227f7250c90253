(** Lemmas about the bagging ensembles. *)
From Coq Require Import List ZArith Bool Lia Reals Lra.
From Verif Require Import Base.Py Base.Num Spec.Lists Spec.BaggingSpec Model.Adwin Model.Knn Model.Learner Model.Generators Model.Bagging
  Proofs.ListFacts Proofs.KnnProofs.
Import ListNotations.

(** ** Training *)
Section Train.
Context {X T B G : Type} {N : Num T} (L : learner X T B) (pois : T -> G -> nat * G).
Lemma draws_len {G'} (draw : G' -> nat * G') n : forall g ks g', draws draw n g = (ks, g') -> length ks = n.
Proof. induction n as [|n IH]; intros g ks g' H; cbn in H; [injection H as <- <-; reflexivity|]. destruct (draw g) as [k g1]. destruct (draws draw n g1) as [ks1 g2] eqn:E. injection H as <- <-. cbn. f_equal. eauto. Qed.
Lemma draws_app {G'} (draw : G' -> nat * G') n m : forall g, draws draw (n + m) g = let '(a, g1) := draws draw n g in let '(b, g2) := draws draw m g1 in (a ++ b, g2).
Proof.
  induction n as [|n IH]; intros g; cbn [Nat.add draws]; [destruct (draws draw m g); reflexivity|]. destruct (draw g) as [k g1]. rewrite IH.
  destruct (draws draw n g1) as [a g2]. destruct (draws draw m g2) as [b g3]. reflexivity.
Qed.
Lemma train_members_ok f l : forall g l' g', train_members (B := B) pois f l g = Ok (l', g') ->
  exists ks, draws (pois n1) (length l) g = (ks, g') /\ length l' = length l /\
  forall i b, nth_error l i = Some b -> exists b', nth_error l' i = Some b' /\ times (nth i ks 0) f b = Ok b'.
Proof.
  induction l as [|b l IH]; intros g l' g' H; cbn [train_members] in H.
  - injection H as <- <-. exists []. repeat split; auto. intros [|i] b H; discriminate.
  - destruct (pois n1 g) as [k g1] eqn:Ek. apply bind_Ok in H as (b1 & E1 & H). apply bind_Ok in H as ([r' g2] & E2 & H). injection H as <- <-.
    destruct (IH _ _ _ E2) as (ks & D & Ln & Q). exists (k :: ks). cbn [length draws]. rewrite Ek, D. split; [reflexivity|]. split; [now rewrite Ln|].
    intros [|i] b0 Hb; cbn [nth_error nth] in *; [injection Hb as <-; eauto|eauto].
Qed.
Lemma times_fold {A R'} (f : A -> R' -> res A) (row : R') k : forall a, times k (fun a => f a row) a = foldM f (repeat row k) a.
Proof. induction k as [|k IH]; intros a; cbn; [reflexivity|]. destruct (f a row); cbn; auto. Qed.
Lemma foldM_app2 {A S'} (f : S' -> A -> res S') l m : forall s, foldM f (l ++ m) s = (s' <- foldM f l s ;; foldM f m s').
Proof. induction l as [|a l IH]; intros s; cbn; [reflexivity|]. destruct (f s a); cbn; auto. Qed.
Lemma train_rows (fit : B -> X * Z -> res B) rows : forall l g l' g',
  foldM (fun lg row => train_members (B := B) pois (fun b => fit b row) (fst lg) (snd lg)) rows (l, g) = Ok (l', g') ->
  exists ks, draws (pois n1) (length rows * length l) g = (ks, g') /\ length l' = length l /\
  forall i b, nth_error l i = Some b -> exists b', nth_error l' i = Some b' /\ foldM fit (repeated rows (turns (length l) (length rows) i ks)) b = Ok b'.
Proof.
  induction rows as [|row rows IH]; intros l g l' g' H; cbn [foldM fst snd] in H.
  - injection H as <- <-. exists []. cbn [length Nat.mul draws]. split; auto. split; auto. intros i b Hb. exists b. auto.
  - apply bind_Ok in H as ([l1 g1] & E1 & H). destruct (train_members_ok _ _ _ _ _ E1) as (k1 & D1 & L1 & Q1). destruct (IH _ _ _ _ H) as (k2 & D2 & L2 & Q2). rewrite L1 in *.
    exists (k1 ++ k2). split; [cbn [length Nat.mul]; rewrite draws_app, D1, D2; reflexivity|]. split; [exact L2|]. intros i b Hb.
    destruct (Q1 i b Hb) as (b1 & Hb1 & T1). destruct (Q2 i b1 Hb1) as (b2 & Hb2 & T2). exists b2. split; auto.
    unfold turns, repeated. cbn [length seq map combine flat_map fst snd]. rewrite foldM_app2. assert (Li : (i < length l)%nat) by (apply nth_error_Some; congruence).
    rewrite (app_nth1 k1 k2) by (rewrite (draws_len _ _ _ _ _ D1); cbn; lia). cbn [Nat.mul Nat.add]. rewrite <- times_fold, T1. cbn [bind]. rewrite <- T2. unfold repeated, turns. do 3 f_equal.
    rewrite <- seq_shift, map_map. apply map_ext. intros j. rewrite app_nth2 by (rewrite (draws_len _ _ _ _ _ D1); lia). f_equal. rewrite (draws_len _ _ _ _ _ D1). lia.
Qed.
End Train.

(** ** Probabilities *)
Local Open Scope R_scope.
Section Proba.
Context {X B : Type} (L : learner X R B).
Lemma add_row_nth (p : list R) : forall acc c, nth c (add_row acc p) 0 = nth c acc 0 + nth c p 0.
Proof.
  induction p as [|x p IH]; intros [|a acc] c; cbn [add_row]; try (destruct c; cbn; lra).
  destruct c as [|c]; cbn [nth]; [reflexivity|apply IH].
Qed.
Lemma add_row_sum (p : list R) : forall acc, Rsum (add_row acc p) = Rsum acc + Rsum p.
Proof. induction p as [|x p IH]; intros [|a acc]; cbn [add_row Rsum]; try lra. rewrite IH. cbn. lra. Qed.
Lemma add_rows_len (acc : list (list R)) : forall p, length (add_rows acc p) = length acc.
Proof. induction acc as [|a acc IH]; intros [|x p]; cbn; auto. Qed.
Lemma add_rows_nth (acc : list (list R)) : forall p n, length acc = length p -> nth n (add_rows acc p) [] = add_row (nth n acc []) (nth n p []).
Proof. induction acc as [|a acc IH]; intros [|x p] n E; try discriminate; [destruct n; reflexivity|]. destruct n as [|n]; cbn [add_rows nth]; [reflexivity|]. apply IH. now injection E. Qed.

Lemma fold_max_ge cs : forall c x, In x (c :: cs) -> (x <= fold_left Z.max cs c)%Z.
Proof. induction cs as [|d cs IH]; intros c x; cbn [fold_left]; [intros [<-|[]]; lia|]. intros [<-|[<-|Hx]]; [|specialize (IH (Z.max c d) _ (or_introl eq_refl)); lia|apply IH; right; exact Hx]. specialize (IH (Z.max c d) _ (or_introl eq_refl)). lia. Qed.
Lemma fits_hd {X'} classes (xs : list X') p : fits classes xs p -> length p = length xs /\ match p with [] => False | row :: _ => forall c cs, classes = c :: cs -> (Z.of_nat (length row) <= fold_left Z.max cs c + 1)%Z end.
Proof. intros (H1 & row & Hr & c & Hc & Hl). split; auto. destruct p as [|row0 p]; [discriminate|]. injection Hr as ->. intros d cs ->. apply fold_max_ge in Hc. lia. Qed.
Lemma sum_probas_ok classes xs : classes <> [] -> xs <> [] -> forall l ps l' acc, answers L xs l ps l' -> Forall (fits classes xs) ps -> length acc = length xs ->
  exists acc', sum_probas L (Some classes) (length xs) xs l acc = Ok (Some acc', l') /\ length acc' = length xs /\
  (forall n c, nth c (nth n acc' []) 0 = nth c (nth n acc []) 0 + vote_sum ps n c) /\ (forall n, Rsum (nth n acc' []) = Rsum (nth n acc []) + vote_total ps n).
Proof.
  intros NC NX. induction l as [|b l IH]; intros ps l' acc [A1 A2] F La.
  - inversion A1 as [E1 E2|]. destruct ps as [|p ps], l' as [|b' l']; try discriminate. exists acc. cbn. repeat split; auto; intros; unfold vote_sum, vote_total; cbn; lra.
  - destruct ps as [|p ps], l' as [|b' l']; try discriminate; [inversion A1|]. cbn [combine] in A1. inversion A1 as [|? ? ? ? P1 A1']; subst. injection A2 as A2. inversion F as [|? ? Fp0 F']; subst. apply fits_hd in Fp0 as [Lp Fp].
    cbn [sum_probas]. rewrite P1. destruct p as [|row0 p0]; [contradiction|]. destruct classes as [|c cs]; [congruence|]. specialize (Fp c cs eq_refl).
    destruct (Z.ltb_spec (fold_left Z.max cs c + 1) (Z.of_nat (length row0))) as [|_]; [lia|]. rewrite Lp, Nat.ltb_irrefl. rewrite <- Lp, firstn_all. rewrite Lp.
    destruct acc as [|a0 acc0] eqn:Ea; [exfalso; destruct xs; [congruence|discriminate]|]. rewrite <- Ea in *.
    destruct (IH ps l' (add_rows acc (row0 :: p0)) (conj A1' A2) F') as (acc' & E & L' & Q1 & Q2); [now rewrite add_rows_len|]. rewrite E. cbn [bind]. exists acc'. split; [reflexivity|]. split; auto. split.
    + intros n c0. rewrite Q1, add_rows_nth by congruence. rewrite add_row_nth. unfold vote_sum. cbn [map Rsum]. lra.
    + intros n. rewrite Q2, add_rows_nth by congruence. rewrite add_row_sum. unfold vote_total. cbn [map Rsum]. lra.
Qed.
Lemma nth_zeros n c : nth c (repeat 0 n) 0 = 0.
Proof. revert c. induction n as [|n IH]; intros [|c]; cbn; auto. Qed.
Lemma sum_zeros n : Rsum (repeat 0 n) = 0.
Proof. induction n as [|n IH]; cbn; lra. Qed.
Lemma zero_rows (p : list (list R)) n c : nth c (nth n (map (fun row => repeat 0 (length row)) p) []) 0 = 0 /\ Rsum (nth n (map (fun row => repeat 0 (length row)) p) []) = 0.
Proof. revert n. induction p as [|r p IH]; intros [|n]; cbn [map nth]; auto; try (destruct c; cbn; auto; lra). split; [apply nth_zeros|apply sum_zeros]. Qed.
Lemma bag_sums classes xs l ps l' : classes <> [] -> xs <> [] -> l <> [] -> answers L xs l ps l' -> Forall (fits classes xs) ps ->
  exists acc, sum_probas L (Some classes) (length xs) xs l [] = Ok (Some acc, l') /\ length acc = length xs /\
  (forall n c, nth c (nth n acc []) 0 = vote_sum ps n c) /\ (forall n, Rsum (nth n acc []) = vote_total ps n).
Proof.
  intros NC NX NL [A1 A2] F. destruct l as [|b l]; [congruence|]. destruct ps as [|p ps], l' as [|b' l']; try discriminate; [inversion A1|]. cbn [combine] in A1. inversion A1 as [|? ? ? ? P1 A1']; subst. injection A2 as A2. inversion F as [|? ? Fp0 F']; subst. apply fits_hd in Fp0 as [Lp Fp].
  cbn [sum_probas]. rewrite P1. destruct p as [|row0 p0]; [contradiction|]. destruct classes as [|c cs]; [congruence|]. specialize (Fp c cs eq_refl).
  destruct (Z.ltb_spec (fold_left Z.max cs c + 1) (Z.of_nat (length row0))) as [|_]; [lia|]. rewrite Lp, Nat.ltb_irrefl. rewrite <- Lp, firstn_all. rewrite Lp. unfold n0. cbn [nofZ NumR].
  set (z := map (fun row : list R => repeat 0 (length row)) (row0 :: p0)).
  assert (Lz : length z = length xs) by (unfold z; now rewrite map_length).
  destruct (sum_probas_ok (c :: cs) xs NC NX l ps l' (add_rows z (row0 :: p0)) (conj A1' A2) F') as (acc' & E & L' & Q1 & Q2); [now rewrite add_rows_len|].
  change (map (fun row : list R => repeat (IZR 0) (length row)) (row0 :: p0)) with z. rewrite E. cbn [bind]. exists acc'. split; [reflexivity|]. split; auto. split.
  - intros n c0. rewrite Q1, add_rows_nth by congruence. rewrite add_row_nth. unfold vote_sum, z. rewrite (proj1 (zero_rows _ _ _)). cbn [map Rsum]. lra.
  - intros n. rewrite Q2, add_rows_nth by congruence. rewrite add_row_sum. unfold vote_total, z. rewrite (proj2 (zero_rows _ _ 0%nat)). cbn [map Rsum]. lra.
Qed.
Lemma nth_scaled (l : list R) s c : nth c (map (fun x => x / s) l) 0 = nth c l 0 / s.
Proof. revert c. induction l as [|a l IH]; intros [|c]; cbn; auto; unfold Rdiv; lra. Qed.
Lemma fold_nadd (l : list R) : forall a, fold_left nadd l a = a + Rsum l.
Proof. induction l as [|x l IH]; intros a; cbn [fold_left Rsum]; [lra|]. rewrite IH. cbn. lra. Qed.
Lemma normalize_nth (row : list R) c : nth c (normalize row) 0 = if Rlt_dec 0 (Rsum row) then nth c row 0 / Rsum row else nth c row 0.
Proof.
  unfold normalize. cbv zeta. rewrite fold_nadd. unfold n0. cbn [nofZ nltb NumR]. rewrite Rplus_0_l. unfold Rltb. destruct (Rlt_dec 0 (Rsum row)); auto. apply nth_scaled.
Qed.
Lemma normalize_len (row : list R) : length (normalize row) = length row.
Proof. unfold normalize. cbv zeta. destruct (_ <? _)%num; auto. apply map_length. Qed.
Lemma normalize_sum (row : list R) : 0 < Rsum row -> Rsum (normalize row) = 1.
Proof.
  intros H. unfold normalize. cbv zeta. rewrite fold_nadd. unfold n0. cbn [nofZ nltb NumR]. rewrite Rplus_0_l. unfold Rltb. destruct (Rlt_dec 0 (Rsum row)); [|contradiction].
  assert (E : forall l s, Rsum (map (fun x => x / s) l) = Rsum l / s) by (clear; induction l as [|a l IH]; intros s; cbn; [unfold Rdiv; lra|]; rewrite IH; unfold Rdiv; lra). rewrite E. field. lra.
Qed.
End Proba.

(** ** The member that is replaced *)
Section Replace.
Context {X T B D : Type} {N : Num T} (L : learner X T B) (P : edet T D).
Hypothesis Hord : (forall a b : T, (a <? b)%num = true -> (b <? a)%num = false) /\ (forall a b c : T, (a <? b)%num = false -> (b <? c)%num = false -> (a <? c)%num = false).
Lemma find_max_ok (l : list (B * D)) : forall i mx im, let j := find_max P i l mx im in
  (j = im /\ forall m, In m l -> (mx <? e_est P (snd m))%num = false)
  \/ exists k m, j = Some (i + k)%nat /\ nth_error l k = Some m /\ (e_est P (snd m) <? mx)%num = false /\ (mx <? e_est P (snd m))%num = true /\ forall m', In m' l -> (e_est P (snd m) <? e_est P (snd m'))%num = false.
Proof.
  destruct Hord as [As Tr]. induction l as [|m l IH]; intros i mx im; cbn [find_max]; cbv zeta; [left; split; auto; intros m []|].
  destruct (mx <? e_est P (snd m))%num eqn:E.
  - right. destruct (IH (S i) (e_est P (snd m)) (Some i)) as [[Ej Q]|(k & m1 & Ej & Hk & G1 & G2 & Q)]; cbv zeta in *; rewrite Ej.
    + exists 0%nat, m. rewrite Nat.add_0_r. split; auto. split; auto. split; [now apply As|]. split; auto. intros m' [<-|Hm]; auto. destruct (e_est P (snd m) <? e_est P (snd m))%num eqn:C; auto. rewrite (As _ _ C) in C. discriminate.
    + exists (S k), m1. split; [f_equal; lia|]. split; auto. pose proof (As _ _ E) as E'. split; [exact (Tr _ _ _ G1 E')|]. split.
      * destruct (mx <? e_est P (snd m1))%num eqn:C; auto. pose proof (Tr _ _ _ C G1). congruence.
      * intros m' [<-|Hm]; auto.
  - destruct (IH (S i) mx im) as [[Ej Q]|(k & m1 & Ej & Hk & G1 & G2 & Q)]; cbv zeta in *; rewrite Ej.
    + left. split; auto. intros m' [<-|Hm]; auto.
    + right. exists (S k), m1. split; [f_equal; lia|]. split; auto. split; auto. split; auto. intros m' [<-|Hm]; auto. exact (Tr _ _ _ G1 E).
Qed.
End Replace.
Lemma real_order : (forall a b : R, (a <? b)%num = true -> (b <? a)%num = false) /\ (forall a b c : R, (a <? b)%num = false -> (b <? c)%num = false -> (a <? c)%num = false).
Proof.
  cbn [nltb NumR]. split; intros a b; [intros H|intros c H1 H2].
  - apply Rltb_true in H. apply Rltb_false. lra.
  - apply Rltb_false in H1, H2. apply Rltb_false. lra.
Qed.
Lemma set_nth_at {A} (l : list A) : forall i v, (i < length l)%nat -> nth_error (set_nth l i v) i = Some v /\ forall j, j <> i -> nth_error (set_nth l i v) j = nth_error l j.
Proof.
  induction l as [|a l IH]; intros [|i] v H; cbn [length] in H; try lia; cbn [set_nth].
  - split; auto. intros [|j] Hj; [congruence|reflexivity].
  - destruct (IH i v ltac:(lia)) as [H1 H2]. split; auto. intros [|j] Hj; auto. cbn. apply H2. congruence.
Qed.
Section ReplaceR.
Context {X B D : Type} (L : learner X R B) (P : edet R D).
Lemma reset_max_ok (l : list (B * D)) : (exists m, In m l /\ 0 < e_est P (snd m)) ->
  exists i m, nth_error l i = Some m /\ (forall m', In m' l -> e_est P (snd m') <= e_est P (snd m)) /\ replaced L P i l (reset_max L P l).
Proof.
  intros (m0 & H0 & Hp). unfold reset_max. destruct (find_max_ok P real_order l 0 n0 None) as [[_ Q]|(k & m & Ej & Hk & _ & _ & Q)].
  - apply Q in H0. unfold n0 in H0. cbn [nltb nofZ NumR] in H0. apply Rltb_false in H0. lra.
  - cbv zeta in Ej. rewrite Ej. cbn [Nat.add]. rewrite Hk. exists k, m. split; auto. split.
    + intros m' Hm. apply Q in Hm. cbn [nltb NumR] in Hm. now apply Rltb_false in Hm.
    + assert (Lk : (k < length l)%nat) by (apply nth_error_Some; congruence). destruct (set_nth_at l k (lr_reset L (fst m), e_new P) Lk) as [S1 S2].
      split; [apply set_nth_len|]. split; eauto.
Qed.
Lemma reset_max_none (l : list (B * D)) : (forall m, In m l -> e_est P (snd m) <= 0) -> reset_max L P l = l.
Proof.
  intros H. unfold reset_max. destruct (find_max_ok P real_order l 0 n0 None) as [[E _]|(k & m & Ej & Hk & _ & G2 & Q)]; [now rewrite E|].
  exfalso. apply nth_error_In in Hk. apply H in Hk. unfold n0 in G2. cbn [nltb nofZ NumR] in G2. apply Rltb_true in G2. lra.
Qed.
End ReplaceR.

Section Steps.
Context {X T B D G : Type} {N : Num T} (L : learner X T B) (P : edet T D) (pois : T -> G -> nat * G).
Lemma add_all_fold l : forall d, add_all P d l = foldM (e_add P) l d.
Proof. induction l as [|b l IH]; intros d; cbn; auto. destruct (e_add P d b); cbn; auto. Qed.
(** A round of OzaBaggingADWIN: every member learns and is watched, or fails to predict with ValueError. *)
Lemma ozad_members_ok rows classes sw l : forall change g l' change' g', ozad_members L pois P rows classes sw l change g = Ok (l', change', g') ->
  exists ks, draws (pois n1) (length l) g = (ks, g') /\ length l' = length l /\
  forall i m, nth_error l i = Some m -> exists m', nth_error l' i = Some m' /\
    ((exists rose, watched L P Z.eqb (nth i ks 0%nat) (fst m) rows classes sw m m' rose)
     \/ (snd m' = snd m /\ times (nth i ks 0%nat) (fun b => lr_fit L b rows classes sw) (fst m) = Ok (fst m') /\ lr_predict L (fst m') (map fst rows) = Raise ValueError)).
Proof.
  induction l as [|m l IH]; intros change g l' change' g' H; cbn [ozad_members] in H.
  - injection H as <- <- <-. exists []. repeat split; auto. intros [|i] b H; discriminate.
  - apply bind_Ok in H as ([[m1 ch1] g1] & E1 & H). apply bind_Ok in H as ([[r' ch2] g2] & E2 & H). injection H as <- <- <-.
    destruct (IH _ _ _ _ _ E2) as (ks & Dr & Ln & Q). unfold ozad_member in E1. destruct (pois n1 g) as [k g0] eqn:Ek. apply bind_Ok in E1 as (b & Et & E1).
    assert (g0 = g1 /\ ((exists rose, watched L P Z.eqb k (fst m) rows classes sw m m1 rose) \/ (snd m1 = snd m /\ times k (fun b => lr_fit L b rows classes sw) (fst m) = Ok (fst m1) /\ lr_predict L (fst m1) (map fst rows) = Raise ValueError))) as [<- W].
    { destruct (lr_predict L b (map fst rows)) as [[p b']|e] eqn:Ep.
      - destruct (Nat.ltb_spec (length p) (length rows)); [discriminate|]. apply bind_Ok in E1 as (d & Ed & E1). apply bind_Ok in E1 as ([d' c] & Ec & E1). injection E1 as <- <- <-.
        split; auto. left. exists (c && (e_est P (snd m) <? e_est P d')%num). exists b, p, b', d, d', c. rewrite add_all_fold in Ed. repeat split; auto.
      - destruct e; try discriminate. injection E1 as <- <- <-. split; auto. }
    exists (k :: ks). cbn [length draws]. rewrite Ek, Dr. split; [reflexivity|]. split; [now rewrite Ln|].
    intros [|i] b0 Hb; cbn [nth_error nth] in *; [injection Hb as <-; eauto|eauto].
Qed.
Variables (rand : G -> T * G) (coin : G -> bool * G) (w : T) (alg : leverage).
Notation allowed := (allowed L P pois rand coin w alg).
Lemma draw_k_ok m x y g k b0 g' : draw_k L pois rand coin w alg P m x y g = Ok (k, b0, g') -> allowed m x y k b0 g.
Proof.
  unfold draw_k, BaggingSpec.allowed. destruct alg.
  - destruct (pois w g) as [k1 g1]. intros H; injection H as <- <- <-. auto.
  - intros H. apply bind_Ok in H as ([c b] & Ep & H). destruct (Z.eqb_spec c y) as [->|NE]; cbn [negb] in H.
    + destruct (e_est P (snd m) =? n1)%num eqn:E1; [injection H as <- <- <-; exists y; repeat split; auto; intros; congruence|].
      destruct (rand g) as [u g1] eqn:Er. injection H as <- <- <-. exists y. cbn [fst]. split; [auto|]. split; [destruct (u <? _)%num; lia|]. split; [congruence|]. split; [congruence|].
      intros _ _. destruct (u <? _)%num; split; intros; congruence.
    + injection H as <- <- <-. exists c. repeat split; auto; intros; congruence.
  - destruct (coin g) as [c g1]. intros H; injection H as <- <- <-. auto.
  - destruct (pois n1 g) as [k1 g1]. intros H; injection H as <- <- <-. auto.
  - destruct (pois n1 g) as [k1 g1]. intros H; injection H as <- <- <-. cbn [fst]. destruct (Nat.ltb_spec 0 k1); split; auto; lia.
Qed.
Lemma code_tl codes i : code_of (option_map (@tl _) codes) i = code_of codes (S i).
Proof. destruct codes as [[|r m]|]; cbn; auto. destruct i; reflexivity. Qed.
Lemma lev_members_ok x y classes l : forall codes change g l' change' g', lev_members L pois rand coin w alg P x y classes codes l change g = Ok (l', change', g') ->
  length l' = length l /\ exists flags, length flags = length l /\ change' = (change || existsb (fun b => b) flags)%bool /\
  forall i m, nth_error l i = Some m -> exists m' rose k b0 gi yc cl, nth_error l' i = Some m' /\ nth_error flags i = Some rose /\
    allowed m x y k b0 gi /\ coded (code_of codes i) classes y k yc cl /\ watched L P (fun c t => negb (Z.eqb c t)) k b0 [(x, yc)] (Some cl) None m m' rose.
Proof.
  induction l as [|m l IH]; intros codes change g l' change' g' H; cbn [lev_members] in H.
  - injection H as <- <- <-. split; auto. exists []. repeat split; auto. + now rewrite orb_false_r. + intros [|i] b H; discriminate.
  - apply bind_Ok in H as ([[m1 ch1] g1] & E1 & H). apply bind_Ok in H as ([[r' ch2] g2] & E2 & H). injection H as <- <- <-.
    destruct (IH _ _ _ _ _ _ E2) as (Ln & flags & Lf & Ec & Q). unfold lev_member in E1. apply bind_Ok in E1 as ([[k b0] g0] & Ek & E1). apply bind_Ok in E1 as ([yc cl] & Ey & E1).
    apply bind_Ok in E1 as (b & Et & E1). apply bind_Ok in E1 as ([c b'] & Ep & E1). apply bind_Ok in E1 as (d & Ed & E1). apply bind_Ok in E1 as ([d' chg] & Eg & E1). injection E1 as <- <- <-.
    split; [cbn; now rewrite Ln|]. exists ((chg && (e_est P (snd m) <? e_est P d')%num)%bool :: flags). split; [cbn; now rewrite Lf|]. split; [rewrite Ec; cbn [existsb]; destruct chg, (_ <? _)%num, change; reflexivity|].
    intros [|i] m0 Hm; cbn [nth_error] in *.
    + injection Hm as <-. exists (b', d'), (chg && (e_est P (snd m) <? e_est P d')%num)%bool, k, b0, g, yc, cl. split; auto. split; auto. split; [eapply draw_k_ok; eauto|]. split.
      * unfold coded, code_of. destruct codes as [[|row mt]|]; cbn [nth_error] in *; try (injection Ey as <- <-; auto).
        destruct k as [|k]; cbn [Nat.ltb Nat.leb Nat.eqb] in *; [injection Ey as <- <-; auto|]. apply bind_Ok in Ey as (c0 & Ey & E). injection E as <- <-. auto.
      * unfold predict_one in Ep. apply bind_Ok in Ep as ([p b1] & Ep & E). destruct p as [|c0 [|? ?]]; try discriminate. injection E as <- <-.
        exists b, [c0], b1, d, d', chg. cbn [map combine fst snd foldM length]. rewrite Ed. repeat split; auto.
    + destruct (Q i m0 Hm) as (m' & rose & k' & b0' & gi & yc' & cl' & Q1 & Q2 & Q3 & Q4 & Q5). exists m', rose, k', b0', gi, yc', cl'. rewrite code_tl in Q4. auto 10.
Qed.

(** *** Output codes *)
Lemma code_row_shape k : forall j n first g, let r := fst (code_row coin k j n first g) in length r = k.
Proof.
  induction k as [|k IH]; intros j n first g; cbn [code_row]; auto. cbv zeta. destruct (if Nat.eqb j 1 && Nat.eqb n 2 then _ else _) as [c g1].
  specialize (IH (S j) n (if Nat.eqb j 0 then c else first) g1). cbv zeta in IH. destruct (code_row coin k (S j) n _ g1). cbn in *. now rewrite IH.
Qed.
Lemma ones_zeros row : (ones row + zeros row = Z.of_nat (length row))%Z.
Proof. unfold ones, zeros. induction row as [|c row IH]; cbn [filter length]; [reflexivity|]. destruct (Z.eqb 1 c); cbn [negb length]; lia. Qed.
Lemma code_loop_balanced fuel nm nc : forall g row g', code_loop coin fuel nm nc g = Ret (row, g') -> length row = nc /\ ((ones row - zeros row) * (ones row - zeros row) <= Z.of_nat (nm mod 2))%Z.
Proof.
  induction fuel as [|fuel IH]; intros g row g' H; cbn [code_loop] in H; [discriminate|]. pose proof (code_row_shape nc 0 nc 0%Z g) as Ln. cbv zeta in Ln.
  destruct (code_row coin nc 0 nc 0%Z g) as [r g1]. cbn [fst] in Ln. cbv zeta in H. destruct (Z.ltb_spec (Z.of_nat (nm mod 2)) ((ones r - zeros r) * (ones r - zeros r))); [eauto|]. injection H as <- <-. auto.
Qed.
Lemma code_loop_forever fuel nm nc : Nat.Odd nc -> Nat.Even nm -> forall g, code_loop coin fuel nm nc g = Loop.
Proof.
  intros [a Ha] [b Hb]. induction fuel as [|fuel IH]; intros g; cbn [code_loop]; auto. pose proof (code_row_shape nc 0 nc 0%Z g) as Ln. cbv zeta in Ln.
  destruct (code_row coin nc 0 nc 0%Z g) as [r g1]. cbn [fst] in Ln. cbv zeta. pose proof (ones_zeros r) as S. rewrite Ln in S.
  assert (E : (nm mod 2 = 0)%nat) by (rewrite Hb, Nat.mul_comm; apply Nat.mod_mul; lia). rewrite E.
  destruct (Z.ltb_spec (Z.of_nat 0) ((ones r - zeros r) * (ones r - zeros r))); [apply IH|]. assert ((ones r - zeros r)%Z = 0%Z) by nia. lia.
Qed.
Lemma code_loop_two fuel nm : forall g, exists c g', code_loop coin (S fuel) nm 2 g = Ret ([c; (1 - c)%Z], g').
Proof.
  intros g. cbn [code_loop code_row Nat.eqb andb]. destruct (coin g) as [b g1]. exists (if b then 1%Z else 0%Z), g1. cbv zeta.
  set (q := Nat.modulo nm 2) in *. clearbody q. destruct b; (match goal with |- context [(Z.of_nat q <? ?e)%Z] => change e with 0%Z end); (destruct (Z.ltb_spec (Z.of_nat q) 0); [lia|reflexivity]).
Qed.
Lemma code_matrix_ok fuel k nm nc : forall g mt g', code_matrix coin fuel k nm nc g = Ret (mt, g') -> length mt = k /\
  forall row, In row mt -> length row = nc /\ ((ones row - zeros row) * (ones row - zeros row) <= Z.of_nat (nm mod 2))%Z.
Proof.
  induction k as [|k IH]; intros g mt g' H; cbn [code_matrix] in H; [injection H as <- <-; split; auto; intros row []|].
  destruct (code_loop coin fuel nm nc g) as [[r g1]| |] eqn:E1; try discriminate. cbn [obind fst snd] in H. destruct (code_matrix coin fuel k nm nc g1) as [[m2 g2]| |] eqn:E2; try discriminate. cbn [obind fst snd] in H. injection H as <- <-.
  destruct (IH _ _ _ E2) as [L2 Q]. split; [cbn; now rewrite L2|]. intros row [<-|Hr]; auto. eapply code_loop_balanced; eauto.
Qed.
End Steps.

Lemma same_set_ok a b : same_set a b = true <-> same_labels a b.
Proof.
  unfold same_set, same_labels. rewrite andb_true_iff, !forallb_forall. split.
  - intros [H1 H2] c. split; intros Hc; [apply H1 in Hc|apply H2 in Hc]; apply existsb_exists in Hc as (x & Hx & E); apply Z.eqb_eq in E; now subst.
  - intros H. split; intros x Hx; apply existsb_exists; exists x; (split; [apply H; auto|apply Z.eqb_refl]).
Qed.
Lemma check_classes_ok known given cl : check_classes known given = Ok cl <->
  match known with Some c => cl = c /\ match given with Some c' => same_labels c c' | None => True end | None => given = Some cl end.
Proof.
  unfold check_classes. destruct known as [c|], given as [c'|]; split; intros H; try discriminate; try congruence.
  - destruct (same_set c c') eqn:E; [injection H as <-; split; auto; now apply same_set_ok|discriminate].
  - destruct H as [-> H]. apply same_set_ok in H. now rewrite H.
  - injection H as <-. auto.
  - destruct H as [-> _]. reflexivity.
Qed.
Section Size.
Context {X T B G : Type} {N : Num T} (L : learner X T B) (pois : T -> G -> nat * G) (base : B) (n : nat).
Lemma sum_probas_len classes r xs l : forall acc o l', sum_probas L classes r xs l acc = Ok (o, l') -> length l' = length l.
Proof.
  induction l as [|b l IH]; intros acc o l' H; cbn [sum_probas] in H; [now injection H as <- <-|].
  destruct (lr_proba L b xs) as [[p b']|e]; [|destruct e; try discriminate; injection H as <- <-; reflexivity].
  destruct p as [|row0 p]; [discriminate|]. destruct classes as [[|c cs]|]; try (injection H as <- <-; reflexivity).
  destruct (_ <? _)%Z; [injection H as <- <-; reflexivity|]. destruct (Nat.ltb _ _); [discriminate|]. apply bind_Ok in H as ([o1 l1] & E & H). injection H as <- <-. apply IH in E. cbn. now rewrite E.
Qed.
Lemma bag_proba_len classes l xs p l' : bag_proba L classes l xs = Ok (p, l') -> length l' = length l.
Proof. unfold bag_proba. intros H. apply bind_Ok in H as ([o l1] & E & H). apply sum_probas_len in E. destruct o; [destruct (Nat.ltb _ _); [discriminate|]|]; injection H as <- <-; auto. Qed.
Definition sized (s : oza B G) : Prop := length (oz_ens s) = n \/ exists cl, oz_classes s = Some cl /\ length (oz_ens s) = Nat.max n (length cl).
Lemma oza_fit_size s rows classes sw s' : sized s -> oza_fit L pois base s rows classes sw = Ok s' -> exists cl, oz_classes s' = Some cl /\ check_classes (oz_classes s) classes = Ok cl /\ length (oz_ens s') = Nat.max n (length cl).
Proof.
  intros Hs H. unfold oza_fit in H. apply bind_Ok in H as (cl & Ec & H). apply bind_Ok in H as ([l g] & E & H). injection H as <-. cbn [oz_classes oz_ens]. exists cl. split; auto. split; auto.
  apply (train_rows pois (fun b row => lr_fit L b [row] classes sw)) in E as (ks & _ & Ln & _). rewrite Ln. unfold adjust. rewrite app_length, repeat_length.
  destruct Hs as [->|(cl0 & E0 & ->)]; [lia|]. apply check_classes_ok in Ec. rewrite E0 in Ec. destruct Ec as [-> _]. lia.
Qed.
Lemma reached_sized s : oza_reached L pois base n s -> sized s.
Proof.
  intros (g & ops & H). assert (G0 : sized (oza_new L base n g)) by (left; apply repeat_length). revert H G0. generalize (oza_new L base n g). induction ops as [|o ops IH]; intros s0 H G0; cbn [foldM] in H; [now injection H as <-|].
  apply bind_Ok in H as (s1 & E & H). apply (IH s1 H). clear IH H. destruct o as [rows classes sw|xs|xs|g1]; cbn [oza_op] in E.
  - apply oza_fit_size in E as (cl & E1 & _ & E2); auto. right. eauto.
  - apply bind_Ok in E as ([p s2] & E & E'). injection E' as <-. unfold oza_predict, bag_predict in E. apply bind_Ok in E as ([q l] & E & E'). injection E' as <- <-. apply bind_Ok in E as ([pp l2] & E & E'). apply bind_Ok in E' as (qq & _ & E'). injection E' as <- <-.
    apply bag_proba_len in E. unfold sized in *. cbn [oz_ens oz_classes]. now rewrite E.
  - apply bind_Ok in E as ([p s2] & E & E'). injection E' as <-. unfold oza_proba in E. apply bind_Ok in E as ([q l] & E & E'). injection E' as <- <-. apply bag_proba_len in E. unfold sized in *. cbn [oz_ens oz_classes]. now rewrite E.
  - injection E as <-. left. apply repeat_length.
Qed.
End Size.
