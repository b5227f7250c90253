(** Lemmas about the online boosting and bagging ensembles. *)
From Coq Require Import List ZArith Bool Lia Reals Lra.
From Verif Require Import Base.Py Base.Num Spec.Lists Spec.NaiveBayesSpec Spec.BaggingSpec Spec.OnlineSpec Model.Adwin Model.Knn Model.Learner Model.Bagging Model.OnlineEnsembles
  Proofs.ListFacts Proofs.KnnProofs Proofs.NaiveBayesProofs Proofs.BaggingProofs.
Import ListNotations.

Section Skeleton.
Context {X T B G D St E : Type} {N : Num T} (L : learner X T B) (P : edet T D) (A : algo X T B G St E) (base : B) (n : nat) (drift : bool) (seed : G).
Notation ON := (ons B G D St E).

(** *** One pass over the members *)
Lemma on_members_ok rows classes sw row m : forall ens sts i lam e g change ens' sts' e' g' change', length ens = length sts ->
  on_members L P A drift rows classes sw row i m lam ens sts e g change = Ok (ens', sts', e', g', change') ->
  length ens' = length ens /\ length sts' = length sts /\
  exists lams es gs, lams 0%nat = lam /\ es 0%nat = e /\ gs 0%nat = g /\ gs (length ens) = g' /\ es (length ens) = e' /\
  forall j bd st, nth_error ens j = Some bd -> nth_error sts j = Some st -> exists b st' bd',
    nth_error sts' j = Some st' /\ nth_error ens' j = Some bd' /\
    al_step A classes sw (i + j)%nat m (lams j) row (fst bd) st (es j) (gs j) = Ok (b, st', es (S j), lams (S j), gs (S j)) /\
    ((drift = false /\ bd' = (b, snd bd)) \/
     (drift = true /\ ((exists rose, watched L P Z.eqb 0 b rows classes sw (b, snd bd) bd' rose) \/ (bd' = (b, snd bd) /\ lr_predict L b (map fst rows) = Raise ValueError)))).
Proof.
  induction ens as [|bd ens IH]; intros [|st sts] i lam e g change ens' sts' e' g' change' Hl H; try discriminate; cbn [on_members] in H.
  - injection H as <- <- <- <- <-. split; auto. split; auto. exists (fun _ => lam), (fun _ => e), (fun _ => g). repeat split; auto. intros [|j] ? ? Hj; discriminate.
  - apply bind_Ok in H as ([[[[b st1] e1] lam1] g1] & Es & H). apply bind_Ok in H as ([bd1 ch1] & Ew & H). apply bind_Ok in H as ([[[[ens2 sts2] e2] g2] ch2] & Er & H). injection H as <- <- <- <- <-.
    destruct (IH sts (S i) lam1 e1 g1 ch1 ens2 sts2 e2 g2 ch2 ltac:(now injection Hl) Er) as (L1 & L2 & lams & es & gs & Z1 & Z2 & Z3 & Z4 & Z5 & Q).
    split; [cbn; now rewrite L1|]. split; [cbn; now rewrite L2|].
    exists (fun j => match j with O => lam | S j => lams j end), (fun j => match j with O => e | S j => es j end), (fun j => match j with O => g | S j => gs j end).
    repeat split; auto. intros [|j] bd0 st0 H1 H2; cbn [nth_error] in *.
    + injection H1 as <-. injection H2 as <-. exists b, st1, bd1. rewrite Z1, Z2, Z3, Nat.add_0_r. repeat split; auto. unfold on_watch in Ew. cbn [fst snd] in Ew. destruct drift.
      * right. split; auto. destruct (lr_predict L b (map fst rows)) as [[p b']|x] eqn:Ep.
        -- destruct (Nat.ltb_spec (length p) (length rows)); [discriminate|]. apply bind_Ok in Ew as (d & Ed & Ew). apply bind_Ok in Ew as ([d' c] & Ec & Ew). injection Ew as <- <-.
           left. exists (c && (e_est P (snd bd) <? e_est P d')%num)%bool. exists b, p, b', d, d', c. rewrite add_all_fold in Ed. cbn [times snd]. repeat split; auto.
        -- destruct x; try discriminate. injection Ew as <- <-. auto.
      * left. injection Ew as <- <-. auto.
    + destruct (Q j bd0 st0 H1 H2) as (b' & st' & bd' & Q1 & Q2 & Q3 & Q4). exists b', st', bd'. replace (i + S j)%nat with (S i + j)%nat by lia. auto.
Qed.

(** *** Sizes, and invariants of the statistics *)
Definition shape (s : ON) : Prop := length (on_stats s) = length (on_ens s) /\
  (on_ready s = false -> on_ens s = [] /\ on_classes s = None) /\ (on_ready s = true -> length (on_ens s) = n \/ exists cl, on_classes s = Some cl /\ length (on_ens s) = Nat.max n (length cl)).
Variables (I : St -> Prop) (J : T -> Prop) (K : E -> Prop).
Hypotheses (I0 : I (al_st A)) (K0 : K (al_ext A 0) /\ K (al_ext A n)) (J1 : J n1)
  (Hstep : forall classes sw i m lam row b st e g b' st' e' lam' g', I st -> J lam -> K e -> al_step A classes sw i m lam row b st e g = Ok (b', st', e', lam', g') -> I st' /\ J lam' /\ K e').
Definition inv (s : ON) : Prop := Forall I (on_stats s) /\ K (on_ext s).
Lemma on_members_inv rows classes sw row m : forall ens sts i lam e g change ens' sts' e' g' change', J lam -> K e -> Forall I sts ->
  on_members L P A drift rows classes sw row i m lam ens sts e g change = Ok (ens', sts', e', g', change') -> Forall I sts' /\ K e'.
Proof.
  induction ens as [|bd ens IH]; intros [|st sts] i lam e g change ens' sts' e' g' change' Hj Hk Hi H; cbn [on_members] in H; try (injection H as <- <- <- <- <-; auto).
  apply bind_Ok in H as ([[[[b st1] e1] lam1] g1] & Es & H). apply bind_Ok in H as ([bd1 ch1] & Ew & H). apply bind_Ok in H as ([[[[ens2 sts2] e2] g2] ch2] & Er & H). injection H as <- <- <- <- <-.
  inversion Hi as [|? ? Hi1 Hi2]; subst. destruct (Hstep _ _ _ _ _ _ _ _ _ _ _ _ _ _ _ Hi1 Hj Hk Es) as (S1 & S2 & S3). destruct (IH _ _ _ _ _ _ _ _ _ _ _ S2 S3 Hi2 Er). auto.
Qed.
Lemma reset_max_len (l : list (B * D)) : length (reset_max L P l) = length l.
Proof. unfold reset_max. destruct (find_max P 0 l n0 None) as [i|]; auto. destruct (nth_error l i); auto. apply set_nth_len. Qed.
Lemma on_row_inv rows classes sw s row s' : length (on_stats s) = length (on_ens s) -> inv s -> on_row L P A drift rows classes sw s row = Ok s' ->
  inv s' /\ on_ready s' = true /\ on_classes s' = on_classes s /\ length (on_stats s') = length (on_ens s') /\ length (on_ens s') = length (on_ens s).
Proof.
  intros Hl [H1 H2] H. unfold on_row in H. apply bind_Ok in H as ([[[[ens sts] e] g] ch] & E1 & H). injection H as <-. cbn [on_ready on_classes on_ens on_stats].
  destruct (on_members_inv _ _ _ _ _ _ _ _ _ _ _ _ _ _ _ _ _ J1 H2 H1 E1). apply on_members_ok in E1 as (L1 & L2 & _); auto. unfold inv. cbn [on_stats on_ext].
  assert (length (if ch && drift then reset_max L P ens else ens) = length ens) by (destruct (ch && drift); auto; apply reset_max_len). repeat split; auto; congruence.
Qed.
Lemma on_rows_inv rows classes sw l : forall s s', length (on_stats s) = length (on_ens s) -> inv s -> foldM (on_row L P A drift rows classes sw) l s = Ok s' ->
  inv s' /\ (on_ready s = true -> on_ready s' = true) /\ on_classes s' = on_classes s /\ length (on_stats s') = length (on_ens s') /\ length (on_ens s') = length (on_ens s).
Proof.
  induction l as [|row l IH]; intros s s' Hl Hi H; cbn [foldM] in H; [injection H as <-; auto 10|]. apply bind_Ok in H as (s1 & E1 & H).
  destruct (on_row_inv _ _ _ _ _ _ Hl Hi E1) as (I1 & R1 & C1 & L1 & M1). destruct (IH _ _ L1 I1 H) as (I2 & R2 & C2 & L2 & M2). split; [exact I2|]. split; [auto|]. split; [congruence|]. split; [exact L2|congruence].
Qed.
Lemma on_fit_inv s rows classes sw s' : shape s -> inv s -> on_fit L P A base n drift seed s rows classes sw = Ok s' ->
  inv s' /\ shape s' /\ exists cl, on_classes s' = Some cl /\ check_classes (on_classes s) classes = Ok cl /\ length (on_ens s') = Nat.max n (length cl).
Proof.
  intros (S1 & S2 & S3) Hi H. unfold on_fit in H. set (s0 := if on_ready s then s else on_reset L P A base n seed s) in *.
  assert (Z : length (on_stats s0) = length (on_ens s0) /\ inv s0 /\ on_classes s0 = on_classes s /\ (length (on_ens s0) = n \/ exists cl, on_classes s0 = Some cl /\ length (on_ens s0) = Nat.max n (length cl))).
  { subst s0. destruct (on_ready s) eqn:Er; [auto|]. cbn [on_reset on_stats on_ens on_classes]. rewrite !repeat_length. split; auto. split; [split; cbn [on_reset on_stats on_ext]; [|apply K0]; apply Forall_forall; intros x Hx; apply repeat_spec in Hx; now subst|]. auto. }
  clearbody s0. destruct Z as (Z1 & Z2 & Z3 & Z4). apply bind_Ok in H as (cl & Ec & H). rewrite Z3 in Ec.
  assert (W : length (on_ens s0) = n \/ length (on_ens s0) = Nat.max n (length cl)).
  { destruct Z4 as [Z4|(cl0 & Z4 & Z5)]; auto. right. rewrite Z3 in Z4. apply check_classes_ok in Ec. rewrite Z4 in Ec. destruct Ec as [-> _]. auto. }
  set (s1 := on_adjust _ _ _ _ _ _) in H.
  assert (V : inv s1 /\ on_ready s1 = true /\ on_classes s1 = Some cl /\ length (on_stats s1) = length (on_ens s1) /\ length (on_ens s1) = Nat.max n (length cl)).
  { subst s1. unfold on_adjust. cbn [on_ens on_stats on_ext on_classes on_ready on_rng]. destruct (Nat.ltb_spec (length (on_ens s0)) (length cl)).
    - unfold inv. cbn [on_ens on_stats on_ext on_classes on_ready]. rewrite app_length, !repeat_length. destruct Z2. repeat split; auto; try lia. apply Forall_forall. intros x Hx. apply repeat_spec in Hx. now subst.
    - unfold inv. cbn [on_ens on_stats on_ext on_classes on_ready]. destruct Z2. repeat split; auto. lia. }
  clearbody s1. destruct V as (V1 & V2 & V3 & V4 & V5). destruct (on_rows_inv _ _ _ _ _ _ V4 V1 H) as (U1 & U2 & U3 & U4 & U5). specialize (U2 V2).
  split; auto. split.
  - split; auto. split; [intros C; rewrite U2 in C; discriminate|]. intros _. right. exists cl. rewrite U3, V3, U5. auto.
  - exists cl. rewrite U3, V3, U5. auto.
Qed.
Lemma sum_weighted_len classes r xs l : forall ws acc o l', length ws = length l -> sum_weighted L classes r xs l ws acc = Ok (o, l') -> length l' = length l.
Proof.
  induction l as [|b l IH]; intros [|w ws] acc o l' Hl H; try discriminate; cbn [sum_weighted] in H; [now injection H as <- <-|].
  destruct (lr_proba L b xs) as [[p b']|e]; [|destruct e; try discriminate; injection H as <- <-; reflexivity].
  destruct p as [|row0 p]; [discriminate|]. destruct classes as [[|c cs]|]; try (injection H as <- <-; reflexivity).
  destruct (_ <? _)%Z; [injection H as <- <-; reflexivity|]. destruct (Nat.ltb _ _); [discriminate|]. apply bind_Ok in H as ([o1 l1] & E1 & H). injection H as <- <-. apply IH in E1; [|now injection Hl]. cbn. now rewrite E1.
Qed.
Lemma on_proba_keeps (s : ON) xs p (s' : ON) : on_proba L A s xs = Ok (p, s') -> on_ready s' = on_ready s /\ length (on_ens s') = length (on_ens s) /\ on_stats s' = on_stats s /\ on_ext s' = on_ext s /\ on_classes s' = on_classes s.
Proof.
  unfold on_proba. destruct (on_ready s) eqn:Er; [|intros H; injection H as <- <-; auto]. intros H. apply bind_Ok in H as ([o l] & E1 & H).
  apply sum_weighted_len in E1; [|unfold on_weights; now rewrite !map_length, seq_length]. rewrite map_length in E1. cbv zeta in H.
  assert (H' : s' = mk_ons true (combine l (map snd (on_ens s))) (on_stats s) (on_ext s) (on_classes s) (on_rng s)) by (destruct o; [destruct (Nat.ltb _ _); [discriminate|]|]; injection H as <- <-; reflexivity).
  subst s'. cbn [on_ready on_ens on_stats on_ext on_classes]. rewrite combine_length, map_length. repeat split; auto. lia.
Qed.
Lemma on_op_inv s o s' : shape s -> inv s -> on_op L P A base n drift seed s o = Ok s' -> shape s' /\ inv s'.
Proof.
  intros Hs Hi H. destruct o as [rows classes sw|xs|xs|]; cbn [on_op] in H.
  - apply on_fit_inv in H; tauto.
  - apply bind_Ok in H as ([p s1] & H & E1). injection E1 as <-. unfold on_predict in H. apply bind_Ok in H as ([q s2] & H & E1). apply bind_Ok in E1 as (z & _ & E1). injection E1 as _ <-.
    apply on_proba_keeps in H as (H1 & H2 & H3 & H4 & H5). destruct Hs as (S1 & S2 & S3). unfold shape, inv. rewrite H1, H2, H3, H4, H5. split; auto. split; auto. split; auto. intros C. specialize (S2 C) as [S2 S4]. split; auto. rewrite S2 in H2. now apply length_zero_iff_nil.
  - apply bind_Ok in H as ([p s1] & H & E1). injection E1 as <-.
    apply on_proba_keeps in H as (H1 & H2 & H3 & H4 & H5). destruct Hs as (S1 & S2 & S3). unfold shape, inv. rewrite H1, H2, H3, H4, H5. split; auto. split; auto. split; auto. intros C. specialize (S2 C) as [S2 S4]. split; auto. rewrite S2 in H2. now apply length_zero_iff_nil.
  - injection H as <-. unfold shape, inv. cbn [on_reset on_ready on_ens on_stats on_ext on_classes]. rewrite !repeat_length. repeat split; auto; try discriminate; [|apply K0]. apply Forall_forall. intros x Hx. apply repeat_spec in Hx. now subst.
Qed.
Lemma on_reached_inv s : on_reached L P A base n drift seed s -> shape s /\ inv s.
Proof.
  intros (ops & H). assert (Z : shape (on_new A seed) /\ inv (on_new A seed)) by (repeat split; auto; try discriminate; cbn; auto; apply K0).
  revert H Z. generalize (on_new (B := B) (D := D) A seed). induction ops as [|o ops IH]; intros s0 H [Z1 Z2]; cbn [foldM] in H; [injection H as <-; auto|].
  apply bind_Ok in H as (s1 & E1 & H). apply (IH s1 H). now apply on_op_inv with (s := s0) (o := o).
Qed.
End Skeleton.

(** *** No failure *)
Section Total.
Context {X T B G D St E : Type} {N : Num T} (L : learner X T B) (P : edet T D) (A : algo X T B G St E) (base : B) (n : nat) (drift : bool) (seed : G).
Variables (Q : X * Z -> Prop) (classes : option (list Z)) (sw : option (list T)) (IB : B -> Prop) (ID : D -> Prop).
Hypotheses (HL : unfailing L Q classes sw IB) (HP : sound_detector P ID).
Variables (I : St -> Prop) (J : T -> Prop) (K : nat -> E -> Prop).
Hypotheses (I0 : I (al_st A)) (J1 : J n1)
  (Hstep : forall i m lam row b st e g, (i < m)%nat -> Q row -> IB b -> I st -> J lam -> K m e ->
    exists b' st' e' lam' g', al_step A classes sw i m lam row b st e g = Ok (b', st', e', lam', g') /\ IB b' /\ I st' /\ J lam' /\ K m e').
Definition sound_member (bd : B * D) : Prop := IB (fst bd) /\ ID (snd bd).
Lemma times_total k row b : IB b -> Q row -> exists b', times k (fun b => lr_fit L b [row] classes sw) b = Ok b' /\ IB b'.
Proof. intros Hb Hq. revert b Hb. induction k as [|k IH]; intros b Hb; cbn; [eauto|]. destruct (proj1 HL b row Hb Hq) as (b1 & E1 & H1). rewrite E1. cbn. auto. Qed.
Lemma add_all_total l : forall d, ID d -> exists d', add_all P d l = Ok d' /\ ID d'.
Proof. induction l as [|b l IH]; intros d Hd; cbn; [eauto|]. destruct (proj1 (proj2 HP) d b Hd) as (d1 & E1 & H1). rewrite E1. cbn. auto. Qed.
Lemma on_watch_total rows bd ch : sound_member bd -> exists bd' ch', on_watch L P drift rows bd ch = Ok (bd', ch') /\ sound_member bd'.
Proof.
  intros [H1 H2]. unfold on_watch. destruct drift; [|exists bd, ch; split; auto; split; auto]. destruct (proj1 (proj2 HL) (fst bd) (map fst rows) H1) as (p & b' & E1 & E2 & E3). rewrite E1. rewrite map_length in E2. rewrite E2, Nat.ltb_irrefl.
  destruct (add_all_total (map (fun pr => (fst pr =? snd (snd pr))%Z) (combine p rows)) _ H2) as (d & Ed & Hd). rewrite Ed. cbn [bind]. destruct (proj2 (proj2 HP) d Hd) as (d' & c & Ec & Hd'). rewrite Ec. cbn [bind]. eexists _, _. split; [reflexivity|]. split; auto.
Qed.
Lemma on_members_total rows row m : Q row -> forall ens sts i lam e g ch, length sts = length ens -> (i + length ens <= m)%nat -> Forall sound_member ens -> Forall I sts -> J lam -> K m e ->
  exists ens' sts' e' g' ch', on_members L P A drift rows classes sw row i m lam ens sts e g ch = Ok (ens', sts', e', g', ch') /\ length ens' = length ens /\ length sts' = length sts /\ Forall sound_member ens' /\ Forall I sts' /\ K m e'.
Proof.
  intros Hq. induction ens as [|bd ens IH]; intros [|st sts] i lam e g ch Hl Hm He Hi Hj Hk; try discriminate; cbn [on_members].
  - eexists _, _, _, _, _. split; [reflexivity|]. auto.
  - inversion He as [|? ? [B1 B2] He']; subst. inversion Hi as [|? ? Hi1 Hi2]; subst. cbn [length] in *.
    destruct (Hstep i m lam row (fst bd) st e g ltac:(lia) Hq B1 Hi1 Hj Hk) as (b' & st' & e' & lam' & g' & Es & Q1 & Q2 & Q3 & Q4). rewrite Es. cbn [bind].
    destruct (on_watch_total rows (b', snd bd) ch (conj Q1 B2)) as (bd' & ch' & Ew & Hw). rewrite Ew. cbn [bind].
    destruct (IH sts (S i) lam' e' g' ch' ltac:(lia) ltac:(lia) He' Hi2 Q3 Q4) as (ens2 & sts2 & e2 & g2 & ch2 & E2 & L1 & L2 & F1 & F2 & F3). rewrite E2. cbn [bind]. eexists _, _, _, _, _. split; [reflexivity|]. cbn [length]. auto 10.
Qed.
Definition sound_state (s : ons B G D St E) : Prop := Forall sound_member (on_ens s) /\ Forall I (on_stats s) /\ K (length (on_ens s)) (on_ext s) /\ length (on_stats s) = length (on_ens s).
Lemma reset_max_sound (l : list (B * D)) : Forall sound_member l -> Forall sound_member (reset_max L P l).
Proof.
  intros H. unfold reset_max. destruct (find_max P 0 l n0 None) as [i|]; auto. destruct (nth_error l i) as [bd|] eqn:Ei; auto. assert (Hb : sound_member bd) by (rewrite Forall_forall in H; apply H; eapply nth_error_In; eauto).
  apply Forall_forall. intros x Hx. apply In_nth_error in Hx as (j & Hj). assert (Li : (i < length l)%nat) by (apply nth_error_Some; congruence). destruct (set_nth_at l i (lr_reset L (fst bd), e_new P) Li) as [S1 S2].
  destruct (Nat.eq_dec j i) as [->|Hn]; [rewrite S1 in Hj; injection Hj as <-; destruct Hb; split; cbn; [now apply HL|apply HP]|]. rewrite S2 in Hj by auto. rewrite Forall_forall in H. apply H. eapply nth_error_In; eauto.
Qed.
Lemma on_rows_total rows l : Forall Q l -> forall s, sound_state s -> exists s', foldM (on_row L P A drift rows classes sw) l s = Ok s' /\ sound_state s' /\ on_classes s' = on_classes s /\ length (on_ens s') = length (on_ens s) /\ (on_ready s = true -> on_ready s' = true).
Proof.
  induction 1 as [|row l Hq Hl IH]; intros s Hs; cbn [foldM]; [exists s; auto|]. destruct Hs as (S1 & S2 & S3 & S4).
  destruct (on_members_total rows row (length (on_ens s)) Hq (on_ens s) (on_stats s) 0 n1 (on_ext s) (on_rng s) false S4 (le_n _) S1 S2 J1 S3) as (ens & sts & e & g & ch & Em & L1 & L2 & F1 & F2 & F3).
  assert (Er : on_row L P A drift rows classes sw s row = Ok (mk_ons true (if ch && drift then reset_max L P ens else ens) sts e (on_classes s) g)) by (unfold on_row; rewrite Em; reflexivity). rewrite Er. cbn [bind]. clear Er.
  set (ens' := if ch && drift then reset_max L P ens else ens). assert (Le : length ens' = length ens) by (subst ens'; destruct (ch && drift); auto; unfold reset_max; destruct (find_max P 0 ens n0 None); auto; destruct (nth_error ens _); auto; apply set_nth_len).
  assert (Fe : Forall sound_member ens') by (subst ens'; destruct (ch && drift); auto; now apply reset_max_sound). clearbody ens'.
  destruct (IH (mk_ons true ens' sts e (on_classes s) g)) as (s' & Es & H1 & H2 & H3 & H4).
  { unfold sound_state. cbn [on_ens on_stats on_ext]. rewrite Le, L1. repeat split; auto. congruence. }
  exists s'. split; auto. split; auto. cbn [on_classes on_ens on_ready] in *. rewrite Le, L1 in H3. auto.
Qed.
Hypotheses (HB : IB (lr_reset L base)).
Lemma on_fit_total s rows : Forall Q rows -> (on_ready s = true -> sound_state s) -> (forall m, m = n \/ (exists cl, check_classes (on_classes s) classes = Ok cl /\ m = Nat.max n (length cl)) -> K m (al_ext A n)) ->
  (on_ready s = true -> forall cl, check_classes (on_classes s) classes = Ok cl -> K (Nat.max (length (on_ens s)) (length cl)) (on_ext s)) ->
  (exists cl, check_classes (on_classes s) classes = Ok cl) ->
  exists s', on_fit L P A base n drift seed s rows classes sw = Ok s' /\ sound_state s' /\ on_ready s' = true.
Proof.
  intros Hq Hs HK HK2 (cl & Ec). unfold on_fit. cbv zeta. set (s0 := if on_ready s then s else on_reset L P A base n seed s).
  assert (Z : sound_state s0 /\ on_classes s0 = on_classes s /\ K (Nat.max (length (on_ens s0)) (length cl)) (on_ext s0)).
  { subst s0. destruct (on_ready s) eqn:Er; [split; auto|]. unfold sound_state. cbn [on_reset on_ens on_stats on_ext on_classes]. rewrite !repeat_length. split; [|split; auto; apply HK; right; eauto].
    repeat split; auto; apply Forall_forall; intros x Hx; apply repeat_spec in Hx; subst; auto. split; cbn; auto. apply HP. }
  clearbody s0. destruct Z as (Z1 & Z2 & Z3). rewrite Z2, Ec. cbn [bind]. set (s1 := on_adjust _ _ _ _ _ _).
  assert (V : sound_state s1 /\ on_ready s1 = true).
  { subst s1. unfold on_adjust, sound_state in *. cbn [on_ens on_stats on_ext on_ready on_classes on_rng]. destruct Z1 as (Y1 & Y2 & Y3 & Y4). destruct (Nat.ltb_spec (length (on_ens s0)) (length cl)); cbn [on_ens on_stats on_ext on_ready]; [|repeat split; auto].
    rewrite app_length, !repeat_length. replace (length (on_ens s0) + (length cl - length (on_ens s0)))%nat with (Nat.max (length (on_ens s0)) (length cl)) by lia. repeat split; auto; try lia.
    - apply Forall_app. split; auto. apply Forall_forall; intros x Hx; apply repeat_spec in Hx; subst. split; cbn; auto. apply HP.
    - apply Forall_forall; intros x Hx; apply repeat_spec in Hx; subst; auto. }
  clearbody s1. destruct V as [V1 V2]. destruct (on_rows_total rows rows Hq s1 V1) as (s' & Es & H1 & H2 & H3 & H4). exists s'. auto.
Qed.
End Total.
