(** The steps of the online boosting algorithms over the real numbers. *)
From Coq Require Import List ZArith Bool Lia Reals Lra Psatz.
From Verif Require Import Base.Py Base.Num Spec.Lists Spec.NaiveBayesSpec Spec.BaggingSpec Spec.OnlineSpec Model.Adwin Model.Knn Model.Learner Model.Bagging Model.OnlineEnsembles
  Proofs.ListFacts Proofs.KnnProofs Proofs.NaiveBayesProofs Proofs.BaggingProofs Proofs.OnlineProofs.
Import ListNotations.
Local Open Scope R_scope.

Section Rows.
Context {X T B G D St E : Type} {N : Num T} (L : learner X T B) (P : edet T D) (A : algo X T B G St E) (base : B) (n : nat) (drift : bool) (seed : G).
Lemma on_fit_start s rows classes sw cl : check_classes (on_classes s) classes = Ok cl -> on_fit L P A base n drift seed s rows classes sw = foldM (on_row L P A drift rows classes sw) rows (fit_start L P A base n seed s cl).
Proof. intros H. unfold on_fit, fit_start. cbv zeta. assert (E1 : on_classes (if on_ready s then s else on_reset L P A base n seed s) = on_classes s) by (destruct (on_ready s); reflexivity). rewrite E1, H. reflexivity. Qed.
Variables (I : St -> Prop) (J : T -> Prop) (K : E -> Prop).
Hypotheses (I0 : I (al_st A)) (K0 : K (al_ext A 0) /\ K (al_ext A n)) (J1 : J n1)
  (Hstep : forall classes sw i m lam row b st e g b' st' e' lam' g', I st -> J lam -> K e -> al_step A classes sw i m lam row b st e g = Ok (b', st', e', lam', g') -> I st' /\ J lam' /\ K e').
Lemma on_seen_inv s : on_seen L P A base n drift seed s -> inv I K s /\ length (on_stats s) = length (on_ens s).
Proof.
  induction 1 as [s classes cl Hr Hc|rows classes sw s row s' Hs [IH1 IH2] Hr].
  - destruct (on_reached_inv L P A base n drift seed I J K I0 K0 J1 Hstep s Hr) as [H1 H2].
    destruct (on_fit_inv L P A base n drift seed I J K I0 K0 J1 Hstep s [] classes None (fit_start L P A base n seed s cl) H1 H2) as (Q1 & Q2 & _).
    + rewrite (on_fit_start s [] classes None cl Hc). reflexivity.
    + split; auto. apply Q2.
  - destruct (on_row_inv L P A drift I J K J1 Hstep rows classes sw s row s' IH2 IH1 Hr) as (Q1 & _ & _ & Q4 & _). auto.
Qed.
(** A row is a pass of steps, each from statistics and rates that satisfy the invariants. *)
Lemma on_row_pass rows classes sw s row s' : length (on_stats s) = length (on_ens s) -> inv I K s -> on_row L P A drift rows classes sw s row = Ok s' ->
  row_pass drift s s' (fun i lam b st e g b' st' e' lam' g' => I st /\ J lam /\ K e /\ al_step A classes sw i (length (on_ens s)) lam row b st e g = Ok (b', st', e', lam', g')).
Proof.
  intros Hl [H1 H2] H. unfold on_row in H. apply bind_Ok in H as ([[[[ens sts] e] g] ch] & E1 & H). injection H as <-. unfold row_pass. cbn [on_stats on_ext on_rng].
  destruct (on_members_ok L P A drift _ _ _ _ _ _ _ _ _ _ _ _ _ _ _ _ _ (eq_sym Hl) E1) as (L1 & L2 & lams & es & gs & Z1 & Z2 & Z3 & Z4 & Z5 & Q). exists lams, es, gs. split; auto. split; auto. split; auto. split; auto. split; auto.
  assert (V : forall j, (j <= length (on_ens s))%nat -> J (lams j) /\ K (es j)).
  { induction j as [|j IH]; intros Hj; [rewrite Z1, Z2; auto|]. destruct (IH ltac:(lia)) as [V1 V2].
    destruct (nth_error (on_ens s) j) as [bd|] eqn:Eb; [|apply nth_error_None in Eb; lia]. destruct (nth_error (on_stats s) j) as [st|] eqn:Et; [|apply nth_error_None in Et; lia].
    destruct (Q j bd st Eb Et) as (b & st' & bd' & _ & _ & Es & _). assert (Hi : I st) by (rewrite Forall_forall in H1; apply H1; eapply nth_error_In; eauto).
    destruct (Hstep _ _ _ _ _ _ _ _ _ _ _ _ _ _ _ Hi V1 V2 Es) as (_ & ? & ?). auto. }
  intros j bd st Eb Et. destruct (Q j bd st Eb Et) as (b & st' & bd' & Q1 & Q2 & Es & Q3). exists b, st'. split; auto. split; [intros Hd; cbn [on_ens]; rewrite Hd, andb_false_r; destruct Q3 as [[_ Q3]|[C _]]; [now subst|congruence]|]. assert (Lj : (j < length (on_ens s))%nat) by (apply nth_error_Some; congruence).
  destruct (V j ltac:(lia)) as [V1 V2]. assert (Hi : I st) by (rewrite Forall_forall in H1; apply H1; eapply nth_error_In; eauto). split; auto.
Qed.
End Rows.

Lemma row_pass_impl {T B G D St E} {N : Num T} drift (s s' : ons B G D St E) (R1 R2 : nat -> T -> B -> St -> E -> G -> B -> St -> E -> T -> G -> Prop) :
  (forall i lam b st e g b' st' e' lam' g', R1 i lam b st e g b' st' e' lam' g' -> R2 i lam b st e g b' st' e' lam' g') -> row_pass drift s s' R1 -> row_pass drift s s' R2.
Proof. intros H (lams & es & gs & Z1 & Z2 & Z3 & Z4 & Z5 & Q). exists lams, es, gs. repeat split; auto. intros j bd st Hb Ht. destruct (Q j bd st Hb Ht) as (b' & st' & Q1 & Q2 & Q3). eauto 6. Qed.

Section Algos.
Context {X B G : Type} (L : learner X R B) (pois : R -> G -> nat * G).
Lemma poisson_ok lam g : 0 <= lam -> poisson pois lam g = Ok (pois lam g).
Proof. intros H. unfold poisson, n0. cbn [nleb nofZ NumR]. destruct (Rleb 0 lam) eqn:E; auto. apply Rleb_false in E. lra. Qed.
Ltac nums := unfold n0, n1, n2 in *; cbn [nofZ nadd nsub nmul ndiv neqb NumR] in *.
Ltac reqb := match goal with |- context [Reqb ?a ?b] => let E := fresh "Eb" in destruct (Reqb a b) eqn:E; [apply Reqb_true in E|apply Reqb_false in E] | H : context [Reqb ?a ?b] |- _ => let E := fresh "Eb" in destruct (Reqb a b) eqn:E; [apply Reqb_true in E|apply Reqb_false in E] end.

(** boosting *)
Lemma share_zero a b : 0 <= a -> 0 < a + b -> a / (a + b) = 0 -> a = 0.
Proof. intros H1 H2 H3. apply (f_equal (fun z => z * (a + b))) in H3. unfold Rdiv in H3. rewrite Rmult_assoc, Rinv_l, Rmult_0_l in H3 by lra. lra. Qed.
Lemma boost_step_ok classes sw i m lam row b st e g b' st' e' lam' g' : boost_ok st -> 0 < lam -> boost_step L pois classes sw i m lam row b st e g = Ok (b', st', e', lam', g') ->
  boost_visit L pois classes sw row i lam b st e g b' st' e' lam' g' /\ 0 < lam'.
Proof.
  intros (H1 & H2 & H3) Hl H. unfold boost_step in H. rewrite poisson_ok in H by lra. cbn [bind] in H. unfold boost_visit. cbv zeta. destruct (pois lam g) as [k g1]. cbn [fst snd].
  destruct (Nat.ltb_spec 0 k).
  - apply bind_Ok in H as (b1 & E1 & H). apply bind_Ok in H as ([c b2] & E2 & H). replace (Nat.eqb k 0) with false by (symmetry; apply Nat.eqb_neq; lia).
    destruct (Z.eqb c (snd row)) eqn:Ec; cbv zeta in H; nums.
    + injection H as <- <- <- El <-. unfold boost_ok, boost_rule. cbn [b_sc b_sw b_eps]. assert (Hp : 0 < b_sw st + (b_sc st + lam)) by lra.
      assert (Hd : 1 - b_sw st / (b_sw st + (b_sc st + lam)) = (b_sc st + lam) / (b_sw st + (b_sc st + lam))) by (field; lra).
      reqb.
      * apply share_zero in Eb; auto. subst lam'. split; [|lra]. split; auto. split; auto. split; [repeat split; try lra; f_equal; lra|]. exists c. rewrite Ec. split; [exists b1; auto|]. repeat split; auto. destruct (Req_EM_T (b_sw st) 0); [auto|lra].
      * assert (Hn : b_sw st <> 0) by (intros C; apply Eb; rewrite C; unfold Rdiv; lra). rewrite Hd in El.
        assert (El' : lam' = lam * ((b_sc st + lam + b_sw st) / (2 * (b_sc st + lam)))) by (rewrite <- El; field; lra).
        assert (0 < lam') by (rewrite El'; apply Rmult_lt_0_compat; [lra|apply Rdiv_lt_0_compat; lra]).
        split; auto. split; auto. split; auto. split; [repeat split; try lra; f_equal; lra|]. exists c. rewrite Ec. split; [exists b1; auto|]. repeat split; auto. destruct (Req_EM_T (b_sw st) 0); [lra|auto].
    + injection H as <- <- <- El <-. unfold boost_ok, boost_rule. cbn [b_sc b_sw b_eps]. assert (Hp : 0 < b_sw st + lam + b_sc st) by lra.
      assert (Hn : (b_sw st + lam) / (b_sw st + lam + b_sc st) <> 0) by (intros C; apply share_zero in C; lra). reqb; [lra|].
      assert (El' : lam' = lam * ((b_sc st + (b_sw st + lam)) / (2 * (b_sw st + lam)))) by (rewrite <- El; field; lra).
      assert (0 < lam') by (rewrite El'; apply Rmult_lt_0_compat; [lra|apply Rdiv_lt_0_compat; lra]).
      split; auto. split; auto. split; auto. split; [repeat split; try lra; f_equal; lra|]. exists c. rewrite Ec. split; [exists b1; auto|]. repeat split; auto.
  - replace k with 0%nat by lia. cbn [Nat.eqb]. injection H as <- <- <- <- <-. repeat split; auto.
Qed.

(** AdaC2 *)
Lemma ada_step_ok cp cn classes sw i m lam row b st e g b' st' e' lam' g' : 0 < cp -> 0 < cn -> ada_ok st -> 0 < lam -> adac2_step L pois cp cn classes sw i m lam row b st e g = Ok (b', st', e', lam', g') ->
  ada_visit L pois cp cn classes sw row i lam b st e g b' st' e' lam' g' /\ 0 < lam'.
Proof.
  intros Hcp Hcn (H1 & H2 & H3 & H4 & H5) Hl H. unfold adac2_step in H. cbv zeta in H. rewrite poisson_ok in H by lra. cbn [bind] in H. unfold ada_visit. cbv zeta. destruct (pois lam g) as [k g1]. cbn [fst snd] in *. cbn [a_tp a_fn a_tn a_fp a_sum] in H.
  assert (Pcp : 0 < cp * lam) by (apply Rmult_lt_0_compat; lra). assert (Pcn : 0 < cn * lam) by (apply Rmult_lt_0_compat; lra).
  destruct (Nat.ltb_spec 0 k).
  - apply bind_Ok in H as (b1 & E1 & H). apply bind_Ok in H as ([c b2] & E2 & H).
    assert (SE : forall st0 e0, set_errors i st0 e = Ok e0 -> nth_error (fst e0) i = Some ((a_tp st0 + a_tn st0) / a_sum st0) /\ nth_error (snd e0) i = Some ((a_fp st0 + a_fn st0) / a_sum st0) /\ nth i (fst e0) 0 = (a_tp st0 + a_tn st0) / a_sum st0 /\ nth i (snd e0) 0 = (a_fp st0 + a_fn st0) / a_sum st0).
    { intros st0 e0 He. unfold set_errors in He. destruct (Nat.ltb_spec i (length (fst e))), (Nat.ltb_spec i (length (snd e))); try discriminate. injection He as <-. cbn [fst snd].
      destruct (set_nth_at (fst e) i ((a_tp st0 + a_tn st0) / a_sum st0)%num ltac:(lia)) as [S1 _]. destruct (set_nth_at (snd e) i ((a_fp st0 + a_fn st0) / a_sum st0)%num ltac:(lia)) as [S2 _]. nums.
      split; auto. split; auto. split; apply nth_error_nth; auto. }
    assert (Fin : forall st0, ada_ok st0 -> a_sum st0 = a_sum st + lam -> (k <> 0%nat -> exists c0, trained L classes sw k row b c0 b' /\ ((c0 = 0 \/ c0 = 1)%Z -> (snd row = 0 \/ snd row = 1)%Z -> ada_rule cp cn c0 (snd row) lam st st0 lam' /\ nth_error (fst e') i = Some ((a_tp st0 + a_tn st0) / a_sum st0) /\ nth_error (snd e') i = Some ((a_fp st0 + a_fn st0) / a_sum st0))) -> 0 < lam' -> st' = st0 -> g1 = g' ->
      (0 < lam /\ g' = g1 /\ ada_ok st' /\ (k = 0%nat -> b' = b /\ st' = mk_ast (a_tp st) (a_fn st) (a_tn st) (a_fp st) (a_sum st + lam) /\ lam' = lam /\ e' = e) /\ (k <> 0%nat -> exists c0, trained L classes sw k row b c0 b' /\ ((c0 = 0 \/ c0 = 1)%Z -> (snd row = 0 \/ snd row = 1)%Z -> ada_rule cp cn c0 (snd row) lam st st' lam' /\ nth_error (fst e') i = Some ((a_tp st' + a_tn st') / a_sum st') /\ nth_error (snd e') i = Some ((a_fp st' + a_fn st') / a_sum st')))) /\ 0 < lam').
    { intros st0 F1 F2 F3 F4 -> ->. split; auto. split; auto. split; auto. split; auto. split; [intros; lia|auto]. }
    set (y := snd row) in *.
    destruct (Z.eqb_spec c 1) as [Hc1|Hc1], (Z.eqb_spec y 1) as [Hy1|Hy1]; cbn [andb] in H;
      [| |destruct (Z.eqb_spec c 0) as [Hc0|Hc0], (Z.eqb_spec y 0) as [Hy0|Hy0]; cbn [andb] in H|destruct (Z.eqb_spec c 0) as [Hc0|Hc0], (Z.eqb_spec y 0) as [Hy0|Hy0]; cbn [andb] in H]; try lia;
      try (destruct (Z.eqb_spec c 0) as [Hc0|Hc0]; [lia|]; destruct (Z.eqb_spec y 0) as [Hy0|Hy0]; cbn [andb] in H).
    all: nums.
    all: try (injection H as <- <- <- <- <-; (eapply Fin; [| | | |reflexivity|reflexivity]); [repeat split; cbn; lra|cbn; reflexivity| |lra]; intros _; exists c; split; [exists b1; auto|intros; lia]).
    all: apply bind_Ok in H as (e0 & Es & H); destruct (SE _ _ Es) as (S1 & S2 & S3 & S4); injection H as <- <- <- El <-; nums; cbn [a_tp a_fn a_tn a_fp a_sum] in *.
    all: (eapply Fin; [| | | |reflexivity|reflexivity]); [repeat split; cbn; lra|cbn; reflexivity| |].
    all: try (rewrite <- El; try rewrite S3; try rewrite S4; repeat (apply Rdiv_lt_0_compat || apply Rmult_lt_0_compat); lra).
    all: intros _; exists c; split; [exists b1; auto|]; intros _ _; split; [|split; assumption].
    all: unfold ada_rule; cbv zeta; cbn [a_tp a_fn a_tn a_fp a_sum].
    all: repeat match goal with |- context [(?a =? ?b)%Z] => destruct (Z.eqb_spec a b); try lia end; cbn [andb].
    all: repeat split; try lra.
    all: rewrite <- El; try rewrite S3; try rewrite S4; field; lra.
  - replace k with 0%nat by lia. injection H as <- <- <- <- <-. split; [|lra]. repeat split; auto; cbn; try lra; try (intros; congruence).
Qed.

(** CSB2 *)
Lemma csb_step_ok cp cn classes sw i m lam row b st e g b' st' e' lam' g' : 0 < cp -> 0 < cn -> csb_ok cp st -> 0 < lam -> csb2_step L pois cp cn classes sw i m lam row b st e g = Ok (b', st', e', lam', g') ->
  csb_visit L pois cp cn classes sw row i lam b st e g b' st' e' lam' g' /\ 0 < lam'.
Proof.
  intros Hcp Hcn (H1 & H2 & H3 & H4 & H5) Hl H. unfold csb2_step in H. cbv zeta in H. rewrite poisson_ok in H by lra. cbn [bind] in H. unfold csb_visit. cbv zeta. destruct (pois lam g) as [k g1]. cbn [fst snd] in *.
  assert (Pcp : 0 < cp * lam) by (apply Rmult_lt_0_compat; lra). assert (Pcn : 0 < cn * lam) by (apply Rmult_lt_0_compat; lra).
  destruct (Nat.ltb_spec 0 k).
  - apply bind_Ok in H as (b1 & E1 & H). apply bind_Ok in H as ([c b2] & E2 & H). replace (Nat.eqb k 0) with false by (symmetry; apply Nat.eqb_neq; lia).
    nums. set (S := c_sum st + lam) in *. assert (HS : 0 < S) by (unfold S; lra).
    destruct (Z.eqb c (snd row)) eqn:Ec.
    + injection H as <- <- <- El <-. rewrite H5 in *. assert (Ew : cp * c_sw st / S = cp * (c_sw st / S)) by (unfold Rdiv; ring). rewrite Ew in *.
      set (eps := c_sw st / S) in *. assert (He0 : 0 <= eps) by (unfold eps; apply Rmult_le_pos; [lra|left; apply Rinv_0_lt_compat; lra]).
      assert (He1 : eps < 1). { unfold eps. apply (Rmult_lt_reg_r S); [lra|]. unfold Rdiv. rewrite Rmult_assoc, Rinv_l by lra. unfold S. lra. }
      assert (Hok : csb_ok cp (mk_cst (c_fn st) (c_fp st) S (c_sw st) (cp * eps) eps)) by (repeat split; cbn; try lra; unfold S; lra).
      assert (Hrule : lam' = (if Req_EM_T (c_sw st) 0 then lam else S / ((S - c_sw st) * (1 + cp))) /\ 0 < lam').
      { destruct (Req_EM_T (c_sw st) 0) as [Z0|Z0].
        - assert (E0 : eps = 0) by (unfold eps; rewrite Z0; unfold Rdiv; ring). rewrite E0 in El. replace (Reqb (0 + cp * 0) 0) with true in El by (symmetry; apply Reqb_true; ring). cbn in El. subst. auto.
        - assert (E0 : 0 < eps) by (unfold eps; apply Rdiv_lt_0_compat; lra). assert (0 < cp * eps) by (apply Rmult_lt_0_compat; lra).
          replace (Reqb (eps + cp * eps) 0) with false in El by (symmetry; apply Reqb_false; lra). replace (Reqb eps 1) with false in El by (symmetry; apply Reqb_false; lra). cbn in El.
          assert (El' : lam' = S / ((S - c_sw st) * (1 + cp))). { rewrite <- El. unfold eps. field. repeat split; try lra; unfold S; lra. }
          split; auto. rewrite El'. apply Rdiv_lt_0_compat; [lra|]. apply Rmult_lt_0_compat; [unfold S; lra|lra]. }
      destruct Hrule as [R1 R2]. split; auto. split; auto. split; auto. split; auto. exists c. split; [exists b1; auto|]. unfold csb_rule. rewrite Ec. cbn [c_sum c_sw c_eps c_werr]. auto.
    + set (pos := ((c =? 0)%Z && (snd row =? 1)%Z)%bool) in *. injection H as <- <- <- El <-.
      set (fp := if pos then c_fp st + cp * lam else c_fp st) in *. set (fn := if pos then c_fn st else c_fn st + cp * lam) in *.
      assert (Ef : fp + fn = cp * (c_sw st + lam)) by (unfold fp, fn; destruct pos; lra). rewrite Ef in *. assert (Ew : cp * (c_sw st + lam) / S = cp * ((c_sw st + lam) / S)) by (unfold Rdiv; ring). rewrite Ew in *.
      assert (Hok : csb_ok cp (mk_cst fn fp S (c_sw st + lam) (cp * ((c_sw st + lam) / S)) ((c_sw st + lam) / S))) by (repeat split; cbn; try lra; try (unfold fp, fn; destruct pos; lra); unfold S; lra).
      assert (Hc : 0 < (if pos then cp else cn)) by (destruct pos; lra).
      assert (El' : lam' = (if pos then cp else cn) * lam * (S / ((c_sw st + lam) * (1 + cp)))) by (rewrite <- El; field; repeat split; lra).
      assert (0 < lam'). { rewrite El'. apply Rmult_lt_0_compat; [apply Rmult_lt_0_compat; lra|]. apply Rdiv_lt_0_compat; [lra|]. apply Rmult_lt_0_compat; lra. }
      split; auto. split; auto. split; auto. split; auto. exists c. split; [exists b1; auto|]. unfold csb_rule. rewrite Ec. cbn [c_sum c_sw c_eps c_werr]. fold pos. auto.
  - replace k with 0%nat by lia. cbn [Nat.eqb]. injection H as <- <- <- <- <-. split; [|lra]. repeat split; cbn; auto; lra.
Qed.

(** RUSBoost *)
Lemma rus_rate_eq alg rate y lam pos neg p q : lam_rus rate alg y lam pos neg p q = rus_rate alg rate y lam pos neg (IZR p) (IZR q).
Proof.
  unfold lam_rus, rus_rate. cbv zeta. nums. destruct (alg =? 1)%Z.
  - destruct (y =? 1)%Z.
    + destruct (Z.eqb_spec q 0) as [->|Hq]; destruct (Req_EM_T (IZR _) 0) as [C|C]; auto; try (now exfalso; apply C); [|now rewrite Rmult_assoc]. apply eq_IZR in C. lia.
    + destruct (Z.eqb_spec p 0) as [->|Hp]; destruct (Req_EM_T (IZR _) 0) as [C|C]; auto; try (now exfalso; apply C); [|now rewrite Rmult_assoc]. apply eq_IZR in C. lia.
  - reflexivity.
Qed.
Lemma div_nonneg a b : 0 <= a -> 0 <= b -> 0 <= a / b.
Proof. intros Ha Hb. destruct (Req_EM_T b 0) as [->|Hn]; [unfold Rdiv|apply Rmult_le_pos; [lra|left; apply Rinv_0_lt_compat; lra]]. destruct (Req_EM_T a 0) as [->|]; [lra|]. rewrite Rinv_0. lra. Qed.
Lemma rus_rate_nonneg alg rate y lam pos neg p q : 0 < rate -> 0 < lam -> 0 <= pos -> 0 <= neg -> (0 <= p)%Z -> (0 <= q)%Z -> 0 <= rus_rate alg rate y lam pos neg (IZR p) (IZR q).
Proof.
  intros Hr Hl H1 H2 H3 H4. apply IZR_le in H3, H4. unfold rus_rate.
  assert (M : forall a b : R, 0 <= a -> 0 <= b -> 0 <= a * b) by (intros; now apply Rmult_le_pos).
  repeat match goal with |- context [Z.eqb ?a ?b] => destruct (Z.eqb a b) end; repeat match goal with |- context [Req_EM_T ?a ?b] => destruct (Req_EM_T a b) end; try lra;
    repeat first [apply div_nonneg | apply M | apply Rplus_le_le_0_compat]; try lra.
Qed.
Lemma rus_step_ok alg rate classes sw i m lam row b st e g b' st' e' lam' g' : 0 < rate -> rus_ok st -> (0 <= fst e /\ 0 <= snd e)%Z -> 0 < lam -> rus_step L pois rate alg classes sw i m lam row b st e g = Ok (b', st', e', lam', g') ->
  rus_visit L pois alg rate classes sw row i lam b st e g b' st' e' lam' g' /\ 0 < lam' /\ (0 <= fst e' /\ 0 <= snd e')%Z.
Proof.
  intros Hr (H1 & H2 & H3 & H4 & H5) [He1 He2] Hl H. unfold rus_step in H. cbv zeta in H. nums.
  set (pos := if (snd row =? 1)%Z then r_pos st + lam else r_pos st) in *. set (neg := if (snd row =? 1)%Z then r_neg st else r_neg st + lam) in *.
  set (e1 := if (snd row =? 1)%Z then ((fst e + 1)%Z, snd e) else (fst e, (snd e + 1)%Z)) in *.
  assert (Hp : 0 <= pos) by (unfold pos; destruct (snd row =? 1)%Z; lra). assert (Hn : 0 <= neg) by (unfold neg; destruct (snd row =? 1)%Z; lra).
  assert (He : (0 <= fst e1 /\ 0 <= snd e1)%Z) by (unfold e1; destruct (snd row =? 1)%Z; cbn; lia).
  rewrite rus_rate_eq in H. assert (Hrate : 0 <= rus_rate alg rate (snd row) lam pos neg (IZR (fst e1)) (IZR (snd e1))) by (apply rus_rate_nonneg; tauto). rewrite poisson_ok in H by auto. cbn [bind] in H.
  unfold rus_visit. cbv zeta. destruct (pois _ g) as [k g1] eqn:Ek. apply bind_Ok in H as (b1 & E1 & H). apply bind_Ok in H as ([c b2] & E2 & H).
  destruct (c =? snd row)%Z eqn:Ec; injection H as <- <- <- El <-; cbn [r_pos r_neg r_sc r_sw r_eps]; fold pos neg e1; rewrite Ek; cbn [fst snd].
  - assert (Hs : 0 < r_sc st + lam + r_sw st) by lra.
    assert (Hd : 1 - r_sw st / (r_sc st + lam + r_sw st) = (r_sc st + lam) / (r_sc st + lam + r_sw st)) by (field; lra).
    assert (Hne : r_sw st / (r_sc st + lam + r_sw st) <> 1). { intros C. assert (0 < (r_sc st + lam) / (r_sc st + lam + r_sw st)) by (apply Rdiv_lt_0_compat; lra). lra. }
    replace (Reqb _ 1) with false in El by (symmetry; apply Reqb_false; auto). rewrite Hd in El.
    assert (El' : lam' = lam * ((r_sc st + lam + r_sw st) / (2 * (r_sc st + lam)))) by (rewrite <- El; field; lra).
    assert (0 < lam') by (rewrite El'; apply Rmult_lt_0_compat; [lra|apply Rdiv_lt_0_compat; lra]).
    split; [|auto]. repeat split; auto; cbn; try lra. exists c. rewrite Ec. split; [exists b1; auto|]. auto.
  - assert (Hs : 0 < r_sc st + (r_sw st + lam)) by lra.
    assert (Hne : (r_sw st + lam) / (r_sc st + (r_sw st + lam)) <> 0). { intros C. assert (0 < (r_sw st + lam) / (r_sc st + (r_sw st + lam))) by (apply Rdiv_lt_0_compat; lra). lra. }
    replace (Reqb _ 0) with false in El by (symmetry; apply Reqb_false; auto).
    assert (El' : lam' = lam * ((r_sc st + (r_sw st + lam)) / (2 * (r_sw st + lam)))) by (rewrite <- El; field; lra).
    assert (0 < lam') by (rewrite El'; apply Rmult_lt_0_compat; [lra|apply Rdiv_lt_0_compat; lra]).
    split; [|auto]. repeat split; auto; cbn; try lra. exists c. rewrite Ec. split; [exists b1; auto|]. auto.
Qed.
End Algos.

Lemma nofZ_INR k : @nofZ R NumR (Z.of_nat k) = INR k.
Proof. cbn [nofZ NumR]. symmetry. apply INR_IZR_INZ. Qed.
Section Bags.
Context {X B G : Type} (L : learner X R B) (pois : R -> G -> nat * G).
Lemma uob_rate_eq rate i m y : uob_rate rate i m y = INR (i + 1) / INR m * (if Z.eqb y 1 then rate else 1).
Proof. unfold uob_rate. cbv zeta. rewrite !nofZ_INR. replace (S i) with (i + 1)%nat by lia. cbn [nmul ndiv NumR]. destruct (y =? 1)%Z; lra. Qed.
Lemma uob_step_ok rate classes sw i m lam row b st e g b' st' e' lam' g' : uob_step L pois rate classes sw i m lam row b st e g = Ok (b', st', e', lam', g') ->
  uob_visit L pois rate m classes sw row i lam b st e g b' st' e' lam' g'.
Proof.
  intros H. unfold uob_step in H. rewrite uob_rate_eq in H. unfold uob_visit. cbv zeta. unfold poisson in H. destruct (nleb n0 _); [|discriminate]. cbn [bind] in H. destruct (pois _ g) as [k g1]. cbn [fst snd].
  apply bind_Ok in H as (b1 & E1 & H). injection H as <- _ _ _ <-. split; auto. rewrite <- E1. symmetry. apply (times_fold (fun b row => lr_fit L b [row] classes sw)).
Qed.
Lemma uob_step_total rate (Q : X * Z -> Prop) classes sw IB : 0 <= rate -> unfailing L Q classes sw IB -> forall i m lam row b st e g, (i < m)%nat -> Q row -> IB b ->
  exists b' st' e' lam' g', uob_step L pois rate classes sw i m lam row b st e g = Ok (b', st', e', lam', g') /\ IB b'.
Proof.
  intros Hr HL i m lam row b st e g Hi Hq Hb. unfold uob_step. rewrite uob_rate_eq. rewrite poisson_ok.
  - cbn [bind]. destruct (pois _ g) as [k g1]. destruct (times_total L Q classes sw IB HL k row b Hb Hq) as (b1 & E1 & H1). rewrite E1. cbn [bind]. eexists _, _, _, _, _. split; [reflexivity|auto].
  - apply Rmult_le_pos; [apply div_nonneg; apply pos_INR|destruct (_ =? _)%Z; lra].
Qed.
End Bags.

Section Smote.
Context {B G : Type} (L : learner (list R) R B) (pois : R -> G -> nat * G) (randint : nat -> G -> nat * G) (rand : G -> R * G).
Hypothesis Hrandint : forall k g, (0 < k)%nat -> (fst (randint k g) < k)%nat.
Lemma list_ends {A} (l : list A) : l = [] \/ (exists x, l = [x]) \/ (exists a m x, l = a :: m ++ [x]).
Proof. destruct l as [|a l]; auto. destruct (exists_last (l := a :: l)) as (m & x & E); [discriminate|]. right. destruct m as [|b m]; [left|right]; cbn in E; [eauto|]. injection E as -> ->. eauto. Qed.
Lemma online_smote_ok pos g : pos <> [] -> exists z g', online_smote randint rand pos g = Ok (z, g') /\ synthetic pos z.
Proof.
  intros Hp. destruct (list_ends pos) as [->|[(x & ->)|(a & m & x & ->)]]; [congruence| |].
  - exists x, g. split; [reflexivity|]. exists x, [], [], 0. auto.
  - unfold online_smote. assert (Er : exists q qs, rev (a :: m ++ [x]) = x :: q :: qs). { cbn [rev]. rewrite rev_app_distr. cbn. destruct (rev m) as [|q qs]; cbn; eauto. } destruct Er as (q & qs & Er). rewrite Er.
    replace (removelast (a :: m ++ [x])) with (a :: m) by (symmetry; exact (removelast_last (a :: m) x)). cbn [distances_to map argsort length seq fold_left insert_by Nat.min].
    destruct (randint 1 g) as [i g1] eqn:Ei. destruct (rand g1) as [gamma g2]. assert (i = 0)%nat as ->. { specialize (Hrandint 1 g ltac:(lia)). rewrite Ei in Hrandint. cbn in Hrandint. lia. }
    cbn [nth_error]. eexists _, _. split; [reflexivity|]. exists x, a, m, gamma. right. split; auto.
Qed.
Lemma learn_smote_ok k pos y classes sw : pos <> [] -> forall b g b' g', learn_smote L randint rand k pos y classes sw b g = Ok (b', g') ->
  exists zs, length zs = k /\ Forall (synthetic pos) zs /\ foldM (fun b row => lr_fit L b [row] classes sw) (map (fun z => (z, y)) zs) b = Ok b'.
Proof.
  intros Hp. induction k as [|k IH]; intros b g b' g' H; cbn [learn_smote] in H; [injection H as <- <-; exists []; auto|].
  destruct (online_smote_ok pos g Hp) as (z & g1 & E1 & S1). rewrite E1 in H. cbn [bind] in H. apply bind_Ok in H as (b1 & Eb & H). destruct (IH _ _ _ _ H) as (zs & L1 & F1 & Q1).
  exists (z :: zs). cbn [length map foldM]. rewrite Eb. cbn [bind]. auto.
Qed.
Lemma smote_step_ok rate classes sw i m lam row b st e g b' st' e' lam' g' : lam = 1 \/ snd row = 1%Z -> smote_step L pois randint rand rate classes sw i m lam row b st e g = Ok (b', st', e', lam', g') ->
  smote_visit L pois rate m classes sw row i lam b st e g b' st' e' lam' g' /\ (snd row <> 1%Z -> lam' = lam).
Proof.
  intros Hlam H. unfold smote_step in H. unfold smote_visit. cbv zeta in *. rewrite !nofZ_INR in H. replace (S i) with (i + 1)%nat in H by lia. destruct (Z.eqb_spec (snd row) 1) as [Hy|Hy].
  - apply bind_Ok in H as ([k g1] & E1 & H). apply bind_Ok in H as (b1 & Eb & H). apply bind_Ok in H as ([ks g2] & E2 & H). apply bind_Ok in H as ([b2 g3] & E3 & H). injection H as <- _ <- <- <-.
    unfold poisson in E1, E2. destruct (nleb n0 _) in E1; [|discriminate]. destruct (nleb n0 _) in E2; [|discriminate]. injection E1 as E1. injection E2 as E2. unfold n1 in E2. cbn [nmul ndiv nsub nofZ NumR] in E1, E2. rewrite E1. cbn [fst snd]. rewrite E2. cbn [fst snd].
    split; [|intros C; congruence]. split; auto. apply learn_smote_ok in E3 as (zs & L1 & F1 & Q1); [|destruct e; discriminate]. exists zs. split; auto. split; auto. rewrite foldM_app2. rewrite <- (times_fold (fun b row => lr_fit L b [row] classes sw)). rewrite Eb. exact Q1.
  - destruct Hlam as [->|C]; [|congruence]. apply bind_Ok in H as ([k g1] & E1 & H). apply bind_Ok in H as (b1 & Eb & H). injection H as <- _ <- <- <-. rewrite poisson_ok in E1 by lra. injection E1 as E1. rewrite E1. cbn [fst snd].
    split; auto. split; auto. split; auto. rewrite <- (times_fold (fun b row => lr_fit L b [row] classes sw)). exact Eb.
Qed.
End Smote.

(** *** The steps do not fail *)
Section StepsTotal.
Context {X B G : Type} (L : learner X R B) (pois : R -> G -> nat * G) (Q : X * Z -> Prop) classes sw (IB : B -> Prop) (HL : unfailing L Q classes sw IB).
Lemma trained_total k row b : IB b -> Q row -> exists b1 c b2, times k (fun b => lr_fit L b [row] classes sw) b = Ok b1 /\ predict_one L b1 (fst row) = Ok (c, b2) /\ IB b2.
Proof.
  intros Hb Hq. destruct (times_total L Q classes sw IB HL k row b Hb Hq) as (b1 & E1 & H1). destruct (proj1 (proj2 HL) b1 [fst row] H1) as (p & b2 & E2 & L2 & H2).
  destruct p as [|c [|? ?]]; try discriminate. exists b1, c, b2. unfold predict_one. rewrite E2. auto.
Qed.
Lemma boost_step_total i m lam row b st e g : Q row -> IB b -> boost_ok st -> 0 < lam ->
  exists b' st' e' lam' g', boost_step L pois classes sw i m lam row b st e g = Ok (b', st', e', lam', g') /\ IB b' /\ boost_ok st' /\ 0 < lam'.
Proof.
  intros Hq Hb Hs Hl. assert (Z : exists b' st' e' lam' g', boost_step L pois classes sw i m lam row b st e g = Ok (b', st', e', lam', g') /\ IB b').
  { unfold boost_step. rewrite poisson_ok by lra. cbn [bind]. destruct (pois lam g) as [k g1]. destruct (Nat.ltb 0 k); [|repeat eexists; eauto]. destruct (trained_total k row b Hb Hq) as (b1 & c & b2 & E1 & E2 & H2). rewrite E1. cbn [bind]. rewrite E2. cbn [bind].
    destruct (c =? snd row)%Z; repeat eexists; eauto. }
  destruct Z as (b' & st' & e' & lam' & g' & E & H). exists b', st', e', lam', g'. split; auto. split; auto. destruct (boost_step_ok L pois _ _ _ _ _ _ _ _ _ _ _ _ _ _ _ Hs Hl E) as ((_ & _ & V & _) & V2). auto.
Qed.
Lemma csb_step_total cp cn i m lam row b st e g : 0 < cp -> 0 < cn -> Q row -> IB b -> csb_ok cp st -> 0 < lam ->
  exists b' st' e' lam' g', csb2_step L pois cp cn classes sw i m lam row b st e g = Ok (b', st', e', lam', g') /\ IB b' /\ csb_ok cp st' /\ 0 < lam'.
Proof.
  intros Hp Hn Hq Hb Hs Hl. assert (Z : exists b' st' e' lam' g', csb2_step L pois cp cn classes sw i m lam row b st e g = Ok (b', st', e', lam', g') /\ IB b').
  { unfold csb2_step. cbv zeta. rewrite poisson_ok by lra. cbn [bind]. destruct (pois lam g) as [k g1]. destruct (Nat.ltb 0 k); [|repeat eexists; eauto]. destruct (trained_total k row b Hb Hq) as (b1 & c & b2 & E1 & E2 & H2). rewrite E1. cbn [bind]. rewrite E2. cbn [bind].
    destruct (c =? snd row)%Z; repeat eexists; eauto. }
  destruct Z as (b' & st' & e' & lam' & g' & E & H). exists b', st', e', lam', g'. split; auto. split; auto. destruct (csb_step_ok L pois _ _ _ _ _ _ _ _ _ _ _ _ _ _ _ _ _ Hp Hn Hs Hl E) as ((_ & _ & V & _) & V2). auto.
Qed.
Lemma rus_step_total alg rate i m lam row b st e g : 0 < rate -> Q row -> IB b -> rus_ok st -> 0 < lam -> (0 <= fst e /\ 0 <= snd e)%Z ->
  exists b' st' e' lam' g', rus_step L pois rate alg classes sw i m lam row b st e g = Ok (b', st', e', lam', g') /\ IB b' /\ rus_ok st' /\ 0 < lam' /\ (0 <= fst e' /\ 0 <= snd e')%Z.
Proof.
  intros Hr Hq Hb Hs Hl He. assert (Z : exists b' st' e' lam' g', rus_step L pois rate alg classes sw i m lam row b st e g = Ok (b', st', e', lam', g') /\ IB b').
  { unfold rus_step. cbv zeta. rewrite rus_rate_eq. rewrite poisson_ok.
    - cbn [bind]. destruct (pois _ g) as [k g1]. destruct (trained_total k row b Hb Hq) as (b1 & c & b2 & E1 & E2 & H2). rewrite E1. cbn [bind]. rewrite E2. cbn [bind]. destruct (c =? snd row)%Z; repeat eexists; eauto.
    - destruct Hs as (H1 & H2 & H3 & H4 & _). apply rus_rate_nonneg; auto; destruct (snd row =? 1)%Z; cbn [fst snd nadd NumR]; lra || lia. }
  destruct Z as (b' & st' & e' & lam' & g' & E & H). exists b', st', e', lam', g'. split; auto. split; auto. destruct (rus_step_ok L pois _ _ _ _ _ _ _ _ _ _ _ _ _ _ _ _ _ Hr Hs He Hl E) as ((_ & _ & _ & _ & _ & _ & V & _) & V2 & V3). auto.
Qed.
Lemma ada_step_total cp cn i m lam row b st e g : 0 < cp -> 0 < cn -> (i < length (fst e))%nat -> (i < length (snd e))%nat -> Q row -> IB b -> ada_ok st -> 0 < lam ->
  exists b' st' e' lam' g', adac2_step L pois cp cn classes sw i m lam row b st e g = Ok (b', st', e', lam', g') /\ IB b' /\ ada_ok st' /\ 0 < lam' /\ length (fst e') = length (fst e) /\ length (snd e') = length (snd e).
Proof.
  intros Hp Hn Hi1 Hi2 Hq Hb Hs Hl.
  assert (SE : forall st0, exists e0, set_errors i st0 e = Ok e0 /\ length (fst e0) = length (fst e) /\ length (snd e0) = length (snd e)).
  { intros st0. unfold set_errors. destruct (Nat.ltb_spec i (length (fst e))); [|lia]. destruct (Nat.ltb_spec i (length (snd e))); [|lia]. cbn [andb]. eexists. split; [reflexivity|]. cbn [fst snd]. rewrite !set_nth_len. auto. }
  assert (Z : exists b' st' e' lam' g', adac2_step L pois cp cn classes sw i m lam row b st e g = Ok (b', st', e', lam', g') /\ IB b' /\ length (fst e') = length (fst e) /\ length (snd e') = length (snd e)).
  { unfold adac2_step. cbv zeta. rewrite poisson_ok by lra. cbn [bind]. destruct (pois lam g) as [k g1]. destruct (Nat.ltb 0 k); [|do 5 eexists; eauto]. destruct (trained_total k row b Hb Hq) as (b1 & c & b2 & E1 & E2 & H2). rewrite E1. cbn [bind]. rewrite E2. cbn [bind a_tp a_fn a_tn a_fp a_sum].
    repeat match goal with |- context [if ?t then _ else _] => destruct t end; try (do 5 eexists; eauto; fail).
    all: match goal with |- context [set_errors ?i0 ?st0 ?e1] => destruct (SE st0) as (e0 & Ee & Le1 & Le2); rewrite Ee end; cbn [bind]; do 5 eexists; eauto. }
  destruct Z as (b' & st' & e' & lam' & g' & E & H & H3). exists b', st', e', lam', g'. split; auto. split; auto. destruct (ada_step_ok L pois _ _ _ _ _ _ _ _ _ _ _ _ _ _ _ _ _ Hp Hn Hs Hl E) as ((_ & _ & V & _) & V2). auto.
Qed.
(** A member beyond the arrays of errors. *)
Lemma ada_step_beyond cp cn i m lam row b st e g b' st' e' lam' g' : 0 <= lam -> (length (fst e) <= i)%nat -> (snd row = 0 \/ snd row = 1)%Z ->
  adac2_step L pois cp cn classes sw i m lam row b st e g = Ok (b', st', e', lam', g') ->
  fst (pois lam g) = 0%nat \/ exists c b1, trained L classes sw (fst (pois lam g)) row b c b1 /\ c <> 0%Z /\ c <> 1%Z.
Proof.
  intros Hl Hi Hy H. unfold adac2_step in H. cbv zeta in H. rewrite poisson_ok in H by auto. cbn [bind] in H. destruct (pois lam g) as [k g1]. cbn [fst].
  assert (SE : forall st0, set_errors i st0 e = Raise IndexError) by (intros st0; unfold set_errors; destruct (Nat.ltb_spec i (length (fst e))); [lia|reflexivity]).
  destruct (Nat.ltb_spec 0 k); [|left; lia]. right. apply bind_Ok in H as (b1 & E1 & H). apply bind_Ok in H as ([c b2] & E2 & H). exists c, b2. split; [exists b1; auto|]. cbn [a_tp a_fn a_tn a_fp a_sum] in H. rewrite !SE in H. cbn [bind] in H.
  split; intros ->; destruct Hy as [Hy|Hy]; rewrite Hy in H; cbn in H; discriminate.
Qed.
End StepsTotal.

(** *** Weighted votes *)
Definition acts (w : weight R) (r : R) : Prop := match w with WFun f => forall p, f p = r * p | WSkip => r = 0 | WAppend => False end.
Lemma log_odds_acts eps : acts (log_odds eps) (vote_weight eps).
Proof.
  unfold log_odds, vote_weight, n0, n1. cbn [neqb nofZ NumR nln nsub ndiv nmul]. destruct (Req_EM_T eps 0) as [->|H0].
  - replace (Reqb 0 0) with true by (symmetry; now apply Reqb_true). cbn [orb acts]; reflexivity.
  - replace (Reqb eps 0) with false by (symmetry; now apply Reqb_false). destruct (Req_EM_T eps 1) as [->|H1].
    + replace (Reqb 1 1) with true by (symmetry; now apply Reqb_true). cbn [orb acts]; reflexivity.
    + replace (Reqb eps 1) with false by (symmetry; now apply Reqb_false). cbn [orb acts]; reflexivity.
Qed.
Lemma add_row_w_ok w r : acts w r -> forall p acc, length acc = length p ->
  length (add_row_w w acc p) = length p /\ (forall c, nth c (add_row_w w acc p) 0 = nth c acc 0 + r * nth c p 0) /\ Rsum (add_row_w w acc p) = Rsum acc + r * Rsum p.
Proof.
  intros Hw. induction p as [|x p IH]; intros [|a acc] Hl; try discriminate; cbn [add_row_w].
  - split; auto. split; [intros [|c]; cbn; lra|cbn; lra].
  - destruct (IH acc ltac:(now injection Hl)) as (H1 & H2 & H3). assert (E : (match w with WFun f => nadd a (f x) | _ => a end) = a + r * x) by (destruct w; cbn in Hw; [rewrite Hw; reflexivity|subst; lra|contradiction]). rewrite E.
    split; [cbn; now rewrite H1|]. split; [intros [|c]; cbn [nth]; [reflexivity|apply H2]|]. unfold Rsum in *. cbn [fold_right]. rewrite H3. lra.
Qed.
Lemma add_rows_w_ok k w r : acts w r -> forall p acc, length acc = length p -> Forall (fun row => length row = k) p -> Forall (fun row => length row = k) acc ->
  length (add_rows_w w acc p) = length p /\ Forall (fun row => length row = k) (add_rows_w w acc p) /\
  (forall n c, nth c (nth n (add_rows_w w acc p) []) 0 = nth c (nth n acc []) 0 + r * nth c (nth n p []) 0) /\ (forall n, Rsum (nth n (add_rows_w w acc p) []) = Rsum (nth n acc []) + r * Rsum (nth n p [])).
Proof.
  intros Hw. induction p as [|x p IH]; intros [|a acc] Hl Fp Fa; try discriminate; cbn [add_rows_w].
  - split; auto. split; auto. split; [intros [|n] [|c]; cbn; lra|intros [|n]; cbn; lra].
  - inversion Fp as [|? ? P1 P2]; subst. inversion Fa as [|? ? A1 A2]; subst. destruct (IH acc ltac:(now injection Hl) P2 A2) as (H1 & H2 & H3 & H4).
    assert (E : add_weighted w a x = add_row_w w a x) by (destruct w; auto; contradiction). rewrite E. destruct (add_row_w_ok w r Hw x a A1) as (R1 & R2 & R3).
    split; [cbn; now rewrite H1|]. split; [constructor; auto|]. split; [intros [|n] c; cbn [nth]; auto|intros [|n]; cbn [nth]; auto].
Qed.
Section Votes.
Context {X B : Type} (L : learner X R B).
Lemma sum_weighted_ok classes (xs : list X) w c0 : xs <> [] -> In c0 classes -> (Z.of_nat w <= c0 + 1)%Z -> forall l ps l' ws rs acc, answers L xs l ps l' -> Forall (wide w xs) ps -> Forall2 acts ws rs -> length ws = length l ->
  length acc = length xs -> Forall (fun row => length row = w) acc ->
  exists acc', sum_weighted L (Some classes) (length xs) xs l ws acc = Ok (Some acc', l') /\ length acc' = length xs /\ Forall (fun row => length row = w) acc' /\
  (forall n c, nth c (nth n acc' []) 0 = nth c (nth n acc []) 0 + weighted_sum rs ps n c) /\ (forall n, Rsum (nth n acc' []) = Rsum (nth n acc []) + weighted_total rs ps n).
Proof.
  intros NX Hc0 Hw. induction l as [|b l IH]; intros ps l' ws rs acc [A1 A2] F W Lw La Fa.
  - destruct ps as [|p ps], l' as [|b' l']; try discriminate; [|inversion A1]. destruct ws; [|discriminate]. inversion W; subst. exists acc. split; auto. split; auto. split; auto. unfold weighted_sum, weighted_total. cbn. split; intros; lra.
  - destruct ps as [|p ps], l' as [|b' l']; try discriminate; [inversion A1|]. cbn [combine] in A1. inversion A1 as [|? ? ? ? P1 A1']; subst. injection A2 as A2. inversion F as [|? ? [Lp Fp] F']; subst.
    destruct ws as [|w0 ws]; [discriminate|]. inversion W as [|? r0 ? rs' W1 W2]; subst. cbn [sum_weighted]. rewrite P1. destruct p as [|row0 p0]; [destruct xs; [congruence|discriminate]|]. destruct classes as [|c cs]; [contradiction|].
    assert (Hm := fold_max_ge cs c c0 Hc0). inversion Fp as [|? ? Q1 Q2]; subst. destruct (Z.ltb_spec (fold_left Z.max cs c + 1) (Z.of_nat (length row0))) as [|_]; [lia|]. rewrite Lp, Nat.ltb_irrefl. cbv zeta. rewrite (firstn_all2 (n := length xs) (row0 :: p0)) by (rewrite Lp; apply le_n).
    destruct acc as [|a0 acc0]; [destruct xs; [congruence|discriminate]|]. destruct (add_rows_w_ok (length row0) w0 r0 W1 (row0 :: p0) (a0 :: acc0) (eq_trans La (eq_sym Lp)) Fp Fa) as (S1 & S2 & S3 & S4).
    destruct (IH ps l' ws rs' (add_rows_w w0 (a0 :: acc0) (row0 :: p0)) (conj A1' A2) F' W2 ltac:(now injection Lw) (eq_trans S1 Lp) S2) as (acc' & E & R1 & R2 & R3 & R4).
    cbv zeta. rewrite E. cbn [bind]. exists acc'. split; auto. split; auto. split; auto. unfold weighted_sum, weighted_total in *. cbn [combine map fst snd Rsum fold_right].
    split; intros; [rewrite R3, S3|rewrite R4, S4]; unfold Rsum; cbn [map fold_right fst snd]; lra.
Qed.
Context {G D St E : Type} (A : algo X R B G St E).
Lemma votes_ok (s : ons B G D St E) xs classes ps l' rs : on_ready s = true -> on_classes s = Some classes -> regular L xs classes (map fst (on_ens s)) ps l' ->
  Forall2 acts (on_weights A s) rs -> votes L A s xs ps l' rs.
Proof.
  intros Hr Hc (NX & NL & An & w & c0 & Hw0 & Hw & Hc0 & Hwc) Ha.
  assert (Lw : length (on_weights A s) = length (map fst (on_ens s))) by (unfold on_weights; now rewrite !map_length, seq_length).
  assert (Z : exists acc, sum_weighted L (Some classes) (length xs) xs (map fst (on_ens s)) (on_weights A s) [] = Ok (Some acc, l') /\ length acc = length xs /\ Forall (fun row => length row = w) acc /\
    (forall n c, nth c (nth n acc []) 0 = weighted_sum rs ps n c) /\ (forall n, Rsum (nth n acc []) = weighted_total rs ps n)).
  { revert NL An Ha Lw. generalize (map fst (on_ens s)) as l, (on_weights A s) as ws. intros l ws NL [A1 A2] Ha Lw. destruct l as [|b l]; [congruence|].
    destruct ps as [|p ps], l' as [|b' l']; try discriminate; [inversion A1|]. inversion Hw as [|? ? [Lp Fp] F']; subst.
    destruct (sum_weighted_ok classes xs w c0 NX Hc0 Hwc (b :: l) (p :: ps) (b' :: l') ws rs (map (fun row => repeat 0 (length row)) p) (conj A1 A2) ltac:(constructor; auto; split; auto) Ha Lw) as (acc & E1 & Q1 & Q2 & Q3 & Q4).
    - now rewrite map_length.
    - rewrite Forall_forall in *. intros row Hrow. apply in_map_iff in Hrow as (r1 & <- & Hr1). rewrite repeat_length. auto.
    - exists acc. split; [|split; auto; split; auto; split; intros; [rewrite Q3|rewrite Q4]; rewrite ?(proj1 (zero_rows p n c)), ?(proj2 (zero_rows p n 0%nat)); lra].
      rewrite <- E1. cbn [combine] in A1. inversion A1 as [|? ? ? ? P1 A1']; subst. destruct ws as [|w0 ws]; [discriminate|]. cbn [sum_weighted]. rewrite P1. destruct p as [|row0 p0]; [reflexivity|]. destruct classes as [|c cs]; [reflexivity|].
      destruct (_ <? _)%Z; [reflexivity|]. rewrite Lp, Nat.ltb_irrefl. cbv zeta. rewrite (firstn_all2 (n := length xs) (row0 :: p0)) by (rewrite Lp; apply le_n). reflexivity. }
  destruct Z as (acc & E1 & Ln & Fw & Q1 & Q2).
  assert (Nn : forall n, (n < length xs)%nat -> nth n (map normalize acc) [] = normalize (nth n acc [])).
  { intros n Hn. rewrite (nth_indep _ [] (normalize [])) by now rewrite map_length, Ln. apply map_nth. }
  destruct (argmax_rows (map normalize acc)) as (q & Eq & Fq).
  { rewrite Forall_forall in *. intros r Hr0. apply in_map_iff in Hr0 as (r0 & <- & Hr0). apply Fw in Hr0. intros C. apply (f_equal (@length _)) in C. rewrite normalize_len, Hr0 in C. cbn in C. lia. }
  exists (map normalize acc), q. cbv zeta. unfold on_predict, on_proba. rewrite Hr, Hc, E1. cbn [bind]. cbv zeta. rewrite Ln, Nat.ltb_irrefl. cbn [bind]. rewrite Eq. cbn [bind]. split; auto. split; [|auto]. split; [now rewrite map_length|].
  intros n c Hn. rewrite Nn by auto. rewrite normalize_nth, Q1, Q2. split; intros Ht.
  - destruct (Rlt_dec 0 (weighted_total rs ps n)); [|lra]. split; auto. apply normalize_sum. now rewrite Q2.
  - destruct (Rlt_dec 0 (weighted_total rs ps n)); [lra|auto].
Qed.
Lemma on_weights_map (s : ons B G D St E) (f : St -> R) : length (on_stats s) = length (on_ens s) -> (forall i st, nth_error (on_stats s) i = Some st -> acts (al_weight A i st (on_ext s)) (f st)) ->
  Forall2 acts (on_weights A s) (map f (on_stats s)).
Proof.
  intros Hl H. unfold on_weights. rewrite <- Hl. assert (Z : forall l k, (forall i st, nth_error l i = Some st -> nth_error (on_stats s) (k + i) = Some st) -> Forall2 acts (map (fun i => match nth_error (on_stats s) i with Some st => al_weight A i st (on_ext s) | None => WSkip end) (seq k (length l))) (map f l)).
  { induction l as [|st l IH]; intros k Hk; cbn [length seq map]; constructor.
    - assert (E0 := Hk 0%nat st eq_refl). rewrite Nat.add_0_r in E0. rewrite E0. auto.
    - apply IH. intros i st' Hi. replace (S k + i)%nat with (k + S i)%nat by lia. apply Hk. exact Hi. }
  apply Z. auto.
Qed.
End Votes.

(** *** Runs that do not fail *)
Section RunsTotal.
Context {X T B G D St E : Type} {N : Num T} (L : learner X T B) (P : edet T D) (A : algo X T B G St E) (base : B) (n : nat) (drift : bool) (seed : G).
Variables (Q : X * Z -> Prop) (cl : list Z) (sw : option (list T)) (IB : B -> Prop) (ID : D -> Prop).
Hypotheses (HL : unfailing L Q (Some cl) sw IB) (HP : sound_detector P ID).
Variables (I : St -> Prop) (J : T -> Prop) (K : nat -> E -> Prop).
Hypotheses (I0 : I (al_st A)) (J1 : J n1)
  (Hstep : forall i m lam row b st e g, (i < m)%nat -> Q row -> IB b -> I st -> J lam -> K m e ->
    exists b' st' e' lam' g', al_step A (Some cl) sw i m lam row b st e g = Ok (b', st', e', lam', g') /\ IB b' /\ I st' /\ J lam' /\ K m e').
Hypotheses (HB : IB (lr_reset L base)) (HK : K n (al_ext A n) /\ K (Nat.max n (length cl)) (al_ext A n)).
Lemma on_run_total batches : Forall (Forall Q) batches -> exists s, foldM (fun s rows => on_fit L P A base n drift seed s rows (Some cl) sw) batches (on_new A seed) = Ok s.
Proof.
  intros HQ. set (good (s : ons B G D St E) := shape n s /\ (on_ready s = true -> sound_state IB ID I K s /\ on_classes s = Some cl /\ length (on_ens s) = Nat.max n (length cl))).
  assert (G0 : good (on_new A seed)) by (split; [repeat split; auto; discriminate|discriminate]).
  revert G0. generalize (on_new (B := B) (D := D) A seed). induction HQ as [|rows batches Hr Hb IH]; intros s [S1 S2]; cbn [foldM]; [eauto|].
  assert (Ec : check_classes (on_classes s) (Some cl) = Ok cl). { apply check_classes_ok. destruct (on_ready s) eqn:Er; [destruct (S2 eq_refl) as (_ & -> & _); split; auto; intros c; tauto|]. destruct (proj1 (proj2 S1) Er) as [_ ->]. auto. }
  destruct (on_fit_total L P A base n drift seed Q (Some cl) sw IB ID HL HP I J K I0 J1 Hstep HB s rows Hr) as (s' & E1 & V1 & V2).
  - intros Er. apply S2 in Er. tauto.
  - intros m [->|(cl' & E' & ->)]; [apply HK|]. rewrite Ec in E'. injection E' as <-. apply HK.
  - intros Er cl' E'. rewrite Ec in E'. injection E' as <-. destruct (S2 Er) as (Z1 & _ & Z3). rewrite Z3. replace (Nat.max (Nat.max n (length cl)) (length cl)) with (Nat.max n (length cl)) by lia. rewrite <- Z3. apply Z1.
  - eauto.
  - rewrite E1. cbn [bind]. apply IH. destruct (on_fit_inv L P A base n drift seed (fun _ => True) (fun _ => True) (fun _ => True) Logic.I (conj Logic.I Logic.I) Logic.I ltac:(auto) s rows (Some cl) sw s' S1 ltac:(split; auto; now apply Forall_forall) E1) as (_ & Q2 & cl' & Q3 & Q4 & Q5).
    rewrite Ec in Q4. injection Q4 as <-. split; auto.
Qed.
End RunsTotal.

(** *** Drift *)
Section Marks.
Context {X T B G D St E : Type} {N : Num T} (L : learner X T B) (P : edet T D) (A : algo X T B G St E) (base : B) (n : nat) (seed : G).
Variable count : D -> nat.
Hypotheses (Hadd : forall d b d', e_add P d b = Ok d' -> count d' = S (count d)) (Hch : forall d d' c, e_change P d = Ok (d', c) -> count d' = count d /\ c = false)
  (Hpr : forall b xs, lr_predict L b xs <> Raise ValueError).
Lemma add_all_count l : forall d d', foldM (e_add P) l d = Ok d' -> count d' = (count d + length l)%nat.
Proof. induction l as [|b l IH]; intros d d' H; cbn [foldM length] in *; [injection H as <-; lia|]. apply bind_Ok in H as (d1 & E1 & H). apply Hadd in E1. apply IH in H. lia. Qed.
Lemma on_members_quiet rows classes sw row m : forall ens sts i lam e g ens' sts' e' g' ch, on_members L P A true rows classes sw row i m lam ens sts e g false = Ok (ens', sts', e', g', ch) -> ch = false.
Proof.
  induction ens as [|bd ens IH]; intros [|st sts] i lam e g ens' sts' e' g' ch H; cbn [on_members] in H; try (injection H as <- <- <- <- <-; reflexivity).
  apply bind_Ok in H as ([[[[b st1] e1] lam1] g1] & Es & H). apply bind_Ok in H as ([bd1 ch1] & Ew & H). apply bind_Ok in H as ([[[[ens2 sts2] e2] g2] ch2] & Er & H). injection H as <- <- <- <- <-.
  assert (ch1 = false) as ->; [|eauto]. unfold on_watch in Ew. cbn [fst] in Ew. destruct (lr_predict L b (map fst rows)) as [[p b']|x]; [|destruct x; try discriminate; injection Ew; auto].
  destruct (Nat.ltb _ _); [discriminate|]. apply bind_Ok in Ew as (d & Ed & Ew). apply bind_Ok in Ew as ([d' c] & Ec & Ew). injection Ew as _ <-. apply Hch in Ec as [_ ->]. reflexivity.
Qed.
Lemma on_row_count rows classes sw s row s' : length (on_stats s) = length (on_ens s) -> on_row L P A true rows classes sw s row = Ok s' ->
  length (on_ens s') = length (on_ens s) /\ forall i bd, nth_error (on_ens s) i = Some bd -> exists bd', nth_error (on_ens s') i = Some bd' /\ count (snd bd') = (count (snd bd) + length rows)%nat.
Proof.
  intros Hl H. unfold on_row in H. apply bind_Ok in H as ([[[[ens sts] e] g] ch] & E1 & H). injection H as <-. cbn [on_ens]. assert (ch = false) as -> by (eapply on_members_quiet; eauto). cbn [andb].
  destruct (on_members_ok L P A true _ _ _ _ _ _ _ _ _ _ _ _ _ _ _ _ _ (eq_sym Hl) E1) as (L1 & L2 & lams & es & gs & _ & _ & _ & _ & _ & Q). split; auto. intros i bd Hi.
  destruct (nth_error (on_stats s) i) as [st|] eqn:Et; [|apply nth_error_None in Et; assert (i < length (on_ens s))%nat by (apply nth_error_Some; congruence); lia].
  destruct (Q i bd st Hi Et) as (b & st' & bd' & _ & Q2 & _ & Q3). exists bd'. split; auto. destruct Q3 as [[C _]|[_ [(rose & W)|[_ C]]]]; [discriminate| |exfalso; eapply Hpr; eauto].
  destruct W as (b1 & p & b2 & d & d' & c & _ & _ & Lp & Ed & Ec & -> & _). cbn [snd] in *. apply add_all_count in Ed. apply Hch in Ec as [Ec _]. rewrite map_length, combine_length in Ed. lia.
Qed.
Lemma on_rows_count rows classes sw l : forall s s', length (on_stats s) = length (on_ens s) -> foldM (on_row L P A true rows classes sw) l s = Ok s' ->
  forall i bd, nth_error (on_ens s) i = Some bd -> exists bd', nth_error (on_ens s') i = Some bd' /\ count (snd bd') = (count (snd bd) + length l * length rows)%nat.
Proof.
  induction l as [|row l IH]; intros s s' Hl H i bd Hi; cbn [foldM] in H; [injection H as <-; exists bd; split; auto; cbn; lia|]. apply bind_Ok in H as (s1 & E1 & H).
  destruct (on_row_inv L P A true (fun _ => True) (fun _ => True) (fun _ => True) Logic.I ltac:(auto) rows classes sw s row s1 Hl ltac:(split; auto; now apply Forall_forall) E1) as (_ & _ & _ & H4 & _).
  apply on_row_count in E1 as [_ Q]; auto. destruct (Q i bd Hi) as (bd1 & Hi1 & C1). destruct (IH s1 s' H4 H i bd1 Hi1) as (bd' & Hi2 & C2). exists bd'. split; auto. rewrite C2, C1. cbn [length]. lia.
Qed.
End Marks.

Section SmoteTotal.
Context {B G : Type} (L : learner (list R) R B) (pois : R -> G -> nat * G) (randint : nat -> G -> nat * G) (rand : G -> R * G).
Hypothesis Hrandint : forall k g, (0 < k)%nat -> (fst (randint k g) < k)%nat.
Variables (Q : list R * Z -> Prop) (classes : option (list Z)) (sw : option (list R)) (IB : B -> Prop).
Hypotheses (HL : unfailing L Q classes sw IB) (HQ : forall x x' y, Q (x, y) -> Q (x', y)).
Lemma learn_smote_total pos x y : pos <> [] -> Q (x, y) -> forall k b g, IB b -> exists b' g', learn_smote L randint rand k pos y classes sw b g = Ok (b', g') /\ IB b'.
Proof.
  intros Hp Hq. induction k as [|k IH]; intros b g Hb; cbn [learn_smote]; [eauto|]. destruct (online_smote_ok randint rand Hrandint pos g Hp) as (z & g1 & E1 & _). rewrite E1. cbn [bind].
  destruct (proj1 HL b (z, y) Hb (HQ x z y Hq)) as (b1 & E2 & H1). rewrite E2. cbn [bind]. auto.
Qed.
Lemma smote_step_total rate i m lam row b st e g : 0 <= rate -> 0 <= lam -> (i < m)%nat -> Q row -> IB b ->
  exists b' st' e' lam' g', smote_step L pois randint rand rate classes sw i m lam row b st e g = Ok (b', st', e', lam', g') /\ IB b' /\ 0 <= lam'.
Proof.
  intros Hr Hl Hi Hq Hb. unfold smote_step. cbv zeta. rewrite !nofZ_INR. set (a := ndiv (INR (S i)) (INR m)). assert (Ha : 0 <= a <= 1).
  { subst a. cbn [ndiv NumR]. assert (0 < INR m) by (apply lt_0_INR; lia). split; [apply div_nonneg; apply pos_INR|]. apply (Rmult_le_reg_r (INR m)); auto. unfold Rdiv. rewrite Rmult_assoc, Rinv_l by lra. rewrite Rmult_1_r, Rmult_1_l. apply le_INR. lia. }
  clearbody a. assert (P1 : 0 <= a * rate) by (apply Rmult_le_pos; lra). assert (P2 : 0 <= (1 - a) * rate) by (apply Rmult_le_pos; lra).
  destruct (snd row =? 1)%Z.
  - unfold n1. cbn [nmul nsub nofZ NumR]. rewrite poisson_ok by auto. cbn [bind]. destruct (pois (a * rate) g) as [k g1]. destruct (times_total L Q classes sw IB HL k row b Hb Hq) as (b1 & E1 & H1). rewrite E1. cbn [bind]. rewrite poisson_ok by auto. cbn [bind].
    destruct (pois ((1 - a) * rate) g1) as [ks g2]. destruct (learn_smote_total (e ++ [fst row]) (fst row) (snd row)) with (k := ks) (b := b1) (g := g2) as (b2 & g3 & E2 & H2); auto; [destruct e; discriminate|now destruct row|]. rewrite E2. cbn [bind]. do 5 eexists. eauto.
  - rewrite poisson_ok by auto. cbn [bind]. destruct (pois lam g) as [k g1]. destruct (times_total L Q classes sw IB HL k row b Hb Hq) as (b1 & E1 & H1). rewrite E1. cbn [bind]. do 5 eexists. eauto.
Qed.
End SmoteTotal.
