(** Perceptron leaves of the multi-target trees: the sums behind the standardisation, the norm of the weights, the range of an answer. *)
From Coq Require Import List ZArith Bool Reals Lra Lia.
From Verif Require Import Base.Py Base.Num Base.Dict Spec.Lists Model.Adwin Model.Suggestion Model.TargetStats Model.Knn Model.TreeSkeleton Model.HoeffdingTree Model.HoeffdingRegressor Model.ISoup
  Spec.TreeSpec Spec.TreeRelSpec Spec.HoeffdingRegressorSpec Spec.ISoupSpec Proofs.ListFacts Proofs.TreeProofs Proofs.HoeffdingProofs Proofs.RegressorPerceptronProofs Proofs.ISoupInvProofs.
Import ListNotations.

Section Sums.
Context {T : Type} {N : Num T} (key : T -> Z) (cfg : htr_config T) (n : nat) (M : model T).
Variable sz : sizes T (mleaf M) (minactive M) (option (stat T nat)) (htest T).
Definition msums_of (l : list (list T * (nat -> T) * T)) (g : msums T) : msums T := fold_left (fun g o => msums_add g (fst (fst o)) (snd (fst o)) (snd o)) l g.
Lemma mrows_sums rows : forall ws s s', length rows = length ws -> mt_rows key cfg n M sz s rows ws = Ok s' -> mt_sums M s' = msums_of (mcall_samples rows (Some ws)) (mt_sums M s).
Proof.
  induction rows as [|r rows IH]; intros ws s s' L H; cbn [mt_rows] in H; [destruct ws; injection H as <-; reflexivity|]. destruct ws as [|w ws]; [discriminate|].
  apply bind_Ok in H as (s1 & E1 & H). apply IH in H; [|now injection L]. rewrite H. unfold mcall_samples. cbn [combine map filter]. cbn [snd fst].
  apply mt_one_cases in E1 as [[Ew ->]|(Ew & g & -> & Eg & _)]; rewrite Ew; cbn [negb]; auto. rewrite Eg. reflexivity.
Qed.
Lemma mrun_sums es : forall s s', mt_run key cfg n M sz s es = Ok s' -> mt_sums M s' = msums_of (mall es) (mt_sums M s).
Proof.
  induction es as [|e es IH]; intros s s' H; cbn [mt_run] in H; [injection H as <-; reflexivity|]. apply bind_Ok in H as (s1 & E1 & H). apply IH in H. rewrite H. unfold mall. cbn [flat_map].
  unfold msums_of. rewrite fold_left_app. f_equal. destruct e as [rows ws|]; cbn [mt_step] in E1; [|injection E1 as <-; reflexivity].
  unfold mt_fit in E1. cbv zeta in E1. destruct (Nat.eqb _ _) eqn:L; [|discriminate]. apply Nat.eqb_eq in L. apply mrows_sums in E1; auto.
Qed.
End Sums.

Local Open Scope R_scope.
Definition mright_sums (d : nat) (l : list (list R * (nat -> R) * R)) (g : msums R) : Prop :=
  g_seen g = weights_sum mow l /\ (forall i, g_sum g i = wsum (moy i) mow l /\ g_sq g i = wsum (fun o => moy i o * moy i o) mow l) /\
  (l <> [] -> g_att g = Some (map (fun j => wsum (moatt j) mow l) (seq 0 d)) /\ g_attsq g = Some (map (fun j => wsum (fun o => moatt j o * moatt j o) mow l) (seq 0 d))).
Lemma iadd_right d a v : length a = d -> length v = d -> m_iadd (Some a) v = map (fun p => (fst p + snd p)%R) (combine a v).
Proof.
  intros La Lv. unfold m_iadd. destruct v as [|u [|u' r]].
  - destruct a; [reflexivity|cbn in *; lia].
  - destruct a as [|b [|b' a]]; cbn in La, Lv; try lia. reflexivity.
  - rewrite La, Lv, Nat.eqb_refl. reflexivity.
Qed.
Lemma msums_right d l : (forall o, In o l -> length (fst (fst o)) = d) -> mright_sums d l (msums_of l msums_new).
Proof.
  induction l as [|[[x y] w] l IH] using rev_ind; intros HL.
  - cbn. unfold mright_sums, wsum, weights_sum. cbn. split; [reflexivity|split; [auto|]]. intros C. now contradiction C.
  - assert (HL' : forall o, In o l -> length (fst (fst o)) = d) by (intros o Ho; apply HL, in_app_iff; auto).
    assert (Hx : length x = d) by (apply (HL (x, y, w)), in_app_iff; right; now left).
    destruct (IH HL') as (A & B & D). unfold msums_of in *. rewrite fold_left_app. cbn [fold_left fst snd]. set (g := fold_left _ l msums_new) in *. unfold mright_sums.
    cbn [msums_add g_seen g_sum g_sq g_att g_attsq]. split; [rewrite A; unfold weights_sum; rewrite map_app, Rsum_app; cbn; ring|].
    split; [intros i; destruct (B i) as [-> ->]; rewrite !wsum_snoc; unfold moy, mow; cbn; split; ring|]. intros _.
    assert (Q : forall acc h f, (l = [] -> acc = None) -> (l <> [] -> acc = Some (map (fun j => wsum (f j) mow l) (seq 0 d))) -> (forall j, f j (x, y, w) = h (nth j x 0)) ->
       Some (m_iadd acc (map (fun v => (w * h v)%R) x)) = Some (map (fun j => wsum (f j) mow (l ++ [(x, y, w)])) (seq 0 d))).
    { intros acc h f E0 E1 Ef. f_equal. transitivity (map (fun j => wsum (f j) mow l + w * h (nth j x 0)) (seq 0 d)); [|apply map_ext; intros j; rewrite wsum_snoc, Ef; reflexivity].
      assert (Ex : map (fun v => w * h v) x = map (fun j => w * h (nth j x 0)) (seq 0 d)) by (rewrite (list_as_seq x) at 1; now rewrite map_map, Hx). rewrite Ex.
      destruct l as [|o0 l0].
      - rewrite (E0 eq_refl). cbn [m_iadd]. apply map_ext. intros j. unfold wsum. cbn. ring.
      - rewrite E1 by discriminate. rewrite (iadd_right d) by now rewrite map_length, seq_length. rewrite combine_map_seq, map_map. reflexivity. }
    assert (N0 : l = [] -> g_att g = None /\ g_attsq g = None) by (intros ->; split; reflexivity).
    split.
    + refine (Q (g_att g) (fun v => v) moatt _ _ _); [apply N0|apply D|reflexivity].
    + assert (E : map (fun v => (w * v * v)%num) x = map (fun v => w * (v * v)) x) by (apply map_ext; intros v; cbn; ring). rewrite E.
      refine (Q (g_attsq g) (fun v => v * v) (fun j o => moatt j o * moatt j o) _ _ _); [apply N0|apply D|reflexivity].
Qed.
Lemma msd_right {A} (f w : A -> R) l : (forall a, In a l -> 0 <= w a) -> 1 < weights_sum w l -> m_sd (wsum (fun a => f a * f a) w l) (wsum f w l) (weights_sum w l) = Some (ssd f w l).
Proof.
  intros Hw Hn. unfold m_sd. cbv zeta. cbn [nsub nmul ndiv nsqrt NumR neqb nltb nleb]. change (@n1 R NumR) with 1. change (@n0 R NumR) with 0.
  assert (E1 : Reqb (weights_sum w l - 1) 0 = false) by (apply Reqb_false; lra). rewrite E1.
  set (a := wsum (fun a => f a * f a) w l - wsum f w l * wsum f w l / weights_sum w l).
  assert (E : wsum (fun a => (f a - wmean f w l) * (f a - wmean f w l)) w l = a) by (rewrite wsum_dev; unfold a, wmean; field; lra).
  assert (P : 0 <= a) by (rewrite <- E; apply wsum_nonneg; auto; intros; apply Rle_0_sqr). unfold ssd. rewrite E.
  assert (P2 : 0 <= a / (weights_sum w l - 1)) by (apply Rmult_le_pos; [auto|left; apply Rinv_0_lt_compat; lra]). rewrite (proj2 (Rleb_true _ _) P2). reflexivity.
Qed.

(** ** The weights *)
Definition unit_row (r : option (list R)) : Prop := match r with Some ws => Rsum (map Rabs ws) = 1 | None => True end.
Definition unit_rows (m : matrix R) : Prop := Forall unit_row (mx_rows m).
Lemma unit_right ws : unit_row (m_unit ws).
Proof.
  unfold m_unit. cbv zeta. rewrite nsum_Rsum. change (@neqb R NumR) with Reqb. change (@n0 R NumR) with 0. assert (Em : map nabs ws = map Rabs ws) by (apply map_ext; intros; apply nabs_Rabs). rewrite Em.
  destruct (Reqb _ 0) eqn:E; [exact I|]. apply Reqb_false in E. cbn [unit_row]. rewrite map_map. set (n := Rsum (map Rabs ws)) in *.
  assert (Pn : 0 < n). { assert (0 <= n) by (apply Rsum_nonneg; intros v Hv; apply in_map_iff in Hv as (u & <- & _); apply Rabs_pos). lra. }
  assert (Q : forall l, Rsum (map (fun v => Rabs (v / n)%num) l) = Rsum (map Rabs l) / n).
  { induction l as [|v l IH]; cbn [map Rsum]; [unfold Rdiv; ring|]. rewrite IH. change (v / n)%num with (v / n). unfold Rdiv. rewrite Rabs_mult, (Rabs_right (/ n)) by (left; now apply Rinv_0_lt_compat). ring. }
  rewrite Q. fold n. unfold Rdiv. apply Rinv_r. lra.
Qed.
Lemma rows_map {A} (f : A -> option (list R)) c l : (forall a, unit_row (f a)) -> unit_rows (mk_matrix c (map f l)).
Proof. intros H. unfold unit_rows. cbn. apply Forall_forall. intros r Hr. apply in_map_iff in Hr as (a & <- & _). auto. Qed.
Lemma unit_step n m r yn pr x : unit_rows (m_step n m r yn pr x).
Proof. unfold m_step. apply rows_map. intros i. destruct (m_row m i), (yn i), (pr i), x; try exact I. apply unit_right. Qed.
Lemma unit_draw n dr c : unit_rows (m_draw n dr c).
Proof. apply rows_map. intros i. apply unit_right. Qed.
Lemma times_inv {A} (P : A -> Prop) (f : A -> res A) : (forall a b, P a -> f a = Ok b -> P b) -> forall k a b, P a -> times k f a = Ok b -> P b.
Proof. intros H k. induction k as [|k IH]; intros a b Ha E; cbn [times] in E; [now injection E as <-|]. apply bind_Ok in E as (c & Ec & E). eapply IH; [|exact E]. eapply H; eauto. Qed.

(** What leaves keep: the rows of their weights have norm one, in any of the models *)
Section Keeps.
Variables (key : R -> Z) (cfg : htr_config R) (nt : nat) (M : model R) (U : M_T M -> Prop).
Hypothesis Unew : U (M_new M).
Hypothesis Uchild : forall p, U p -> U (M_child M p).
Hypothesis Ulearn : forall p s i y w p', U p -> M_learn M p s i y w = Ok p' -> U p'.
Lemma unit_keeps : keeps key cfg nt M (fun l => U (ml_model M l)) (fun l => U (mn_model M l)) (fun _ _ _ => True).
Proof.
  constructor; cbn; auto.
  - intros l i y w l' _ H _ E. unfold mleaf_learn in E. cbv zeta in E. apply bind_Ok in E as (p & Ep & E). injection E as <-. cbn. eauto.
  - intros l i y w l' H _ E. unfold minactive_learn in E. cbv zeta in E. apply bind_Ok in E as (p & Ep & E). injection E as <-. cbn. eauto.
  - intros l d _ H E. apply mdecide_cases in E as (pre & bs & Es & _ & D). destruct d as [l'|l'|l' te ds].
    + destruct D as (l1 & F & ->). apply from_same in F as (_ & _ & Ep). cbn. now rewrite Ep.
    + destruct D as (p & ->). destruct (mdisable_all_stats M p l) as [_ Ep]. now rewrite Ep.
    + destruct D as [(p & ->) _]. intros x Hx. destruct (mdisable_all_stats M p l) as [_ Ep]. cbn. rewrite Ep. auto.
Qed.
End Keeps.
Section Units.
Variables (int_of : R -> Z) (cfg : htr_config R) (n : nat).
Definition punit (m : option (matrix R)) : Prop := match m with Some m => unit_rows m | None => True end.
Definition sunit (c : option (matrix R * matrix R)) : Prop := match c with Some (m, m2) => unit_rows m /\ unit_rows m2 | None => True end.
Lemma p_start_unit m i : punit m -> unit_rows (p_start n m i).
Proof. intros H. destruct m; [exact H|apply unit_draw]. Qed.
Lemma s_start_unit c i : sunit c -> unit_rows (fst (s_start n c i)) /\ unit_rows (snd (s_start n c i)).
Proof. intros H. destruct c as [[m m2]|]; [exact H|split; apply unit_draw]. Qed.
Lemma p_unit p s i y w p' : punit p -> p_learn int_of cfg n p s i y w = Ok p' -> punit p'.
Proof.
  intros H E. unfold p_learn in E. apply bind_Ok in E as (r & _ & E). apply bind_Ok in E as (m & Em & E). injection E as <-. cbn. refine (times_inv unit_rows _ _ _ _ _ (p_start_unit _ _ H) Em).
  intros a b _ Eb. unfold p_update in Eb. apply bind_Ok in Eb as (xn & _ & Eb). apply bind_Ok in Eb as (u & _ & Eb). injection Eb as <-. apply unit_step.
Qed.
Lemma a_unit a s i y w a' : punit (ad_w a) -> a_learn int_of cfg n a s i y w = Ok a' -> punit (ad_w a').
Proof.
  intros H E. unfold a_learn in E. apply bind_Ok in E as (r & _ & E). apply bind_Ok in E as ([[m em] ep] & Em & E). injection E as <-. cbn. refine (times_inv (fun c => unit_rows (fst (fst c))) _ _ _ (p_start n (ad_w a) i, ad_m a, ad_p a) (m, em, ep) (p_start_unit _ _ H) Em).
  intros [[b1 b2] b3] b _ Eb. unfold a_update in Eb. apply bind_Ok in Eb as (xn & _ & Eb). apply bind_Ok in Eb as (u & _ & Eb). injection Eb as <-. apply unit_step.
Qed.
Lemma s_unit c s i y w c' : sunit c -> s_learn int_of cfg n c s i y w = Ok c' -> sunit c'.
Proof.
  intros H E. unfold s_learn in E. apply bind_Ok in E as (r & _ & E). apply bind_Ok in E as ([m m2] & Em & E). injection E as <-. cbn. refine (times_inv (fun c => unit_rows (fst c) /\ unit_rows (snd c)) _ _ _ (s_start n c i) (m, m2) (s_start_unit _ _ H) Em).
  intros [b1 b2] b _ Eb. unfold s_update in Eb. apply bind_Ok in Eb as (xn & _ & Eb). apply bind_Ok in Eb as (u & _ & Eb). injection Eb as <-. split; apply unit_step.
Qed.
Lemma sa_unit a s i y w a' : sunit (sa_w a) -> sa_learn int_of cfg n a s i y w = Ok a' -> sunit (sa_w a').
Proof.
  intros H E. unfold sa_learn in E. apply bind_Ok in E as (r & _ & E). pose proof (s_start_unit _ i H) as S0. destruct (s_start n (sa_w a) i) as [m0 m02]. apply bind_Ok in E as ([[[[m m2] em] ep] es] & Em & E). injection E as <-. cbn.
  refine (times_inv (fun c => unit_rows (fst (fst (fst (fst c)))) /\ unit_rows (snd (fst (fst (fst c))))) _ _ _ (m0, m02, sa_m a, sa_p a, sa_s a) (m, m2, em, ep, es) S0 Em).
  intros [[[[b1 b2] b3] b4] b5] b _ Eb. unfold sa_update in Eb. apply bind_Ok in Eb as (xn & _ & Eb). apply bind_Ok in Eb as (u & _ & Eb). injection Eb as <-. split; apply unit_step.
Qed.
End Units.

(** ** The answer *)
Lemma dot_le k (ws xs : list R) : (forall v, In v xs -> Rabs v <= k) -> 0 <= k -> Rabs (dot ws xs) <= k * Rsum (map Rabs ws).
Proof.
  unfold dot. rewrite nsum_Rsum. revert xs. induction ws as [|a ws IH]; intros [|b xs] H Hk; cbn [combine map Rsum fst snd]; try (rewrite Rabs_R0).
  - lra.
  - lra.
  - assert (0 <= Rabs a + Rsum (map Rabs ws)); [|apply Rmult_le_pos; auto]. assert (P := Rabs_pos a). assert (0 <= Rsum (map Rabs ws)); [|lra]. apply Rsum_nonneg. intros v Hv. apply in_map_iff in Hv as (u & <- & _). apply Rabs_pos.
  - eapply Rle_trans; [apply Rabs_triang|]. rewrite Rmult_plus_distr_l. apply Rplus_le_compat; [|apply IH; auto; intros v Hv; apply H; now right].
    change (a * b)%num with (a * b). rewrite Rabs_mult, Rmult_comm. apply Rmult_le_compat_r; [apply Rabs_pos|apply H; now left].
Qed.
