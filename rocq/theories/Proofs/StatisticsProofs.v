(** The normal distribution function: lemmas. *)
From Coq Require Import List ZArith Reals Bool Lia Lra.
From Verif Require Import Base.Py Base.Num Model.Statistics.
Import ListNotations.
Local Open Scope R_scope.

Lemma horner_cons (x a c : R) l : horner x a (c :: l) = horner x (a * x + c) l.
Proof. reflexivity. Qed.
Lemma horner_le (x : R) l l' : 0 <= x -> Forall2 (fun c c' => 0 <= c <= c') l l' -> forall a a', 0 <= a <= a' -> 0 <= horner x a l <= horner x a' l'.
Proof.
  intros Hx F. induction F as [|c c' l l' Hc F IH]; intros a a' Ha; [exact Ha|]. rewrite !horner_cons. apply IH.
  assert (0 <= a * x) by (apply Rmult_le_pos; lra). assert (a * x <= a' * x) by (apply Rmult_le_compat_r; lra). lra.
Qed.
Lemma horner_pos (x : R) l : 0 <= x -> Forall (fun c => 0 < c) l -> forall a, 0 < a -> 0 < horner x a l.
Proof.
  intros Hx F. induction F as [|c l Hc F IH]; intros a Ha; [exact Ha|]. rewrite horner_cons. apply IH. assert (0 <= a * x) by (apply Rmult_le_pos; lra). lra.
Qed.
Lemma horner_scale (s x : R) l : forall a, s * horner x a l = horner x (s * a) (map (Rmult s) l).
Proof. induction l as [|c l IH]; intros a; [reflexivity|]. cbn [map]. rewrite !horner_cons, IH. f_equal. ring. Qed.

Ltac coefs := unfold erf_T0, erf_T, erf_U0, erf_U, erf_P0, erf_P, erf_Q0, erf_Q, erf_R0, erf_R, erf_S0, erf_S, SQRTH, MAXLOG in *; cbn [nofZ ndiv NumR map] in *.
Lemma SQRTH_range : 7 / 10 < SQRTH < 708 / 1000.
Proof. coefs. lra. Qed.
Lemma U_pos (z : R) : 0 <= z -> 0 < p1_evl z erf_U0 erf_U.
Proof. intros H. unfold p1_evl. apply horner_pos; auto; [coefs; repeat constructor; lra|coefs; cbn [nadd NumR]; lra]. Qed.
Lemma T_nneg (z : R) : 0 <= z -> 0 <= pol_evl z erf_T0 erf_T.
Proof. intros H. unfold pol_evl. left. apply horner_pos; auto; [coefs; repeat constructor; lra|coefs; lra]. Qed.
(** T against U near 0 and near 1 *)
Lemma T_U_low (z : R) : 0 <= z -> 708 / 1000 * pol_evl z erf_T0 erf_T <= p1_evl z erf_U0 erf_U.
Proof.
  intros H. unfold pol_evl, p1_evl. rewrite horner_scale. apply horner_le; auto; [coefs; repeat constructor; lra|]. coefs; cbn [nadd NumR]. lra.
Qed.
Lemma T_U_high (z : R) : 49 / 100 <= z -> pol_evl z erf_T0 erf_T <= p1_evl z erf_U0 erf_U.
Proof.
  intros H. unfold pol_evl, p1_evl.
  assert (St : forall a b c d m, 0 <= m -> m <= b - a -> d - c + 49 / 100 * m <= b * z + d - (a * z + c)).
  { intros a b c d m Hm Hab. assert (m * (49 / 100) <= (b - a) * z) by (apply Rmult_le_compat; lra). lra. }
  unfold erf_T, erf_U. rewrite !horner_cons. cbn [horner fold_left]. unfold horner. cbn [fold_left].
  pose proof (St erf_T0 (z + erf_U0)%num) as S1. coefs. cbn [nadd nmul NumR] in *.
  match goal with |- ((((?a * z + ?c1) * z + ?c2) * z + ?c3) * z + ?c4) <= ((((?b * z + ?d1) * z + ?d2) * z + ?d3) * z + ?d4) =>
    pose proof (S1 c1 d1 0 ltac:(lra) ltac:(lra)) as R1; pose proof (St (a * z + c1) (b * z + d1) c2 d2 400 ltac:(lra) ltac:(lra)) as R2;
    pose proof (St _ _ c3 d3 2000 ltac:(lra) ltac:(apply (Rle_trans _ _ _ (ltac:(lra) : 2000 <= d2 - c2 + 49 / 100 * 400) R2))) as R3;
    pose proof (St _ _ c4 d4 15000 ltac:(lra) ltac:(apply (Rle_trans _ _ _ (ltac:(lra) : 15000 <= d3 - c3 + 49 / 100 * 2000) R3))) as R4
  end. lra.
Qed.
(** The error function near 0 *)
Lemma erf_small_odd x : erf_small (- x) = - erf_small (x : R).
Proof. unfold erf_small. cbv zeta. cbn [nmul ndiv NumR]. replace (- x * - x) with (x * x) by ring. unfold Rdiv. ring. Qed.
Lemma erf_small_range x : 0 <= x <= 1 -> 0 <= erf_small (x : R) <= 1.
Proof.
  intros H. unfold erf_small. cbv zeta. cbn [nmul ndiv NumR]. assert (Z : 0 <= x * x) by (apply Rmult_le_pos; lra). pose proof (U_pos _ Z) as U. pose proof (T_nneg _ Z) as T. split.
  { apply Rmult_le_pos; [apply Rmult_le_pos; lra|left; now apply Rinv_0_lt_compat]. }
  apply (Rmult_le_reg_r (p1_evl (x * x) erf_U0 erf_U)); auto. unfold Rdiv. rewrite Rmult_assoc, Rinv_l, Rmult_1_r, Rmult_1_l by lra.
  destruct (Rle_dec x (7 / 10)) as [L|L].
  - apply Rle_trans with (2 := T_U_low _ Z). apply Rmult_le_compat_r; lra.
  - assert (49 / 100 <= x * x) by (replace (49 / 100) with (7 / 10 * (7 / 10)) by lra; apply Rmult_le_compat; lra). apply Rle_trans with (2 := T_U_high _ H0).
    rewrite <- (Rmult_1_l (pol_evl (x * x) erf_T0 erf_T)) at 2. apply Rmult_le_compat_r; lra.
Qed.
(** The complemented error function away from 0 *)
Lemma ratio_range (e p q : R) : 0 < e <= 1 -> 0 <= p <= q -> 0 < q -> 0 <= e * p / q <= 1.
Proof.
  intros He Hp Hq. split; [apply Rmult_le_pos; [apply Rmult_le_pos; lra|left; now apply Rinv_0_lt_compat]|].
  apply (Rmult_le_reg_r q); auto. unfold Rdiv. rewrite Rmult_assoc, Rinv_l, Rmult_1_r, Rmult_1_l by lra. assert (e * p <= 1 * p) by (apply Rmult_le_compat_r; lra). lra.
Qed.
Lemma P_Q (x : R) : 0 <= x -> 0 <= pol_evl x erf_P0 erf_P <= p1_evl x erf_Q0 erf_Q /\ 0 < p1_evl x erf_Q0 erf_Q.
Proof.
  intros H. unfold pol_evl, p1_evl. split.
  - unfold erf_P. rewrite horner_cons. assert (0 <= erf_P0 * x) by (apply Rmult_le_pos; coefs; lra). assert (erf_P0 * x <= 1 * x) by (apply Rmult_le_compat_r; coefs; lra).
    apply horner_le; auto; coefs; [repeat constructor; lra|cbn [nadd NumR]; lra].
  - apply horner_pos; auto; coefs; [repeat constructor; lra|cbn [nadd NumR]; lra].
Qed.
Lemma R_S (x : R) : 0 <= x -> 0 <= pol_evl x erf_R0 erf_R <= p1_evl x erf_S0 erf_S /\ 0 < p1_evl x erf_S0 erf_S.
Proof.
  intros H. unfold pol_evl, p1_evl. split.
  - apply horner_le; auto; coefs; [repeat constructor; lra|cbn [nadd NumR]; lra].
  - apply horner_pos; auto; coefs; [repeat constructor; lra|cbn [nadd NumR]; lra].
Qed.
Lemma exp_range (a : R) : 0 <= a -> 0 < exp ((0 - a) * a) <= 1.
Proof.
  intros H. split; [apply exp_pos|]. rewrite <- exp_0. assert (0 <= a * a) by (apply Rmult_le_pos; lra). destruct (Rle_lt_or_eq_dec ((0 - a) * a) 0) as [L|E]; [lra| |].
  - left. now apply exp_increasing.
  - rewrite E. apply Rle_refl.
Qed.
Lemma erfc_large_range a : 0 <= a -> 0 <= erfc_large (a : R) <= 1.
Proof.
  intros H. unfold erfc_large, stat_abs. cbv zeta. unfold n0. cbn [nltb nofZ nsub nmul ndiv neqb nexp NumR]. rewrite (proj2 (Rltb_false a 0)) by lra.
  destruct (Rltb ((0 - a) * a) (0 - MAXLOG)); [lra|]. set (y := exp ((0 - a) * a) * _ / _). assert (Y : 0 <= y <= 1).
  { unfold y. destruct (Rltb a 8); apply ratio_range; [now apply exp_range|exact (proj1 (P_Q a H))|exact (proj2 (P_Q a H))|now apply exp_range|exact (proj1 (R_S a H))|exact (proj2 (R_S a H))]. }
  destruct (Reqb y 0); lra.
Qed.
Lemma erfc_range a : 0 <= a -> 0 <= erfc (a : R) <= 1.
Proof.
  intros H. unfold erfc, stat_abs, n0, n1. cbn [nltb nofZ nsub NumR]. rewrite (proj2 (Rltb_false a 0)) by lra. destruct (Rltb a 1) eqn:E; [|now apply erfc_large_range].
  apply Rltb_true in E. pose proof (erf_small_range a ltac:(lra)). lra.
Qed.
Lemma stat_abs_R (x : R) : stat_abs x = Rabs x.
Proof. unfold stat_abs, n0. cbn [nltb nofZ nsub NumR]. destruct (Rltb x 0) eqn:E; [apply Rltb_true in E; rewrite Rabs_left; lra|apply Rltb_false in E; rewrite Rabs_right; lra]. Qed.
