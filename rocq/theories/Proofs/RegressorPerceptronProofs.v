(** Perceptron leaves of the Hoeffding tree regressor: the sums behind the standardisation, the norm of the weights, the range of an answer. *)
From Coq Require Import List ZArith Bool Reals Lra Lia.
From Verif Require Import Base.Py Base.Num Base.Dict Spec.Lists Model.Adwin Model.Suggestion Model.TargetStats Model.Knn Model.TreeSkeleton Model.HoeffdingTree Model.HoeffdingRegressor
  Spec.TreeSpec Spec.HoeffdingRegressorSpec Proofs.ListFacts Proofs.TreeProofs Proofs.HoeffdingProofs Proofs.HoeffdingRegressorProofs.
Import ListNotations.
Local Open Scope R_scope.

(** ** The sums of a history *)
Section Sums.
Context {T : Type} {N : Num T} (key : T -> Z) (int_of : T -> Z) (cfg : htr_config T).
Variable sz : sizes T (rleaf T) (rinactive T) (option (stat T unit)) (htest T).
Definition sums_of (l : list (list T * T * T)) (g : sums T) : sums T := fold_left (fun g o => sums_add g (fst (fst o)) (snd (fst o)) (snd o)) l g.
Lemma rows_sums rows : forall ws s s', length rows = length ws -> htr_rows key int_of cfg sz s rows ws = Ok s' -> hr_sums s' = sums_of (call_samples rows (Some ws)) (hr_sums s).
Proof.
  induction rows as [|[[x y] dr] rows IH]; intros ws s s' L H; cbn [htr_rows] in H; [destruct ws; injection H as <-; reflexivity|]. destruct ws as [|w ws]; [discriminate|].
  apply bind_Ok in H as (s1 & E1 & H). apply IH in H; [|now injection L]. rewrite H. unfold call_samples. cbn [combine map filter]. cbn [snd].
  apply htr_one_cases in E1 as [[Ew ->]|(Ew & g & -> & Eg & _)]; rewrite Ew; cbn [negb]; auto. rewrite Eg. reflexivity.
Qed.
Lemma run_sums es : forall s s', htr_run key int_of cfg sz s es = Ok s' -> hr_sums s' = sums_of (all_samples es) (hr_sums s).
Proof.
  induction es as [|e es IH]; intros s s' H; cbn [htr_run] in H; [injection H as <-; reflexivity|]. apply bind_Ok in H as (s1 & E1 & H). apply IH in H. rewrite H. unfold all_samples. cbn [flat_map].
  unfold sums_of. rewrite fold_left_app. f_equal. destruct e as [rows ws|]; cbn [htr_step] in E1; [|injection E1 as <-; reflexivity].
  unfold htr_fit in E1. cbv zeta in E1. destruct (Nat.eqb _ _) eqn:L; [|discriminate]. apply Nat.eqb_eq in L. apply rows_sums in E1; auto.
Qed.
End Sums.

(** ** Real numbers *)
Definition ox (o : list R * R * R) := fst (fst o). Definition oy (o : list R * R * R) := snd (fst o). Definition ow (o : list R * R * R) : R := snd o.
(** The value of attribute [j] *)
Definition oatt (j : nat) (o : list R * R * R) : R := nth j (ox o) 0.
Definition right_sums (d : nat) (l : list (list R * R * R)) (g : sums R) : Prop :=
  n_seen g = weights_sum ow l /\ n_sum g = wsum oy ow l /\ n_sq g = wsum (fun o => oy o * oy o) ow l /\
  (l <> [] -> n_att g = Some (map (fun j => wsum (oatt j) ow l) (seq 0 d)) /\ n_attsq g = Some (map (fun j => wsum (fun o => oatt j o * oatt j o) ow l) (seq 0 d))).
Lemma wsum_snoc {A} (f w : A -> R) l a : wsum f w (l ++ [a]) = wsum f w l + w a * f a.
Proof. unfold wsum. rewrite map_app, Rsum_app. cbn. ring. Qed.
Lemma combine_map_seq {A B} (f : nat -> A) (g : nat -> B) l : combine (map f l) (map g l) = map (fun j => (f j, g j)) l.
Proof. induction l; cbn; congruence. Qed.
Lemma list_as_seq (x : list R) : x = map (fun j => nth j x 0) (seq 0 (length x)).
Proof. induction x as [|a x IH]; auto. cbn [length seq map]. rewrite <- seq_shift, map_map. cbn. now rewrite <- IH. Qed.
Lemma sums_right d l : d <> 1%nat -> (forall o, In o l -> length (ox o) = d) -> right_sums d l (sums_of l sums_new).
Proof.
  intros Hd. induction l as [|[[x y] w] l IH] using rev_ind; intros HL.
  - cbn. unfold right_sums, wsum, weights_sum. cbn. split; [reflexivity|split; [reflexivity|split; [reflexivity|]]]. intros C. now contradiction C.
  - assert (HL' : forall o, In o l -> length (ox o) = d) by (intros o Ho; apply HL, in_app_iff; auto).
    assert (Hx : length x = d) by (apply (HL (x, y, w)), in_app_iff; right; now left).
    destruct (IH HL') as (A & B & C & D). unfold sums_of in *. rewrite fold_left_app. cbn [fold_left fst snd]. set (g := fold_left _ l sums_new) in *. unfold right_sums.
    cbn [sums_add n_seen n_sum n_sq n_att n_attsq]. rewrite A, B, C, !wsum_snoc. change (oy (x, y, w)) with y. change (ow (x, y, w)) with w.
    split; [unfold weights_sum; rewrite map_app, Rsum_app; cbn; ring|]. split; [cbn; ring|]. split; [cbn; ring|]. intros _.
    assert (Q : forall acc h f, (l = [] -> acc = None) -> (l <> [] -> acc = Some (map (fun j => wsum (f j) ow l) (seq 0 d))) -> (forall j, f j (x, y, w) = h (nth j x 0)) ->
       Some (np_iadd acc (map (fun v => (w * h v)%R) x)) = Some (map (fun j => wsum (f j) ow (l ++ [(x, y, w)])) (seq 0 d))).
    { intros acc h f E0 E1 Ef. f_equal. transitivity (map (fun j => wsum (f j) ow l + w * h (nth j x 0)) (seq 0 d)).
      - destruct l as [|o0 l0].
        + rewrite (E0 eq_refl). assert (Q1 : map (fun v => w * h v) x = map (fun j => wsum (f j) ow [] + w * h (nth j x 0)) (seq 0 d)).
          { rewrite (list_as_seq x) at 1. rewrite map_map, Hx. apply map_ext. intros j. unfold wsum. cbn. ring. }
          rewrite <- Q1. unfold np_iadd. destruct x as [|a [|b x]]; auto. cbn in Hx. congruence.
        + rewrite E1 by discriminate. rewrite (list_as_seq x) at 1. rewrite map_map, Hx. unfold np_iadd.
          assert (Lc : length (map (fun j => w * h (nth j x 0)) (seq 0 d)) = d) by now rewrite map_length, seq_length.
          rewrite !map_length, seq_length, Nat.eqb_refl.
          assert (Q2 : map (fun p : R * R => (fst p + snd p)%num) (combine (map (fun j => wsum (f j) ow (o0 :: l0)) (seq 0 d)) (map (fun j => w * h (nth j x 0)) (seq 0 d))) = map (fun j => wsum (f j) ow (o0 :: l0) + w * h (nth j x 0)) (seq 0 d)).
          { rewrite combine_map_seq, map_map. reflexivity. }
          rewrite <- Q2. destruct (map (fun j => w * h (nth j x 0)) (seq 0 d)) as [|u [|u' r]]; auto. cbn in Lc. congruence.
      - apply map_ext. intros j. rewrite wsum_snoc, Ef. reflexivity. }
    assert (N0 : l = [] -> n_att g = None /\ n_attsq g = None) by (intros ->; split; reflexivity).
    split.
    + refine (Q (n_att g) (fun v => v) oatt _ _ _); [apply N0|apply D|reflexivity].
    + assert (E : map (fun v => (w * v * v)%num) x = map (fun v => w * (v * v)) x) by (apply map_ext; intros v; cbn; ring). rewrite E.
      refine (Q (n_attsq g) (fun v => v * v) (fun j o => oatt j o * oatt j o) _ _ _); [apply N0|apply D|reflexivity].
Qed.

(** The standard deviation *)
Lemma wsum_dev {A} (f w : A -> R) c l : wsum (fun a => (f a - c) * (f a - c)) w l = wsum (fun a => f a * f a) w l - 2 * c * wsum f w l + c * c * weights_sum w l.
Proof. unfold wsum, weights_sum. induction l as [|a l IH]; cbn; [ring|]. rewrite IH. ring. Qed.
Lemma wsum_nonneg {A} (f w : A -> R) l : (forall a, In a l -> 0 <= w a) -> (forall a, 0 <= f a) -> 0 <= wsum f w l.
Proof. intros H F. unfold wsum. apply Rsum_nonneg. intros x Hx. apply in_map_iff in Hx as (a & <- & Ha). apply Rmult_le_pos; auto. Qed.
Lemma sd_right {A} (f w : A -> R) l : (forall a, In a l -> 0 <= w a) -> 1 < weights_sum w l -> compute_sd (wsum (fun a => f a * f a) w l) (wsum f w l) (weights_sum w l) = wsd f w l.
Proof.
  intros Hw Hn. unfold compute_sd. change (@nltb R NumR) with Rltb. change (@n1 R NumR) with 1. change (@n0 R NumR) with 0. rewrite (proj2 (Rltb_true _ _) Hn). cbv zeta.
  cbn [nsub nmul ndiv nsqrt NumR].
  set (a := wsum (fun a => f a * f a) w l - wsum f w l * wsum f w l / weights_sum w l).
  assert (E : wsum (fun a => (f a - wmean f w l) * (f a - wmean f w l)) w l = a) by (rewrite wsum_dev; unfold a, wmean; field; lra).
  assert (P : 0 <= a) by (rewrite <- E; apply wsum_nonneg; auto; intros; apply Rle_0_sqr). unfold wsd. rewrite E.
  destruct (Rltb 0 a) eqn:Ea; [reflexivity|]. apply Rltb_false in Ea. replace a with 0 by lra. unfold Rdiv. rewrite Rmult_0_l. now rewrite sqrt_0.
Qed.

(** ** The weights *)
Lemma nsum_Rsum (l : list R) : nsum l = Rsum l.
Proof. unfold nsum. assert (H : forall a, fold_left nadd l a = a + Rsum l) by (induction l as [|x l IH]; intros a; cbn [fold_left Rsum]; [lra|rewrite IH; cbn; lra]). rewrite H. cbn. lra. Qed.
Lemma nabs_Rabs (v : R) : nabs v = Rabs v.
Proof. unfold nabs. change (@nltb R NumR) with Rltb. change (@n0 R NumR) with 0. destruct (Rltb v 0) eqn:E; [apply Rltb_true in E; rewrite Rabs_left by auto; cbn; lra|apply Rltb_false in E; rewrite Rabs_right; lra]. Qed.
Definition unit_norm (p : pweights R) : Prop := match p with PW ws => Rsum (map Rabs ws) = 1 | _ => True end.
Section Norm.
Variables (key : R -> Z) (int_of : R -> Z) (cfg : htr_config R).
Lemma update_norm s x y ratio p p' : update_weights cfg s x y ratio p = Ok p' -> p <> PNone -> unit_norm p' /\ p' <> PNone.
Proof.
  unfold update_weights. intros H Hp. apply bind_Ok in H as (xn & _ & H). destruct p as [| |ws]; [contradiction|injection H as <-; split; [exact Logic.I|discriminate]|].
  destruct (Nat.eqb _ _); [|discriminate]. cbv zeta in H. injection H as <-. set (ws' := map _ (combine ws xn)). rewrite nsum_Rsum. change (@neqb R NumR) with Reqb. change (@n0 R NumR) with 0.
  assert (Em : map nabs ws' = map Rabs ws') by (apply map_ext; intros; apply nabs_Rabs). rewrite Em. destruct (Reqb _ 0) eqn:E; split; try discriminate; [exact Logic.I|].
  apply Reqb_false in E. cbn [unit_norm]. rewrite map_map. set (n := Rsum (map Rabs ws')) in *.
  assert (Pn : 0 < n). { assert (0 <= n) by (apply Rsum_nonneg; intros v Hv; apply in_map_iff in Hv as (u & <- & _); apply Rabs_pos). lra. }
  assert (Q : forall l, Rsum (map (fun v => Rabs (v / n)%num) l) = Rsum (map Rabs l) / n).
  { induction l as [|v l IH]; cbn [map Rsum]; [unfold Rdiv; ring|]. rewrite IH. change (v / n)%num with (v / n). unfold Rdiv. rewrite Rabs_mult, (Rabs_right (/ n)) by (left; now apply Rinv_0_lt_compat). ring. }
  rewrite Q. fold n. unfold Rdiv. apply Rinv_r. lra.
Qed.
Lemma repeat_norm k : forall s x y ratio p p', repeat_update cfg k s x y ratio p = Ok p' -> p <> PNone -> (0 < k)%nat \/ unit_norm p -> unit_norm p' /\ p' <> PNone.
Proof.
  induction k as [|k IH]; intros s x y ratio p p' H Hp Hk; cbn [repeat_update] in H; [injection H as <-; destruct Hk as [Hk|Hk]; [lia|auto]|].
  apply bind_Ok in H as (p1 & E & H). destruct (update_norm _ _ _ _ _ _ E Hp) as [A B]. exact (IH _ _ _ _ _ _ H B (or_intror A)).
Qed.
Lemma learn_norm p sw i y w p' : perceptron_learn int_of cfg p sw i y w = Ok p' -> (1 <= int_of w)%Z -> unit_norm p' /\ p' <> PNone.
Proof.
  unfold perceptron_learn. cbv zeta. intros H Hw. apply bind_Ok in H as (ratio & _ & H). refine (repeat_norm _ _ _ _ _ _ _ H _ _); [destruct p; discriminate|left; lia].
Qed.
(** A leaf that has seen a sample has weights, of norm one. *)
Definition pw_ok (s : option (stat R unit)) (p : pweights R) : Prop := unit_norm p /\ (s <> None -> p <> PNone).
Definition heavy (x : list R) (y w : R) : Prop := (1 <= int_of w)%Z.
Hypothesis HK : r_kind cfg = Perceptron.
(** The invariant of leaves: a leaf without statistics is the empty root. *)
Lemma norm_keeps : keeps key int_of cfg (fun l => pw_ok (rl_stats l) (rl_pw l)) (fun i => pw_ok (ri_stats i) (ri_pw i)) heavy.
Proof.
  constructor.
  - split; [exact Logic.I|]. intros C. now contradiction C.
  - auto.
  - auto.
  - intros l i y w l' _ _ S E. unfold rleaf_learn in E. cbv zeta in E. apply bind_Ok in E as (p & Ep & E). injection E as <-. cbn [rl_stats rl_pw]. unfold pw_learn in Ep. rewrite HK in Ep.
    destruct (learn_norm _ _ _ _ _ _ Ep S). split; auto.
  - intros l i y w l' _ S E. unfold rinactive_learn in E. cbv zeta in E. apply bind_Ok in E as (p & Ep & E). injection E as <-. cbn [ri_stats ri_pw]. unfold pw_learn in Ep. rewrite HK in Ep.
    destruct (learn_norm _ _ _ _ _ _ Ep S). split; auto.
  - intros l d Kl [H1 H2] E. apply rdecide_cases in E as (pre & bs & Es & _ & D). rewrite Es in H2. assert (Hp : rl_pw l <> PNone) by (apply H2; discriminate). destruct d as [l'|l'|l' te ds].
    + destruct D as (l1 & F & ->). apply from_same in F as (_ & _ & Ep). cbn. rewrite Ep. split; auto.
    + destruct D as (p & ->). destruct (rdisable_all_stats p l) as [_ Ep]. rewrite Ep. split; auto.
    + destruct D as [(p & ->) _]. intros x Hx. destruct (rdisable_all_stats p l) as [_ Ep]. cbn. rewrite Ep. split; auto.
Qed.
End Norm.

(** ** The answer *)
Lemma dot_bound (ws xs : list R) : length ws = length xs -> (forall v, In v xs -> Rabs v <= 1) -> Rabs (dot ws xs) <= Rsum (map Rabs ws).
Proof.
  unfold dot. rewrite nsum_Rsum. revert xs. induction ws as [|a ws IH]; intros [|b xs] L H; try discriminate; cbn [combine map Rsum fst snd]; [rewrite Rabs_R0; lra|].
  injection L as L. eapply Rle_trans; [apply Rabs_triang|]. apply Rplus_le_compat; [|apply IH; auto; intros v Hv; apply H; now right].
  change (a * b)%num with (a * b). rewrite Rabs_mult. rewrite <- (Rmult_1_r (Rabs a)) at 2. apply Rmult_le_compat_l; [apply Rabs_pos|apply H; now left].
Qed.
Lemma scaled_bound d s : 0 <= s -> Rabs d <= 3 * s -> 0 < s -> Rabs (d / (3 * s)) <= 1.
Proof.
  intros _ H P. unfold Rdiv. rewrite Rabs_mult, (Rabs_right (/ (3 * s))) by (left; apply Rinv_0_lt_compat; lra). apply Rmult_le_reg_r with (3 * s); [lra|]. rewrite Rmult_assoc, Rinv_l by lra. lra.
Qed.
