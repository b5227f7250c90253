(** Lemmas about label combinations: their texts and numbers, and the tree that learns them. *)
From Coq Require Import List ZArith Bool Lia Ascii String.
From Verif Require Import Base.Py Base.Num Base.Dict Model.Adwin Model.Knn Model.TreeSkeleton Model.HoeffdingTree Model.LabelCombination Spec.HoeffdingSpec Spec.LabelSpec.
Import ListNotations.
Local Open Scope Z_scope.

(** ** Numbers *)
Lemma number_range y : Forall (fun b => b = 0 \/ b = 1) y -> 0 <= number y < 2 ^ Z.of_nat (List.length y).
Proof.
  induction 1 as [|b y Hb F IH]; cbn [number List.length]; [cbn; lia|]. rewrite Nat2Z.inj_succ, Z.pow_succ_r by lia. destruct Hb as [->| ->]; lia.
Qed.
Lemma number_inj y : forall z, List.length y = List.length z -> Forall (fun b => b = 0 \/ b = 1) y -> Forall (fun b => b = 0 \/ b = 1) z -> number y = number z -> y = z.
Proof.
  induction y as [|b y IH]; intros [|c z] L Fy Fz E; try discriminate; auto. injection L as L. inversion Fy; inversion Fz; subst. cbn [number] in E. rewrite L in E.
  pose proof (number_range y ltac:(auto)) as Ry. pose proof (number_range z ltac:(auto)) as Rz. rewrite L in Ry. assert (b = c) by (destruct H1 as [->| ->], H5 as [->| ->]; lia). subst c. f_equal. apply IH; auto. lia.
Qed.
Lemma number_app a b : number (a ++ b) = number a * 2 ^ Z.of_nat (List.length b) + number b.
Proof. induction a as [|x a IH]; cbn [app number]; [lia|]. rewrite IH, app_length, Nat2Z.inj_add, Z.pow_add_r by lia. lia. Qed.
Lemma number_zeros m : number (repeat 0 m) = 0. Proof. induction m; cbn [repeat number]; lia. Qed.
Lemma digits_ok p : forall acc, Forall (fun b => b = 0 \/ b = 1) acc -> Forall (fun b => b = 0 \/ b = 1) (digits p acc) /\ number (digits p acc) = Zpos p * 2 ^ Z.of_nat (List.length acc) + number acc
  /\ 2 ^ (Z.of_nat (List.length (digits p acc)) - 1 - Z.of_nat (List.length acc)) <= Zpos p /\ (List.length acc < List.length (digits p acc))%nat.
Proof.
  induction p as [p IH|p IH|]; intros acc F; cbn [digits].
  - destruct (IH (1 :: acc) ltac:(auto)) as (A & B & C & D). cbn [number List.length] in *. rewrite Nat2Z.inj_succ, Z.pow_succ_r in * by lia. repeat split; auto; [lia| |lia].
    replace (Z.of_nat (List.length (digits p (1 :: acc))) - 1 - Z.of_nat (List.length acc)) with (Z.succ (Z.of_nat (List.length (digits p (1 :: acc))) - 1 - Z.succ (Z.of_nat (List.length acc)))) by lia. rewrite Z.pow_succ_r by lia. lia.
  - destruct (IH (0 :: acc) ltac:(auto)) as (A & B & C & D). cbn [number List.length] in *. rewrite Nat2Z.inj_succ, Z.pow_succ_r in * by lia. repeat split; auto; [lia| |lia].
    replace (Z.of_nat (List.length (digits p (0 :: acc))) - 1 - Z.of_nat (List.length acc)) with (Z.succ (Z.of_nat (List.length (digits p (0 :: acc))) - 1 - Z.succ (Z.of_nat (List.length acc)))) by lia. rewrite Z.pow_succ_r by lia. lia.
  - cbn [List.length number]. repeat split; auto; try lia. replace (Z.of_nat (S (List.length acc)) - 1 - Z.of_nat (List.length acc)) with 0 by lia. cbn. lia.
Qed.
Lemma written_ok n i : (1 <= n)%nat -> Z.of_nat i < 2 ^ Z.of_nat n -> exists y, written (Z.of_nat n) i = Ok y /\ combination n y /\ number y = Z.of_nat i.
Proof.
  intros Hn Hi. unfold written. destruct (Z.ltb_spec (Z.of_nat n) 0); [lia|]. rewrite Nat2Z.id. cbv zeta. set (d := match N.of_nat i with N0 => _ | Npos p => _ end).
  assert (Q : Forall (fun b => b = 0 \/ b = 1) d /\ number d = Z.of_nat i /\ (List.length d <= n)%nat).
  { subst d. destruct (N.of_nat i) as [|p] eqn:E; [repeat split; cbn; auto; lia|]. destruct (digits_ok p [] ltac:(auto)) as (A & B & C & D). cbn [number List.length] in *. assert (Ep : Zpos p = Z.of_nat i) by lia.
    repeat split; auto; [lia|]. destruct (Nat.le_gt_cases (List.length (digits p [])) n) as [|G]; auto. exfalso. assert (2 ^ Z.of_nat n <= 2 ^ (Z.of_nat (List.length (digits p [])) - 1 - Z.of_nat 0)) by (apply Z.pow_le_mono_r; lia). lia. }
  destruct Q as (A & B & C). eexists. split; [reflexivity|]. split; [split; [rewrite app_length, repeat_length; lia|apply Forall_app; split; auto; apply Forall_forall; intros b Hb; apply repeat_spec in Hb; auto]|]. now rewrite number_app, number_zeros.
Qed.

(** ** Texts *)
Lemma bits_joined y : Forall (fun b => b = 0 \/ b = 1) y -> forall acc, bits (joined y) acc = Ok (acc * 2 ^ Z.of_nat (List.length y) + number y).
Proof.
  assert (J : forall b r, b = 0 \/ b = 1 -> joined (b :: r) = String (if Z.eqb b 0 then "0" else "1") (joined r)).
  { intros b r Hb. unfold joined. cbn [map]. destruct r as [|c r]; destruct Hb as [->| ->]; reflexivity. }
  induction 1 as [|b y Hb F IH]; intros acc; [cbn; f_equal; lia|]. rewrite J by auto. cbn [List.length number]. rewrite Nat2Z.inj_succ, Z.pow_succ_r by lia. destruct Hb as [->| ->]; cbn [Z.eqb bits Ascii.eqb Bool.eqb]; rewrite IH; f_equal; lia.
Qed.
Lemma transform_ok n y : (1 <= n)%nat -> combination n y -> transform_label y = Ok (number y).
Proof.
  intros Hn [L F]. unfold transform_label. assert (E : int2 (joined y) = bits (joined y) 0).
  { destruct y as [|b y]; [cbn in L; lia|]. inversion F as [|? ? Hb _]; subst. unfold joined. cbn [map]. destruct y as [|c y]; destruct Hb as [->| ->]; reflexivity. }
  rewrite E, bits_joined by auto. f_equal; lia.
Qed.

(** ** The tree *)
Section Tree.
Context {T : Type} {N : Num T}.
Variables (k : T) (phi : T -> T) (key : T -> Z) (cfg : ht_config T) (sz : sizes T (leaf T) (list (Z * T)) (list (Z * T)) (htest T)).
Lemma found_same t p n x y c w : transform_label y = Ok c -> learn_found (lc_ops k phi key cfg) (h_memory cfg) t p n x y w = learn_found (ht_ops k phi key cfg) (h_memory cfg) t p n x c w.
Proof. intros E. unfold learn_found. destruct n as [l|i|te st ch]; cbn [o_learn o_learn_inactive o_new o_add o_multiway lc_ops ht_ops]; rewrite E; reflexivity. Qed.
Lemma one_same t x y c w : transform_label y = Ok c -> fit_weighted (lc_ops k phi key cfg) (h_memory cfg) sz t x y w = fit_weighted (ht_ops k phi key cfg) (h_memory cfg) sz t x c w.
Proof.
  intros E. unfold fit_weighted. destruct (w =? n0)%num; [reflexivity|]. unfold fit_one. cbn [t_root]. destruct (t_root t) as [r|].
  - change (route (lc_ops k phi key cfg) r x) with (route (ht_ops k phi key cfg) r x). destruct (route _ r x) as [[p [n|]]|]; cbn [bind]; [now rewrite (found_same _ p n x y c w E)| |reflexivity].
    change (replace_at (lc_ops k phi key cfg)) with (replace_at (Y := Z) (ht_ops k phi key cfg)). change (o_new (lc_ops k phi key cfg)) with (o_new (ht_ops k phi key cfg)). destruct (replace_at _ r p _); cbn [bind]; [|reflexivity]. now rewrite (found_same _ p _ x y c w E).
  - cbn [route bind]. now rewrite (found_same _ [] _ x y c w E).
Qed.
Lemma rows_same n rows : (1 <= n)%nat -> Forall (fun xy => combination n (snd xy)) rows -> forall ws t, lc_rows k phi key cfg sz t rows ws = ht_rows k phi key cfg sz t (map (fun xy => (fst xy, number (snd xy))) rows) ws.
Proof.
  intros Hn. induction 1 as [|[x y] rows Hy F IH]; intros ws t; [reflexivity|]. destruct ws as [|w ws]; [reflexivity|]. cbn [lc_rows ht_rows map fst snd]. rewrite (one_same t x y (number y) w (transform_ok n y Hn Hy)).
  destruct (fit_weighted _ _ _ _ _ _ _); cbn [bind]; auto.
Qed.
Lemma run_same n es : (1 <= n)%nat -> combinations n es -> forall t q, 
  lc_run k phi key cfg sz (mk_lc t q) es = (h <- ht_run k phi key cfg sz (mk_htc t None) (numbered es) ;; Ok (mk_lc (ht_tree h) q))
  /\ forall h, ht_run k phi key cfg sz (mk_htc t None) (numbered es) = Ok h -> ht_classes h = None.
Proof.
  intros Hn. induction 1 as [|e es He F IH]; intros t q; cbn [lc_run ht_run numbered map bind]; [split; [reflexivity|intros h [= <-]; reflexivity]|]. destruct e as [rows cl ws|].
  - cbn [lc_step ht_step]. unfold lc_fit, ht_fit. cbn [lc_tree lc_n ht_tree ht_classes]. rewrite map_length, (rows_same n rows Hn He). destruct (Nat.eqb _ _); [|split; [reflexivity|discriminate]]. destruct (ht_rows _ _ _ _ _ _ _ _) as [t'|]; cbn [bind]; [|split; [reflexivity|discriminate]]. apply IH.
  - cbn [lc_step ht_step bind]. apply (IH tree_new q).
Qed.
End Tree.
Lemma numbered_taught {T} `{Num T} (es : list (lc_event T)) : taught (numbered es) = map number (lc_taught es).
Proof.
  unfold taught, lc_taught, numbered.
  assert (Q : forall es acc, fold_left (fun acc e => match e with HFit rows _ ws => acc ++ labels_of rows ws | HReset => [] end) (map (fun e => match e with LFit rows _ ws => HFit (map (fun xy => (fst xy, number (snd xy))) rows) None ws | LReset => HReset end) es) (map number acc)
     = map number (fold_left (fun acc (e : lc_event T) => match e with LFit rows _ ws => acc ++ labels_of rows ws | LReset => [] end) es acc)); [|exact (Q es [])].
  clear es. induction es as [|e es IH]; intros acc; cbn [map fold_left]; [reflexivity|]. rewrite <- IH. f_equal. destruct e as [rows c ws|]; [|reflexivity]. rewrite map_app. f_equal. unfold labels_of.
  rewrite map_map. cbn [fst snd]. generalize (match ws with Some ws => ws | None => map (fun _ => n1) rows end). induction rows as [|[x y] rows IHr]; intros l; [reflexivity|]. destruct l as [|w l]; [reflexivity|]. cbn [map combine filter snd fst]. destruct (negb _); cbn [map fst snd]; [f_equal|]; apply IHr.
Qed.
