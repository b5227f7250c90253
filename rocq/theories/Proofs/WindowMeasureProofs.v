(** Windowed classification measurements: lemmas. *)
From Coq Require Import List ZArith Bool Lia Reals Lra.
From Verif Require Import Base.Py Base.Num Model.ConfMat Model.ClassMeasure Model.WindowMeasure Spec.ClassMeasureSpec Spec.WindowMeasureSpec Proofs.ClassMeasureProofs.
Import ListNotations.

Section Newest.
Context {A : Type}.
Implicit Types l : list A.
Lemma newest_small w l : (length l <= w)%nat -> newest w l = l.
Proof. intros H. unfold newest. now replace (length l - w)%nat with O by lia. Qed.
Lemma newest_length w l : length (newest w l) = Nat.min w (length l).
Proof. unfold newest. rewrite skipn_length. lia. Qed.
Lemma skipn_S_tl k : forall l, skipn (S k) l = tl (skipn k l).
Proof. induction k as [|k IH]; intros [|x l]; try reflexivity. change (skipn (S (S k)) (x :: l)) with (skipn (S k) l). rewrite IH. reflexivity. Qed.
Lemma newest_snoc w l x : (1 <= w)%nat -> newest w (l ++ [x]) = (if Nat.ltb (length l) w then newest w l else tl (newest w l)) ++ [x].
Proof.
  intros Hw. destruct (Nat.ltb_spec (length l) w) as [H|H].
  - rewrite !newest_small; rewrite ?app_length; cbn [length]; auto; lia.
  - unfold newest. rewrite app_length, skipn_app. cbn [length]. replace (length l + 1 - w - length l)%nat with O by lia. replace (length l + 1 - w)%nat with (S (length l - w)) by lia. now rewrite skipn_S_tl.
Qed.
Lemma newest_full w l : (1 <= w)%nat -> (w <= length l)%nat -> exists o r, newest w l = o :: r.
Proof. intros H1 H2. assert (L := newest_length w l). destruct (newest w l) as [|o r]; [cbn in L; lia|eauto]. Qed.
Lemma newest_map {B} (f : A -> B) w l : newest w (map f l) = map f (newest w l).
Proof. unfold newest. now rewrite map_length, skipn_map. Qed.
End Newest.
Lemma buf_newest w l x : (1 <= w)%nat -> buf_add w (newest w l) x = (newest w (l ++ [x]), if Nat.ltb (length l) w then None else hd_error (newest w l)).
Proof.
  intros Hw. rewrite newest_snoc by exact Hw. unfold buf_add. rewrite newest_length. destruct (Nat.ltb_spec (length l) w) as [H|H].
  - rewrite (proj2 (Nat.leb_le _ _)) by lia. reflexivity.
  - rewrite (proj2 (Nat.leb_gt _ _)) by lia. destruct (newest_full w l Hw H) as (o & r & ->). reflexivity.
Qed.
Lemma repeats_app {T} (h : list (Z * Z * T)) : forall l y p w, repeats l (h ++ [(y, p, w)]) = repeats l h ++ [match last_true l h with Some c => (c =? y)%Z | None => false end].
Proof. induction h as [|[[y0 p0] w0] h IH]; intros l y p w; [reflexivity|]. cbn [app repeats]. now rewrite IH. Qed.
Lemma repeats_length {T} (h : list (Z * Z * T)) : forall l, length (repeats l h) = length h.
Proof. induction h as [|[[y0 p0] w0] h IH]; intros l; cbn; auto. Qed.
Lemma trues_app l b : trues (l ++ [b]) = (trues l + if b then 1 else 0)%nat.
Proof. unfold trues. rewrite filter_app, app_length. cbn. destruct b; reflexivity. Qed.
Lemma trues_cons l b : trues (b :: l) = ((if b then 1 else 0) + trues l)%nat.
Proof. unfold trues. cbn. destruct b; reflexivity. Qed.

Section Matrix.
Context {T : Type} {N : Num T} {U : Type}.
Implicit Types (s : measure T) (h : list (Z * Z * U)).
Lemma np_in s h c : mat s h -> (c < length (me_targets s))%nat -> np_index (cm_size (me_matrix s)) (Z.of_nat c) = Ok (Z.of_nat c).
Proof. intros M Hc. unfold np_index. rewrite (i_size _ _ M), (proj2 (Z.leb_le 0 _)), (proj2 (Z.ltb_lt _ _)) by lia. reflexivity. Qed.
Lemma mat_update s h y p w a b : mat s h -> first_index (me_targets s) y = Some a -> first_index (me_targets s) p = Some b ->
  exists m, cm_update (me_matrix s) (Some (Z.of_nat a)) (Some (Z.of_nat b)) 1 = (m, Ok true) /\ forall l c (x z : T), mat (mk_me (me_targets s) m l c x z) (h ++ [(y, p, w)]).
Proof.
  intros M Fa Fb. assert (Na := first_index_nth _ _ _ Fa). assert (Nb := first_index_nth _ _ _ Fb). assert (La : (a < length (me_targets s))%nat) by (apply nth_error_Some; congruence). assert (Lb : (b < length (me_targets s))%nat) by (apply nth_error_Some; congruence).
  unfold cm_update. cbv zeta. assert (B : forall c, (c < length (me_targets s))%nat -> ((0 <=? Z.of_nat c) && (Z.of_nat c <? cm_size (me_matrix s)))%Z = true) by (intros c Hc; rewrite (i_size _ _ M), (proj2 (Z.leb_le 0 _)), (proj2 (Z.ltb_lt _ _)) by lia; reflexivity).
  rewrite !B by auto. cbn [andb]. unfold cm_bump. rewrite !(np_in _ _ _ M) by auto. eexists. split; [reflexivity|]. intros l c x z. constructor; cbn [me_targets me_matrix cm_size cm_cell].
  - apply M.
  - intros y' p' w' Hin. apply in_app_iff in Hin as [Hin|[[= <- <- <-]|[]]]; [eapply i_labels; eauto|]. split; eapply nth_error_In; eauto.
  - intros a' b' La' Lb'. rewrite times_app, (is_ix_true _ _ _ Fa), (is_ix_true _ _ _ Fb). unfold set_cell. rewrite (i_cells _ _ M a' b') by auto.
    destruct (Z.eqb_spec (Z.of_nat a') (Z.of_nat a)) as [Ez|Ez]; destruct (Nat.eqb_spec a a') as [En|En]; try lia; cbn [andb]; [|lia].
    destruct (Z.eqb_spec (Z.of_nat b') (Z.of_nat b)) as [Ez2|Ez2]; destruct (Nat.eqb_spec b b') as [En2|En2]; try lia. subst a' b'. rewrite (i_cells _ _ M) by auto. lia.
Qed.
Lemma times_cons f h y p (w : U) : times f ((y, p, w) :: h) = ((if f y p then 1 else 0) + times f h)%nat.
Proof. unfold times. cbn [filter fst snd]. destruct (f y p); reflexivity. Qed.
Lemma mat_remove s h y p w : mat s ((y, p, w) :: h) -> exists m, cm_remove (me_matrix s) (me_index s y) (me_index s p) = (m, Ok true) /\ forall l c (x z : T), mat (mk_me (me_targets s) m l c x z) h.
Proof.
  intros M. destruct (i_labels _ _ M y p w (or_introl eq_refl)) as [Hy Hp]. destruct (first_index_In _ _ Hy) as (a & Fa & La & _). destruct (first_index_In _ _ Hp) as (b & Fb & Lb & _).
  unfold me_index. rewrite Fa, Fb. cbn [option_map]. unfold cm_remove. cbv zeta.
  assert (B1 : forall c, (c < length (me_targets s))%nat -> (Z.of_nat c <=? cm_size (me_matrix s))%Z = true) by (intros c Hc; rewrite (i_size _ _ M); apply Z.leb_le; lia).
  rewrite !B1, !(proj2 (Z.leb_le 0 _)) by (auto; lia). cbn [andb]. unfold cm_bump. rewrite !(np_in _ _ _ M) by auto. eexists. split; [reflexivity|]. intros l c x z. constructor; cbn [me_targets me_matrix cm_size cm_cell].
  - apply M.
  - intros y' p' w' Hin. eapply i_labels; eauto. right. exact Hin.
  - intros a' b' La' Lb'. unfold set_cell. assert (C := i_cells _ _ M a' b' La' Lb'). rewrite times_cons, (is_ix_true _ _ _ Fa), (is_ix_true _ _ _ Fb) in C.
    destruct (Z.eqb_spec (Z.of_nat a') (Z.of_nat a)) as [Ez|Ez]; destruct (Nat.eqb_spec a a') as [En|En]; try lia; cbn [andb] in *; [|lia].
    destruct (Z.eqb_spec (Z.of_nat b') (Z.of_nat b)) as [Ez2|Ez2]; destruct (Nat.eqb_spec b b') as [En2|En2]; try lia. subst a' b'. lia.
Qed.
Lemma mat_field s h l c (x z : T) : mat s h -> mat (mk_me (me_targets s) (me_matrix s) l c x z) h.
Proof. intros [A B C]. constructor; auto. Qed.
End Matrix.

Definition corr (b : bool) : Z := (if b then -1 else 0)%Z.
Record winv (s : wmeasure R) (h : list (Z * Z * Z)) : Prop := {
  w_mat : mat (wm_me s) (newest (wm_size s) h);
  w_true : wm_true s = newest (wm_size s) (map (fun r => fst (fst r)) h);
  w_pred : wm_pred s = newest (wm_size s) (map (fun r => snd (fst r)) h);
  w_count : me_count (wm_me s) = Z.of_nat (length (newest (wm_size s) h));
  w_last : me_last (wm_me s) = last_true None h;
  w_corr : wm_nochange_corr s = newest (wm_size s) (map corr (repeats None h));
  w_nochange : me_nochange (wm_me s) = INR (trues (newest (wm_size s) (repeats None h)));
  w_major : exists F, length F = length h /\ wm_major_corr s = newest (wm_size s) (map corr F) /\ me_majority (wm_me s) = INR (trues (newest (wm_size s) F)) }.
Lemma winv_add s h y p : (1 <= wm_size s)%nat -> winv s h -> exists s', wm_add s y p 1 = Ok s' /\ winv s' (h ++ [(y, p, 1%Z)]) /\ wm_size s' = wm_size s /\ me_targets (wm_me s') = known (known (me_targets (wm_me s)) y) p.
Proof.
  intros Hw I. set (w := wm_size s) in *. destruct I as [M Tr Pr Co La Cr Nc (F & LF & Mc & Mj)]. fold w in M, Tr, Pr, Co, Cr, Nc, Mc, Mj. unfold wm_add. fold w.
  destruct (mat_label _ _ y M) as (M1 & K1 & Y1 & _). destruct (label_keeps (wm_me s) y) as (L1 & C1 & J1 & N1). set (m1 := me_add_label (wm_me s) y) in *.
  destruct (mat_label _ _ p M1) as (M2 & K2 & P2 & In2). destruct (label_keeps m1 p) as (L2 & C2 & J2 & N2). set (m2 := me_add_label m1 p) in *.
  destruct (inv_index m1 y Y1) as (a & Ea & _ & Fa). destruct (inv_index m2 p P2) as (b & Eb & _ & Fb). cbv zeta. rewrite Ea, Eb.
  assert (Fa2 : first_index (me_targets m2) y = Some a) by (rewrite K2; unfold known; destruct (existsb _ _); auto; now apply first_index_app).
  rewrite Tr, Pr, Cr, Mc, !buf_newest by exact Hw. cbn [fst]. rewrite !map_length. unfold me_with. cbn [me_targets me_matrix me_last me_count me_majority me_nochange].
  assert (Lh : length (map (fun r : Z * Z * Z => fst (fst r)) h ++ [y]) = length (h ++ [(y, p, 1%Z)])) by (rewrite !app_length, map_length; reflexivity).
  assert (Ln : length (newest w (map (fun r : Z * Z * Z => fst (fst r)) h ++ [y])) = length (newest w (h ++ [(y, p, 1%Z)]))) by (rewrite !newest_length; now rewrite Lh).
  rewrite !newest_map.
  (* the state after the removal *)
  assert (Rm : exists mx, let maj := INR (trues (if Nat.ltb (length h) w then newest w F else tl (newest w F))) in
    match (if Nat.ltb (length h) w then None else hd_error (map (fun r => fst (fst r)) (newest w h))) with
    | Some t0 => match (if Nat.ltb (length h) w then None else hd_error (map (fun r => snd (fst r)) (newest w h))) with
        | Some p0 => let '(mx, r) := cm_remove (me_matrix m2) (me_index (mk_me (me_targets m2) (me_matrix m2) (me_last m2) (Z.of_nat (length (newest w (map (fun r => fst (fst r)) h ++ [y])))) (me_majority m2) (me_nochange m2)) t0) (me_index (mk_me (me_targets m2) (me_matrix m2) (me_last m2) (Z.of_nat (length (newest w (map (fun r => fst (fst r)) h ++ [y])))) (me_majority m2) (me_nochange m2)) p0) in
            _ <- r ;; Ok (mk_me (me_targets m2) mx (me_last m2) (Z.of_nat (length (newest w (map (fun r => fst (fst r)) h ++ [y])))) (me_majority m2 + nofZ (buf_peek (map corr (newest w F))))%num (me_nochange m2 + nofZ (buf_peek (map corr (newest w (repeats None h)))))%num)
        | None => Ok (mk_me (me_targets m2) (me_matrix m2) (me_last m2) (Z.of_nat (length (newest w (map (fun r => fst (fst r)) h ++ [y])))) (me_majority m2) (me_nochange m2))
        end
    | None => Ok (mk_me (me_targets m2) (me_matrix m2) (me_last m2) (Z.of_nat (length (newest w (map (fun r => fst (fst r)) h ++ [y])))) (me_majority m2) (me_nochange m2))
    end = Ok (mk_me (me_targets m2) mx (me_last m2) (Z.of_nat (length (newest w (h ++ [(y, p, 1%Z)])))) maj (INR (trues (if Nat.ltb (length h) w then newest w (repeats None h) else tl (newest w (repeats None h))))))
    /\ forall l c (x z : R), mat (mk_me (me_targets m2) mx l c x z) (if Nat.ltb (length h) w then newest w h else tl (newest w h))).
  { rewrite Ln. destruct (Nat.ltb_spec (length h) w) as [H|H].
    - exists (me_matrix m2). cbv zeta. split; [now rewrite N2, N1, Nc, J2, J1, Mj|]. intros. now apply mat_field.
    - destruct (newest_full w h Hw H) as ([[y0 p0] w0] & r & En). rewrite En in *. cbn [map hd_error fst snd]. destruct (mat_remove _ _ _ _ _ M2) as (mx & Er & Mr).
      unfold me_index in *. cbn [me_targets] in *. rewrite Er. cbn [bind]. exists mx. cbv zeta. split; [|intros; apply Mr].
      rewrite N2, N1, Nc, J2, J1, Mj. destruct (newest_full w F Hw) as (fb & fr & Ef); [rewrite LF; exact H|]. rewrite Ef. destruct (newest_full w (repeats None h) Hw) as (bb & rr & Eb'); [rewrite repeats_length; exact H|]. rewrite Eb'. cbn [map buf_peek tl nadd nofZ NumR]. rewrite !trues_cons. unfold corr. f_equal. f_equal; [destruct fb|destruct bb]; rewrite ?plus_INR; cbn [INR]; lra. }
  destruct Rm as (mx & Er & Mr). set (maj := INR (trues (if Nat.ltb (length h) w then newest w F else tl (newest w F)))) in *.
  match goal with |- exists s', bind ?X _ = _ /\ _ => replace X with (Ok (mk_me (me_targets m2) mx (me_last m2) (Z.of_nat (length (newest w (h ++ [(y, p, 1%Z)])))) maj (INR (trues (if Nat.ltb (length h) w then newest w (repeats None h) else tl (newest w (repeats None h))))))) by (symmetry; exact Er) end.
  cbn [bind me_targets me_matrix me_last me_count me_majority me_nochange].
  set (s3 := mk_me (me_targets m2) mx (me_last m2) (Z.of_nat (length (newest w (h ++ [(y, p, 1%Z)])))) maj (INR (trues (if Nat.ltb (length h) w then newest w (repeats None h) else tl (newest w (repeats None h)))))).
  set (hit := match me_majority_class s3 with Some c => (c =? y)%Z | None => false end).
  destruct (mat_update s3 _ y p 1%Z a b (Mr _ _ _ _) Fa2 Fb) as (mu & Eu & Mu). change (me_matrix s3) with mx in Eu. rewrite Eu. cbn [bind]. eexists. split; [reflexivity|]. split; [|split; [reflexivity|cbn [wm_me me_targets]; now rewrite K2, K1]].
  constructor; cbn [wm_me wm_size wm_true wm_pred wm_nochange_corr me_targets me_matrix me_last me_count me_nochange]; fold w.
  - rewrite newest_snoc by exact Hw. apply Mu.
  - now rewrite map_app.
  - now rewrite map_app.
  - reflexivity.
  - unfold last_true. rewrite fold_left_app. reflexivity.
  - rewrite repeats_app, map_app, <- La, <- L1, <- L2. rewrite <- newest_map, buf_newest by exact Hw. reflexivity.
  - rewrite repeats_app, newest_snoc by exact Hw. rewrite repeats_length, trues_app, <- La, <- L1, <- L2. rewrite plus_INR. destruct (me_last m2) as [c|]; [destruct (c =? y)%Z|]; cbn [nadd nofZ NumR INR]; lra.
  - exists (F ++ [hit]). split; [rewrite !app_length, LF; reflexivity|]. rewrite map_app, <- newest_map, buf_newest by exact Hw. split; [reflexivity|]. rewrite (newest_snoc w F hit), trues_app, plus_INR, LF by exact Hw. cbn [me_majority]. fold maj. destruct hit; cbn [nadd nofZ NumR INR]; lra.
Qed.
Lemma winv_new targets w : winv (mk_wm (mk_me targets (mkCM (Z.of_nat (length targets)) zeros2 0) None 0 n0 n0) w [] [] [] []) [].
Proof. constructor; cbn; auto; [|exists []; auto]. apply (i_mat _ _ (inv_empty targets)) || (constructor; cbn; auto; intros ? ? ? []). Qed.
Lemma winv_run es : (forall y p w, In (MAdd y p w) es -> w = 1%Z) -> forall s h, (1 <= wm_size s)%nat -> winv s h ->
  exists s', wm_run s es = Ok s' /\ winv s' (fold_left (fun h e => match e with MAdd y p w => h ++ [(y, p, w)] | MClear => [] end) es h) /\ wm_size s' = wm_size s /\ me_targets (wm_me s') = known_after (me_targets (wm_me s)) es.
Proof.
  induction es as [|e es IH]; intros H1 s h Hw I; [exists s; auto|]. cbn [wm_run fold_left]. unfold known_after in *. cbn [fold_left].
  assert (H1' : forall y p w, In (MAdd y p w) es -> w = 1%Z) by (intros; eapply H1; right; eauto). destruct e as [y p w|]; cbn [wm_step].
  - rewrite (H1 y p w) by now left. destruct (winv_add s h y p Hw I) as (s1 & -> & I1 & S1 & K1). cbn [bind]. destruct (IH H1' s1 _ ltac:(rewrite S1; exact Hw) I1) as (s' & E & I' & S & K). exists s'. rewrite K1 in K. rewrite S1 in S. auto.
  - cbn [bind]. destruct (IH H1' (wm_reset s) [] Hw) as (s' & E & I' & S & K); [|exists s'; auto].
    unfold wm_reset, me_reset, cm_restart, np_dim. cbn [targets_or_0]. rewrite (proj2 (Z.ltb_ge _ _)) by lia. cbn [fst]. apply winv_new.
Qed.
