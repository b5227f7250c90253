(** Lemmas about robust soft learning vector quantization. *)
From Coq Require Import List ZArith Bool Reals Lia Lra.
From Verif Require Import Base.Py Base.Num Spec.Lists Model.Adwin Model.DataStream Model.Knn Model.Rslvq Spec.RslvqSpec Proofs.ListFacts Proofs.KnnProofs Proofs.BaggingProofs.
Import ListNotations.
Local Open Scope R_scope.

Lemma vsum_Rsum (l : list R) : vsum l = Rsum l.
Proof.
  unfold vsum. change (@n0 R NumR) with 0. assert (H : forall l a, fold_left (@nadd R NumR) l a = a + Rsum l).
  { clear l. induction l as [|x r IH]; intros a; cbn [fold_left Rsum]; [lra|]. rewrite IH. cbn. lra. }
  rewrite H. lra.
Qed.
Lemma sqdist_R (a b : list R) : sqdist a b = dist2 a b.
Proof. unfold sqdist, dist2, vsub, map2. rewrite vsum_Rsum, map_map. reflexivity. Qed.
Lemma sq_sum_nonneg {A} (f : A -> R) l : 0 <= Rsum (map (fun a => f a * f a) l).
Proof. induction l as [|a r IH]; cbn [map Rsum]; [lra|]. pose proof (Rle_0_sqr (f a)) as S. unfold Rsqr in S. lra. Qed.
Lemma dist2_nonneg a b : 0 <= dist2 a b.
Proof. apply (sq_sum_nonneg (fun p => fst p - snd p)). Qed.
Lemma edist_R (a b : list R) : edist a b = sqrt (dist2 a b).
Proof. unfold edist. now rewrite sqdist_R. Qed.
Lemma edist_lt x a b : @nltb R NumR (edist x a) (edist x b) = Rltb (dist2 x a) (dist2 x b).
Proof.
  change (@nltb R NumR) with Rltb. rewrite !edist_R. destruct (Rltb (dist2 x a) _) eqn:E.
  - apply Rltb_true in E. apply Rltb_true, sqrt_lt_1; auto using dist2_nonneg.
  - apply Rltb_false in E. apply Rltb_false, sqrt_le_1; auto using dist2_nonneg.
Qed.
Lemma costf_R cfg (x w : list R) : costf cfg x w = - dist2 x w / (2 * c_sigma cfg).
Proof. unfold costf. rewrite sqdist_R. cbn. f_equal. lra. Qed.

(** *** The distance after a move *)
Lemma dist2_toward a x w : length x = length w -> dist2 x (toward a x w) = (1 - a) * (1 - a) * dist2 x w.
Proof.
  revert w. induction x as [|u x IH]; intros [|v w] L; try discriminate; unfold dist2, toward in *; cbn [combine map Rsum fst snd]; [lra|]. injection L as L. rewrite (IH w L). lra.
Qed.
Lemma toward_len a x w : length x = length w -> length (toward a x w) = length w.
Proof. intros L. unfold toward. rewrite map_length, combine_length, L. apply Nat.min_id. Qed.

(** *** The softmax *)
Lemma soft_pos l (f : list R * Z -> R) : l <> [] -> 0 < Rsum (map (fun p => exp (f p)) l).
Proof.
  intros H. destruct l as [|p r]; [contradiction|]. cbn [map Rsum]. pose proof (exp_pos (f p)). assert (0 <= Rsum (map (fun p => exp (f p)) r)); [|lra].
  apply Rsum_nonneg. intros v Hv. apply in_map_iff in Hv as (q & <- & _). left. apply exp_pos.
Qed.
Lemma exp_shift (l : list (list R * Z)) (f : list R * Z -> R) m : Rsum (map (fun p => exp (f p - m)) l) = exp (- m) * Rsum (map (fun p => exp (f p)) l).
Proof.
  induction l as [|p r IH]; cbn [map Rsum]; [lra|]. rewrite IH. unfold Rminus. rewrite exp_plus. lra.
Qed.
Lemma soft_list cfg (l : list (list R * Z)) (x w : list R) m : l <> [] ->
  (nexp (costf cfg x w - m) / vsum (map (fun f => nexp (f - m)) (map (fun p => costf cfg x (fst p)) l)))%num = density (c_sigma cfg) x w / total (c_sigma cfg) x l.
Proof.
  intros Hn. rewrite vsum_Rsum, map_map. unfold density, total.
  match goal with |- context [ndiv _ (Rsum (map ?f l))] => replace (map f l) with (map (fun p : list R * Z => exp (- dist2 x (fst p) / (2 * c_sigma cfg) - m)) l) by (apply map_ext; intros p; rewrite costf_R; reflexivity) end.
  rewrite (exp_shift l (fun p => - dist2 x (fst p) / (2 * c_sigma cfg)) m). rewrite costf_R. cbn [nsub nexp ndiv NumR]. unfold Rminus at 1. rewrite exp_plus.
  pose proof (soft_pos l (fun p => - dist2 x (fst p) / (2 * c_sigma cfg)) Hn) as Hp. cbv beta in Hp. unfold density. pose proof (exp_pos (- m)). field. split; lra.
Qed.
Lemma soft_R cfg ws y x w : match y with None => ws | Some y => filter (fun p => Z.eqb (snd p) y) ws end <> [] ->
  soft cfg ws y x w = density (c_sigma cfg) x w / total (c_sigma cfg) x (match y with None => ws | Some y => filter (fun p => Z.eqb (snd p) y) ws end).
Proof. intros Hn. unfold soft. cbv zeta. now rewrite soft_list. Qed.
Lemma total_pos sigma x ws : ws <> [] -> 0 < total sigma x ws.
Proof. intros H. apply (soft_pos ws (fun p => - dist2 x (fst p) / (2 * sigma)) H). Qed.
Lemma total_filter sigma x (P : list R * Z -> bool) ws : total sigma x ws = total sigma x (filter P ws) + total sigma x (filter (fun p => negb (P p)) ws).
Proof.
  unfold total. induction ws as [|p r IH]; cbn [map filter Rsum]; [lra|]. destruct (P p); cbn [negb map Rsum]; rewrite IH; lra.
Qed.
Lemma total_ge sigma x ws p : In p ws -> density sigma x (fst p) <= total sigma x ws.
Proof.
  unfold total. induction ws as [|q r IH]; intros H; [destruct H|]. destruct H as [->|H]; cbn [map Rsum].
  - assert (0 <= Rsum (map (fun p => density sigma x (fst p)) r)); [|lra]. apply Rsum_nonneg. intros v Hv. apply in_map_iff in Hv as (q' & <- & _). left. apply exp_pos.
  - pose proof (exp_pos (- dist2 x (fst q) / (2 * sigma))). specialize (IH H). unfold density in *. lra.
Qed.

(** *** The nearest prototype *)
Lemma nearest_ok (good : Z -> bool) x : forall ws pre best,
  match best with
  | None => forall w c, In (w, c) pre -> good c = false
  | Some (d, j) => exists w, d = edist x w /\ nearest_of (fun c => good c = true) x pre j /\ exists c, nth_error pre j = Some (w, c)
  end ->
  match nearest good x (length pre) ws best with
  | None => forall w c, In (w, c) (pre ++ ws) -> good c = false
  | Some (d, j) => exists w, d = edist x w /\ nearest_of (fun c => good c = true) x (pre ++ ws) j /\ exists c, nth_error (pre ++ ws) j = Some (w, c)
  end.
Proof.
  induction ws as [|[w c] r IH]; intros pre best HB; cbn [nearest]; [rewrite app_nil_r; exact HB|].
  replace (pre ++ (w, c) :: r) with ((pre ++ [(w, c)]) ++ r) by (rewrite <- app_assoc; reflexivity).
  replace (S (length pre)) with (length (pre ++ [(w, c)])) by (rewrite app_length; cbn; lia). apply IH. clear IH.
  assert (At : nth_error (pre ++ [(w, c)]) (length pre) = Some (w, c)) by (rewrite nth_error_app2, Nat.sub_diag by lia; reflexivity).
  assert (Sp : forall i w' c', nth_error (pre ++ [(w, c)]) i = Some (w', c') -> (nth_error pre i = Some (w', c') /\ (i < length pre)%nat) \/ (i = length pre /\ w' = w /\ c' = c)).
  { intros i w' c' Hi. assert (i < length (pre ++ [(w, c)]))%nat by (apply nth_error_Some; congruence). rewrite app_length in H; cbn in H. destruct (Nat.eq_dec i (length pre)) as [->|Ne].
    - right. rewrite At in Hi. injection Hi as <- <-. auto.
    - left. rewrite nth_error_app1 in Hi by lia. split; auto. lia. }
  destruct (good c) eqn:Eg.
  - destruct best as [[d j]|].
    + destruct HB as (wb & -> & (wn & cn & Hn & Hg & Hmin) & cb & Hb). rewrite Hb in Hn. injection Hn as -> ->. rewrite edist_lt. destruct (Rltb (dist2 x w) (dist2 x wn)) eqn:El.
      * apply Rltb_true in El. exists w. split; auto. split; [|eauto]. exists w, c. split; auto. split; auto. intros i w' c' Hi Hg'. destruct (Sp _ _ _ Hi) as [[Hi' Li]|(-> & -> & ->)]; [|split; [lra|lia]].
        destruct (Hmin _ _ _ Hi' Hg') as [A _]. split; [lra|]. intros _. lra.
      * apply Rltb_false in El. exists wn. split; auto. assert (j < length pre)%nat by (apply nth_error_Some; congruence). split.
        -- exists wn, cn. rewrite nth_error_app1 by auto. split; auto. split; auto. intros i w' c' Hi Hg'. destruct (Sp _ _ _ Hi) as [[Hi' Li]|(-> & -> & ->)]; [eauto|split; [lra|lia]].
        -- exists cn. rewrite nth_error_app1; auto.
    + exists w. split; auto. split; [|eauto]. exists w, c. split; auto. split; auto. intros i w' c' Hi Hg'. destruct (Sp _ _ _ Hi) as [[Hi' Li]|(-> & -> & ->)]; [|split; [lra|lia]].
      apply nth_error_In in Hi'. rewrite (HB _ _ Hi') in Hg'. discriminate.
  - destruct best as [[d j]|].
    + destruct HB as (wb & -> & (wn & cn & Hn & Hg & Hmin) & cb & Hb). assert (j < length pre)%nat by (apply nth_error_Some; congruence). exists wb. split; auto. split.
      * exists wn, cn. rewrite nth_error_app1 by auto. split; auto. split; auto. intros i w' c' Hi Hg'. destruct (Sp _ _ _ Hi) as [[Hi' Li]|(-> & -> & ->)]; [eauto|congruence].
      * exists cb. rewrite nth_error_app1; auto.
    + intros w' c' Hin. apply in_app_iff in Hin as [Hin|[[= <- <-]|[]]]; eauto.
Qed.
Lemma nearest_start good x ws :
  match nearest good x 0 ws None with
  | None => forall w c, In (w, c) ws -> good c = false
  | Some (d, j) => exists w, d = edist x w /\ nearest_of (fun c => good c = true) x ws j /\ exists c, nth_error ws j = Some (w, c)
  end.
Proof. apply (nearest_ok good x ws [] None). intros w c []. Qed.
Lemma nearest_ext (P Q : Z -> Prop) x ws j : (forall c, P c <-> Q c) -> nearest_of P x ws j -> nearest_of Q x ws j.
Proof. intros E (w & c & A & B & C). exists w, c. split; auto. split; [now apply E|]. intros. apply C with c'; auto. now apply E. Qed.

(** *** One update *)
Lemma set_nth_replaced ws j w c w' : nth_error ws j = Some (w, c) -> replaced ws j w' (set_nth ws j (w', c)).
Proof.
  intros H. assert (L : (j < length ws)%nat) by (apply nth_error_Some; congruence). destruct (set_nth_at ws j (w', c) L) as [A B]. split; [apply set_nth_len|]. split; eauto.
Qed.
Lemma vanilla_R cfg ws w c x y : length x = length w -> (exists w0, In (w0, c) ws) ->
  vanilla cfg ws w c x y = toward (if Z.eqb c y then (posterior_in (c_sigma cfg) ws y x w - posterior (c_sigma cfg) ws x w) / c_sigma cfg else - (posterior (c_sigma cfg) ws x w / c_sigma cfg)) x w.
Proof.
  intros L (w0 & Hin). assert (Ne : ws <> []) by (intros ->; destruct Hin). unfold vanilla. cbv zeta.
  assert (G : forall (a : R) (op : R -> R -> R) (s : R), (forall u v, op u v = u + s * v) -> map2 op w (map (fun v => (a * v)%num) (vsub x w)) = toward (s * a) x w).
  { intros a op s Hop. clear - L Hop. revert w L. induction x as [|u x IH]; intros [|v w] L; try discriminate; unfold vsub, map2, toward in *; cbn [combine map fst snd]; [reflexivity|]. injection L as L. rewrite <- (IH w L). f_equal.
    rewrite Hop. cbn. ring. }
  destruct (Z.eqb c y) eqn:E.
  - assert (NeF : filter (fun p => Z.eqb (snd p) y) ws <> []). { intros F. assert (In (w0, c) []) as []. rewrite <- F. apply filter_In. auto. }
    rewrite (soft_R cfg ws (Some y)), (soft_R cfg ws None) by auto.
    etransitivity; [apply (G _ (@nadd R NumR) 1); intros; cbn; ring|]. f_equal. unfold posterior_in, posterior. cbn. unfold Rdiv. ring.
  - rewrite (soft_R cfg ws None) by auto. etransitivity; [apply (G _ (@nsub R NumR) (-1)); intros; cbn; ring|]. f_equal. unfold posterior. cbn. unfold Rdiv. ring.
Qed.
Lemma update_vanilla cfg ws acc j w c x y : c_adadelta cfg = false -> nth_error ws j = Some (w, c) -> length x = length w ->
  update_proto cfg (ws, acc) j x y
  = Ok (set_nth ws j (toward (if Z.eqb c y then (posterior_in (c_sigma cfg) ws y x w - posterior (c_sigma cfg) ws x w) / c_sigma cfg else - (posterior (c_sigma cfg) ws x w / c_sigma cfg)) x w, c), acc).
Proof.
  intros Ha Hj L. unfold update_proto. rewrite Hj, Ha. rewrite vanilla_R; auto. exists w. now apply nth_error_In in Hj.
Qed.
Lemma set_nth_map_snd (ws : list (list R * Z)) : forall j w c w', nth_error ws j = Some (w, c) -> map snd (set_nth ws j (w', c)) = map snd ws.
Proof.
  induction ws as [|[v d] r IH]; intros [|j] w c w' H; try discriminate; cbn [set_nth map snd].
  - injection H as -> ->. reflexivity.
  - f_equal. eapply IH. exact H.
Qed.
Lemma set_nth_width d (ws : list (list R * Z)) : forall j w' c', all_width d ws -> length w' = d -> all_width d (set_nth ws j (w', c')).
Proof.
  induction ws as [|[v e] r IH]; intros [|j] w' c' A L w c Hin; cbn [set_nth] in Hin; try destruct Hin as [E|Hin].
  - destruct Hin. - destruct Hin. - injection E as <- <-. auto. - apply (A w c). now right.
  - injection E as <- <-. apply (A v e). now left.
  - apply (IH j w' c') in Hin; auto. intros w0 c0 H0. apply (A w0 c0). now right.
Qed.
Lemma in_snd (ws : list (list R * Z)) y : In y (map snd ws) <-> exists w, In (w, y) ws.
Proof. rewrite in_map_iff. split; [intros ([w c] & <- & H); eauto|intros (w & H); exists (w, y); auto]. Qed.

Lemma sample_step cfg ws acc vars x y : c_adadelta cfg = false -> all_width (length x) ws -> In y (map snd ws) ->
  exists ws' vars', rs_sample cfg (ws, acc) vars x y = Ok ((ws', acc), vars') /\ lvq_step (c_sigma cfg) x y ws ws' /\ all_width (length x) ws' /\ map snd ws' = map snd ws.
Proof.
  intros Ha Hw Hy. apply in_snd in Hy as (w0 & Hw0). unfold rs_sample. cbn [fst snd]. cbv zeta.
  pose proof (nearest_start (fun c => Z.eqb c y) x ws) as NC. pose proof (nearest_start (fun c => negb (Z.eqb c y)) x ws) as NI.
  destruct (nearest (fun c => Z.eqb c y) x 0 ws None) as [[dc jc]|]; [|rewrite (Z.eqb_refl y) in NC || specialize (NC _ _ Hw0); rewrite Z.eqb_refl in NC; discriminate].
  destruct NC as (wc & -> & Nc & cc & Hc).
  assert (Ecc : cc = y). { destruct Nc as (w1 & c1 & A & B & _). rewrite A in Hc. injection Hc as <- <-. now apply Z.eqb_eq. } subst cc.
  apply (nearest_ext _ (fun c => c = y)) in Nc; [|intros; apply Z.eqb_eq].
  destruct (nearest (fun c => negb (Z.eqb c y)) x 0 ws None) as [[di ji]|].
  - destruct NI as (wi & -> & Ni & ci & Hi). apply (nearest_ext _ (fun c => c <> y)) in Ni; [|intros; rewrite negb_true_iff; apply Z.eqb_neq].
    assert (Eci : ci <> y). { destruct Ni as (w1 & c1 & A & B & _). rewrite A in Hi. injection Hi as <- <-. exact B. }
    rewrite edist_lt. destruct (Rltb (dist2 x wi) (dist2 x wc)) eqn:El.
    + apply Rltb_true in El. assert (Jne : jc <> ji) by (intros ->; rewrite Hc in Hi; injection Hi as <- <-; congruence).
      assert (Lc : length x = length wc) by (symmetry; apply nth_error_In in Hc; eauto). assert (Li : length x = length wi) by (symmetry; apply nth_error_In in Hi; eauto).
      rewrite (update_vanilla cfg ws acc jc wc y x y) by auto. rewrite Z.eqb_refl. cbn [bind]. set (wc' := toward _ x wc). set (mid := set_nth ws jc (wc', y)).
      assert (Rm : replaced ws jc wc' mid) by (eapply set_nth_replaced; exact Hc). assert (Hi' : nth_error mid ji = Some (wi, ci)) by (destruct Rm as (_ & _ & R); rewrite R; auto).
      assert (Lc' : length wc' = length x) by (unfold wc'; rewrite toward_len; auto).
      rewrite (update_vanilla cfg mid acc ji wi ci x y) by auto. apply Z.eqb_neq in Eci. rewrite Eci. cbn [bind]. set (wi' := toward _ x wi). do 2 eexists. split; [reflexivity|].
      split; [right; exists jc, ji, wc, wi, ci, mid; repeat (split; [assumption|]); eapply set_nth_replaced; exact Hi'|]. split.
      * apply set_nth_width; [apply set_nth_width; auto|unfold wi'; rewrite toward_len; auto].
      * rewrite (set_nth_map_snd mid ji wi ci wi' Hi'). now apply (set_nth_map_snd ws jc wc y wc').
    + apply Rltb_false in El. do 2 eexists. split; [reflexivity|]. split; auto. left. exists jc, wc, y. split; auto. split; auto. split; auto. intros w c Hin Hne.
      destruct Ni as (w1 & c1 & A & B & C). rewrite A in Hi. injection Hi as -> ->. apply In_nth_error in Hin as (k & Hk). destruct (C k w c Hk Hne) as [D _]. lra.
  - do 2 eexists. split; [reflexivity|]. split; auto. left. exists jc, wc, y. split; auto. split; auto. split; auto. intros w c Hin Hne. specialize (NI _ _ Hin). apply Z.eqb_neq in Hne. rewrite Hne in NI. discriminate.
Qed.
Lemma optimize_steps cfg d rows : c_adadelta cfg = false -> forall ws acc vars, all_width d ws -> (forall x y, In (x, y) rows -> length x = d /\ In y (map snd ws)) ->
  exists ws', rs_optimize cfg (ws, acc) vars rows = Ok (ws', acc) /\ lvq_steps (c_sigma cfg) rows ws ws' /\ all_width d ws' /\ map snd ws' = map snd ws.
Proof.
  intros Ha. induction rows as [|[x y] r IH]; intros ws acc vars Hw Hr; cbn [rs_optimize].
  - exists ws. repeat split; auto. constructor.
  - destruct (Hr x y (or_introl eq_refl)) as [Lx Hy]. rewrite <- Lx in Hw. destruct (sample_step cfg ws acc vars x y Ha Hw Hy) as (ws1 & vars1 & E & S & W & C). rewrite E. cbn [bind].
    rewrite Lx in W. destruct (IH ws1 acc vars1 W) as (ws2 & E2 & S2 & W2 & C2); [rewrite C; intros; apply Hr; now right|]. exists ws2. repeat split; auto; [econstructor; eauto|congruence].
Qed.

(** *** What the step does to the distances *)
Lemma posterior_bounds sigma ws x w c : In (w, c) ws -> 0 < posterior sigma ws x w <= 1.
Proof.
  intros H. assert (Ne : ws <> []) by (intros ->; destruct H). pose proof (total_pos sigma x ws Ne) as T. pose proof (total_ge sigma x ws _ H) as G. cbn [fst] in G. unfold posterior. pose proof (exp_pos (- dist2 x w / (2 * sigma))) as P. fold (density sigma x w) in P.
  split; [apply Rdiv_lt_0_compat; auto|]. apply Rmult_le_reg_r with (total sigma x ws); auto. unfold Rdiv. rewrite Rmult_assoc, Rinv_l by lra. lra.
Qed.
Lemma pull_bounds sigma ws y x w wi ci : In (w, y) ws -> In (wi, ci) ws -> ci <> y -> 0 < posterior_in sigma ws y x w - posterior sigma ws x w < 1.
Proof.
  intros H Hi Hne. assert (Hf : In (w, y) (filter (fun p => Z.eqb (snd p) y) ws)) by (apply filter_In; split; auto; apply Z.eqb_refl).
  destruct (posterior_bounds sigma _ x w y Hf) as [A B]. change (posterior sigma (filter (fun p => Z.eqb (snd p) y) ws) x w) with (posterior_in sigma ws y x w) in A, B.
  destruct (posterior_bounds sigma ws x w y H) as [C D]. split; [|lra].
  unfold posterior_in, posterior in *. set (F := filter _ ws) in *. assert (NeF : F <> []) by (intros E; rewrite E in Hf; destruct Hf).
  pose proof (total_pos sigma x F NeF) as TF. rewrite (total_filter sigma x (fun p => Z.eqb (snd p) y) ws). fold F. set (G := filter (fun p => negb _) ws).
  assert (HG : In (wi, ci) G) by (apply filter_In; split; auto; cbn; apply negb_true_iff, Z.eqb_neq; auto). assert (TG : 0 < total sigma x G) by (apply total_pos; intros E; rewrite E in HG; destruct HG).
  pose proof (exp_pos (- dist2 x w / (2 * sigma))) as P. fold (density sigma x w) in P. apply Rlt_Rminus. apply Rmult_lt_compat_l; auto. apply Rinv_lt_contravar; [|lra]. apply Rmult_lt_0_compat; lra.
Qed.
(** A prototype that is not the nearest has less than half of the mass. *)
Lemma posterior_half sigma ws x w c wi ci : 0 < sigma -> In (w, c) ws -> In (wi, ci) ws -> dist2 x wi < dist2 x w -> posterior sigma ws x w < 1 / 2.
Proof.
  intros Hs H Hi Hd. assert (Ne : ws <> []) by (intros ->; destruct H). pose proof (total_pos sigma x ws Ne) as T.
  assert (D : density sigma x w < density sigma x wi). { apply exp_increasing. unfold Rdiv. apply Rmult_lt_compat_r; [apply Rinv_0_lt_compat; lra|lra]. }
  assert (G : density sigma x w + density sigma x wi <= total sigma x ws).
  { clear - H Hi Hd. unfold total. induction ws as [|q r IH]; [destruct H|]. cbn [map Rsum].
    assert (Z : 0 <= Rsum (map (fun p => density sigma x (fst p)) r)) by (apply Rsum_nonneg; intros v Hv; apply in_map_iff in Hv as (q' & <- & _); left; apply exp_pos).
    pose proof (exp_pos (- dist2 x (fst q) / (2 * sigma))) as P. fold (density sigma x (fst q)) in P.
    destruct H as [->|H]; destruct Hi as [Ei|Hi].
    - injection Ei as -> ->. lra.
    - cbn [fst]. pose proof (total_ge sigma x r _ Hi) as G. unfold total in G. cbn [fst] in G. lra.
    - subst q. cbn [fst]. pose proof (total_ge sigma x r _ H) as G. unfold total in G. cbn [fst] in G. lra.
    - specialize (IH H Hi). lra. }
  unfold posterior. apply Rmult_lt_reg_r with (total sigma x ws); auto. unfold Rdiv at 1. rewrite Rmult_assoc, Rinv_l by lra. lra.
Qed.
