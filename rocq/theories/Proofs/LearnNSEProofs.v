(** Proofs about Learn++.NSE (Model/LearnNSE.v). *)
From Coq Require Import List ZArith Bool Arith Lia Reals Lra Psatz.
From Verif Require Import Base.Py Base.Num Model.Adwin Model.Knn Model.LearnPP Model.LearnNSE Spec.Lists Spec.NaiveBayesSpec Spec.WindowedSpec Spec.LearnNSESpec
  Proofs.ListFacts Proofs.KnnProofs Proofs.WindowedProofs.
From Verif Require Proofs.MetricsScores Proofs.LearnPPProofs.
Import ListNotations.

(** *** Lists *)
Lemma subseq_refl {A} (l : list A) : subseq l l.
Proof. induction l; constructor; auto. Qed.
Lemma subseq_app {A} (a b c d : list A) : subseq a b -> subseq c d -> subseq (a ++ c) (b ++ d).
Proof. induction 1; cbn [app]; intros; [assumption| |]; constructor; auto. Qed.
Lemma subseq_trans {A} (a b c : list A) : subseq a b -> subseq b c -> subseq a c.
Proof.
  intros H1 H2; revert a H1; induction H2 as [|x b c H IH|x b c H IH]; intros a H1; [exact H1| |constructor; auto].
  inversion H1; subst; constructor; auto.
Qed.
Lemma subseq_remove {A} i (l : list A) : subseq (remove_at i l) l.
Proof.
  unfold remove_at. revert i; induction l as [|x l IH]; intros i; [destruct i; constructor|]. destruct i as [|i]; cbn [firstn skipn app]; [apply sub_skip, subseq_refl|apply sub_keep, IH].
Qed.
Lemma remove_length {A} i (l : list A) : i < length l -> length (remove_at i l) = length l - 1.
Proof. intros H; unfold remove_at. rewrite app_length, firstn_length, skipn_length; lia. Qed.
Lemma F2_remove {A C} (P : A -> C -> Prop) l l' : Forall2 P l l' -> forall i, Forall2 P (remove_at i l) (remove_at i l').
Proof. unfold remove_at. induction 1 as [|a c l l' H F IH]; intros [|i]; cbn [firstn skipn app]; auto. constructor; [exact H|apply IH]. Qed.
Lemma F2_impl {A C} (P Q : A -> C -> Prop) l l' : (forall a c, In a l -> P a c -> Q a c) -> Forall2 P l l' -> Forall2 Q l l'.
Proof. intros H F; induction F; constructor; [apply H; [left; reflexivity|assumption]|apply IHF; intros; apply H; [right|]; assumption]. Qed.
Lemma ends_snoc {A} (l : list A) x : ends (l ++ [x]) = map (fun h => h ++ [x]) (ends l) ++ [[x]].
Proof. induction l as [|a l IH]; [reflexivity|]. cbn [app ends map]. rewrite IH. reflexivity. Qed.
Lemma ends_length {A} (l : list A) : length (ends l) = length l.
Proof. induction l; cbn [ends length]; congruence. Qed.
Fixpoint stairs {A} (l : list (list A)) : Prop := match l with [] => True | h :: r => length h = S (length r) /\ stairs r end.
Lemma ends_stairs {A} (l : list A) : stairs (ends l).
Proof. induction l; cbn [ends stairs]; [exact I|]. split; [cbn [length]; rewrite ends_length; reflexivity|assumption]. Qed.
Lemma stairs_skipn {A} n (l : list (list A)) : stairs l -> stairs (skipn n l).
Proof. revert n; induction l as [|h l IH]; intros [|n] H; cbn [skipn]; auto. destruct H as [_ H]; auto. Qed.
Lemma map_lastn {A C} (f : A -> C) n l : map f (lastn n l) = lastn n (map f l).
Proof. unfold lastn. rewrite map_length. generalize (length l - n) as i. induction l as [|a l IH]; intros [|i]; cbn [skipn map]; auto. Qed.

(** *** Windows, for every number type *)
Section Windows.
Context {X T B : Type} {N : Num T} (L : nlearner X T B) (base : B) (w : nat) (slope crossing : T) (n : nat) (prune : pruning).
Lemma judge_est t k win cl iw m m' e b : train L base win cl = Ok b -> judge L base slope crossing t k win cl iw m = Ok (m', e) ->
  (k <> t -> m_est m' = m_est m) /\ (m_est m = b -> m_est m' = b).
Proof.
  intros Tb H. unfold judge in H. apply bind_Ok in H; destruct H as [ps [Ep H]]. destruct (negb _); [discriminate|]. cbv zeta in H.
  apply bind_Ok in H; destruct H as [[est ek] [E H]]. injection H as <- _. cbn [m_est]. destruct (_ <? _)%num; [|injection E as <- _; auto].
  destruct (Nat.eqb_spec k t) as [Ek|Ek]; [|injection E as <- _; auto]. rewrite Tb in E; cbn [bind] in E; injection E as <- _. split; [congruence|reflexivity].
Qed.
Fixpoint worst_of (k : nat) (worst : option (nat * T)) (es : list T) : option nat :=
  match es with
  | [] => option_map fst worst
  | e :: r => worst_of (S k) (match worst with Some (_, e') => if (e' <? e)%num then Some (k - 1, e) else worst | None => Some (k - 1, e) end) r
  end.
Lemma judge_all_ok t win cl iw ms : forall k worst ms' i, judge_all L base slope crossing t k win cl iw worst ms = (ms', i, None) ->
  exists es, Forall2 (fun km me => judge L base slope crossing t (fst km) win cl iw (snd km) = Ok me) (combine (seq k (length ms)) ms) (combine ms' es) /\ length es = length ms /\ length ms' = length ms /\ i = worst_of k worst es.
Proof.
  induction ms as [|m ms IH]; intros k worst ms' i H; cbn [judge_all] in H; [injection H as <- <-; exists []; repeat split; constructor|].
  destruct (judge L base slope crossing t k win cl iw m) as [[m1 e1]|] eqn:E; [|discriminate].
  destruct (judge_all _ _ _ _ _ _ _ _ _ _ ms) as [[r' i'] x] eqn:Er. injection H as <- <- ->. apply IH in Er. destruct Er as (es & F & L1 & L2 & Ew).
  exists (e1 :: es). cbn [length seq combine]. split; [constructor; [exact E|exact F]|]. repeat split; try congruence. exact Ew.
Qed.
Lemma worst_lt es : forall k worst, (forall i e, worst = Some (i, e) -> i < k - 1 + length es) -> (es <> [] \/ worst <> None) -> 0 < k -> exists i, worst_of k worst es = Some i /\ i < k - 1 + length es.
Proof.
  induction es as [|e es IH]; intros k worst Hw Hn Hk; cbn [worst_of length] in *.
  - destruct worst as [[i e]|]; [|destruct Hn; congruence]. exists i; split; [reflexivity|]. apply (Hw i e eq_refl).
  - destruct (IH (S k) (match worst with Some (_, e') => if (e' <? e)%num then Some (k - 1, e) else worst | None => Some (k - 1, e) end)) as (i & E & Hi); [|right; destruct worst as [[]|]; [destruct (_ <? _)%num|]; discriminate|lia|].
    + intros i e' E. destruct worst as [[i0 e0]|]; [destruct (e0 <? e)%num|]; injection E as <- <-; [lia| |lia]. specialize (Hw i0 e0 eq_refl). lia.
    + exists i; split; [exact E|lia].
Qed.
Definition trained_on (cl : list Z) (win : list (X * Z)) (m : member T B) : Prop := train L base win cl = Ok (m_est m).
Lemma absorb_split s cl win ms' : absorb L base slope crossing n prune s cl win = (ms', None) ->
  exists iw b es ms1, train L base win cl = Ok b /\
    match ns_members s with
    | [] => iw = uniform_weights win
    | _ => exists votes, nse_predict L s (map fst win) = Ok votes /\ iw = instance_weights (map (fun vy => (Z.of_nat (fst vy) =? snd vy)%Z) (combine votes (map snd win)))
    end /\
    let ms := map unweighed (ns_members s) ++ [mk_member b [] [] None] in
    Forall2 (fun km me => judge L base slope crossing (length ms) (fst km) win cl iw (snd km) = Ok me) (combine (seq 1 (length ms)) ms) (combine ms1 es) /\ length es = length ms /\ length ms1 = length ms /\
    ms' = pruned n prune (worst_of 1 None es) ms1.
Proof.
  intros H. unfold absorb in H. destruct (bind _ _) as [[iw b]|] eqn:E; [|discriminate]. apply bind_Ok in E; destruct E as [iw' [Ei E]]. apply bind_Ok in E; destruct E as [b' [Eb E]]. injection E as -> ->.
  cbv zeta in H. destruct (judge_all _ _ _ _ _ _ _ _ _ _ _) as [[ms1 worst] [e|]] eqn:Ej; [discriminate|]. injection H as <-.
  apply judge_all_ok in Ej. destruct Ej as (es & F & L1 & L2 & ->). exists iw, b, es, ms1. split; [exact Eb|]. split; [|repeat split; assumption].
  destruct (ns_members s); [injection Ei as <-; reflexivity|]. apply bind_Ok in Ei; destruct Ei as [v [Ev Ei]]. injection Ei as <-. eauto.
Qed.
Lemma F2_judged {A} (P Q : A -> member T B -> Prop) t win cl iw : forall (ms : list (member T B)) k hs ms1 es, Forall2 P hs ms -> length es = length ms ->
  Forall2 (fun km me => judge L base slope crossing t (fst km) win cl iw (snd km) = Ok me) (combine (seq k (length ms)) ms) (combine ms1 es) -> length ms1 = length ms ->
  (forall i h m m' e, nth_error hs i = Some h -> nth_error ms i = Some m -> P h m -> judge L base slope crossing t (k + i) win cl iw m = Ok (m', e) -> Q h m') -> Forall2 Q hs ms1.
Proof.
  intros ms k hs ms1 es F; revert k ms1 es; induction F as [|h m hs ms Ph F IH]; intros k ms1 es Le J L1 Step; cbn [length] in *; [destruct ms1; [constructor|discriminate]|].
  destruct ms1 as [|m1 ms1]; [discriminate|]. destruct es as [|e es]; [discriminate|]. cbn [seq combine length] in *. inversion J as [|? ? ? ? J1 J2]; subst. cbn [fst snd] in J1. constructor.
  - eapply (Step 0); [reflexivity|reflexivity|exact Ph|rewrite Nat.add_0_r; exact J1].
  - eapply (IH (S k)); [|exact J2| |]; [lia|lia|]. intros i h' m' m2 e' H1 H2 Ph' Jg. apply (Step (S i) h' m' m2 e'); auto. replace (k + S i) with (S k + i) by lia. exact Jg.
Qed.
Lemma pruned_kept {A} (ws kw : list A) win (P : A -> member T B -> Prop) es ms1 : kept prune n ws kw -> Forall2 P (kw ++ [win]) ms1 -> length es = length ms1 ->
  exists kw', kept prune n (ws ++ [win]) kw' /\ Forall2 P kw' (pruned n prune (worst_of 1 None es) ms1).
Proof.
  intros K F Le. pose proof (F2_len _ _ _ F) as Lf. rewrite app_length in Lf; cbn [length] in Lf. unfold pruned. destruct prune eqn:Ep; cbn [kept] in *.
  - subst kw. exists (ws ++ [win]); split; [reflexivity|]. destruct (Nat.ltb _ _); exact F.
  - subst kw. exists (lastn n (ws ++ [win])); split; [reflexivity|]. apply Forall2_app_inv_l in F. destruct F as (l & l' & F1 & F2 & ->). inversion F2 as [|? x ? ? Px F3]; subst. inversion F3; subst.
    pose proof (LearnPPProofs.evict_ok 1 (Nat.lt_0_succ 0) P n ws win l x F1 Px) as Ev. destruct (Nat.ltb n (length (l ++ [x]))); exact Ev.
  - destruct K as [Sk Lk]. destruct (worst_lt es 1 None) as (i & -> & Hi); [discriminate|left; destruct es; [cbn in Le; lia|discriminate]|lia|].
    destruct (Nat.ltb_spec n (length ms1)) as [Hg|Hg].
    + exists (remove_at i (kw ++ [win])). split; [|apply F2_remove; exact F]. split; [eapply subseq_trans; [apply subseq_remove|apply subseq_app; [exact Sk|apply subseq_refl]]|].
      rewrite remove_length by (rewrite app_length; cbn [length]; lia). rewrite !app_length; cbn [length]. lia.
    + exists (kw ++ [win]). split; [|exact F]. split; [apply subseq_app; [exact Sk|apply subseq_refl]|]. rewrite !app_length; cbn [length]. lia.
Qed.
Lemma absorb_windows s cl ws kw win ms' : kept prune n ws kw -> Forall2 (trained_on cl) kw (ns_members s) -> absorb L base slope crossing n prune s cl win = (ms', None) ->
  exists kw', kept prune n (ws ++ [win]) kw' /\ Forall2 (trained_on cl) kw' ms'.
Proof.
  intros K F H. apply absorb_split in H. destruct H as (iw & b & es & ms1 & Tb & _ & J & Le & L1 & ->). cbv zeta in *. set (ms := map unweighed (ns_members s) ++ [mk_member b [] [] None]) in *.
  apply (pruned_kept ws kw); [exact K| |congruence].
  assert (F0 : Forall2 (trained_on cl) (kw ++ [win]) ms).
  { apply F2_app; [|constructor; [exact Tb|constructor]]. clear -F. induction F as [|a c l l' H F IH]; constructor; auto. }
  eapply (F2_judged (trained_on cl) (trained_on cl) (length ms) win cl iw ms 1); [exact F0|exact Le|exact J|exact L1|].
  intros i h m m' e Eh Em P Jg. destruct (judge_est _ _ _ _ _ _ _ _ _ Tb Jg) as [J1 J2]. unfold trained_on in *.
  assert (Hl : i < length ms) by (apply nth_error_Some; congruence). destruct (Nat.eq_dec (1 + i) (length ms)) as [E|E]; [|rewrite J1 by exact E; exact P].
  assert (Lm : length ms = S (length (ns_members s))) by (unfold ms; rewrite app_length, map_length; cbn [length]; lia).
  assert (Em' : m = mk_member b [] [] None). { unfold ms in Em. rewrite nth_error_app2 in Em by (rewrite map_length; lia). rewrite map_length in Em. replace (i - length (ns_members s)) with 0 in Em by lia. injection Em as <-; reflexivity. }
  assert (Eh' : h = win). { assert (length kw = length (ns_members s)) by (eapply F2_len; exact F). rewrite nth_error_app2 in Eh by lia. replace (i - length kw) with 0 in Eh by lia. injection Eh as <-; reflexivity. }
  subst h. rewrite J2; [exact Tb|subst m; reflexivity].
Qed.
Hypothesis W : 0 < w.
Definition nse_ok (rows : list (X * Z)) (s : nse X T B) : Prop := ns_frozen s = false /\ exists ws kw, cut w rows ws (ns_win s) /\ kept prune n ws kw /\
  match ns_classes s with None => rows = [] /\ ns_members s = [] | Some c => Forall2 (trained_on (fst c)) kw (ns_members s) end.
Lemma nse_rows_ok c rows2 : forall rows s s', ns_classes s = Some c -> nse_ok rows s -> nse_rows L base w slope crossing n prune rows2 (fst c) s = (s', None) -> nse_ok (rows ++ rows2) s' /\ ns_classes s' = Some c.
Proof.
  induction rows2 as [|row rows2 IH]; intros rows s s' Ec (Fz & ws & kw & C & K & M) H; cbn [nse_rows] in H.
  - injection H as <-. rewrite app_nil_r. split; [split; [exact Fz|exists ws, kw; auto]|exact Ec].
  - rewrite Fz in H. cbv zeta in H. rewrite Ec in M, H. destruct (Nat.eqb_spec (length (ns_win s ++ [row])) w) as [E|E].
    + destruct (absorb _ _ _ _ _ _ _ _ _) as [ms [e|]] eqn:Ea; [discriminate|]. apply (absorb_windows s (fst c) ws kw) in Ea; auto. destruct Ea as (kw' & K' & M').
      apply (IH (rows ++ [row])) in H; [rewrite <- app_assoc in H; exact H|reflexivity|]. split; [reflexivity|]. exists (ws ++ [ns_win s ++ [row]]), kw'. split; [apply cut_full; auto|]. split; [exact K'|]. exact M'.
    + apply (IH (rows ++ [row])) in H; [rewrite <- app_assoc in H; exact H|reflexivity|]. split; [reflexivity|]. exists ws, kw. split; [apply cut_more; auto|]. split; [exact K|exact M].
Qed.
Lemma kept_nil {A} : @kept A prune n [] [].
Proof. destruct prune; cbn [kept]; [reflexivity|unfold lastn; reflexivity|]. split; [constructor|symmetry; apply Nat.min_0_r]. Qed.
Lemma cut_nil_inv {A} (ws : list (list A)) rest : cut w [] ws rest -> ws = [] /\ rest = [].
Proof. intros (E & F & H). destruct ws as [|a ws]; [split; [reflexivity|symmetry; exact E]|]. apply Forall_inv in F. destruct a; [cbn in F; lia|discriminate]. Qed.
Lemma kept_nil_inv {A} (kw : list A) : kept prune n [] kw -> kw = [].
Proof. destruct prune; cbn [kept]; [auto|unfold lastn; auto|]. intros [H _]; inversion H; reflexivity. Qed.
Lemma nse_fit_ok rows rows2 classes s s' : nse_ok rows s -> nse_partial_fit L base w slope crossing n prune rows2 classes s = (s', None) -> nse_ok (rows ++ rows2) s'.
Proof.
  intros K H. unfold nse_partial_fit in H. destruct (ns_classes s) as [c|] eqn:Ec; [eapply nse_rows_ok in H; [apply H|exact Ec|exact K]|].
  destruct classes as [c|]; [|discriminate]. eapply nse_rows_ok in H; [apply H|reflexivity|]. destruct K as (Fz & ws & kw & C & K & M). rewrite Ec in M. destruct M as [-> Em].
  split; [exact Fz|]. exists ws, kw. split; [exact C|]. split; [exact K|]. cbn [ns_classes ns_members]. rewrite Em. apply cut_nil_inv in C. destruct C as [-> _]. apply kept_nil_inv in K as ->. constructor.
Qed.
Lemma nse_reset_ok s : nse_ok [] (nse_reset s).
Proof.
  split; [reflexivity|]. exists [], []. split; [apply cut_nil; exact W|]. split; [apply kept_nil|]. cbn [nse_reset ns_classes ns_members]. destruct (ns_classes s); [constructor|auto].
Qed.
Lemma nse_run_ok os : forall rows s s' es, nse_ok rows s -> nse_run L base w slope crossing n prune s os = (s', es) -> Forall (fun e => e = None) es -> nse_ok (nse_given rows os) s'.
Proof.
  induction os as [|o os IH]; intros rows s s' es K H F; cbn [nse_run nse_given] in *; [injection H as <- _; exact K|].
  destruct (nse_step _ _ _ _ _ _ _ s o) as [s1 e] eqn:E. destruct (nse_run _ _ _ _ _ _ _ s1 os) as [s2 es2] eqn:Er. injection H as <- <-. inversion F as [|? ? He F2]; subst.
  destruct o as [rs cl|]; cbn [nse_step] in E.
  - eapply IH; [|exact Er|exact F2]. eapply nse_fit_ok; eauto.
  - injection E as <-. eapply IH; [apply nse_reset_ok|exact Er|exact F2].
Qed.
(** A frozen window refuses every row. *)
Lemma frozen_run os : forall s s' es, ns_frozen s = true -> Forall (fun o => o <> NReset) os -> nse_run L base w slope crossing n prune s os = (s', es) ->
  ns_members s' = ns_members s /\ ns_frozen s' = true /\ Forall2 (fun o e => match o with NFit (_ :: _) _ => e = Some AttributeError \/ e = Some RuntimeError | _ => True end) os es.
Proof.
  induction os as [|o os IH]; intros s s' es Fz Fo H; cbn [nse_run] in H; [injection H as <- <-; repeat split; [exact Fz|constructor]|]. inversion Fo as [|? ? Ho Fo']; subst.
  destruct (nse_step _ _ _ _ _ _ _ s o) as [s1 e] eqn:E. destruct (nse_run _ _ _ _ _ _ _ s1 os) as [s2 es2] eqn:Er. injection H as <- <-.
  destruct o as [rows c|]; [|congruence]. cbn [nse_step] in E.
  assert (P : ns_members s1 = ns_members s /\ ns_frozen s1 = true /\ (rows <> [] -> e = Some AttributeError \/ e = Some RuntimeError)).
  { unfold nse_partial_fit in E. destruct (ns_classes s) as [k|], c as [c|]; destruct rows as [|r rows]; cbn [nse_rows ns_frozen] in E; rewrite ?Fz in E; injection E as <- <-; cbn [ns_members ns_frozen]; repeat split; auto; congruence. }
  destruct P as (P1 & P2 & P3). eapply IH in Er; eauto. destruct Er as (R1 & R2 & R3). split; [congruence|]. split; [exact R2|]. constructor; [destruct rows; [exact I|apply P3; discriminate]|exact R3].
Qed.
End Windows.

(** *** What members remember, over the real numbers *)
Local Open Scope R_scope.
Lemma wrong_weight_R iw ps ys : wrong_weight iw ps ys = wrong iw ps ys.
Proof.
  unfold wrong_weight, wrong. rewrite LearnPPProofs.fold_sum_R. f_equal. apply map_ext. intros [d [p y]]; cbn [fst snd]. destruct (Z.eqb_spec p y), (Z.eq_dec p y); try contradiction; reflexivity.
Qed.
Lemma sigmoid_R slope crossing t k : (k <= t)%nat -> sigmoid slope crossing t k = influence slope crossing (t - k).
Proof.
  intros H. unfold sigmoid, influence, n1, n0; cbn [nadd nsub nmul ndiv nofZ nexp NumR]. rewrite <- Nat2Z.inj_sub by exact H. rewrite <- INR_IZR_INZ. do 4 f_equal. lra.
Qed.
Lemma records_snoc slope crossing ages a : forall acc, records slope crossing acc (ages ++ [a]) =
  let r := records slope crossing acc ages in r ++ [influence slope crossing a / (Rsum r + influence slope crossing a)].
Proof. induction ages as [|b ages IH]; intros acc; cbn [app records]; [reflexivity|apply IH]. Qed.
Lemma Ok_pair {A C} (a c : A) (b d : C) : Ok (a, b) = Ok (c, d) -> a = c /\ b = d.
Proof. intros H; injection H; auto. Qed.
Lemma half_R : (n1 / nofZ 2)%num = 1 / 2 :> R.
Proof. reflexivity. Qed.
Section Real.
Context {X B : Type} (L : nlearner X R B) (base : B) (w : nat) (slope crossing : R) (n : nat) (prune : pruning).
Notation rem := (remembers L base).
Lemma judge_R t k win cl iw m m' e : (k <= t)%nat -> judge L base slope crossing t k win cl iw m = Ok (m', e) ->
  exists ps, nl_predict L (m_est m) (map fst win) = Ok ps /\ length ps = length win /\
    let E := wrong iw ps (map snd win) in
    e = (if Nat.eqb k t then E else Rmin E (1 / 2)) /\ m_bkts m' = m_bkts m ++ [e / (1 - e)] /\
    m_wkts m' = m_wkts m ++ [influence slope crossing (t - k) / (Rsum (m_wkts m) + influence slope crossing (t - k))] /\
    m_weight m' = Some (ln (1 / (Rsum (map (fun bw => fst bw * snd bw) (combine (m_bkts m') (m_wkts m'))) + 1 / 10 ^ 50))).
Proof.
  intros Hk H. unfold judge in H. apply bind_Ok in H; destruct H as [ps [Ep H]]. destruct (Nat.eqb_spec (length ps) (length win)) as [El|El]; [|discriminate]. cbn [negb] in H. cbv zeta in H.
  apply bind_Ok in H; destruct H as [[est ek] [E H]]. apply Ok_pair in H; destruct H as [<- <-]. cbn [m_bkts m_wkts m_weight]. exists ps. split; [exact Ep|]. split; [exact El|]. cbv zeta.
  rewrite !LearnPPProofs.fold_sum_R, LearnPPProofs.tiny_R, sigmoid_R by exact Hk. rewrite wrong_weight_R, half_R in E. cbn [nltb NumR] in E. split; [|repeat split].
  revert E; rdes; intros Eq; [|injection Eq as _ <-; destruct (Nat.eqb k t); [reflexivity|symmetry; apply Rmin_left; lra]].
  destruct (Nat.eqb k t); [|injection Eq as _ <-; symmetry; apply Rmin_right; lra]. apply bind_Ok in Eq; destruct Eq as [b [_ Eq]]. injection Eq as _ <-; reflexivity.
Qed.
Lemma judge_new t win cl iw b m' e : train L base win cl = Ok b -> judge L base slope crossing t t win cl iw (mk_member b [] [] None) = Ok (m', e) -> rem cl slope crossing [(win, iw)] m'.
Proof.
  intros Tb H. destruct (judge_est L base slope crossing _ _ _ _ _ _ _ _ _ Tb H) as [_ Je]. cbn [m_est] in Je. specialize (Je eq_refl).
  apply judge_R in H; [|lia]. destruct H as (ps & Ep & El & Ee & Eb & Ew & Ewt). cbn [m_est m_bkts m_wkts app] in *. rewrite Nat.eqb_refl in Ee. rewrite Nat.sub_diag in Ew.
  cbn [remembers]. rewrite Je. split; [exact Tb|]. split; [|split; [exact Ew|exact Ewt]]. exists (e / (1 - e)), []. split; [exact Eb|]. split; [|constructor]. exists ps. cbn [fst snd]. rewrite <- Ee. auto.
Qed.
Lemma judge_old t k win cl iw b h m0 m' e : train L base win cl = Ok b -> (k < t)%nat -> length h = (t - k)%nat -> rem cl slope crossing h m0 -> judge L base slope crossing t k win cl iw (unweighed m0) = Ok (m', e) ->
  rem cl slope crossing (h ++ [(win, iw)]) m'.
Proof.
  intros Tb Hk Lh Rm H. destruct (judge_est L base slope crossing _ _ _ _ _ _ _ _ _ Tb H) as [Je _]. specialize (Je ltac:(lia)). cbn [unweighed m_est] in Je.
  apply judge_R in H; [|lia]. destruct H as (ps & Ep & El & Ee & Eb & Ew & Ewt). cbn [unweighed m_est m_bkts m_wkts] in *.
  destruct (Nat.eqb_spec k t); [lia|]. destruct h as [|own later]; [contradiction|]. cbn [app remembers] in *. destruct Rm as (R1 & (b0 & bs & R2 & R3 & R4) & R5 & R6). rewrite Je. split; [exact R1|]. split.
  - exists b0, (bs ++ [e / (1 - e)]). split; [rewrite Eb, R2; reflexivity|]. split; [exact R3|]. apply F2_app; [exact R4|]. constructor; [|constructor]. exists ps. cbn [fst snd]. rewrite <- Ee. auto.
  - split; [|exact Ewt]. rewrite Ew, R5. change (own :: later ++ [(win, iw)]) with ((own :: later) ++ [(win, iw)]). rewrite app_length, seq_app. cbn [length Nat.add seq] in *. rewrite records_snoc. cbv zeta. rewrite <- Lh. reflexivity.
Qed.
Lemma stairs_nth {A} (hs : list (list A)) : stairs hs -> forall i h, nth_error hs i = Some h -> length h = (length hs - i)%nat.
Proof.
  induction hs as [|h0 hs IH]; intros S i h E; [destruct i; discriminate|]. cbn [stairs] in S. destruct S as [S1 S2]. destruct i as [|i]; cbn [nth_error length] in *; [injection E as <-; lia|]. apply IH in E; auto. 
Qed.
Lemma instance_weights_ok right : penalized right (instance_weights right).
Proof.
  unfold instance_weights, penalized. cbv zeta. rewrite LearnPPProofs.fold_sum_R. unfold n0, n1; cbn [nofZ ndiv nltb NumR]. rewrite <- !INR_IZR_INZ.
  assert (Ec : length (filter negb right) = count_occ Bool.bool_dec right false).
  { clear. induction right as [|b r IH]; [reflexivity|]. cbn [filter negb count_occ]. destruct b; cbn [negb]; [destruct (Bool.bool_dec true false); [discriminate|exact IH]|destruct (Bool.bool_dec false false); [|congruence]; cbn [length]; rewrite IH; reflexivity]. }
  rewrite Ec. set (c := count_occ Bool.bool_dec right false). set (m := INR (length right)). set (E := INR c / m).
  assert (Sum : Rsum (map (fun r : bool => if r then E / m else 1 / m) right) = (INR (length right) - INR c) * (E / m) + INR c * (1 / m)).
  { unfold c. generalize (E / m) as u, (1 / m) as v. intros u v. clear. induction right as [|b r IH]; cbn [map Rsum length count_occ]; [cbn [INR]; lra|]. rewrite S_INR. rewrite IH.
    destruct b; [destruct (Bool.bool_dec true false); [discriminate|lra]|destruct (Bool.bool_dec false false); [|congruence]; rewrite S_INR; lra]. }
  rewrite Sum. assert (Hc : (c <= length right)%nat) by (apply count_occ_bound). assert (Hm : 0 <= m) by apply pos_INR. assert (Hcm : INR c <= m) by (apply le_INR; exact Hc). fold m.
  destruct (Req_EM_T E 0) as [E0|E0].
  - rewrite E0. assert (C0 : INR c * (1 / m) = 0). { unfold E in E0. unfold Rdiv in *. lra. } rewrite C0. replace ((m - INR c) * (0 / m) + 0) with 0 by (unfold Rdiv; lra). destruct (Rltb 0 0) eqn:El; rcase; [lra|].
    split; [apply map_length|]. apply Forall_map, Forall_forall. intros b I. destruct b; [unfold Rdiv; lra|]. assert (Cp : (0 < c)%nat) by (apply count_occ_In; exact I). exfalso.
    assert (0 < INR c) by (apply lt_0_INR; exact Cp). assert (0 < 1 / m) by (apply Rmult_lt_0_compat; [lra|apply Rinv_0_lt_compat; lra]). assert (0 < INR c * (1 / m)) by (apply Rmult_lt_0_compat; assumption). lra.
  - assert (Cp : 0 < INR c). { destruct (Req_dec (INR c) 0) as [Z0|Z0]; [exfalso; apply E0; unfold E; rewrite Z0; unfold Rdiv; lra|]. assert (0 <= INR c) by apply pos_INR. lra. }
    assert (Mp : 0 < m) by lra. assert (Ep : 0 < E) by (apply Rmult_lt_0_compat; [exact Cp|apply Rinv_0_lt_compat; exact Mp]). assert (Ip : 0 < 1 / m) by (apply Rmult_lt_0_compat; [lra|apply Rinv_0_lt_compat; exact Mp]).
    assert (Sp : 0 < (m - INR c) * (E / m) + INR c * (1 / m)).
    { assert (0 <= (m - INR c) * (E / m)) by (apply Rmult_le_pos; [lra|apply Rmult_le_pos; [lra|left; apply Rinv_0_lt_compat; exact Mp]]). assert (0 < INR c * (1 / m)) by (apply Rmult_lt_0_compat; assumption). lra. }
    destruct (Rltb 0 _) eqn:El; rcase; [|lra]. split; [rewrite !map_length; reflexivity|]. set (s := (m - INR c) * (E / m) + INR c * (1 / m)) in *. split.
    + assert (Q : forall l k, Rsum (map (fun d => d / k) l) = Rsum l / k) by (intros l k; induction l as [|a l IH]; cbn [map Rsum]; [unfold Rdiv; lra|rewrite IH; unfold Rdiv; lra]).
      rewrite Q, Sum. fold m. fold s. field. lra.
    + exists (1 / m / s). split; [apply Rmult_lt_0_compat; [exact Ip|apply Rinv_0_lt_compat; exact Sp]|]. intros i Hi. rewrite map_map.
      rewrite (nth_indep _ 0 ((if false then E / m else 1 / m) / s)) by (rewrite map_length; exact Hi). pose proof (map_nth (fun x : bool => (if x then E / m else 1 / m) / s) right false i) as Mn. cbn beta iota in Mn. rewrite Mn. destruct (nth i right false); field; split; lra.
Qed.
Definition rec_ok (rows : list (X * Z)) (s : nse X R B) : Prop := ns_frozen s = false /\ exists ws Ds, cut w rows ws (ns_win s) /\ length Ds = length ws /\
  match ns_classes s with
  | None => rows = [] /\ ns_members s = []
  | Some c => members_after L base (fst c) slope crossing prune n (combine ws Ds) (ns_members s) /\
      forall pre WD post, combine ws Ds = pre ++ WD :: post -> exists ms, members_after L base (fst c) slope crossing prune n pre ms /\ weighs L c ms WD
  end.
Lemma kept_stairs {A} (hist : list A) hs : prune <> ByError -> kept prune n (ends hist) hs -> stairs hs.
Proof. intros Np K. destruct prune; cbn [kept] in K; [subst; apply ends_stairs|subst; apply stairs_skipn, ends_stairs|congruence]. Qed.
Lemma absorb_records s c hist win ms' : prune <> ByError -> ns_classes s = Some c -> members_after L base (fst c) slope crossing prune n hist (ns_members s) -> absorb L base slope crossing n prune s (fst c) win = (ms', None) ->
  exists iw, weighs L c (ns_members s) (win, iw) /\ members_after L base (fst c) slope crossing prune n (hist ++ [(win, iw)]) ms'.
Proof.
  intros Np Ec (hs & K & F) H. apply absorb_split in H. destruct H as (iw & b & es & ms1 & Tb & Wi & J & Le & L1 & ->). cbv zeta in *. exists iw. split.
  { unfold weighs. cbn [fst snd]. destruct (ns_members s) as [|m0 ms0] eqn:Em; [rewrite Wi; unfold uniform_weights, n1; cbn [nofZ ndiv NumR]; rewrite <- INR_IZR_INZ; reflexivity|].
    destruct Wi as (votes & Ev & ->). exists votes. split; [|apply instance_weights_ok]. rewrite <- Ev. unfold nse_predict, nse_proba. cbn [ns_members ns_classes]. rewrite Em, Ec. reflexivity. }
  set (ms := map unweighed (ns_members s) ++ [mk_member b [] [] None]) in *. unfold members_after. rewrite ends_snoc.
  pose proof (kept_stairs _ _ Np K) as St. pose proof (F2_len _ _ _ F) as Lh. assert (Lm : length ms = S (length hs)) by (unfold ms; rewrite app_length, map_length; cbn [length]; lia).
  apply (pruned_kept n prune (map (fun h => h ++ [(win, iw)]) (ends hist)) (map (fun h => h ++ [(win, iw)]) hs)); [|clear K|congruence].
  { clear -K Np. destruct prune; cbn [kept] in *; [subst; reflexivity|subst; apply map_lastn|congruence]. }
  assert (F0 : Forall2 (fun h m => match h with [] => m = mk_member b [] [] None | _ => exists m0, m = unweighed m0 /\ rem (fst c) slope crossing h m0 end) (hs ++ [[]]) ms).
  { apply F2_app; [|constructor; [reflexivity|constructor]]. clear -F. induction F as [|h m l l' H F IH]; cbn [map]; constructor; [|exact IH]. destruct h; [contradiction|eauto]. }
  assert (F1 : Forall2 (fun h m => rem (fst c) slope crossing (h ++ [(win, iw)]) m) (hs ++ [[]]) ms1).
  { eapply (F2_judged L base slope crossing _ _ (length ms) win (fst c) iw ms 1); [exact F0|exact Le|exact J|exact L1|]. intros i h m m' e Eh Em P Jg.
    assert (Hi : (i < length ms)%nat) by (apply nth_error_Some; congruence). destruct h as [|own later].
    - subst m. cbn [app]. destruct (Nat.eq_dec i (length hs)) as [Ei|Ei].
      + replace (1 + i)%nat with (length ms) in Jg by lia. eapply judge_new; eauto.
      + exfalso. rewrite nth_error_app1 in Eh by lia. apply nth_error_In in Eh. clear -F Eh. induction F as [|h m l l' H F IH]; [destruct Eh|]. destruct Eh as [->|Eh]; [exact H|auto].
    - destruct P as (m0 & -> & Rm). assert (Hi2 : (i < length hs)%nat).
      { destruct (Nat.lt_ge_cases i (length hs)) as [|Hg]; [assumption|]. rewrite nth_error_app2 in Eh by exact Hg. destruct (i - length hs)%nat as [|k]; [discriminate|destruct k; discriminate]. }
      rewrite nth_error_app1 in Eh by exact Hi2. eapply judge_old; [exact Tb| | |exact Rm|exact Jg]; [lia|]. rewrite (stairs_nth hs) with (i := i) (h := own :: later); [lia| |exact Eh].
      clear -Np St. exact St. }
  clear -F1. change [[(win, iw)]] with (map (fun h : list (list (X * Z) * list R) => h ++ [(win, iw)]) [[]]). rewrite <- map_app.
  induction F1 as [|h m l l' H F IH]; cbn [map]; constructor; assumption.
Qed.
Hypothesis W : (0 < w)%nat.
Lemma app_snoc_split {A} (l : list A) x pre y post : l ++ [x] = pre ++ y :: post -> (post = [] /\ pre = l /\ y = x) \/ exists post', post = post' ++ [x] /\ l = pre ++ y :: post'.
Proof.
  intros H. destruct post as [|z post] using rev_ind; [left; apply app_inj_tail in H; destruct H; auto|right]. rewrite app_comm_cons, app_assoc in H. apply app_inj_tail in H. destruct H as [-> ->]. eauto.
Qed.
Lemma combine_snoc {A C} (l : list A) (k : list C) a c : length l = length k -> combine (l ++ [a]) (k ++ [c]) = combine l k ++ [(a, c)].
Proof. intros H. rewrite LearnPPProofs.combine_app_eq by exact H. reflexivity. Qed.
Lemma rec_rows_ok c rows2 : prune <> ByError -> forall rows s s', ns_classes s = Some c -> rec_ok rows s -> nse_rows L base w slope crossing n prune rows2 (fst c) s = (s', None) -> rec_ok (rows ++ rows2) s' /\ ns_classes s' = Some c.
Proof.
  intros Np; induction rows2 as [|row rows2 IH]; intros rows s s' Ec (Fz & ws & Ds & C & Ld & M) H; cbn [nse_rows] in H.
  - injection H as <-. rewrite app_nil_r. split; [split; [exact Fz|exists ws, Ds; auto]|exact Ec].
  - rewrite Fz in H. cbv zeta in H. rewrite Ec in M, H. destruct M as [M1 M2]. destruct (Nat.eqb_spec (length (ns_win s ++ [row])) w) as [E|E].
    + destruct (absorb _ _ _ _ _ _ _ _ _) as [ms [e|]] eqn:Ea; [discriminate|]. apply (absorb_records s c (combine ws Ds)) in Ea; auto. destruct Ea as (iw & Wi & M1').
      apply (IH (rows ++ [row])) in H; [rewrite <- app_assoc in H; exact H|reflexivity|]. split; [reflexivity|]. exists (ws ++ [ns_win s ++ [row]]), (Ds ++ [iw]). split; [apply cut_full; auto|]. split; [rewrite !app_length; cbn [length]; lia|].
      cbn [ns_classes ns_members]. rewrite combine_snoc by (symmetry; exact Ld). split; [exact M1'|]. intros pre WD post Hp. apply app_snoc_split in Hp. destruct Hp as [(-> & -> & ->)|(post' & -> & Hp)]; [exists (ns_members s); split; assumption|eauto].
    + apply (IH (rows ++ [row])) in H; [rewrite <- app_assoc in H; exact H|reflexivity|]. split; [reflexivity|]. exists ws, Ds. split; [apply cut_more; auto|]. split; [exact Ld|]. split; assumption.
Qed.
Lemma after_nil cl : members_after L base cl slope crossing prune n [] [].
Proof. exists []; split; [apply kept_nil|constructor]. Qed.
Lemma rec_fit_ok rows rows2 classes s s' : prune <> ByError -> rec_ok rows s -> nse_partial_fit L base w slope crossing n prune rows2 classes s = (s', None) -> rec_ok (rows ++ rows2) s'.
Proof.
  intros Np K H. unfold nse_partial_fit in H. destruct (ns_classes s) as [c|] eqn:Ec; [eapply rec_rows_ok in H; [apply H|exact Np|exact Ec|exact K]|].
  destruct classes as [c|]; [|discriminate]. eapply rec_rows_ok in H; [apply H|exact Np|reflexivity|]. destruct K as (Fz & ws & Ds & C & Ld & M). rewrite Ec in M. destruct M as [-> Em].
  split; [exact Fz|]. exists ws, Ds. split; [exact C|]. split; [exact Ld|]. cbn [ns_classes ns_members]. rewrite Em. apply (cut_nil_inv w W) in C. destruct C as [-> _]. destruct Ds; [|discriminate]. cbn [combine]. split; [apply after_nil|].
  intros pre WD post Hp. destruct pre; discriminate.
Qed.
Lemma rec_reset_ok s : rec_ok [] (nse_reset s).
Proof.
  split; [reflexivity|]. exists [], []. split; [apply cut_nil; exact W|]. split; [reflexivity|]. cbn [nse_reset ns_classes ns_members combine]. destruct (ns_classes s); [|auto]. split; [apply after_nil|]. intros pre WD post Hp. destruct pre; discriminate.
Qed.
Lemma rec_run_ok os : prune <> ByError -> forall rows s s' es, rec_ok rows s -> nse_run L base w slope crossing n prune s os = (s', es) -> Forall (fun e => e = None) es -> rec_ok (nse_given rows os) s'.
Proof.
  intros Np; induction os as [|o os IH]; intros rows s s' es K H F; cbn [nse_run nse_given] in *; [injection H as <- _; exact K|].
  destruct (nse_step _ _ _ _ _ _ _ s o) as [s1 e] eqn:E. destruct (nse_run _ _ _ _ _ _ _ s1 os) as [s2 es2] eqn:Er. injection H as <- <-. inversion F as [|? ? He F2]; subst.
  destruct o as [rs cl|]; cbn [nse_step] in E.
  - eapply IH; [|exact Er|exact F2]. eapply rec_fit_ok; eauto.
  - injection E as <-. eapply IH; [apply rec_reset_ok|exact Er|exact F2].
Qed.
End Real.

(** *** The recorded weights *)
Lemma influence_pos slope crossing a : 0 < influence slope crossing a.
Proof. unfold influence. assert (0 < exp (- slope * (INR a - crossing))) by apply exp_pos. apply Rmult_lt_0_compat; [lra|apply Rinv_0_lt_compat; lra]. Qed.
Lemma records_sum slope crossing ages : forall acc, 1 <= Rsum acc -> 1 <= Rsum (records slope crossing acc ages) /\ (ages <> [] -> Rsum acc < Rsum (records slope crossing acc ages)).
Proof.
  induction ages as [|a ages IH]; intros acc H; cbn [records]; [split; [exact H|congruence]|]. pose proof (influence_pos slope crossing a) as P.
  assert (Q : 0 < influence slope crossing a / (Rsum acc + influence slope crossing a)) by (apply Rmult_lt_0_compat; [exact P|apply Rinv_0_lt_compat; lra]).
  assert (S : Rsum (acc ++ [influence slope crossing a / (Rsum acc + influence slope crossing a)]) = Rsum acc + influence slope crossing a / (Rsum acc + influence slope crossing a)) by (rewrite LearnPPProofs.Rsum_app; cbn [Rsum]; lra).
  destruct (IH (acc ++ [influence slope crossing a / (Rsum acc + influence slope crossing a)])) as [I1 I2]; [lra|]. split; [exact I1|]. intros _. destruct ages as [|b ages]; [cbn [records]; lra|]. specialize (I2 ltac:(discriminate)). lra.
Qed.
Lemma records_more slope crossing k : (1 < k)%nat -> 1 < Rsum (records slope crossing [] (seq 0 k)).
Proof.
  intros H. destruct k as [|k]; [lia|]. cbn [seq records app Rsum]. pose proof (influence_pos slope crossing 0) as P.
  replace (influence slope crossing 0 / (0 + influence slope crossing 0)) with 1 by (field; lra).
  destruct (records_sum slope crossing (seq 1 k) [1]) as [_ I]; [cbn [Rsum]; lra|]. specialize (I ltac:(destruct k; [lia|discriminate])). cbn [Rsum] in I. lra.
Qed.
(** *** Which member error-based pruning removes *)
Lemma worst_argmax (es : list R) : forall k i m, (0 < k)%nat -> worst_of (S k) (Some (i, m)) es = Some (argmax_from es k i m).
Proof.
  induction es as [|e es IH]; intros k i m Hk; cbn [worst_of argmax_from option_map fst]; [reflexivity|]. cbn [nltb NumR]. rdes; rewrite IH by lia; [|reflexivity]. do 2 f_equal. lia.
Qed.
Lemma worst_first es : es <> [] -> exists i, worst_of 1 None es = Some i /\ first_greatest es i.
Proof.
  intros H. destruct (np_argmax_ok es H) as (c & A & F). destruct es as [|e es]; [congruence|]. exists c. split; [|exact F]. unfold np_argmax in A. injection A as <-. cbn [worst_of]. rewrite worst_argmax by lia. reflexivity.
Qed.
Section More.
Context {X B : Type} (L : nlearner X R B) (base : B) (w : nat) (slope crossing : R) (n : nat) (prune : pruning).
Lemma last_snoc {A} (l : list A) x d : last (l ++ [x]) d = x.
Proof. apply last_last. Qed.
Lemma judged_errors t win cl iw ms : forall k ms1 es, (k + length ms <= S t)%nat -> length es = length ms -> length ms1 = length ms ->
  Forall2 (fun km me => judge L base slope crossing t (fst km) win cl iw (snd km) = Ok me) (combine (seq k (length ms)) ms) (combine ms1 es) ->
  Forall2 (fun m e => last (m_bkts m) 0 = e / (1 - e)) ms1 es.
Proof.
  induction ms as [|m ms IH]; intros k ms1 es Hk Le L1 J; cbn [length] in *; [destruct es, ms1; try discriminate; constructor|]. destruct ms1 as [|m1 ms1]; [discriminate|]. destruct es as [|e es]; [discriminate|].
  cbn [seq combine length] in *. inversion J as [|? ? ? ? J1 J2]; subst. cbn [fst snd] in J1. constructor; [|eapply (IH (S k)); [| | |exact J2]; lia].
  apply judge_R in J1; [|lia]. destruct J1 as (ps & _ & _ & _ & -> & _). apply last_snoc.
Qed.
Lemma error_pruning s cl win ms' : prune = ByError -> (n <= length (ns_members s))%nat -> absorb L base slope crossing n prune s cl win = (ms', None) ->
  exists ms1 es i, length ms1 = S (length (ns_members s)) /\ Forall2 (fun m e => last (m_bkts m) 0 = e / (1 - e)) ms1 es /\ first_greatest es i /\ ms' = firstn i ms1 ++ skipn (S i) ms1.
Proof.
  intros -> Hn H. apply absorb_split in H. destruct H as (iw & b & es & ms1 & Tb & _ & J & Le & L1 & ->). cbv zeta in *. set (ms := map unweighed (ns_members s) ++ [mk_member b [] [] None]) in *.
  assert (Lm : length ms = S (length (ns_members s))) by (unfold ms; rewrite app_length, map_length; cbn [length]; lia).
  destruct (worst_first es) as (i & Ei & Fg); [destruct es; [cbn in Le; lia|discriminate]|]. exists ms1, es, i. split; [lia|]. split; [eapply judged_errors; [| | |exact J]; lia|]. split; [exact Fg|].
  unfold pruned. rewrite Ei. destruct (Nat.ltb_spec n (length ms1)); [reflexivity|lia].
Qed.
(** *** A window the ensemble predicts right *)
Lemma wrong_zero D ps ys : Forall (fun d => d = 0) D -> wrong D ps ys = 0.
Proof.
  unfold wrong. intros F; revert ps ys; induction F as [|d D H F IH]; intros ps ys; [reflexivity|]. destruct ps as [|p ps], ys as [|y ys]; cbn [combine map Rsum fst snd]; try reflexivity. rewrite IH. destruct (Z.eq_dec p y); lra.
Qed.
Lemma all_right (right : list bool) D : Forall (fun r => r = true) right -> penalized right D -> Forall (fun d => d = 0) D.
Proof.
  intros F [_ P]. assert (C : count_occ Bool.bool_dec right false = 0%nat) by (apply count_occ_not_In; intros I; rewrite Forall_forall in F; specialize (F false I); discriminate).
  rewrite C in P. destruct (Req_EM_T _ 0) as [_|E]; [exact P|]. exfalso; apply E. cbn [INR]. unfold Rdiv; lra.
Qed.
Lemma judged_zero t win cl iw ms : Forall (fun d => d = 0) iw -> forall k ms1 es, (k + length ms <= S t)%nat -> length es = length ms -> length ms1 = length ms ->
  Forall2 (fun km me => judge L base slope crossing t (fst km) win cl iw (snd km) = Ok me) (combine (seq k (length ms)) ms) (combine ms1 es) ->
  Forall (fun m => last (m_bkts m) 1 = 0) ms1.
Proof.
  intros Z0. induction ms as [|m ms IH]; intros k ms1 es Hk Le L1 J; cbn [length] in *; [destruct ms1; try discriminate; constructor|]. destruct ms1 as [|m1 ms1]; [discriminate|]. destruct es as [|e es]; [discriminate|].
  cbn [seq combine length] in *. inversion J as [|? ? ? ? J1 J2]; subst. cbn [fst snd] in J1. constructor; [|eapply (IH (S k)); [| | |exact J2]; lia].
  apply judge_R in J1; [|lia]. destruct J1 as (ps & _ & _ & Ee & -> & _). rewrite last_snoc, Ee, wrong_zero by exact Z0. rewrite Rmin_left by lra. destruct (Nat.eqb k t); unfold Rdiv; lra.
Qed.
Lemma perfect_window s cl win cs ms' : prune = NoPruning -> ns_members s <> [] -> nse_predict L s (map fst win) = Ok cs -> map Z.of_nat cs = map snd win -> absorb L base slope crossing n prune s cl win = (ms', None) ->
  length ms' = S (length (ns_members s)) /\ Forall (fun m => last (m_bkts m) 1 = 0) ms'.
Proof.
  intros -> Ne Pr Rt H. apply absorb_split in H. destruct H as (iw & b & es & ms1 & Tb & Wi & J & Le & L1 & ->). cbv zeta in *. set (ms := map unweighed (ns_members s) ++ [mk_member b [] [] None]) in *.
  assert (Lm : length ms = S (length (ns_members s))) by (unfold ms; rewrite app_length, map_length; cbn [length]; lia).
  unfold pruned. replace (if Nat.ltb n (length ms1) then ms1 else ms1) with ms1 by (destruct (Nat.ltb _ _); reflexivity). split; [lia|].
  destruct (ns_members s) as [|m0 ms0] eqn:Em; [congruence|]. destruct Wi as (votes & Ev & Ei). rewrite Pr in Ev; injection Ev as <-.
  assert (Z0 : Forall (fun d => d = 0) iw).
  { rewrite Ei. eapply all_right; [|apply instance_weights_ok]. clear -Rt. rewrite <- Rt. clear Rt. induction cs as [|c cs IH]; cbn [map combine]; constructor; [apply Z.eqb_refl|exact IH]. }
  eapply judged_zero; [exact Z0| | | |exact J]; lia.
Qed.
(** *** Votes *)
Lemma place_ok cl c : In c cl -> forall i, exists j m, place cl i c = Some (i + j, m)%nat /\ m = c /\ nth_error cl j = Some c.
Proof.
  induction cl as [|k cl IH]; intros I i; [destruct I|]. cbn [place]. assert (Low : forall i j m, place cl i c = Some (j, m) -> (c <= m)%Z).
  { clear. induction cl as [|k cl IH]; intros i j m H; cbn [place] in H; [discriminate|]. destruct (place cl (S i) c) as [[j' m']|] eqn:E.
    - apply IH in E. destruct ((c <=? k)%Z && (k <=? m')%Z) eqn:Eb; injection H as <- <-; [|exact E]. apply andb_true_iff in Eb. destruct Eb as [Eb _]. apply Z.leb_le; exact Eb.
    - destruct (Z.leb_spec c k); [injection H as <- <-; assumption|discriminate]. }
  destruct (Z.eq_dec k c) as [->|D].
  - destruct (place cl (S i) c) as [[j m]|] eqn:E.
    + apply Low in E. replace ((c <=? c)%Z && (c <=? m)%Z) with true by (symmetry; apply andb_true_iff; split; apply Z.leb_le; lia). exists 0%nat, c. rewrite Nat.add_0_r. auto.
    + rewrite Z.leb_refl. exists 0%nat, c. rewrite Nat.add_0_r. auto.
  - destruct I as [I|I]; [congruence|]. destruct (IH I (S i)) as (j & m & -> & -> & En). destruct ((c <=? k)%Z && (k <=? c)%Z) eqn:Eb; [apply andb_true_iff in Eb; destruct Eb as [E1 E2]; apply Z.leb_le in E1, E2; lia|].
    exists (S j), c. split; [f_equal; f_equal; lia|]. split; [reflexivity|exact En].
Qed.
Lemma fill_idx cl obs : (forall c, In c obs -> In c cl) -> exists idx, mapM (fun c => match place cl 0 c with Some (i, _) => Ok i | None => Raise IndexError end) obs = Ok idx /\ Forall2 (fun c i => nth_error cl i = Some c) obs idx.
Proof.
  induction obs as [|c obs IH]; intros H; [exists []; split; [reflexivity|constructor]|]. cbn [mapM]. destruct (place_ok cl c (H c (or_introl eq_refl)) 0) as (j & m & -> & _ & En). cbn [bind].
  destruct IH as (idx & -> & F); [intros; apply H; right; assumption|]. cbn [bind]. exists (j :: idx). split; [reflexivity|]. constructor; assumption.
Qed.
Lemma fold_set_nth cl obs idx p : NoDup obs -> Forall2 (fun c i => nth_error cl i = Some c) obs idx -> NoDup cl -> length p = length obs -> forall q, length q = length cl ->
  let q' := fold_left (fun q iv => set_nth q (fst iv) (snd iv)) (combine idx p) q in
  length q' = length cl /\ forall j, (j < length cl)%nat -> nth j q' 0 = if in_dec Z.eq_dec (nth j cl 0%Z) obs then prob_of obs p (nth j cl 0%Z) else nth j q 0.
Proof.
  intros Nd F Ncl; revert p; induction F as [|c i obs idx En F IH]; intros p Lp q Lq; cbv zeta.
  - destruct p; [|discriminate]. split; [exact Lq|]. intros j Hj. cbn [combine fold_left]. destruct (in_dec _ _ _) as [[]|]. reflexivity.
  - destruct p as [|v p]; [discriminate|]. cbn [combine fold_left fst snd length] in *. inversion Nd as [|? ? Nc Nd']; subst. assert (Hi : (i < length cl)%nat) by (apply nth_error_Some; congruence).
    destruct (IH Nd' p ltac:(lia) (set_nth q i v) ltac:(rewrite set_nth_len; exact Lq)) as [I1 I2]. split; [exact I1|]. intros j Hj. rewrite I2 by exact Hj. cbn [prob_of].
    assert (Ec : nth i cl 0%Z = c) by (apply nth_error_nth; exact En).
    destruct (Z.eqb_spec c (nth j cl 0%Z)) as [Ej|Ej].
    + assert (i = j) by (apply (proj1 (NoDup_nth cl 0%Z) Ncl); [exact Hi|exact Hj|congruence]). subst j.
      destruct (in_dec Z.eq_dec (nth i cl 0%Z) obs) as [I|I]; [rewrite Ec in I; contradiction|]. destruct (in_dec Z.eq_dec (nth i cl 0%Z) (c :: obs)) as [_|I']; [|exfalso; apply I'; left; symmetry; exact Ec].
      rewrite set_nth_nth by lia. rewrite Nat.eqb_refl. reflexivity.
    + destruct (in_dec Z.eq_dec (nth j cl 0%Z) obs) as [I|I]; destruct (in_dec Z.eq_dec (nth j cl 0%Z) (c :: obs)) as [I'|I']; try reflexivity.
      * exfalso; apply I'; right; exact I.
      * destruct I' as [I'|I']; [congruence|contradiction].
      * rewrite set_nth_nth by lia. destruct (Nat.eqb_spec i j) as [->|Dn]; [congruence|reflexivity].
Qed.
Lemma prob_of_out obs p c : ~ In c obs -> prob_of obs p c = 0.
Proof. revert p; induction obs as [|o obs IH]; intros p H; [reflexivity|]. destruct p as [|v p]; [reflexivity|]. cbn [prob_of]. destruct (Z.eqb_spec o c) as [->|D]; [exfalso; apply H; left; reflexivity|]. apply IH. intros I; apply H; right; exact I. Qed.
Lemma fold_set_len (l : list (nat * R)) k : forall q : list R, length q = k -> length (fold_left (fun q iv => set_nth q (fst iv) (snd iv)) l q) = k.
Proof. induction l as [|a l IH]; intros q Lq; cbn [fold_left]; [exact Lq|]. apply IH. rewrite set_nth_len; exact Lq. Qed.
Lemma zeros_nth k j : nth j (repeat (n0 (T := R)) k) 0 = 0.
Proof. revert j; induction k as [|k IH]; intros [|j]; cbn [repeat nth]; auto. Qed.
Lemma fill_ok p obs cl q : NoDup cl -> NoDup obs -> (forall c, In c obs -> In c cl) -> fill_missing p obs cl true = Ok q ->
  length obs = length p /\ length q = length cl /\ forall j, (j < length cl)%nat -> nth j q 0 = prob_of obs p (nth j cl 0%Z).
Proof.
  intros Ncl Nd Inc H. unfold fill_missing in H. destruct (fill_idx cl obs Inc) as (idx & E & F). rewrite E in H; cbn [bind] in H. destruct (Nat.eqb_spec (length idx) (length p)) as [El|El]; [|discriminate]. injection H as <-.
  pose proof (F2_len _ _ _ F) as Lf. destruct (fold_set_nth cl obs idx p Nd F Ncl ltac:(lia) (repeat n0 (length cl)) (repeat_length _ _)) as [Q1 Q2]. split; [lia|]. split; [exact Q1|]. intros j Hj. rewrite Q2 by exact Hj.
  destruct (in_dec _ _ _) as [I|I]; [reflexivity|]. rewrite prob_of_out by exact I. apply zeros_nth.
Qed.
Lemma normalized_R p : normalized p = map (fun v => v / Rsum (map Rabs p)) p.
Proof.
  unfold normalized. cbv zeta. rewrite LearnPPProofs.fold_sum_R. replace (map nabs p) with (map Rabs p); [reflexivity|]. apply map_ext. intros v. unfold nabs, n0; cbn [nltb nsub nofZ NumR]. unfold Rabs. destruct (Rcase_abs v); rdes; lra.
Qed.
Lemma add_votes_nth wt votes q j : length votes = length q -> (j < length q)%nat -> nth j (add_votes wt votes q) 0 = nth j votes 0 + wt * nth j q 0.
Proof.
  revert q j; induction votes as [|a votes IH]; intros [|b q] j H Hj; cbn [length] in *; try lia. unfold add_votes in *. destruct j as [|j]; cbn [combine map nth fst snd]; [reflexivity|]. apply IH; lia.
Qed.
Lemma add_votes_len wt (votes q : list R) : length votes = length q -> length (add_votes wt votes q) = length q.
Proof. intros H. unfold add_votes. rewrite map_length, combine_length. lia. Qed.
Definition good_seen (cl : list Z) (h : B) : Prop := forall obs, nl_seen L h = Some obs -> NoDup obs /\ forall c, In c obs -> In c cl.
Lemma votes_fold cl array x : NoDup cl -> forall ms row0 row, (forall m, In m ms -> good_seen cl (m_est m) /\ forall p, nl_proba L (m_est m) [x] = Ok [p] -> length p <> 1%nat \/ length cl = 1%nat) -> length row0 = length cl ->
  foldM (vote_one L cl array x) ms row0 = Ok row ->
  exists ws Q, Forall2 (fun m wt => m_weight m = Some wt) ms ws /\ Forall2 (fun mw q => 0 < snd mw -> shares L cl array (m_est (fst mw)) x q) (combine ms ws) Q /\
    length row = length cl /\ forall j, (j < length cl)%nat -> nth j row 0 = nth j row0 0 + Rsum (map (fun wq => if Rlt_dec 0 (fst wq) then fst wq * nth j (snd wq) 0 else 0) (combine ws Q)).
Proof.
  intros Ncl; induction ms as [|m ms IH]; intros row0 row Gd Lr H; cbn [foldM] in H.
  - injection H as <-. exists [], []. repeat split; [constructor|constructor|exact Lr|]. intros j Hj; cbn [combine map Rsum]; lra.
  - apply bind_Ok in H; destruct H as [row1 [H1 H]]. unfold vote_one in H1. destruct (m_weight m) as [wt|] eqn:Ew; [|discriminate]. unfold n0 in H1; cbn [nltb nofZ NumR] in H1.
    assert (St : exists q, (0 < wt -> shares L cl array (m_est m) x q) /\ length row1 = length cl /\ forall j, (j < length cl)%nat -> nth j row1 0 = nth j row0 0 + (if Rlt_dec 0 wt then wt * nth j q 0 else 0)).
    { revert H1; destruct (Rltb 0 wt) eqn:Ep; rcase; intros H1; [|injection H1 as <-; exists []; split; [lra|]; split; [exact Lr|]; intros j Hj; destruct (Rlt_dec 0 wt); lra].
      apply bind_Ok in H1; destruct H1 as [P [Epr H1]]. destruct P as [|p [|p2 P]]; try discriminate. destruct (Gd m (or_introl eq_refl)) as [Gs Gp]. specialize (Gp p Epr). cbv zeta in H1. rewrite normalized_R in H1. rewrite map_length in H1.
      set (np := map (fun v => v / Rsum (map Rabs p)) p) in *. assert (Ln : length np = length p) by apply map_length.
      destruct (Nat.eqb_spec (length p) (length cl)) as [El|El].
      - injection H1 as <-. exists np. split; [intros _; exists p; cbv zeta; split; [exact Epr|]; split; [lia|]; left; auto|]. split; [rewrite add_votes_len; lia|]. intros j Hj. rewrite add_votes_nth by lia. destruct (Rlt_dec 0 wt); [reflexivity|lra].
      - assert (H2 : match nl_seen L (m_est m) with Some obs => q <- fill_missing np obs cl array;; Ok (add_votes wt row0 q) | None => Raise AttributeError end = Ok row1).
        { destruct np as [|v [|v2 np']] eqn:En; [exact H1| |exact H1]. exfalso. cbn [length] in Ln. destruct Gp as [Gp|Gp]; lia. }
        destruct (nl_seen L (m_est m)) as [obs|] eqn:Es; [|discriminate]. apply bind_Ok in H2; destruct H2 as [q [Ef H2]]. injection H2 as <-. destruct (Gs obs Es) as [G1 G2].
        destruct array; [|discriminate]. apply fill_ok in Ef; auto. destruct Ef as (F1 & F2 & F3). exists q. split.
        + intros _. exists p. cbv zeta. split; [exact Epr|]. split; [exact F2|]. right. split; [exact El|]. split; [destruct Gp as [Gp|Gp]; [exact Gp|intros E1; lia]|]. split; [reflexivity|]. exists obs. split; [exact Es|]. split; [lia|]. exact F3.
        + split; [rewrite add_votes_len; lia|]. intros j Hj. rewrite add_votes_nth by lia. destruct (Rlt_dec 0 wt); [reflexivity|lra]. }
    destruct St as (q & Sh & L1 & V1). apply IH in H; [|intros; apply Gd; right; assumption|exact L1]. destruct H as (ws & Q & F1 & F2 & Lw & V2).
    exists (wt :: ws), (q :: Q). split; [constructor; assumption|]. split; [cbn [combine]; constructor; [exact Sh|exact F2]|]. split; [exact Lw|]. intros j Hj. rewrite V2, V1 by exact Hj. cbn [combine map Rsum fst snd]. destruct (Rlt_dec 0 wt); lra.
Qed.
Lemma predict_elected s cl array xs cs : ns_members s <> [] -> ns_classes s = Some (cl, array) -> NoDup cl -> cl <> [] ->
  (forall m, In m (ns_members s) -> good_seen cl (m_est m) /\ forall x p, nl_proba L (m_est m) [x] = Ok [p] -> length p <> 1%nat \/ length cl = 1%nat) ->
  nse_predict L s xs = Ok cs -> Forall2 (elected L cl array (ns_members s)) xs cs.
Proof.
  intros Ne Ec Ncl Nn Gd H. unfold nse_predict, nse_proba in H. rewrite Ec in H. apply bind_Ok in H; destruct H as [P [HP H]].
  assert (HP' : mapM (fun x => foldM (vote_one L cl array x) (ns_members s) (repeat n0 (length cl))) xs = Ok P) by (destruct (ns_members s); [congruence|exact HP]). clear HP.
  revert P HP' cs H; induction xs as [|x xs IH]; intros P HP cs H; cbn [mapM] in HP; [injection HP as <-; injection H as <-; constructor|].
  apply bind_Ok in HP; destruct HP as [row [H1 HP]]. apply bind_Ok in HP; destruct HP as [P2 [H2 HP]]. injection HP as <-.
  cbn [mapM] in H. apply bind_Ok in H; destruct H as [c [A H]]. apply bind_Ok in H; destruct H as [cs2 [H3 H]]. injection H as <-. constructor; [|eapply IH; eauto].
  apply votes_fold in H1; [|exact Ncl|intros m I; destruct (Gd m I) as [G1 G2]; split; [exact G1|apply G2]|apply repeat_length]. destruct H1 as (ws & Q & F1 & F2 & Lr & V). exists ws, Q, row. split; [exact F1|]. split; [exact F2|]. split; [exact Lr|]. split.
  - intros j Hj. rewrite V by exact Hj. rewrite zeros_nth. lra.
  - destruct row as [|v r]; [destruct cl; [congruence|discriminate]|]. destruct (np_argmax_ok (v :: r)) as (c' & A' & Fm); [discriminate|]. rewrite A in A'; injection A' as <-. exact Fm.
Qed.
(** *** No failures *)
Variables (cl : list Z) (array : bool).
Hypothesis (Hcl : cl <> []) (Good : forall win, win <> [] -> Forall (fun xy => In (snd xy) cl) win -> exists b, train L base win cl = Ok b /\ answers L cl array b).
Definition known (win : list (X * Z)) : Prop := win <> [] /\ Forall (fun xy => In (snd xy) cl) win.
Definition sound (m : member R B) : Prop := answers L cl array (m_est m) /\ m_weight m <> None.
Lemma vote_total x ms : Forall sound ms -> forall row0, length row0 = length cl -> exists row, foldM (vote_one L cl array x) ms row0 = Ok row /\ length row = length cl.
Proof.
  induction 1 as [|m ms [[_ Ap] Wn] F IH]; intros row0 Lr; cbn [foldM]; [eauto|]. unfold vote_one at 1. destruct (m_weight m) as [wt|]; [|congruence]. destruct (n0 <? wt)%num; [|cbn [bind]; apply IH; exact Lr].
  destruct (Ap x) as (p & -> & Hp). cbn [bind]. cbv zeta. rewrite normalized_R. rewrite map_length. set (np := map (fun v => v / Rsum (map Rabs p)) p). assert (Ln : length np = length p) by apply map_length.
  destruct (Nat.eqb_spec (length p) (length cl)) as [El|El]; [cbn [bind]; apply IH; rewrite add_votes_len; lia|]. destruct Hp as [Hp|[Hp|(-> & obs & Es & Lo & Io)]]; [congruence| |].
  - destruct np as [|v [|v2 np']]; cbn [length] in Ln; try lia. cbn [bind]. apply IH. rewrite map_length; exact Lr.
  - assert (Fi : exists q, fill_missing np obs cl true = Ok q /\ length q = length cl).
    { unfold fill_missing. destruct (fill_idx cl obs Io) as (idx & -> & F1). cbn [bind]. pose proof (F2_len _ _ _ F1) as Lf. destruct (Nat.eqb_spec (length idx) (length np)); [|lia]. eexists; split; [reflexivity|].
      apply fold_set_len, repeat_length. }
    destruct Fi as (q & Fi & Lq). rewrite Es. assert (Go : bind (fill_missing np obs cl true) (fun q => Ok (add_votes wt row0 q)) = Ok (add_votes wt row0 q)) by (rewrite Fi; reflexivity).
    destruct np as [|v [|v2 np']]; rewrite ?Go; cbn [bind]; apply IH; try (rewrite map_length; exact Lr); rewrite add_votes_len; lia.
Qed.
Lemma nse_predict_total s xs : Forall sound (ns_members s) -> ns_classes s = Some (cl, array) -> exists cs, nse_predict L s xs = Ok cs.
Proof.
  intros F Ec. unfold nse_predict, nse_proba. rewrite Ec.
  assert (M : exists P, match ns_members s with [] => Ok (map (fun _ => [n0]) xs) | _ => mapM (fun x => foldM (vote_one L cl array x) (ns_members s) (repeat n0 (length cl))) xs end = Ok P /\ Forall (fun r : list R => r <> []) P).
  { destruct (ns_members s) as [|m ms] eqn:Em; [eexists; split; [reflexivity|]; apply Forall_map, Forall_forall; discriminate|]. clear Em. revert F; generalize (m :: ms) as l; intros l F. induction xs as [|x xs (P & IH & FP)]; [exists []; split; [reflexivity|constructor]|].
    cbn [mapM]. destruct (vote_total x l F (repeat n0 (length cl)) (repeat_length _ _)) as (row & -> & Lr). cbn [bind]. rewrite IH. cbn [bind]. eexists; split; [reflexivity|]. constructor; [destruct row; [destruct cl; [congruence|discriminate]|discriminate]|exact FP]. }
  destruct M as (P & E & FP).
  assert (E' : match ns_members s with [] => Ok (map (fun _ => [n0]) xs) | m :: l => mapM (fun x => foldM (vote_one L cl array x) (m :: l) (repeat n0 (length cl))) xs end = Ok P) by (destruct (ns_members s); exact E).
  rewrite E'. cbn [bind]. clear -FP. induction FP as [|r P Hr FP (cs & IH)]; [exists []; reflexivity|]. cbn [mapM]. destruct (np_argmax_ok r Hr) as (c & -> & _). cbn [bind]. rewrite IH; cbn [bind]; eauto.
Qed.
Lemma judge_total t k win iw m : known win -> answers L cl array (m_est m) -> exists m' e, judge L base slope crossing t k win cl iw m = Ok (m', e) /\ sound m'.
Proof.
  intros Nw [Ap Aq]. unfold judge. destruct (Ap (map fst win)) as (ps & -> & Lp). cbn [bind]. rewrite map_length in Lp. rewrite Lp, Nat.eqb_refl. cbn [negb]. cbv zeta. destruct (_ <? _)%num; [|cbn [bind]; do 2 eexists; split; [reflexivity|]; split; [split; assumption|discriminate]].
  destruct (Nat.eqb k t); [|cbn [bind]; do 2 eexists; split; [reflexivity|]; split; [split; assumption|discriminate]]. destruct (Good win (proj1 Nw) (proj2 Nw)) as (b & -> & Gb). cbn [bind]. do 2 eexists; split; [reflexivity|]. split; [exact Gb|discriminate].
Qed.
Lemma judge_all_total t win iw ms : known win -> Forall (fun m => answers L cl array (m_est m)) ms -> forall k worst, exists ms' i, judge_all L base slope crossing t k win cl iw worst ms = (ms', i, None) /\ Forall sound ms'.
Proof.
  intros Nw F; induction F as [|m ms Am F IH]; intros k worst; cbn [judge_all]; [do 2 eexists; split; [reflexivity|constructor]|]. destruct (judge_total t k win iw m Nw Am) as (m' & e & -> & Sm). cbv zeta.
  match goal with |- context [judge_all _ _ _ _ _ _ _ _ _ ?wo ms] => destruct (IH (S k) wo) as (ms' & i & -> & Fs) end. do 2 eexists; split; [reflexivity|]. constructor; assumption.
Qed.
Lemma absorb_total s win : known win -> ns_classes s = Some (cl, array) -> Forall sound (ns_members s) -> exists ms, absorb L base slope crossing n prune s cl win = (ms, None) /\ Forall sound ms.
Proof.
  intros Nw Ec F. unfold absorb. destruct (Good win (proj1 Nw) (proj2 Nw)) as (b & Tb & Gb).
  match goal with |- context [bind ?m _] => assert (Iw : exists iw, m = Ok iw) end.
  { destruct (nse_predict_total s (map fst win) F Ec) as (cs & Ecs). destruct (ns_members s); [eauto|]. rewrite Ecs. cbn [bind]. eauto. }
  destruct Iw as (iw & ->). cbn [bind]. rewrite Tb. cbn [bind]. cbv zeta.
  match goal with |- context [judge_all _ _ _ _ ?t 1 win cl iw None ?l] => destruct (judge_all_total t win iw l Nw) with (k := 1%nat) (worst := @None (nat * R)) as (ms' & i & -> & Fs) end.
  { apply Forall_app; split; [apply Forall_map; eapply Forall_impl; [|exact F]; intros m [Hm _]; exact Hm|constructor; [exact Gb|constructor]]. }
  eexists; split; [reflexivity|]. unfold pruned. destruct (Nat.ltb _ _); [|exact Fs]. destruct prune, i as [i|]; try exact Fs; try (destruct Fs; [constructor|assumption]).
  unfold remove_at. apply Forall_app. rewrite <- (firstn_skipn i ms') in Fs. apply Forall_app in Fs. destruct Fs as [F1 F2]. split; [exact F1|]. clear F1. change (S i) with (1 + i)%nat. rewrite <- ListFacts.skipn_skipn'. destruct (skipn i ms'); [constructor|]. cbn [skipn]. inversion F2; assumption.
Qed.
Lemma rows_total rows : Forall (fun xy => In (snd xy) cl) rows -> forall s, Forall (fun xy => In (snd xy) cl) (ns_win s) -> ns_classes s = Some (cl, array) -> ns_frozen s = false -> Forall sound (ns_members s) ->
  exists s', nse_rows L base w slope crossing n prune rows cl s = (s', None) /\ ns_classes s' = Some (cl, array) /\ ns_frozen s' = false /\ Forall sound (ns_members s') /\ Forall (fun xy => In (snd xy) cl) (ns_win s').
Proof.
  induction 1 as [|row rows Hr Hrs IH]; intros s Kw Ec Fz F; cbn [nse_rows]; [exists s; auto 6|].
  assert (Kw' : Forall (fun xy => In (snd xy) cl) (ns_win s ++ [row])) by (apply Forall_app; split; [exact Kw|constructor; [exact Hr|constructor]]). rewrite Fz. cbv zeta. destruct (Nat.eqb _ w); [|apply IH; auto].
  destruct (absorb_total s (ns_win s ++ [row])) as (ms & -> & Fm); [split; [destruct (ns_win s); discriminate|exact Kw']|exact Ec|exact F|]. apply IH; cbn [ns_win]; auto.
Qed.
Lemma nse_run_total os : forall s, Forall (fun o => match o with NFit rows c => (ns_classes s = None -> c = Some (cl, array)) /\ Forall (fun xy => In (snd xy) cl) rows | NReset => True end) os ->
  (ns_classes s = None /\ ns_members s = [] \/ ns_classes s = Some (cl, array)) -> ns_frozen s = false -> Forall sound (ns_members s) -> Forall (fun xy => In (snd xy) cl) (ns_win s) ->
  forall s' es, nse_run L base w slope crossing n prune s os = (s', es) -> Forall (fun e => e = None) es.
Proof.
  induction os as [|o os IH]; intros s Fo Ec Fz F Kw s' es H; cbn [nse_run] in H; [injection H as _ <-; constructor|]. inversion Fo as [|? ? Ho Fo']; subst.
  assert (St : exists s1, nse_step L base w slope crossing n prune s o = (s1, None) /\ (ns_classes s1 = None /\ ns_members s1 = [] /\ ns_classes s = None \/ ns_classes s1 = Some (cl, array)) /\ ns_frozen s1 = false /\ Forall sound (ns_members s1) /\ Forall (fun xy => In (snd xy) cl) (ns_win s1)).
  { destruct o as [rows c|]; cbn [nse_step].
    - destruct Ho as [Ho Hr]. unfold nse_partial_fit. destruct Ec as [[Ec Em]|Ec]; rewrite Ec.
      + specialize (Ho Ec). subst c. cbn [fst]. destruct (rows_total rows Hr (mk_nse (Some (cl, array)) (ns_members s) (ns_win s) (ns_frozen s)) Kw eq_refl Fz F) as (s1 & E1 & C1 & Z1 & F1 & K1). exists s1. auto 6.
      + cbn [fst]. destruct (rows_total rows Hr s Kw Ec Fz F) as (s1 & E1 & C1 & Z1 & F1 & K1). exists s1. destruct c; auto 6.
    - exists (nse_reset s). split; [reflexivity|]. cbn [nse_reset ns_classes ns_members ns_frozen]. split; [destruct Ec as [[Ec _]|Ec]; auto|]. split; [reflexivity|]. split; constructor. }
  destruct St as (s1 & E1 & C1 & Z1 & F1 & K1). rewrite E1 in H. destruct (nse_run _ _ _ _ _ _ _ s1 os) as [s2 es2] eqn:Er. injection H as <- <-. constructor; [reflexivity|].
  eapply (IH s1); [| |exact Z1|exact F1|exact K1|exact Er].
  - eapply Forall_impl; [|exact Fo']. intros [r c|] H; [|exact I]. destruct H as [H Hr]. split; [|exact Hr]. intros E. apply H. destruct C1 as [(_ & _ & C1)|C1]; [exact C1|congruence].
  - destruct C1 as [(C1 & C2 & _)|C1]; auto.
Qed.
End More.

(** *** Members that answer one column *)
Section OneColumn.
Lemma map_rep {A C} (f : A -> C) a k : map f (repeat a k) = repeat (f a) k.
Proof. induction k as [|k IH]; cbn [repeat map]; [reflexivity|]. rewrite IH; reflexivity. Qed.
Lemma nth_rep {A} (a d : A) k : forall i, (i < k)%nat -> nth i (repeat a k) d = a.
Proof. induction k as [|k IH]; intros [|i] H; cbn [repeat nth]; try lia; [reflexivity|]. apply IH; lia. Qed.
Context {X B : Type} (L : nlearner X R B).
Lemma one_column_fold cl array x ms : (2 <= length cl)%nat -> (forall m p, In m ms -> nl_proba L (m_est m) [x] = Ok [p] -> length p = 1%nat) -> forall a row,
  foldM (vote_one L cl array x) ms (repeat a (length cl)) = Ok row -> exists a', row = repeat a' (length cl).
Proof.
  intros K. induction ms as [|m ms IH]; intros Hp a row H; cbn [foldM] in H; [injection H as <-; eauto|]. apply bind_Ok in H; destruct H as [row1 [H1 H]].
  assert (C : exists a1, row1 = repeat a1 (length cl)).
  { unfold vote_one in H1. destruct (m_weight m) as [wt|]; [|discriminate]. destruct (n0 <? wt)%num; [|injection H1 as <-; eauto]. apply bind_Ok in H1; destruct H1 as [P [E H1]]. destruct P as [|p [|p2 P]]; try discriminate.
    specialize (Hp m p (or_introl eq_refl) E). cbv zeta in H1. destruct p as [|v [|v2 p]]; try discriminate. unfold normalized in H1. cbn [map length] in H1. destruct (Nat.eqb_spec 1 (length cl)); [lia|]. injection H1 as <-. rewrite map_rep. eauto. }
  destruct C as (a1 & ->). eapply IH; [|exact H]. intros; eapply Hp; [right; eassumption|eassumption].
Qed.
Lemma argmax_repeat (a : R) k : np_argmax (repeat a (S k)) = Ok 0%nat.
Proof.
  destruct (np_argmax_ok (repeat a (S k))) as (c & E & [Hc [H1 H2]]); [discriminate|]. rewrite E. f_equal. destruct c as [|c]; [reflexivity|]. specialize (H2 0%nat ltac:(lia)).
  rewrite repeat_length in *. rewrite !nth_rep in H2 by lia. lra.
Qed.
End OneColumn.

Lemma train_iff {X T B} (L : nlearner X T B) b rows cl b' : train L b rows cl = Ok b' <-> window_trained L b rows cl b'.
Proof.
  unfold train. split.
  - destruct (nl_fit3 L b rows cl) as [b1|e] eqn:E; [intros H; apply by_fit_classes; congruence|]. destruct e; try discriminate. destruct (nl_fit L b rows) as [b1|e] eqn:E1; [intros H; apply by_fit; congruence|]. destruct e; try discriminate. intros H. apply by_partial_fit; assumption.
  - intros [b1 E|b1 E E1|b1 E E1 E2]; rewrite E; [reflexivity|rewrite E1; reflexivity|rewrite E1; exact E2].
Qed.
