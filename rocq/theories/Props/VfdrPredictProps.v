(** VeryFastDecisionRulesClassifier: predictions, batches, labels. *)
From Coq Require Import List ZArith Bool Lia Reals Lra Permutation.
From Verif Require Import Base.Py Base.Num Base.Dict Model.Suggestion Model.Adwin Model.Knn Model.NaiveBayes Model.GaussianObs Model.NominalObs Model.SplitTests Model.SplitCriteria Model.HoeffdingTree Model.Vfdr
  Spec.Lists Spec.CriteriaSpec Spec.VfdrSpec Proofs.ExpertRunProofs Proofs.CriteriaProofs Proofs.NominalProofs Proofs.VfdrProofs Props.HoeffdingPredictProps.
Import ListNotations.

Section Any.
Context {T D : Type} {N : Num T}.
Variables (k : T) (phi : T -> T) (key : T -> Z) (order : list Z -> list Z).
Variables (det_add : D -> T -> res D) (det_change : D -> bool).
Variable cfg : vfdr_config T D.
Local Notation fit := (vfdr_fit k phi key order det_add det_change cfg).
Local Notation votes := (vfdr_votes k key order cfg).

(** *** C285: first hit *)
(** A rule votes with its weights, or, when Naive Bayes is used and the rule has seen nb_threshold, with those of Naive Bayes. *)
Definition says (r : rule T D) (x : list T) (v : list (Z * T)) : Prop :=
  ((v_nb cfg = false \/ (v_nb_threshold cfg <=? vsum (r_dist r))%num = false) -> v = r_dist r)
  /\ (v_nb cfg = true -> (v_nb_threshold cfg <=? vsum (r_dist r))%num = true -> nb_votes k key x (r_dist r) (r_obs r) = Ok v).
Lemma r_votes_says (r : rule T D) x v : r_votes k key cfg r x = Ok v -> says r x v.
Proof.
  unfold r_votes, r_weight, says. destruct (v_nb_threshold cfg <=? _)%num, (v_nb cfg); cbn [andb]; intros H; split; intros; try discriminate; auto; try (injection H as <-; auto); match goal with H : _ \/ _ |- _ => destruct H; discriminate end.
Qed.
Lemma first_hit_spec d x : forall rs v, first_hit k key cfg rs d x = Ok v ->
  (exists pre r post, rs = pre ++ r :: post /\ (forall q, In q pre -> ~ fires key q x) /\ fires key r x /\ says r x v) \/ ((forall q, In q rs -> ~ fires key q x) /\ says d x v).
Proof.
  induction rs as [|r rs IH]; intros v H; cbn [first_hit] in H; [right; split; [intros q []|now apply r_votes_says]|]. apply bind_Ok in H as (b & Eb & H). pose proof (r_covers_spec _ _ _ _ Eb) as B. destruct b.
  - left. exists [], r, rs. split; auto. split; [intros q []|]. split; [now apply B|now apply r_votes_says].
  - assert (Nf : ~ fires key r x) by (intros C; apply B in C; discriminate). destruct (IH _ H) as [(pre & r0 & post & -> & A & F & S)|(A & S)]; [left|right].
    + exists (r :: pre), r0, post. split; auto. split; auto. intros q [<-|Hq]; auto.
    + split; auto. intros q [<-|Hq]; auto.
Qed.
(** Ordered rules, or first hit: the votes of the first rule that fires, or else of the default rule. *)
Theorem vfdr_first_hit : forall s x v, v_prediction cfg = FirstHit -> votes s x = Ok v ->
  (exists pre r post, v_rules s = pre ++ r :: post /\ (forall q, In q pre -> ~ fires key q x) /\ fires key r x /\ says r x v) \/ ((forall q, In q (v_rules s) -> ~ fires key q x) /\ says (v_default s) x v).
Proof. intros s x v E H. unfold vfdr_votes in H. rewrite E in H. now apply first_hit_spec. Qed.
(** ordered_rules forces first hit. *)
Theorem vfdr_ordered_first_hit : forall c g t p n m th nb det cr po mw, v_prediction (vfdr_config_of (T := T) (D := D) c true g t p n m th nb det cr po mw) = FirstHit
  /\ v_prediction (vfdr_config_of (T := T) (D := D) c false g t p n m th nb det cr po mw) = p.
Proof. split; reflexivity. Qed.
(** The votes of the rules that fire, in order *)
Inductive fired_votes (x : list T) : list (rule T D) -> list (list (Z * T)) -> Prop :=
| FV0 : fired_votes x [] []
| FVskip r rs vs : ~ fires key r x -> fired_votes x rs vs -> fired_votes x (r :: rs) vs
| FVfire r rs v vs : fires key r x -> says r x v -> fired_votes x rs vs -> fired_votes x (r :: rs) (v :: vs).

(** *** C290: batches *)
Lemma rows_app rows1 : forall rows2 ws1 ws2 s, length ws1 = length rows1 ->
  vfdr_rows k phi key order det_add det_change cfg s (rows1 ++ rows2) (ws1 ++ ws2) = (s1 <- vfdr_rows k phi key order det_add det_change cfg s rows1 ws1 ;; vfdr_rows k phi key order det_add det_change cfg s1 rows2 ws2).
Proof.
  induction rows1 as [|[x y] rows1 IH]; intros rows2 ws1 ws2 s L; destruct ws1 as [|w ws1]; try discriminate; [reflexivity|]. cbn [app vfdr_rows]. injection L as L.
  destruct (if (w =? n0)%num then Ok s else vfdr_one k phi key order det_add det_change cfg s x y w) as [s1|]; cbn [bind]; auto.
Qed.
Lemma rows_classes rows : forall ws s s', vfdr_rows k phi key order det_add det_change cfg s rows ws = Ok s' -> v_classes s' = v_classes s.
Proof.
  induction rows as [|[x y] rows IH]; intros ws s s' H; cbn [vfdr_rows] in H; [injection H as <-; auto|]. destruct ws as [|w ws]; [injection H as <-; auto|]. apply bind_Ok in H as (s1 & E & H). rewrite (IH _ _ _ H). destruct (w =? n0)%num; [injection E as <-; auto|].
  unfold vfdr_one in E. apply bind_Ok in E as ([[rs new] f] & _ & E). destruct f; [injection E as <-; auto|]. apply bind_Ok in E as (d & _ & E). destruct (_ && _); [|injection E as <-; auto]. apply bind_Ok in E as ([d' n'] & _ & E). injection E as <-. auto.
Qed.
(** One call with two batches is two calls (the labels given with the second call do not matter once labels are known). *)
Theorem vfdr_batches : forall s rows1 rows2 ws1 ws2 c c', length ws1 = length rows1 -> length ws2 = length rows2 ->
  match (match v_classes s with None => c | q => q end) with None => c' = None | Some _ => True end ->
  fit s (rows1 ++ rows2) c (Some (ws1 ++ ws2)) = (s1 <- fit s rows1 c (Some ws1) ;; fit s1 rows2 c' (Some ws2)).
Proof.
  intros s rows1 rows2 ws1 ws2 c c' L L2 Hc. unfold vfdr_fit. rewrite !app_length, L, L2, !Nat.eqb_refl.
  set (s0 := mk_v (v_rules s) (v_default s) (match v_classes s with None => c | q => q end)). assert (Hs0 : v_classes s0 = match v_classes s with None => c | q => q end) by reflexivity. rewrite <- Hs0 in Hc. clearbody s0.
  rewrite rows_app by auto. destruct (vfdr_rows k phi key order det_add det_change cfg s0 rows1 ws1) as [s1|] eqn:E1; [|reflexivity]. cbn [bind]. pose proof (rows_classes _ _ _ _ E1) as C1.
  assert (Es1 : mk_v (v_rules s1) (v_default s1) (match v_classes s1 with None => c' | q => q end) = s1).
  { destruct s1 as [a b q]; cbn [v_rules v_default v_classes] in *. subst q. f_equal. destruct (v_classes s0); auto. }
  rewrite Es1. reflexivity.
Qed.
(** A sample of weight zero changes nothing. *)
Theorem vfdr_zero_weight : forall s x y w c, (w =? n0)%num = true -> fit s [(x, y)] c (Some [w]) = Ok (mk_v (v_rules s) (v_default s) (match v_classes s with None => c | q => q end)).
Proof. intros s x y w c E. unfold vfdr_fit. cbn [length Nat.eqb vfdr_rows]. now rewrite E. Qed.
(** reset makes the model a new one. *)
Theorem vfdr_reset_is_new : forall s : vfdr T D, vfdr_reset s = vfdr_new. Proof. reflexivity. Qed.

(** *** C291: labels *)
Section Labels.
Variable L : Z -> Prop.
Definition within {V} (d : list (Z * V)) : Prop := forall c, In c (dkeys d) -> L c.
Lemma within_dset {V} (d : list (Z * V)) c v : within d -> L c -> within (dset d c v).
Proof. intros W Hc c' H. apply In_dkeys_dset in H as [->|H]; auto. Qed.
Lemma within_dsort {V} (d : list (Z * V)) : within d -> within (dsort d).
Proof. intros W c H. apply W. unfold dkeys in *. apply in_map_iff in H as (p & <- & H). apply in_map. eapply Permutation_in; [apply Permutation_sym, dsort_perm|exact H]. Qed.
Lemma within_nil {V} : within (V := V) []. Proof. intros c []. Qed.
Definition obs_within (o : cobs T) : Prop := match o with CNum g => within (go_dist g) | CNom m => within (no_dist m) | CNull => True end.
Definition rule_within (r : rule T D) : Prop := within (r_dist r) /\ Forall (fun io => obs_within (snd io)) (r_obs r).
Definition state_within (s : vfdr T D) : Prop := Forall rule_within (v_rules s) /\ rule_within (v_default s).
Lemma co_update_within o x c w o' : L c -> obs_within o -> co_update key o x c w = Ok o' -> obs_within o'.
Proof.
  intros Hc W H. destruct o as [g|m|]; cbn [co_update] in H.
  - apply bind_Ok in H as (g' & E & H). injection H as <-. unfold go_update in E. cbn [obs_within] in *. destruct (dget (go_dist g) c), (dget (go_min g) c), (dget (go_max g) c); apply bind_Ok in E as (g'' & _ & E); injection E as <-; cbn [go_dist];
      repeat first [apply within_dset | apply within_dsort]; auto.
  - injection H as <-. unfold no_update. cbv zeta. cbn [obs_within no_dist] in *. apply within_dset; auto. destruct (dmem (no_dist m) c); auto. apply within_dsort. now apply within_dset.
  - injection H as <-. exact I.
Qed.
Lemma Forall_dset {V} (P : V -> Prop) (d : list (Z * V)) i v : Forall (fun kv => P (snd kv)) d -> P v -> Forall (fun kv => P (snd kv)) (dset d i v).
Proof. intros F Hv. induction F as [|[c u] d Hd F IH]; cbn [dset]; [repeat constructor; auto|]. destruct (c =? i)%Z; constructor; auto. Qed.
Lemma update_observers_within x : forall obs i y w obs', L y -> Forall (fun io => obs_within (snd io)) obs -> update_observers key (v_nominal cfg) obs i x y w = Ok obs' -> Forall (fun io => obs_within (snd io)) obs'.
Proof.
  induction x as [|a x IH]; intros obs i y w obs' Hy F H; cbn [update_observers] in H; [injection H as <-; auto|]. apply bind_Ok in H as (o & E & H). refine (IH _ _ _ _ _ Hy _ H). apply Forall_dset; auto. refine (co_update_within _ _ _ _ _ Hy _ E).
  destruct (dget obs i) as [o0|] eqn:Eo; [apply dget_In in Eo; rewrite Forall_forall in F; exact (F _ Eo)|]. unfold co_new. destruct (v_nominal cfg i); cbn; apply within_nil.
Qed.
Lemma learned_within x y w r r1 : L y -> rule_within r -> r_learn key cfg r x y w = Ok r1 -> rule_within r1.
Proof.
  intros Hy [W F] H. unfold r_learn in H. apply bind_Ok in H as (obs & E & H). injection H as <-. split; [|exact (update_observers_within _ _ _ _ _ _ Hy F E)]. cbn [r_dist]. unfold update_stats. destruct (dget _ _); [now apply within_dset|]. apply within_dsort. now apply within_dset.
Qed.
Definition sug_within (s : suggestion (pred T) (list (Z * T) * list (Z * T)) T) : Prop := within (fst (sg_dists s)) /\ within (snd (sg_dists s)).
Lemma go_sides_within o items v : forall l r l' r', within items -> within l -> within r -> go_sides k phi o items v l r = Ok (l', r') -> within l' /\ within r'.
Proof.
  induction items as [|[c g] items IH]; intros l r l' r' Wi Wl Wr H; cbn [go_sides] in H; [injection H as <- <-; auto|]. assert (Lc : L c) by (apply Wi; now left). assert (Wi' : within items) by (intros c' Hc; apply Wi; now right).
  destruct (dget (go_min o) c); [|discriminate]. destruct (dget (go_max o) c); [|discriminate]. destruct (_ <? _)%num; [eapply IH; [| | |exact H]; auto; now apply within_dset|]. destruct (_ <=? _)%num; [eapply IH; [| | |exact H]; auto; now apply within_dset|].
  apply bind_Ok in H as ([[a b] e] & _ & H). eapply IH; [| | |exact H]; auto; now apply within_dset.
Qed.
Lemma no_binary_within (o : nobs (T := T)) v : within (no_dist o) -> Forall within (no_binary o v).
Proof.
  intros W. unfold no_binary.
  assert (Q1 : forall i inner a b, L i -> within a -> within b -> let r := fold_left (fun acc q => if Z.eqb (fst q) v then (dadd (fst acc) i (snd q), snd acc) else (fst acc, dadd (snd acc) i (snd q))) inner (a, b) in within (fst r) /\ within (snd r)).
  { intros i inner. induction inner as [|q inner IH]; intros a b Li Wa Wb; cbn [fold_left fst snd]; auto. destruct (fst q =? v)%Z; apply IH; auto; unfold dadd; now apply within_dset. }
  assert (Q : forall dd a b, within dd -> within a -> within b -> let r := fold_left (fun acc p => let i := fst p in
      fold_left (fun acc q => if Z.eqb (fst q) v then (dadd (fst acc) i (snd q), snd acc) else (fst acc, dadd (snd acc) i (snd q))) (snd p) acc) dd (a, b) in within (fst r) /\ within (snd r)).
  { induction dd as [|[i inner] dd IH]; intros a b Wd Wa Wb; cbn [fold_left fst snd]; auto. assert (Li : L i) by (apply Wd; now left). destruct (Q1 i inner a b Li Wa Wb) as [A B]. cbv zeta in *.
    destruct (fold_left (fun acc q => if Z.eqb (fst q) v then (dadd (fst acc) i (snd q), snd acc) else (fst acc, dadd (snd acc) i (snd q))) inner (a, b)) as [a1 b1]. apply IH; auto. intros c Hc. apply Wd. now right. }
  specialize (Q (no_dist o) [] [] W within_nil within_nil). cbv zeta in Q. destruct (fold_left _ _ _) as [a b]. repeat constructor; apply Q.
Qed.
Lemma keep_within st s : (forall b, st = Some b -> sug_within b) -> sug_within s -> forall b, keep_best st s = Some b -> sug_within b.
Proof. intros H Hs b E. unfold keep_best in E. destruct st as [b0|]; [destruct (mgt _ _)|]; injection E as <-; auto. Qed.
Lemma rule_best_within pre i o m s m' : obs_within o -> rule_best k phi order cfg pre i o m = Ok (Some s, m') -> sug_within s.
Proof.
  intros W H. destruct o as [g|n|]; cbn [rule_best obs_within] in *; [| |discriminate].
  - apply bind_Ok in H as (vs & _ & H).
    assert (Q : forall b, fst (Some s, m') = Some b -> sug_within b); [|exact (Q s eq_refl)].
    refine (foldM_inv (fun st => forall b, fst st = Some b -> sug_within b) _ _ _ _ _ _ H); [|discriminate]. cbv beta. clear H. intros st v st' Hst _ E. apply bind_Ok in E as ([a b] & Es & E). unfold consider in E. apply bind_Ok in E as ([me m1] & _ & E). injection E as <-. cbn [fst].
    apply keep_within; auto. unfold go_split in Es. apply go_sides_within in Es; auto using within_nil.
  - assert (Q : forall b, fst (Some s, m') = Some b -> sug_within b); [|exact (Q s eq_refl)].
    refine (foldM_inv (fun st => forall b, fst st = Some b -> sug_within b) _ _ _ _ _ _ H); [|discriminate]. cbv beta. clear H. intros st v st' Hst _ E. pose proof (no_binary_within n v W) as Q. destruct (no_binary n v) as [|a [|b [|? ?]]]; try (injection E as <-; auto).
    unfold consider in E. apply bind_Ok in E as ([me m1] & _ & E). injection E as <-. cbn [fst]. apply keep_within; auto. inversion Q as [|? ? Qa Qb]; inversion Qb; subst. split; auto.
Qed.
Lemma suggestions_within d obs cls m bs m' : Forall (fun io => obs_within (snd io)) obs -> suggestions_of k phi order cfg d obs cls m = Ok (bs, m') -> Forall sug_within bs.
Proof.
  intros F H. unfold suggestions_of in H. change bs with (fst (bs, m')). refine (foldM_inv (fun st => Forall sug_within (fst st)) _ _ _ _ _ _ H); [|constructor]. cbv beta. intros st io st' Hst Hin E. apply bind_Ok in E as ([s m1] & Es & E). injection E as <-. cbn [fst].
  apply Forall_app. split; auto. destruct s as [s|]; constructor; auto. rewrite Forall_forall in F. exact (rule_best_within _ _ _ _ _ _ (F _ Hin) Es).
Qed.
Lemma verdict_in d bs s b : verdict cfg d bs = Ok (Some s, b) -> In s bs.
Proof.
  unfold verdict. intros H. destruct (rev bs) as [|x [|z r]] eqn:E; [discriminate| |].
  - injection H as <- _. apply in_rev. rewrite E. now left.
  - apply bind_Ok in H as (bound & _ & H). destruct (_ || _); [|discriminate]. injection H as <- _. apply in_rev. rewrite E. now left.
Qed.
Lemma by_merit_within (bs : list (suggestion (pred T) (list (Z * T) * list (Z * T)) T)) : Forall sug_within bs -> Forall sug_within (by_merit bs).
Proof. intros F. rewrite Forall_forall in *. intros s Hs. apply F. eapply Permutation_in; [apply Permutation_sym, TreeProofs.sort_stable_perm|exact Hs]. Qed.
Lemma kept_within (s : suggestion (pred T) (list (Z * T) * list (Z * T)) T) : sug_within s -> within (kept_side (sg_test s) (sg_dists s)) /\ within (other_side (sg_test s) (sg_dists s)).
Proof. intros [A B]. destruct (sg_test s); cbn; auto. Qed.
Lemma disable_within l : forall r, rule_within r -> rule_within (fold_left r_disable l r).
Proof. induction l as [|a l IH]; intros r W; cbn [fold_left]; auto. apply IH. unfold r_disable. destruct (dmem _ _); auto. destruct W as [A B]. split; auto. cbn [r_obs]. apply Forall_dset; auto. exact I. Qed.
Lemma expand_within r r' new : rule_within r -> expand_rule k phi order cfg r = Ok (r', new) -> rule_within r'.
Proof.
  intros W H. unfold expand_rule in H. destruct (Nat.ltb _ 2); [injection H as <- _; auto|]. apply bind_Ok in H as ([r1 d] & E & H).
  assert (Q : rule_within r1 /\ forall s, d = Some s -> sug_within s).
  { unfold consult in E. apply bind_Ok in E as ([bs m] & Es & E). cbv zeta in E. apply bind_Ok in E as ([v b] & Ev & E). injection E as <- <-. apply suggestions_within in Es; [|apply W]. split.
    - destruct (rev _) as [|b0 rest]; auto. destruct b; auto. destruct (v_poor cfg); auto. now apply disable_within.
    - intros s ->. apply verdict_in in Ev. apply by_merit_within in Es. rewrite Forall_forall in Es. auto. }
  destruct Q as [W1 Q]. destruct d as [s|]; [|injection H as <- _; auto]. destruct (r_expand r1 s) as [r2 ad] eqn:Er. apply bind_Ok in H as (nw & _ & H). injection H as <- _. destruct (kept_within s (Q s eq_refl)) as [K _].
  unfold r_expand in Er. cbv zeta in Er. destruct (merge _ _); injection Er as <- _; split; cbn [r_dist r_obs]; auto. destruct (ordinal _); auto. apply W1.
Qed.
Lemma fit_rule_within r x y w o new : L y -> rule_within r -> fit_rule k phi key order det_add det_change cfg r x y w = Ok (o, new) -> forall r', o = Some r' -> rule_within r'.
Proof.
  intros Hy W H r' ->. unfold fit_rule in H. apply bind_Ok in H as ([r1 gone] & E & H). assert (W1 : rule_within r1).
  { destruct (v_detector cfg); [|injection E as <- _; auto]. apply bind_Ok in E as (p & _ & E). destruct (r_det r); [|discriminate]. apply bind_Ok in E as (d' & _ & E). injection E as <- _. exact W. }
  destruct gone; [discriminate|]. apply bind_Ok in H as (r2 & El & H). apply learned_within in El; auto. destruct (v_grace cfg <=? _)%num; [|injection H as <- _; auto]. apply bind_Ok in H as ([r3 n3] & E3 & H). injection H as <- _. apply expand_within in E3; auto.
Qed.
Lemma fit_rules_within x y w : L y -> forall rs sk rs' new f, Forall rule_within rs -> fit_rules k phi key order det_add det_change cfg rs sk x y w = Ok (rs', new, f) -> Forall rule_within rs'.
Proof.
  intros Hy. induction rs as [|r rs IH]; intros sk rs' new f F H; cbn [fit_rules] in H; [injection H as <- _ _; auto|]. inversion F as [|? ? Fr Frs]; subst. destruct sk.
  { apply bind_Ok in H as ([[a b] c] & E & H). injection H as <- _ _. constructor; auto. eapply IH; eauto. }
  apply bind_Ok in H as (b & _ & H). destruct b.
  - apply bind_Ok in H as ([o n1] & E1 & H). destruct o as [r'|].
    + assert (Wr : rule_within r') by (eapply fit_rule_within; eauto). destruct (v_ordered cfg); [injection H as <- _ _; auto|]. apply bind_Ok in H as ([[a c] e] & E & H). injection H as <- _ _. constructor; auto. eapply IH; eauto.
    + apply bind_Ok in H as ([[a c] e] & E & H). injection H as <- _ _. eapply IH; eauto.
  - apply bind_Ok in H as ([[a c] e] & E & H). injection H as <- _ _. constructor; auto. eapply IH; eauto.
Qed.
Lemma rule_of_within cls s : sug_within s -> rule_within (rule_of cfg cls s).
Proof. intros W. split; cbn; auto. now apply kept_within. Qed.
Lemma foil_within d obs cs : Forall (fun io => obs_within (snd io)) obs -> forall m sh rs sh', foil_rules k phi order cfg d obs cs m sh = Ok (rs, sh') -> Forall rule_within rs.
Proof.
  intros F. induction cs as [|c cs IH]; intros m sh rs sh' H; cbn [foil_rules] in H; [injection H as <- _; constructor|]. apply bind_Ok in H as ([bs m1] & Es & H). cbv zeta in H. apply bind_Ok in H as ([v b] & _ & H). apply bind_Ok in H as ([rs1 sh1] & E & H). injection H as <- _.
  apply Forall_app. split; [|eapply IH; eauto]. destruct (match v with Some _ => true | None => _ end); [|constructor]. destruct (rev (by_merit bs)) as [|b0 rest] eqn:Er; constructor; auto. apply rule_of_within.
  apply suggestions_within in Es; auto. apply by_merit_within in Es. rewrite Forall_forall in Es. apply Es. apply in_rev. rewrite Er. now left.
Qed.
Lemma create_within d d' new : rule_within d -> create_rule k phi order cfg d = Ok (d', new) -> rule_within d' /\ Forall rule_within new.
Proof.
  intros W H. unfold create_rule in H. destruct (Nat.ltb _ 2); [injection H as <- <-; split; auto|].
  assert (Q : ' (bs, _) <- suggestions_of k phi order cfg (r_dist d) (r_obs d) None cm_new ;; ' (v, _) <- verdict cfg (r_dist d) (by_merit bs) ;;
      Ok (match v with Some s => (restarted (other_side (sg_test s) (sg_dists s)), [rule_of cfg None s]) | None => (mark d, []) end) = Ok (d', new) -> rule_within d' /\ Forall rule_within new).
  { clear H. intros H. apply bind_Ok in H as ([bs m] & Es & H). apply suggestions_within in Es; [|apply W]. apply bind_Ok in H as ([v b] & Ev & H). destruct v as [s|]; injection H as <- <-; [|split; auto].
    assert (Ws : sug_within s) by (apply verdict_in in Ev; apply by_merit_within in Es; rewrite Forall_forall in Es; auto). split; [split; cbn; auto; now apply kept_within|repeat constructor; auto; now apply kept_within]. }
  destruct (v_criterion cfg); auto. apply bind_Ok in H as ([rs sh] & E & H). injection H as <- <-. split; [destruct sh; auto; split; cbn; auto using within_nil|]. refine (foil_within _ _ _ _ _ _ _ _ E). apply W.
Qed.
Lemma one_within s x y w s' : L y -> state_within s -> vfdr_one k phi key order det_add det_change cfg s x y w = Ok s' -> state_within s'.
Proof.
  intros Hy [Wr Wd] H. unfold vfdr_one in H. apply bind_Ok in H as ([[rs new] f] & E & H). pose proof (fit_rules_length _ _ _ _ _ _ _ _ _ _ _ _ _ _ _ E) as [-> _]. apply fit_rules_within in E; auto. rewrite app_nil_r in H. destruct f; [injection H as <-; split; auto|].
  apply bind_Ok in H as (d & Ed & H). apply learned_within in Ed; auto. destruct (_ && _); [|injection H as <-; split; auto]. apply bind_Ok in H as ([d' n'] & Ec & H). injection H as <-. apply create_within in Ec as [A B]; auto. split; auto. cbn. apply Forall_app. auto.
Qed.
End Labels.
Lemma within_mono (L M : Z -> Prop) {V} (d : list (Z * V)) : (forall c, L c -> M c) -> within L d -> within M d. Proof. intros H W c Hc. auto. Qed.
Lemma rule_within_mono (L M : Z -> Prop) (r : rule T D) : (forall c, L c -> M c) -> rule_within L r -> rule_within M r.
Proof. intros H [A B]. split; [exact (within_mono L M _ H A)|]. eapply Forall_impl; [|exact B]. intros [i o]. destruct o; cbn; auto; apply within_mono; auto. Qed.
Lemma state_within_mono (L M : Z -> Prop) (s : vfdr T D) : (forall c, L c -> M c) -> state_within L s -> state_within M s.
Proof. intros H [A B]. split; [|exact (rule_within_mono _ _ _ H B)]. eapply Forall_impl; [|exact A]. intros r. now apply rule_within_mono. Qed.
Lemma rows_within rows : forall ws s s' (acc : list Z), state_within (fun c => In c acc) s -> length rows = length ws -> vfdr_rows k phi key order det_add det_change cfg s rows ws = Ok s' ->
  state_within (fun c => In c (acc ++ map (fun rw => snd (fst rw)) (filter (fun rw => negb (snd rw =? n0)%num) (combine rows ws)))) s'.
Proof.
  induction rows as [|[x y] rows IH]; intros ws s s' acc W Len H; destruct ws as [|w ws]; try discriminate; cbn [vfdr_rows combine filter map] in *; [injection H as <-; now rewrite app_nil_r|]. injection Len as Len. apply bind_Ok in H as (s1 & E & H). cbn [snd]. destruct (w =? n0)%num; cbn [negb].
  - injection E as <-. eapply IH; eauto.
  - cbn [map fst snd]. change (y :: map ?f ?l) with ([y] ++ map f l). rewrite app_assoc. eapply IH; eauto. eapply one_within; [|eapply state_within_mono; [|exact W]|exact E]; cbn; intros; apply in_app_iff; cbn; auto.
Qed.
Lemma run_within es : forall s s' (acc : list Z), state_within (fun c => In c acc) s -> vfdr_run key k phi order det_add det_change cfg s es = Ok s' ->
  state_within (fun c => In c (fold_left (fun acc e => match e with VFit rows _ ws => acc ++ labels_in rows ws | VClear => [] end) es acc)) s'.
Proof.
  induction es as [|e es IH]; intros s s' acc W H; cbn [vfdr_run fold_left] in *; [injection H as <-; auto|]. apply bind_Ok in H as (s1 & E & H). eapply IH; [|exact H]. destruct e as [rows c ws|]; cbn [vfdr_do] in E.
  - unfold vfdr_fit in E. destruct (Nat.eqb_spec (length rows) (length (match ws with Some ws => ws | None => repeat n1 (length rows) end))) as [Len|]; [|discriminate]. apply rows_within with (acc := acc) in E; auto. unfold labels_in.
    assert (Ew : match ws with Some ws => ws | None => map (fun _ : list T * Z => n1) rows end = match ws with Some ws => ws | None => repeat n1 (length rows) end).
    { destruct ws; auto. clear. induction rows as [|a l IH]; cbn; f_equal; auto. }
    rewrite Ew. exact E.
  - injection E as <-. split; cbn; [constructor|split; cbn; [intros c []|constructor]].
Qed.
Lemma says_within (L : Z -> Prop) (r : rule T D) x v : rule_within L r -> says r x v -> forall c, In c (dkeys v) -> L c \/ c = 0%Z.
Proof.
  intros [W _] [A B] c Hc. destruct (v_nb cfg) eqn:En; [|left; rewrite A in Hc; auto]. destruct (v_nb_threshold cfg <=? vsum (r_dist r))%num eqn:Et; [|left; rewrite A in Hc; auto]. specialize (B eq_refl eq_refl). unfold nb_votes in B. cbv zeta in B.
  destruct (_ || _); [injection B as <-; right; destruct Hc as [<-|[]]; auto|]. left. apply W. unfold dkeys in Hc. apply in_map_iff in Hc as ([c' u] & <- & Hin). apply (HoeffdingProofs.mapM_in _ _ _ B) in Hin as ((c0 & w0) & I0 & E). apply bind_Ok in E as (u0 & _ & E). injection E as <- _. cbn [fst]. unfold dkeys. apply in_map_iff. exists (c0, w0). auto.
Qed.
Lemma normalized_keys v v' : normalized (T := T) v = Ok v' -> dkeys v' = dkeys v.
Proof. unfold normalized. cbv zeta. destruct (_ =? _)%num; [intros [= <-]; auto|]. destruct (_ =? _)%num; [|discriminate]. intros [= <-]. unfold dkeys. rewrite map_map. reflexivity. Qed.
(** The votes for a sample name only labels taught since the last reset, or 0. *)
Theorem vfdr_votes_labels : forall es s x v, (forall l c, In c (order l) -> In c l) -> vfdr_run key k phi order det_add det_change cfg vfdr_new es = Ok s -> votes s x = Ok v ->
  forall c, In c (dkeys v) -> In c (labels_since es) \/ c = 0%Z.
Proof.
  intros es s x v Hord Hr Hv. assert (W : state_within (fun c => In c (labels_since es)) s).
  { apply (run_within es vfdr_new s [] ltac:(split; cbn; [constructor|split; cbn; [intros c []|constructor]]) Hr). }
  destruct W as [Wr Wd]. set (L := fun c => In c (labels_since es)) in *. set (M := fun c => L c \/ c = 0%Z). change (within M v). clearbody L. unfold vfdr_votes in Hv. clear Hr.
  assert (RV : forall r v, rule_within L r -> r_votes k key cfg r x = Ok v -> within M v) by (intros r v' W E; apply r_votes_says in E; exact (says_within L r x v' W E)).
  assert (NV : forall v v', within M v -> normalized v = Ok v' -> within M v') by (intros v1 v2 W E c Hc; apply W; now rewrite <- (normalized_keys _ _ E)).
  destruct (v_prediction cfg).
  - revert v Hv. induction (v_rules s) as [|r rs IH]; intros v Hv; cbn [first_hit] in Hv; [eapply RV; eauto|]. inversion Wr; subst. apply bind_Ok in Hv as (b & _ & Hv). destruct b; [eapply RV; eauto|auto].
  - apply bind_Ok in Hv as (d & Ed & Hv). assert (Wf : within M d) by (eapply RV; eauto). clear Ed Wd. revert Hv. generalize (n0 (T := T)). revert d Wf v. induction (v_rules s) as [|r rs IH]; intros f Wf v h Hv; cbn [weighted_max] in Hv; [injection Hv as <-; auto|].
    inversion Wr; subst. apply bind_Ok in Hv as (b & _ & Hv). destruct b; [|eapply IH; eauto]. apply bind_Ok in Hv as (v0 & E0 & Hv). apply bind_Ok in Hv as (v1 & E1 & Hv).
    assert (W1 : within M v1) by (refine (NV _ _ _ E1); refine (RV _ _ _ E0); auto). destruct (fold_left _ (dvals v1) (h, f)) as [h' f'] eqn:Ef. eapply IH; [auto| |exact Hv].
    clear - Ef Wf W1. change f' with (snd (h', f')). rewrite <- Ef. generalize (dvals v1). intros us. clear Ef. revert h f Wf. induction us as [|u us IHu]; intros h f Wf; cbn [fold_left snd fst]; auto. destruct (_ <=? _)%num; auto.
  - apply bind_Ok in Hv as ([f fired] & E & Hv). assert (Wf : within M f).
    { clear Hv. assert (W0 : within M (@nil (Z * T))) by (intros c []). revert E W0. generalize (@nil (Z * T)). generalize false. revert f fired. induction (v_rules s) as [|r rs IH]; intros f fired fi f0 E W0; cbn [weighted_sum] in E; [injection E as <- _; auto|].
      inversion Wr; subst. apply bind_Ok in E as (b & _ & E). destruct b; [|eapply IH; eauto]. apply bind_Ok in E as (v0 & E0 & E). apply bind_Ok in E as (v1 & E1 & E). apply bind_Ok in E as (f1 & E2 & E). eapply IH; eauto. eapply NV; [|exact E2].
      assert (W1 : within M v1) by (refine (NV _ _ _ E1); refine (RV _ _ _ E0); auto). intros c Hc. unfold add_votes in Hc. unfold dkeys in Hc at 1. rewrite map_map in Hc. cbn [fst] in Hc. rewrite map_id in Hc. apply Hord in Hc. apply (proj1 (proj2 (sorted_set_ok (dkeys f0 ++ dkeys v1)) c)) in Hc. apply in_app_iff in Hc as [Hc|Hc]; auto. }
    destruct fired; [injection Hv as <-; auto|eapply RV; eauto].
Qed.
End Any.

Local Open Scope R_scope.
(** *** C286: the greatest vote *)
(** The shares of the votes; votes that add up to zero stay as they are. *)
Definition shared (v : list (Z * R)) : list (Z * R) := if Req_EM_T (weight v) 0 then v else map (fun kv => (fst kv, snd kv / weight v)) v.
Lemma normalized_R (v : list (Z * R)) : normalized v = Ok (shared v).
Proof.
  unfold normalized, shared. cbv zeta. rewrite vsum_weight. change (@neqb R NumR) with Reqb. unfold n0. cbn [nofZ NumR]. unfold Reqb at 1. destruct (Req_EM_T (weight v) 0); auto. unfold Reqb. destruct (Req_EM_T (weight v) (weight v)); [reflexivity|congruence].
Qed.
Section Real.
Context {D : Type}.
Variables (k : R) (key : R -> Z) (order : list Z -> list Z) (cfg : vfdr_config R D).
Lemma max_fold (v : list (Z * R)) : forall (us : list R) h f, let r := fold_left (fun (hf : R * list (Z * R)) u => if (fst hf <=? u)%num then (u, v) else hf) us (h, f) in
  ((forall u, In u us -> u < h) /\ r = (h, f)) \/ (exists u, In u us /\ h <= u /\ (forall u', In u' us -> u' <= u) /\ r = (u, v)).
Proof.
  cbv zeta. change (@nleb R NumR) with Rleb. induction us as [|u us IH]; intros h f; cbn [fold_left]; [left; split; [intros u []|auto]|]. cbn [fst]. destruct (Rleb h u) eqn:E.
  - apply Rleb_true in E. right. destruct (IH u v) as [(A & ->)|(u1 & I & L & M & ->)].
    + exists u. split; [now left|]. split; auto. split; auto. intros u' [<-|H]; [lra|]. specialize (A u' H). lra.
    + exists u1. split; [now right|]. split; [lra|]. split; auto. intros u' [<-|H]; auto.
  - apply Rleb_false in E. destruct (IH h f) as [(A & ->)|(u1 & I & L & M & ->)]; [left|right].
    + split; auto. intros u' [<-|H]; auto.
    + exists u1. split; [now right|]. split; auto. split; auto. intros u' [<-|H]; auto. lra.
Qed.
Lemma weighted_max_spec x : forall rs h f v, weighted_max k key cfg rs x h f = Ok v -> exists vs, fired_votes k key cfg x rs vs /\
  (((forall w u, In w (map shared vs) -> In u (dvals w) -> u < h) /\ v = f)
   \/ exists pre post u, map shared vs = pre ++ v :: post /\ In u (dvals v) /\ h <= u /\ (forall u', In u' (dvals v) -> u' <= u)
      /\ (forall w u', In w pre -> In u' (dvals w) -> u' <= u) /\ (forall w u', In w post -> In u' (dvals w) -> u' < u)).
Proof.
  induction rs as [|r rs IH]; intros h f v H; cbn [weighted_max] in H; [injection H as <-; exists []; split; [constructor|left; split; auto; intros w u []]|].
  apply bind_Ok in H as (b & Eb & H). pose proof (r_covers_spec _ _ _ _ Eb) as B. destruct b.
  - apply bind_Ok in H as (v0 & E0 & H). rewrite normalized_R in H. cbn [bind] in H. pose proof (max_fold (shared v0) (dvals (shared v0)) h f) as M. cbv zeta in M. destruct (fold_left _ _ _) as [h' f']. destruct (IH _ _ _ H) as (vs & F & C).
    exists (v0 :: vs). split; [constructor; auto; [now apply B|now apply r_votes_says]|]. cbn [map]. destruct M as [(A & E)|(u & I & L & M & E)]; injection E as -> ->.
    + destruct C as [(A' & ->)|(pre & post & u & E & I & L & M & P & Q)]; [left|right].
      * split; auto. intros w u [<-|Hw]; auto. now apply A'.
      * exists (shared v0 :: pre), post, u. rewrite E. repeat split; auto. intros w u' [<-|Hw]; [|now apply P]. intros Hu. specialize (A u' Hu). lra.
    + right. destruct C as [(A' & ->)|(pre & post & u1 & E & I1 & L1 & M1 & P & Q)].
      * exists [], (map shared vs), u. repeat split; auto. intros w u' [].
      * exists (shared v0 :: pre), post, u1. rewrite E. repeat split; auto; [lra|]. intros w u' [<-|Hw]; [|now apply P]. intros Hu. specialize (M u' Hu). lra.
  - destruct (IH _ _ _ H) as (vs & F & C). exists vs. split; auto. constructor; auto. intros C'. apply B in C'. discriminate.
Qed.
(** weighted_max: the shares of the rule, among those that fire, with the greatest share of a label; the last one when several have it.  The
    default rule is asked when none has a share that is not negative: in particular when no rule fires. *)
Theorem vfdr_weighted_max : forall s x v, v_prediction cfg = WeightedMax -> vfdr_votes k key order cfg s x = Ok v -> exists vs, fired_votes k key cfg x (v_rules s) vs /\
  (((forall w u, In w (map shared vs) -> In u (dvals w) -> u < 0) /\ says k key cfg (v_default s) x v)
   \/ exists pre post u, map shared vs = pre ++ v :: post /\ In u (dvals v) /\ 0 <= u /\ (forall u', In u' (dvals v) -> u' <= u)
      /\ (forall w u', In w pre -> In u' (dvals w) -> u' <= u) /\ (forall w u', In w post -> In u' (dvals w) -> u' < u)).
Proof.
  intros s x v E H. unfold vfdr_votes in H. rewrite E in H. apply bind_Ok in H as (d & Ed & H). apply r_votes_says in Ed. destruct (weighted_max_spec _ _ _ _ _ H) as (vs & F & C). exists vs. split; auto. destruct C as [(A & ->)|C]; [left; auto|right; exact C].
Qed.

(** *** C287: the sum of the votes *)
Definition share_of (v : list (Z * R)) (c : Z) : R := class_weight v c / weight v.
(** The first rule that fires counts as much as the second, and every later rule as much as all rules before it together. *)
Definition halving (vs : list (list (Z * R))) (c : Z) : R := match vs with [] => 0 | v :: r => fold_left (fun acc w => (acc + share_of w c) / 2) r (share_of v c) end.
Lemma shared_dist v : distribution v -> 0 < weight v -> distribution (shared v) /\ weight (shared v) = 1 /\ forall c, class_weight (shared v) c = share_of v c.
Proof.
  intros [ND Hn] W. unfold shared. destruct (Req_EM_T (weight v) 0); [lra|]. split; [|split].
  - split; [unfold dkeys; rewrite map_map; exact ND|]. intros c w Hin. apply in_map_iff in Hin as ((c' & u) & E & Hin). injection E as <- <-. cbn [snd]. apply Hn in Hin. apply Rmult_le_pos; auto. left. now apply Rinv_0_lt_compat.
  - unfold weight at 1. rewrite map_map. cbn [snd]. unfold Rdiv. assert (Q : forall (l : list (Z * R)) s, Rsum (map (fun x => snd x * s) l) = Rsum (map snd l) * s) by (induction l as [|a l IH]; intros s; cbn; [lra|rewrite IH; lra]). rewrite Q. fold (weight v). field. lra.
  - intros c. unfold class_weight, share_of, class_weight. rewrite dget_scaled. destruct (dget v c); [reflexivity|]. unfold Rdiv. lra.
Qed.
Lemma add_votes_R (Hp : forall l, Permutation l (order l)) f v : distribution f -> distribution v ->
  distribution (add_votes order f v) /\ weight (add_votes order f v) = weight f + weight v /\ forall c, class_weight (add_votes order f v) c = class_weight f c + class_weight v c.
Proof.
  intros Df Dv. unfold add_votes. cbv zeta. set (cs := order (sorted_set (dkeys f ++ dkeys v))).
  assert (Hcs : forall c, In c cs <-> In c (dkeys f) \/ In c (dkeys v)).
  { intros c. unfold cs. rewrite <- in_app_iff. pose proof (proj2 (sorted_set_ok (dkeys f ++ dkeys v)) c) as Q. rewrite <- Q. split; apply Permutation_in; [apply Permutation_sym|]; apply Hp. }
  assert (NDc : NoDup cs).
  { unfold cs. eapply Permutation_NoDup; [apply Hp|]. pose proof (proj1 (sorted_set_ok (dkeys f ++ dkeys v))) as S. clear - S. induction S as [|a l S IH F]; constructor; auto. intros C. rewrite Forall_forall in F. specialize (F a C). lia. }
  set (g := fun c => class_weight f c + class_weight v c).
  assert (Eg : map (fun c => (c, (match dget f c with Some u => u | None => n0 end + match dget v c with Some u => u | None => n0 end)%num)) cs = map (fun c => (c, g c)) cs) by (apply map_ext; intros c; unfold g, class_weight, n0; cbn; destruct (dget f c), (dget v c); reflexivity).
  rewrite Eg. clear Eg. assert (NDk : NoDup (dkeys (map (fun c => (c, g c)) cs))) by (unfold dkeys; rewrite map_map; cbn; rewrite map_id; exact NDc).
  split; [|split].
  - split; auto. intros c w Hin. apply in_map_iff in Hin as (c' & E & _). injection E as <- <-. unfold g. pose proof (class_weight_nonneg f c' Df). pose proof (class_weight_nonneg v c' Dv). lra.
  - unfold weight at 1. rewrite map_map. cbn [snd]. unfold g.
    assert (Wf : weight f = Rsum (map (class_weight f) cs)) by (apply weight_classes; [apply Df|auto|intros c Hc; apply Hcs; auto]).
    assert (Wv : weight v = Rsum (map (class_weight v) cs)) by (apply weight_classes; [apply Dv|auto|intros c Hc; apply Hcs; auto]). rewrite Wf, Wv. clear. induction cs as [|c cs IH]; cbn; lra.
  - intros c. unfold class_weight at 1. destruct (dget (map (fun c => (c, g c)) cs) c) as [u|] eqn:E.
    + apply dget_In, in_map_iff in E as (c' & E & _). injection E as <- <-. reflexivity.
    + apply dget_None in E. unfold dkeys in E. rewrite map_map in E. cbn [fst] in E. rewrite map_id in E. rewrite Hcs in E. unfold class_weight. destruct (dget f c) eqn:E1; [exfalso; apply E; left; apply dget_Some; eauto|]. destruct (dget v c) eqn:E2; [exfalso; apply E; right; apply dget_Some; eauto|]. lra.
Qed.
Lemma weighted_sum_spec (Hp : forall l, Permutation l (order l)) x : forall rs f fired v fired', weighted_sum k key order cfg rs x f fired = Ok (v, fired') -> exists vs, fired_votes k key cfg x rs vs
  /\ (fired' = true <-> fired = true \/ vs <> []) /\ (vs = [] -> v = f)
  /\ ((forall w, In w vs -> distribution w /\ 0 < weight w) -> distribution f -> (weight f = 1 -> weight v = 1 /\ distribution v /\ forall c, class_weight v c = fold_left (fun acc w => (acc + share_of w c) / 2) vs (class_weight f c))
      /\ (f = [] -> vs <> [] -> weight v = 1 /\ forall c, class_weight v c = halving vs c)).
Proof.
  induction rs as [|r rs IH]; intros f fired v fired' H; cbn [weighted_sum] in H.
  - injection H as <- <-. exists []. split; [constructor|]. split; [split; [auto|intros [H|H]; [auto|congruence]]|]. split; auto. intros _ Df. split; [auto|congruence].
  - apply bind_Ok in H as (b & Eb & H). pose proof (r_covers_spec _ _ _ _ Eb) as B. destruct b.
    + apply bind_Ok in H as (v0 & E0 & H). rewrite normalized_R in H. cbn [bind] in H. rewrite normalized_R in H. cbn [bind] in H. destruct (IH _ _ _ _ H) as (vs & F & Q1 & Q2 & Q3). exists (v0 :: vs).
      split; [constructor; auto; [now apply B|now apply r_votes_says]|]. split; [rewrite Q1; split; auto; intros _; right; discriminate|]. split; [discriminate|]. intros Hv Df.
      destruct (Hv v0 (or_introl eq_refl)) as [D0 W0]. destruct (shared_dist v0 D0 W0) as (S1 & S2 & S3). destruct (add_votes_R Hp f (shared v0) Df S1) as (A1 & A2 & A3). specialize (Q3 (fun w Hw => Hv w (or_intror Hw))).
      assert (Wf : 0 <= weight f) by (apply weight_nonneg; auto). assert (Wa : 0 < weight (add_votes order f (shared v0))) by (rewrite A2, S2; lra). destruct (shared_dist _ A1 Wa) as (P1 & P2 & P3). destruct (Q3 P1) as [Q4 _]. specialize (Q4 P2) as (Q5 & Q6 & Q7). split.
      * intros Wf1. split; auto. split; auto. intros c. rewrite Q7, P3. cbn [fold_left]. f_equal. unfold share_of at 1. rewrite A2, A3, S2, S3, Wf1. field.
      * intros -> _. split; auto. intros c. rewrite Q7, P3. cbn [halving]. f_equal. unfold share_of at 1. rewrite A2, A3, S2, S3. unfold weight, class_weight. cbn. field.
    + destruct (IH _ _ _ _ H) as (vs & F & Q). exists vs. split; auto. constructor; auto. intros C'. apply B in C'. discriminate.
Qed.
Theorem vfdr_weighted_sum : forall s x v, (forall l, Permutation l (order l)) -> v_prediction cfg = WeightedSum -> vfdr_votes k key order cfg s x = Ok v ->
  exists vs, fired_votes k key cfg x (v_rules s) vs /\ (vs = [] -> says k key cfg (v_default s) x v)
  /\ (vs <> [] -> (forall w, In w vs -> distribution w /\ 0 < weight w) -> weight v = 1 /\ forall c, class_weight v c = halving vs c).
Proof.
  intros s x v Hp E H. unfold vfdr_votes in H. rewrite E in H. apply bind_Ok in H as ([f fired] & Es & H). destruct (weighted_sum_spec Hp _ _ _ _ _ _ Es) as (vs & F & Q1 & Q2 & Q3). exists vs. split; auto. destruct fired.
  - injection H as <-. split; [intros ->; destruct (proj1 Q1 eq_refl) as [C|C]; [discriminate|congruence]|]. intros Ne Hv. destruct (Q3 Hv) as [_ Q]; [split; [constructor|intros ? ? []]|]. auto.
  - apply r_votes_says in H. split; auto. intros Ne. exfalso. assert (false = true) by (apply Q1; auto). discriminate.
Qed.
(** Three rules that fire do not count alike: the last one counts as much as the other two together. *)
Theorem vfdr_weighted_sum_refuted : forall v1 v2 v3 c, halving [v1; v2; v3] c = share_of v1 c / 4 + share_of v2 c / 4 + share_of v3 c / 2.
Proof. intros. cbn. field. Qed.

(** *** C288: predict_proba *)
Theorem vfdr_proba_rows : forall s xs P, vfdr_proba k key order cfg s xs = Ok P ->
  (forall x v, In x xs -> vfdr_votes k key order cfg s x = Ok v -> NoDup (map fst v) /\ Forall (fun kv => (0 <= fst kv)%Z) v) ->
  Forall2 (fun x row => exists v, vfdr_votes k key order cfg s x = Ok v /\ forall c, nth c row 0 = share v c) xs P.
Proof.
  intros s xs P H HV. apply mapM_F2 in H. induction H as [|x row xs P E F IH]; constructor.
  - unfold vfdr_row in E. apply bind_Ok in E as (v & Ev & E). exists v. split; auto. destruct (HV x v (or_introl eq_refl) Ev) as [A B]. now apply (row_shares (v_classes s)).
  - apply IH. intros x' v' Hx. apply HV. now right.
Qed.
(** The rows have one entry per label up to the greatest label of the sample's votes, unless the labels were given: they differ in length. *)
Theorem vfdr_row_length : forall s x v row, vfdr_votes k key order cfg s x = Ok v -> vfdr_row k key order cfg s x = Ok row -> v <> [] -> v_classes s = None -> Forall (fun kv => (0 <= fst kv)%Z) v ->
  exists m, In m (dkeys v) /\ (forall c, In c (dkeys v) -> (c <= m)%Z) /\ Z.of_nat (length row) = (m + 1)%Z.
Proof.
  intros s x v row Ev H Ne Ec NN. unfold vfdr_row in H. rewrite Ev in H. cbn [bind] in H. rewrite Ec in H. unfold ht_row in H. destruct v as [|kv v0] eqn:Evv; [congruence|]. rewrite <- Evv in *. cbv zeta in H. apply bind_Ok in H as (m & Em & H).
  assert (K : dkeys (if (vsum v =? n0)%num then v else map (fun kv => (fst kv, (snd kv / vsum v)%num)) v) = dkeys v) by (destruct (_ =? _)%num; auto; unfold dkeys; rewrite map_map; reflexivity). rewrite K in Em.
  assert (Zm : In m (dkeys v) /\ forall c, In c (dkeys v) -> (c <= m)%Z).
  { clear - Em. unfold Knn.zmax in Em. destruct (dkeys v) as [|a l]; [discriminate|]. injection Em as <-. assert (Q : forall l a, In (fold_left Z.max l a) (a :: l) /\ forall c, In c (a :: l) -> (c <= fold_left Z.max l a)%Z).
    { clear. induction l as [|b l IH]; intros a; cbn [fold_left]; [split; [now left|intros c [<-|[]]; lia]|]. destruct (IH (Z.max a b)) as [A B]. split.
      - destruct A as [A|A]; [|right; now right]. rewrite <- A. destruct (Z.max_spec a b) as [[_ ->]|[_ ->]]; [right; now left|now left].
      - intros c [<-|[<-|H]]; [| |apply B; now right]; pose proof (B _ (or_introl eq_refl)); lia. }
    apply Q. }
  destruct Zm as [I M]. exists m. split; auto. split; auto. assert (Len : length row = length (repeat (n0 (T := R)) (Z.to_nat (m + 1)))).
  { clear - H. revert H. generalize (repeat (n0 (T := R)) (Z.to_nat (m + 1))). generalize (if (vsum v =? n0)%num then v else map (fun kv => (fst kv, (snd kv / vsum v)%num)) v). induction l as [|q l IH]; intros acc H; cbn [foldM] in H; [injection H as <-; auto|].
    apply bind_Ok in H as (a1 & E1 & H). rewrite (IH _ H). unfold py_set in E1. destruct (py_index _ _) as [i|]; [|discriminate]. injection E1 as <-. clear. revert i. induction acc as [|a acc IHa]; intros [|i]; cbn; auto. }
  rewrite Len, repeat_length. rewrite Forall_forall in NN. assert (0 <= m)%Z. { apply in_map_iff in I as (q & <- & Hq). exact (NN _ Hq). } lia.
Qed.
End Real.

Print Assumptions vfdr_first_hit.
Print Assumptions vfdr_ordered_first_hit.
Print Assumptions vfdr_batches.
Print Assumptions vfdr_zero_weight.
Print Assumptions vfdr_reset_is_new.
Print Assumptions vfdr_votes_labels.
Print Assumptions vfdr_weighted_max.
Print Assumptions vfdr_weighted_sum.
Print Assumptions vfdr_weighted_sum_refuted.
Print Assumptions vfdr_proba_rows.
Print Assumptions vfdr_row_length.
