(** VeryFastDecisionRulesClassifier: who learns, how rules grow, how many there are. *)
From Coq Require Import List ZArith Bool Lia Reals Lra Permutation Floats.
From Verif Require Import Base.Py Base.Num Base.NumFloat Base.Dict Model.Suggestion Model.Adwin Model.Knn Model.NaiveBayes Model.GaussianObs Model.NominalObs Model.SplitTests
  Model.SplitCriteria Model.TreeSkeleton Model.HoeffdingTree Model.Ddm Model.Vfdr Spec.SplitRuleSpec Spec.VfdrSpec Proofs.ExpertRunProofs Proofs.TreeProofs Proofs.HoeffdingProofs Proofs.SplitRuleProofs Proofs.VfdrProofs.
Import ListNotations.

Section Any.
Context {T D : Type} {N : Num T}.
Variables (k : T) (phi : T -> T) (key : T -> Z) (order : list Z -> list Z).
Variables (det_add : D -> T -> res D) (det_change : D -> bool).
Variable cfg : vfdr_config T D.
Local Notation one := (vfdr_one k phi key order det_add det_change cfg).
Local Notation fit := (vfdr_fit k phi key order det_add det_change cfg).
Local Notation run := (vfdr_run key k phi order det_add det_change cfg).

(** *** C277: who learns from a sample, when no drift is looked for *)
(** Ordered rules: the first rule that fires, or else the default rule. *)
Theorem vfdr_ordered_learning : forall s x y w s', ordered T -> subtractive T -> v_detector cfg = None -> v_ordered cfg = true -> one s x y w = Ok s' ->
  (exists pre r r' post, v_rules s = pre ++ r :: post /\ (forall q, In q pre -> ~ fires key q x) /\ fires key r x
     /\ v_rules s' = pre ++ r' :: post /\ fitted key k phi order cfg x y w r r' /\ v_default s' = v_default s)
  \/ ((forall q, In q (v_rules s) -> ~ fires key q x)
     /\ exists new, v_rules s' = v_rules s ++ new /\ default_fitted key k phi order cfg (length (v_rules s)) x y w (v_default s) (v_default s') new).
Proof.
  intros s x y w s' Ho Hs Hd Hor H. unfold vfdr_one in H. apply bind_Ok in H as ([[rs new] f] & E & H). apply fit_rules_ordered in E as (-> & E); auto. rewrite app_nil_r in H.
  destruct E as [(-> & -> & Nq)|(-> & pre & r & r' & post & E1 & -> & Nq & Fi & Ft)].
  - right. split; auto. apply bind_Ok in H as (d & Ed & H). apply r_learn_learned in Ed. unfold r_weight in H. destruct ((Z.of_nat (length (v_rules s)) <? v_max cfg)%Z && (v_grace cfg <=? vsum (r_dist d) - r_last d)%num) eqn:G.
    + apply bind_Ok in H as ([d' new] & Ec & H). injection H as <-. exists new. split; auto. exists d. split; auto. rewrite G. split; [discriminate|]. intros _ Hc. eapply create_spec; eauto.
    + injection H as <-. exists []. cbn [v_rules v_default]. split; [now rewrite app_nil_r|]. exists d. split; auto. rewrite G. split; auto. discriminate.
  - injection H as <-. left. exists pre, r, r', post. cbn. auto 8.
Qed.
(** Unordered rules: every rule that fires, or else the default rule. *)
Theorem vfdr_unordered_learning : forall s x y w s', ordered T -> subtractive T -> v_detector cfg = None -> v_ordered cfg = false -> one s x y w = Ok s' ->
  exists rs new, v_rules s' = rs ++ new
  /\ Forall2 (fun r r' => (fires key r x -> fitted key k phi order cfg x y w r r') /\ (~ fires key r x -> r' = r)) (v_rules s) rs
  /\ ((exists r, In r (v_rules s) /\ fires key r x) -> new = [] /\ v_default s' = v_default s)
  /\ ((forall r, In r (v_rules s) -> ~ fires key r x) -> default_fitted key k phi order cfg (length (v_rules s)) x y w (v_default s) (v_default s') new).
Proof.
  intros s x y w s' Ho Hs Hd Hor H. unfold vfdr_one in H. apply bind_Ok in H as ([[rs new] f] & E & H). apply fit_rules_unordered in E as (-> & F & Q); auto. rewrite app_nil_r in H. exists rs. destruct f.
  - injection H as <-. exists []. cbn [v_rules v_default]. rewrite app_nil_r. split; auto. split; auto. split; auto. intros C. destruct (proj1 Q eq_refl) as (r & A & B). exfalso. exact (C r A B).
  - apply bind_Ok in H as (d & Ed & H). apply r_learn_learned in Ed. unfold r_weight in H. rewrite <- (TreeProofs.Forall2_len _ _ _ F) in H.
    assert (Nf : ~ exists r, In r (v_rules s) /\ fires key r x) by (intros C; apply Q in C; discriminate).
    destruct ((Z.of_nat (length (v_rules s)) <? v_max cfg)%Z && (v_grace cfg <=? vsum (r_dist d) - r_last d)%num) eqn:G.
    + apply bind_Ok in H as ([d' new] & Ec & H). injection H as <-. exists new. cbn [v_rules v_default]. split; auto. split; auto. split; [contradiction|]. intros _. exists d. split; auto. rewrite G. split; [discriminate|]. intros _ Hc. eapply create_spec; eauto.
    + injection H as <-. exists []. cbn [v_rules v_default]. split; [now rewrite app_nil_r|]. split; auto. split; [contradiction|]. intros _. exists d. split; auto. rewrite G. split; auto. discriminate.
Qed.

(** *** C278: the number of rules *)
(** A call of partial_fit adds a rule only while there are fewer than max_rules, and then one, or with FOIL gain at most one per label. *)
Lemma one_length s x y w s' : one s x y w = Ok s' -> (length (v_rules s') <= length (v_rules s))%nat
  \/ exists d : rule T D, (counted y w (r_dist (v_default s)) (r_dist d) /\ (Z.of_nat (length (v_rules s')) < v_max cfg + match v_criterion cfg with FoilGain => Z.of_nat (length (r_dist d)) | _ => 1 end)%Z).
Proof.
  intros H. unfold vfdr_one in H. apply bind_Ok in H as ([[rs new] f] & E & H). apply fit_rules_length in E as [-> L]. rewrite app_nil_r in H. destruct f; [injection H as <-; left; auto|].
  apply bind_Ok in H as (d & Ed & H). destruct (Z.ltb_spec (Z.of_nat (length rs)) (v_max cfg)) as [M|M]; cbn [andb] in H; [|injection H as <-; left; auto].
  destruct (v_grace cfg <=? _)%num; [|injection H as <-; left; auto]. apply bind_Ok in H as ([d' new] & Ec & H). injection H as <-. right. exists d. split; [apply (r_learn_learned _ _ _ _ _ _ _ Ed)|].
  apply create_length in Ec. cbn [v_rules]. rewrite app_length. destruct (v_criterion cfg); lia.
Qed.
Theorem vfdr_max_rules : forall es s, v_criterion cfg <> FoilGain -> run vfdr_new es = Ok s -> (Z.of_nat (length (v_rules s)) <= Z.max 0 (v_max cfg))%Z.
Proof.
  intros es s Hc. assert (Q : forall es s0 s, (Z.of_nat (length (v_rules s0)) <= Z.max 0 (v_max cfg))%Z -> run s0 es = Ok s -> (Z.of_nat (length (v_rules s)) <= Z.max 0 (v_max cfg))%Z).
  { clear es s. induction es as [|e es IH]; intros s0 s L H; cbn [vfdr_run] in H; [injection H as <-; auto|]. apply bind_Ok in H as (s1 & E & H). refine (IH _ _ _ H). destruct e as [rows c ws|]; cbn [vfdr_do] in E; [|injection E as <-; cbn; lia].
    unfold vfdr_fit in E. destruct (Nat.eqb _ _); [|discriminate]. revert E L. set (s0' := mk_v _ _ _). change (v_rules s0) with (v_rules s0'). clearbody s0'. clear s0. generalize (match ws with Some ws => ws | None => repeat n1 (length rows) end). clear ws H IH.
    revert s0'. induction rows as [|[x y] rows IH]; intros s0 ws E L; cbn [vfdr_rows] in E; [injection E as <-; auto|]. destruct ws as [|w ws]; [injection E as <-; auto|]. apply bind_Ok in E as (s2 & E2 & E). refine (IH _ _ E _).
    destruct (w =? n0)%num; [injection E2 as <-; auto|]. apply one_length in E2 as [Q|(d & _ & Q)]; [lia|]. destruct (v_criterion cfg); [lia|lia|congruence]. }
  intros H. refine (Q _ _ _ _ H). cbn. lia.
Qed.
(** FOIL gain: the rules meant for the other labels of a rule (lines 706-782) are never made, as the observers have just been thrown away. *)
Theorem vfdr_foil_no_new_rules : forall (r r' : rule T D) new, expand_rule k phi order cfg r = Ok (r', new) -> new = [].
Proof. intros r r' new. apply expand_no_new. Qed.

(** *** C279: one suggestion per attribute *)
(** The candidate splits of an observer: the condition that holds on the first half, that of the second half, and the halves *)
Definition candidates_of (i : Z) (o : cobs T) (c : pred T * pred T * (list (Z * T) * list (Z * T))) : Prop :=
  match o with
  | CNum g => exists vs v ds, go_points 10 g = Ok vs /\ In v vs /\ go_split k phi g v = Ok ds /\ c = (PLe i v, PGt i v, ds)
  | CNom n => exists v a b, In v (order (no_values n)) /\ no_binary n v = [a; b] /\ c = (PEq i v, PNe i v, (a, b))
  | CNull => False
  end.
Definition beats (m : cmem T) (pre : list (Z * T)) (s : suggestion (pred T) (list (Z * T) * list (Z * T)) T) (c : pred T * pred T * (list (Z * T) * list (Z * T))) : Prop :=
  exists m0 m1 merit, cm_class m0 = cm_class m /\ rule_merit cfg m0 pre (fst (snd c)) (snd (snd c)) = Ok (merit, m1) /\ ~ below (sg_merit s) merit.
Definition is_candidate (m : cmem T) (pre : list (Z * T)) (s : suggestion (pred T) (list (Z * T) * list (Z * T)) T) (c : pred T * pred T * (list (Z * T) * list (Z * T))) : Prop :=
  exists m0 m1, cm_class m0 = cm_class m /\ rule_merit cfg m0 pre (fst (snd c)) (snd (snd c)) = Ok (sg_merit s, m1) /\ sg_dists s = snd c /\ sg_test s = (if cm_best m1 then fst (fst c) else snd (fst c)).
Lemma merit_class m pre a b merit m1 : rule_merit cfg m pre a b = Ok (merit, m1) -> cm_class m1 = cm_class m.
Proof.
  unfold rule_merit. destruct (v_criterion cfg).
  - unfold ig_rule_merit. intros H. apply bind_Ok in H as (n & _ & H). destruct (Nat.ltb n 2); [injection H as _ <-; auto|]. apply bind_Ok in H as (e & _ & H). injection H as _ <-.
    assert (Q : forall m f e, cm_class (ig_note (T := T) m f e) = cm_class m) by (intros m' f e'; unfold ig_note; destruct (cm_lowest m'); [destruct (_ <? _)%num|]; reflexivity). now rewrite !Q.
  - unfold he_rule_merit. intros H. apply bind_Ok in H as (n & _ & H). destruct (Nat.ltb n 2); [injection H as _ <-; auto|]. destruct (dget a 1), (dget a 0), (dget b 1), (dget b 0); try (injection H as _ <-; auto).
    repeat (apply bind_Ok in H as (? & _ & H)). injection H as _ <-. reflexivity.
  - unfold foil_merit. intros H. apply bind_Ok in H as (n & _ & H). destruct (Nat.ltb n 2); [injection H as _ <-; auto|]. repeat (apply bind_Ok in H as (? & _ & H)). injection H as _ <-. reflexivity.
Qed.
Lemma not_below_trans (a b c : option T) : ordered T -> ~ below a b -> ~ below b c -> ~ below a c.
Proof. intros [O1 O2]. destruct a as [a|], b as [b|], c as [c|]; cbn; auto; try tauto; intros A B C. destruct (a <? b)%num eqn:E1; [tauto|]. destruct (b <? c)%num eqn:E2; [tauto|]. pose proof (O2 _ _ _ E1 E2). congruence. Qed.
Lemma not_below_refl (a : option T) : ordered T -> ~ below a a.
Proof. intros [O1 _] H. destruct a as [a|]; cbn in H; auto. pose proof (O1 _ _ H). congruence. Qed.
(** The loop over candidates keeps the first of those with the greatest merit. *)
Lemma consider_inv m pre : ordered T -> forall (done : list (pred T * pred T * (list (Z * T) * list (Z * T)))) st c p0 p1 a b st', c = (p0, p1, (a, b)) ->
  cm_class (snd st) = cm_class m -> (fst st = None -> done = []) -> (forall s, fst st = Some s -> (exists c, In c done /\ is_candidate m pre s c) /\ forall c, In c done -> beats m pre s c) ->
  consider cfg pre st p0 p1 a b = Ok st' ->
  cm_class (snd st') = cm_class m /\ (fst st' = None -> done ++ [c] = []) /\ forall s, fst st' = Some s -> (exists c', In c' (done ++ [c]) /\ is_candidate m pre s c') /\ forall c', In c' (done ++ [c]) -> beats m pre s c'.
Proof.
  intros Ho done st c p0 p1 a b st' -> Hm Hn Hs H. unfold consider in H. apply bind_Ok in H as ([merit m1] & E & H). injection H as <-. cbn [fst snd]. pose proof (merit_class _ _ _ _ _ _ E) as Hm1. split; [congruence|].
  set (s1 := mkSug (if cm_best m1 then p0 else p1) (a, b) merit). set (c := (p0, p1, (a, b))).
  assert (C1 : is_candidate m pre s1 c) by (exists (snd st), m1; cbn; auto). assert (B1 : forall s, ~ below (sg_merit s) merit -> beats m pre s c) by (intros s Hb; exists (snd st), m1, merit; cbn; auto).
  unfold keep_best. destruct (fst st) as [s0|] eqn:Es.
  - destruct (Hs s0 eq_refl) as [(c0 & I0 & C0) Bt]. destruct (mgt (sg_merit s1) (sg_merit s0)) eqn:Eg.
    + assert (Lt : below (sg_merit s0) merit) by (unfold mgt in Eg; cbn in Eg; destruct merit, (sg_merit s0); cbn; auto; discriminate).
      split; [discriminate|]. intros s [= <-]. split; [exists c; split; auto; apply in_app_iff; right; now left|]. intros c' Hc. apply in_app_iff in Hc as [Hc|[<-|[]]]; [|apply B1; now apply not_below_refl].
      destruct (Bt c' Hc) as (m2 & m3 & mer & A1 & A2 & A3). exists m2, m3, mer. split; auto. split; auto. intros C. apply A3. cbn [sg_merit s1] in C.
      destruct (sg_merit s0) as [u|], merit as [v|], mer as [z|]; cbn in *; auto; try contradiction. destruct Ho as [O1 O2]. destruct (u <? z)%num eqn:Ez; auto. pose proof (O1 _ _ C) as Q. pose proof (O2 _ _ _ Ez Q). congruence.
    + split; [discriminate|]. intros s [= <-]. split; [exists c0; split; auto; apply in_app_iff; now left|]. intros c' Hc. apply in_app_iff in Hc as [Hc|[<-|[]]]; [auto|]. apply B1. intros C. unfold mgt in Eg. cbn in Eg.
      destruct (sg_merit s0), merit; cbn in C; auto; congruence.
  - rewrite (Hn eq_refl). split; [discriminate|]. intros s [= <-]. split; [exists c; split; auto; now left|]. intros c' [<-|[]]. apply B1. now apply not_below_refl.
Qed.
Lemma best_fold pre m : ordered T -> forall A (f : option (suggestion (pred T) (list (Z * T) * list (Z * T)) T) * cmem T -> A -> res (option (suggestion (pred T) (list (Z * T) * list (Z * T)) T) * cmem T))
  (sp : A -> option (pred T * pred T * (list (Z * T) * list (Z * T)))),
  (forall st v st', f st v = Ok st' -> exists p0 p1 a b, sp v = Some (p0, p1, (a, b)) /\ consider cfg pre st p0 p1 a b = Ok st') ->
  forall vs st', foldM f vs (None, m) = Ok st' ->
  exists done, (forall c, In c done <-> exists v, In v vs /\ sp v = Some c) /\ cm_class (snd st') = cm_class m /\ (fst st' = None -> done = [])
    /\ forall s, fst st' = Some s -> (exists c, In c done /\ is_candidate m pre s c) /\ forall c, In c done -> beats m pre s c.
Proof.
  intros Ho A f sp Hf vs. induction vs as [|v vs IH] using rev_ind; intros st' Hv.
  - injection Hv as <-. exists []. split; [intros c; split; [intros []|intros (v & [] & _)]|]. repeat split; auto; discriminate.
  - rewrite foldM_app in Hv. apply bind_Ok in Hv as (st1 & E1 & Hv). cbn [foldM] in Hv. apply bind_Ok in Hv as (st2 & E2 & Hv). injection Hv as <-.
    destruct (IH _ E1) as (done & Hd & Hm & Hn & Hs). apply Hf in E2 as (p0 & p1 & a & b & Ev & E2). exists (done ++ [(p0, p1, (a, b))]).
    destruct (consider_inv m pre Ho done _ _ _ _ _ _ _ eq_refl Hm Hn Hs E2) as (Q1 & Q2 & Q3). split; [|auto].
    intros c. rewrite in_app_iff, Hd. split.
    + intros [(v' & I & E)|[<-|[]]]; [exists v'|exists v]; (split; [apply in_app_iff; cbn; auto|auto]).
    + intros (v' & I & E). apply in_app_iff in I as [I|[<-|[]]]; [left; exists v'; auto|]. right. left. congruence.
Qed.
(** The suggestion of an attribute is one of its candidates, and no candidate has a greater merit. *)
Theorem vfdr_best_suggestion : forall pre i o m s m', ordered T -> rule_best k phi order cfg pre i o m = Ok (Some s, m') ->
  (exists c, candidates_of i o c /\ is_candidate m pre s c) /\ forall c, candidates_of i o c -> beats m pre s c.
Proof.
  intros pre i o m s m' Ho H. destruct o as [g|n|]; cbn [rule_best] in H; [| |discriminate].
  - apply bind_Ok in H as (vs & Ev & H). eapply (best_fold pre m Ho _ _ (fun v => match go_split k phi g v with Ok ds => Some (PLe i v, PGt i v, ds) | Raise _ => None end)) in H as (done & Hd & _ & _ & Hs).
    + destruct (Hs s eq_refl) as [(c & Ic & Cc) Bt]. split.
      * exists c. split; auto. apply Hd in Ic as (v & Iv & E). destruct (go_split k phi g v) as [ds|] eqn:Es; [|discriminate]. injection E as <-. exists vs, v, ds. auto.
      * intros c' (vs' & v & ds & E1 & Iv & E2 & ->). rewrite Ev in E1. injection E1 as <-. apply Bt. apply Hd. exists v. rewrite E2. auto.
    + cbv beta. intros st v st' E. apply bind_Ok in E as ([a b] & Es & E). rewrite Es. exists (PLe i v), (PGt i v), a, b. auto.
  - eapply (best_fold pre m Ho _ _ (fun v => match no_binary n v with [a; b] => Some (PEq i v, PNe i v, (a, b)) | _ => None end)) in H as (done & Hd & _ & _ & Hs).
    + destruct (Hs s eq_refl) as [(c & Ic & Cc) Bt]. split.
      * exists c. split; auto. apply Hd in Ic as (v & Iv & E). destruct (no_binary n v) as [|a [|b [|? ?]]] eqn:Es; try discriminate. injection E as <-. exists v, a, b. auto.
      * intros c' (v & a & b & Iv & E2 & ->). apply Bt. apply Hd. exists v. rewrite E2. auto.
    + cbv beta. intros st v st' E. pose proof (no_binary_length n v) as L. destruct (no_binary n v) as [|a [|b [|? ?]]]; try discriminate. exists (PEq i v), (PNe i v), a, b. auto.
Qed.
End Any.

Print Assumptions vfdr_ordered_learning.
Print Assumptions vfdr_unordered_learning.
Print Assumptions vfdr_max_rules.
Print Assumptions vfdr_foil_no_new_rules.
Print Assumptions vfdr_best_suggestion.
