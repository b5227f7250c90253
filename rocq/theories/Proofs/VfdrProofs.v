(** Facts about the decision rules. *)
From Coq Require Import List ZArith Bool Lia Reals Lra Permutation.
From Verif Require Import Base.Py Base.Num Base.Dict Model.Suggestion Model.Adwin Model.Knn Model.NaiveBayes Model.GaussianObs Model.NominalObs Model.SplitTests
  Model.SplitCriteria Model.TreeSkeleton Model.HoeffdingTree Model.Vfdr Spec.VfdrSpec Spec.SplitRuleSpec Proofs.ExpertRunProofs Proofs.TreeProofs Proofs.HoeffdingProofs Proofs.SplitRuleProofs Props.HoeffdingProps.
Import ListNotations.

Section Facts.
Context {T D : Type} {N : Num T}.
Local Notation dist := (list (Z * T)).
Local Notation rule := (rule T D).
Local Notation sug := (suggestion (pred T) (dist * dist) T).
Variables (k : T) (phi : T -> T) (key : T -> Z) (order : list Z -> list Z).
Variables (det_add : D -> T -> res D) (det_change : D -> bool).
Variable cfg : vfdr_config T D.

Local Notation learned := (VfdrSpec.learned key cfg).
Local Notation eps_of := (eps_of cfg).
Local Notation revised := (revised k phi order cfg).
Local Notation fitted := (fitted key k phi order cfg).

(** *** Firing *)
Lemma at_value (x : list T) a u : at_index x a = Ok u <-> value x a = Some u.
Proof. unfold at_index, value. cbv zeta. destruct (_ <? 0)%Z; [split; discriminate|]. destruct (nth_error _ _); split; intros [= ->]; reflexivity. Qed.
Lemma p_covers_spec p x b : p_covers key p x = Ok b -> (b = true <-> meets key x p).
Proof.
  destruct p; cbn [p_covers meets]; intros H; apply bind_Ok in H as (u & E & H); injection H as <-; apply at_value in E; (split; [intros Hb; exists u; split; auto|intros (u' & E' & Hb); rewrite E in E'; injection E' as <-]); auto.
  - now apply Z.eqb_eq.
  - now apply Z.eqb_eq.
  - intros C. apply Z.eqb_eq in C. rewrite C in Hb. discriminate.
  - apply negb_true_iff. now apply Z.eqb_neq.
Qed.
Lemma covers_all_spec ps x : forall b, covers_all key ps x = Ok b -> (b = true <-> forall p, In p ps -> meets key x p).
Proof.
  induction ps as [|p ps IH]; intros b H; cbn [covers_all] in H; [injection H as <-; split; [intros _ q []|auto]|].
  apply bind_Ok in H as (b0 & E & H). apply p_covers_spec in E. destruct b0.
  - rewrite (IH b H). split; [intros Q q [<-|Hq]; [now apply E|auto]|intros Q q Hq; apply Q; now right].
  - injection H as <-. split; [discriminate|]. intros Q. apply E. apply Q. now left.
Qed.
Lemma r_covers_spec (r : rule) x b : r_covers key r x = Ok b -> (b = true <-> fires key r x).
Proof. apply covers_all_spec. Qed.

(** *** Learning *)
Lemma dget_dinsert {V} (p : Z * V) d j : dget (dinsert p d) j = if (fst p =? j)%Z then Some (snd p) else dget d j.
Proof.
  induction d as [|[c v] d IH]; cbn [dinsert]; [destruct p; reflexivity|]. destruct p as [a u]; cbn [fst snd] in *. destruct (Z.leb_spec a c) as [L|L]; [reflexivity|].
  cbn [dget]. rewrite IH. destruct (Z.eqb_spec c j) as [->|], (Z.eqb_spec a j) as [->|]; auto; lia.
Qed.
Lemma dget_dsort_any {V} (d : list (Z * V)) j : dget (dsort d) j = dget d j.
Proof. induction d as [|[c v] d IH]; [reflexivity|]. cbn [dsort fold_right]. rewrite dget_dinsert. cbn [fst snd dget]. destruct (c =? j)%Z; auto. Qed.
Lemma update_stats_counted (d : dist) y w : counted y w d (update_stats d y w).
Proof.
  intros c. unfold weight_of, update_stats. destruct (dget d y) as [v|] eqn:E; [|rewrite dget_dsort_any]; rewrite dget_dset;
    (destruct (Z.eqb_spec y c) as [<-|Nc]; [rewrite Z.eqb_refl, E; reflexivity|]); (destruct (Z.eqb_spec c y); [congruence|reflexivity]).
Qed.
Lemma r_learn_learned (r : rule) x y w r1 : r_learn key cfg r x y w = Ok r1 -> learned x y w r r1.
Proof. unfold r_learn. intros H. apply bind_Ok in H as (o & E & H). injection H as <-. repeat split; auto. apply update_stats_counted. Qed.
Lemma max_key_majority (d : dist) c : ordered T -> max_key d = Ok c -> majority d c.
Proof.
  intros [Ho1 Ho2] H. destruct d as [|kv d]; [discriminate|]. cbn [max_key] in H. injection H as <-. right.
  enough (Q : exists pre post, kv :: d = pre ++ fold_left (fun best kv => if (snd best <? snd kv)%num then kv else best) d kv :: post
    /\ (forall a u, In (a, u) pre -> (u <? snd (fold_left (fun best kv => if (snd best <? snd kv)%num then kv else best) d kv))%num = true)
    /\ (forall a u, In (a, u) post -> (snd (fold_left (fun best kv => if (snd best <? snd kv)%num then kv else best) d kv) <? u)%num = false)).
  { destruct Q as (pre & post & A & B & C). exists pre, (snd (fold_left (fun best kv => if (snd best <? snd kv)%num then kv else best) d kv)), post. split; [now rewrite <- surjective_pairing|auto]. }
  revert kv. induction d as [|e d IH] using rev_ind; intros kv; [exists [], []; cbn; repeat split; intros ? ? []|].
  destruct (IH kv) as (pre & post & A & B & C). rewrite fold_left_app. cbn [fold_left]. remember (fold_left (fun best kv => if (snd best <? snd kv)%num then kv else best) d kv) as m.
  destruct (snd m <? snd e)%num eqn:E.
  - exists (kv :: d), []. split; [reflexivity|]. split; [|intros ? ? []]. assert (Lt : forall a b, (a <? b)%num = false -> (b <? snd e)%num = true -> (a <? snd e)%num = true -> True) by auto.
    assert (Tr : forall u : T, (snd m <? u)%num = false -> (u <? snd e)%num = true).
    { intros u Hu. destruct (u <? snd e)%num eqn:Eu; auto. pose proof (Ho2 _ _ _ Hu Eu). congruence. }
    intros a u Hin. apply Tr. rewrite A in Hin. apply in_app_iff in Hin as [Hin|[Hin|Hin]].
    + apply Ho1. exact (B _ _ Hin).
    + rewrite Hin. cbn. destruct (u <? u)%num eqn:Eu; auto. exact (eq_trans (eq_sym Eu) (Ho1 _ _ Eu)).
    + exact (C _ _ Hin).
  - exists pre, (post ++ [e]). split; [|split; auto].
    + change (kv :: d ++ [e]) with ((kv :: d) ++ [e]). rewrite A, <- app_assoc. reflexivity.
    + intros a u Hin. apply in_app_iff in Hin as [Hin|[->|[]]]; [exact (C _ _ Hin)|exact E].
Qed.

(** *** Expanding *)
Lemma merge_tightened ps p : tightened ps p = match merge ps p with Some ps' => ps' | None => ps ++ [p] end.
Proof.
  induction ps as [|q ps IH]; [reflexivity|]. cbn [tightened merge app].
  destruct q, p; cbn [same_kind stricter]; try (destruct (_ =? _)%Z; [reflexivity|]); rewrite IH; destruct (merge ps _); reflexivity.
Qed.
Lemma merge_none ps p : merge ps p = None <-> forall q, In q ps -> same_kind q p = false.
Proof.
  induction ps as [|q ps IH]; [split; [intros _ q []|reflexivity]|]. cbn [merge].
  assert (Q : option_map (cons q) (merge ps p) = None <-> forall q0 : pred T, In q0 ps -> same_kind q0 p = false) by (rewrite <- IH; destruct (merge ps p); cbn; split; congruence).
  assert (Q1 : same_kind q p = false -> (option_map (cons q) (merge ps p) = None <-> forall q0 : pred T, In q0 (q :: ps) -> same_kind q0 p = false)).
  { intros E. rewrite Q. split; [intros A q0 [<-|H0]; auto|intros A q0 H0; apply A; now right]. }
  destruct q, p; cbn [same_kind] in *; try (apply Q1; reflexivity); destruct (Z.eqb_spec att att0) as [->|Na]; try (apply Q1; reflexivity);
    (split; [discriminate|intros A; specialize (A _ (or_introl eq_refl)); cbn in A; now rewrite Z.eqb_refl in A]).
Qed.
Lemma r_expand_preds (r : rule) s : r_preds (fst (r_expand r s)) = tightened (r_preds r) (sg_test s).
Proof. unfold r_expand. rewrite merge_tightened. cbv zeta. destruct (merge _ _); reflexivity. Qed.
Lemma r_expand_obs (r : rule) s : r_obs (fst (r_expand r s)) = [] /\ r_class (fst (r_expand r s)) = r_class r /\ r_det (fst (r_expand r s)) = r_det r /\ r_last (fst (r_expand r s)) = r_last r.
Proof. unfold r_expand. cbv zeta. destruct (merge _ _); cbn; auto. Qed.
Lemma r_expand_dist (r : rule) s : (effective (r_preds r) (sg_test s) -> r_dist (fst (r_expand r s)) = inside (sg_test s) (sg_dists s)) /\ (~ effective (r_preds r) (sg_test s) -> r_dist (fst (r_expand r s)) = r_dist r).
Proof.
  unfold r_expand. cbv zeta. destruct (merge (r_preds r) (sg_test s)) eqn:E; cbn [fst r_dist].
  - destruct (sg_test s) eqn:Es; cbn [ordinal kept_side inside effective] in *; split; intros H; try reflexivity; try (exfalso; apply H; exact I);
      (exfalso; apply merge_none in H; congruence).
  - split; intros H; [destruct (sg_test s); reflexivity|]. exfalso. apply H. destruct (sg_test s); cbn [effective]; auto; now apply merge_none.
Qed.
Lemma no_suggestions (d : dist) cls m : suggestions_of k phi order cfg d [] cls m = Ok ([], match cls with Some c => mk_cm (cm_lowest m) (cm_best m) c | None => m end).
Proof. reflexivity. Qed.
Lemma consult_nothing (r : rule) cls : r_obs r = [] -> consult k phi order cfg r cls = Ok (r, None).
Proof. intros E. unfold consult. rewrite E, no_suggestions. reflexivity. Qed.
Lemma others_none (r : rule) : r_obs r = [] -> others k phi order cfg r = Ok [].
Proof.
  intros E. unfold others. generalize (dkeys (r_dist r)). intros cs. assert (Q : forall cs acc, foldM (fun acc c =>
           if match r_class r with Some c' => (c =? c')%Z | None => false end then Ok acc else
           let n := mk_rule (r_dist r) (r_obs r) (r_last r) (r_preds r) (Some c) (r_det r) in
           ' (n, d) <- consult k phi order cfg n (Some c) ;;
           Ok (match d with Some s => acc ++ [fst (r_expand n s)] | None => acc end)) cs acc = Ok acc).
  { clear cs. induction cs as [|c cs IH]; intros acc; [reflexivity|]. cbn [foldM]. destruct (match r_class r with Some c' => (c =? c')%Z | None => false end); [apply IH|].
    cbv zeta. rewrite consult_nothing by exact E. cbn [bind]. apply IH. }
  apply Q.
Qed.
Lemma expand_no_new (r r' : rule) new : expand_rule k phi order cfg r = Ok (r', new) -> new = [].
Proof.
  unfold expand_rule. destruct (Nat.ltb _ 2); [intros [= _ <-]; reflexivity|]. intros H. apply bind_Ok in H as ([r1 d] & E & H). destruct d as [s|]; [|injection H as _ <-; reflexivity].
  destruct (r_expand r1 s) as [r2 added] eqn:Er. apply bind_Ok in H as (new' & E2 & H). injection H as _ <-. destruct (v_criterion cfg); try (injection E2 as <-; reflexivity).
  destruct (_ && _); [|injection E2 as <-; reflexivity]. rewrite others_none in E2; [injection E2 as <-; reflexivity|]. pose proof (r_expand_obs r1 s) as (Q & _). rewrite Er in Q. exact Q.
Qed.
(** Disabling attributes changes only the observers. *)
Lemma disable_keeps l : forall r : rule, let r' := fold_left r_disable l r in r_dist r' = r_dist r /\ r_preds r' = r_preds r /\ r_class r' = r_class r /\ r_det r' = r_det r /\ r_last r' = r_last r.
Proof.
  induction l as [|a l IH]; intros r; cbn [fold_left]; [auto 6|]. destruct (IH (r_disable r a)) as (A & B & C & E & F). cbv zeta. rewrite A, B, C, E, F. unfold r_disable. destruct (dmem _ _); cbn; auto 6.
Qed.
Lemma rule_bound_eps (d : dist) b : rule_bound cfg d = Ok b -> b = eps_of d.
Proof. unfold rule_bound, hoeffding_bound, eps_of, epsilon, pydiv. destruct (neqb _ _); [discriminate|]. intros [= <-]. reflexivity. Qed.
Lemma by_merit_sle (bs : list sug) : by_merit bs = sort_stable sle bs. Proof. reflexivity. Qed.
Lemma verdict_spec (d : dist) bs v b : ordered T -> subtractive T -> verdict cfg d (by_merit bs) = Ok (v, b) ->
  match v with
  | Some best => exists others, best_is bs best others /\ wins (eps_of d) (v_tie cfg) best others
  | None => forall best others, best_is bs best others -> ~ wins (eps_of d) (v_tie cfg) best others
  end.
Proof.
  intros Ho Hs H. unfold verdict in H. rewrite by_merit_sle in H. destruct (rev (sort_stable sle bs)) as [|best [|second rest]] eqn:Er.
  - injection H as <- <-. intros best others (pre & post & E & _). assert (L : sort_stable sle bs = []) by (apply (f_equal (@rev _)) in Er; rewrite rev_involutive in Er; exact Er).
    pose proof (sort_stable_perm sle bs) as P. rewrite L in P. apply Permutation_sym, Permutation_nil in P. subst bs. destruct pre; discriminate.
  - injection H as <- <-. destruct (best_sorted _ _ _ Ho Er) as (others & B & P). exists others. split; auto. apply Permutation_nil in P. subst others. left. intros o [].
  - apply bind_Ok in H as (bound & Eb & H). apply rule_bound_eps in Eb. subst bound. injection H as <- <-. destruct (best_sorted _ _ _ Ho Er) as (others & B & P).
    destruct (gap_gt (sg_merit best) (sg_merit second) (eps_of d) || (eps_of d <? v_tie cfg)%num) eqn:Ew.
    + exists others. split; auto. apply orb_true_iff in Ew as [Ew|Ew]; [left|right; exact Ew]. intros o Ho'. apply exceeds_gap. apply (Permutation_in _ (Permutation_sym P)) in Ho'. destruct Ho' as [<-|Ho']; auto.
      pose proof (sort_second sle (sle_tot Ho) (sle_trans Ho) _ _ _ _ Er o Ho') as Q. unfold sle in Q. apply negb_true_iff in Q.
      unfold gap_gt in *. destruct (sg_merit best) as [x|], (sg_merit second) as [y|], (sg_merit o) as [z|]; cbn in *; auto; try discriminate. exact (Hs z y x _ Q Ew).
    + intros b' o' B' W. destruct (best_is_unique _ _ _ _ _ Ho B B') as [<- <-]. apply orb_false_iff in Ew as [E1 E2]. destruct W as [W|W]; [|congruence].
      specialize (W second ltac:(eapply Permutation_in; [exact P|now left])). apply exceeds_gap in W. congruence.
Qed.

Lemma expand_revised (r r' : rule) new : ordered T -> subtractive T -> expand_rule k phi order cfg r = Ok (r', new) -> new = [] /\ revised r (mark r').
Proof.
  intros Ho Hs H. pose proof (expand_no_new _ _ _ H). split; auto. unfold expand_rule in H. destruct (Nat.ltb_spec (length (r_dist r)) 2) as [L|L].
  { injection H as <- _. repeat split; try reflexivity. intros L'. lia. }
  apply bind_Ok in H as ([r1 d] & E & H). unfold consult in E. apply bind_Ok in E as ([bs m] & Es & E). cbv zeta in E. apply bind_Ok in E as ([d' bound] & Ev & E). injection E as <- ->.
  apply verdict_spec in Ev; auto.
  set (r1 := match rev (by_merit bs) with [] => r | best :: _ => match bound with Some bound => if v_poor cfg then fold_left r_disable (poor_of best bound (by_merit bs)) r else r | None => r end end) in *.
  assert (K : (r_dist r1 = r_dist r /\ r_preds r1 = r_preds r /\ r_class r1 = r_class r /\ r_det r1 = r_det r) /\ (v_poor cfg = false -> r_obs r1 = r_obs r)).
  { subst r1. destruct (rev _) as [|b rest]; auto. destruct bound as [bd|]; auto. destruct (v_poor cfg); auto. split; [|discriminate]. destruct (disable_keeps (poor_of b bd (by_merit bs)) r) as (A & B & C & F & _). auto. }
  clearbody r1. destruct K as ((K1 & K2 & K3 & K4) & K5). destruct d as [best|].
  - destruct (r_expand r1 best) as [r2 added] eqn:Er. apply bind_Ok in H as (n' & _ & H). injection H as <- _. destruct Ev as (others & B & W).
    pose proof (r_expand_preds r1 best) as P. pose proof (r_expand_obs r1 best) as (O1 & O2 & O3 & _). pose proof (r_expand_dist r1 best) as (D1 & D2). rewrite Er in *. cbn [fst] in *. rewrite K2 in *.
    unfold revised, mark. cbn [r_class r_det r_last r_preds r_dist r_obs]. rewrite O2, O3. repeat split; auto; try (intros; lia). intros _. exists bs, m. split; auto. left. exists best, others. rewrite <- K1 at 2. auto 8.
  - injection H as <- _. unfold revised, mark. cbn [r_class r_det r_last r_preds r_dist r_obs]. repeat split; auto; try (intros; lia). intros _. exists bs, m. split; auto.
Qed.
Lemma fit_rule_fitted (r : rule) x y w o new : ordered T -> subtractive T -> v_detector cfg = None -> fit_rule k phi key order det_add det_change cfg r x y w = Ok (o, new) ->
  new = [] /\ exists r', o = Some r' /\ fitted x y w r r'.
Proof.
  intros Ho Hs Hd H. unfold fit_rule in H. rewrite Hd in H. cbn [bind] in H. apply bind_Ok in H as (r1 & E & H). apply r_learn_learned in E. unfold r_weight in H.
  destruct (v_grace cfg <=? vsum (r_dist r1) - r_last r1)%num eqn:G.
  - apply bind_Ok in H as ([r2 n2] & E2 & H). injection H as <- <-. destruct (expand_revised _ _ _ Ho Hs E2) as [-> Rv]. split; auto. exists (mark r2). split; auto. exists r1. split; auto. rewrite G. split; [discriminate|auto].
  - injection H as <- <-. split; auto. exists r1. split; auto. exists r1. split; auto. rewrite G. split; [auto|discriminate].
Qed.
Lemma fit_rules_ordered x y w : ordered T -> subtractive T -> v_detector cfg = None -> v_ordered cfg = true -> forall rs rs' new f, fit_rules k phi key order det_add det_change cfg rs false x y w = Ok (rs', new, f) ->
  new = [] /\ ((f = false /\ rs' = rs /\ forall q, In q rs -> ~ fires key q x)
  \/ (f = true /\ exists pre r r' post, rs = pre ++ r :: post /\ rs' = pre ++ r' :: post /\ (forall q, In q pre -> ~ fires key q x) /\ fires key r x /\ fitted x y w r r')).
Proof.
  intros Ho Hs Hd Hord. induction rs as [|r rs IH]; intros rs' new f H; cbn [fit_rules] in H; [injection H as <- <- <-; split; auto; left; repeat split; intros q []|].
  apply bind_Ok in H as (b & Eb & H). pose proof (r_covers_spec _ _ _ Eb) as B. destruct b.
  - apply bind_Ok in H as ([o n1] & E1 & H). destruct (fit_rule_fitted _ _ _ _ _ _ Ho Hs Hd E1) as (-> & r' & -> & F). rewrite Hord in H. injection H as <- <- <-. split; auto. right. split; auto.
    exists [], r, r', rs. repeat split; auto. now apply B.
  - apply bind_Ok in H as ([[rs1 n1] f1] & E1 & H). injection H as <- <- <-. destruct (IH _ _ _ E1) as (-> & C). split; auto.
    assert (Nf : ~ fires key r x) by (intros C'; apply B in C'; discriminate). destruct C as [(-> & -> & Nq)|(-> & pre & r0 & r0' & post & -> & -> & Nq & Fi & Ft)]; [left|right].
    + repeat split; auto. intros q [<-|Hq]; auto.
    + split; auto. exists (r :: pre), r0, r0', post. repeat split; auto. intros q [<-|Hq]; auto.
Qed.
Lemma fit_rules_unordered x y w : ordered T -> subtractive T -> v_detector cfg = None -> v_ordered cfg = false -> forall rs rs' new f, fit_rules k phi key order det_add det_change cfg rs false x y w = Ok (rs', new, f) ->
  new = [] /\ Forall2 (fun r r' => (fires key r x -> fitted x y w r r') /\ (~ fires key r x -> r' = r)) rs rs' /\ (f = true <-> exists r, In r rs /\ fires key r x).
Proof.
  intros Ho Hs Hd Hord. induction rs as [|r rs IH]; intros rs' new f H; cbn [fit_rules] in H; [injection H as <- <- <-; repeat split; auto; [discriminate|intros (r & [] & _)]|].
  apply bind_Ok in H as (b & Eb & H). pose proof (r_covers_spec _ _ _ Eb) as B. destruct b.
  - apply bind_Ok in H as ([o n1] & E1 & H). destruct (fit_rule_fitted _ _ _ _ _ _ Ho Hs Hd E1) as (-> & r' & -> & F). rewrite Hord in H. apply bind_Ok in H as ([[rs1 n2] f1] & E2 & H). injection H as <- <- <-.
    destruct (IH _ _ _ E2) as (-> & C & _). split; auto. assert (Fr : fires key r x) by now apply B. split; [constructor; auto; split; auto; contradiction|]. split; auto. intros _. exists r. split; auto. now left.
  - apply bind_Ok in H as ([[rs1 n2] f1] & E2 & H). injection H as <- <- <-. destruct (IH _ _ _ E2) as (-> & C & Q). assert (Nf : ~ fires key r x) by (intros C'; apply B in C'; discriminate).
    split; auto. split; [constructor; auto; split; auto; contradiction|]. rewrite Q. split; [intros (r0 & A & F0); exists r0; split; auto; now right|intros (r0 & [<-|A] & F0); [contradiction|exists r0; auto]].
Qed.
(** Creating a rule: information gain and Hellinger distance *)
Lemma create_spec (d d' : rule) new : ordered T -> subtractive T -> v_criterion cfg <> FoilGain -> create_rule k phi order cfg d = Ok (d', new) ->
  created k phi order cfg d d' new.
Proof.
  intros Ho Hs Hc H. unfold create_rule in H. destruct (Nat.ltb_spec (length (r_dist d)) 2) as [L|L]; [injection H as <- <-; split; auto; lia|]. split; [lia|]. intros _.
  assert (H' : ' (bs, _) <- suggestions_of k phi order cfg (r_dist d) (r_obs d) None cm_new ;; ' (v, _) <- verdict cfg (r_dist d) (by_merit bs) ;;
      Ok (match v with Some s => (restarted (other_side (sg_test s) (sg_dists s)), [rule_of cfg None s]) | None => (mark d, []) end) = Ok (d', new)) by (destruct (v_criterion cfg); [exact H|exact H|congruence]).
  clear H. apply bind_Ok in H' as ([bs m] & Es & H). exists bs, m. split; auto. apply bind_Ok in H as ([v b] & Ev & H). apply verdict_spec in Ev; auto. destruct v as [best|].
  - injection H as <- <-. destruct Ev as (oth & B & W). left. exists best, oth. repeat split; auto; destruct (sg_test best); reflexivity.
  - injection H as <- <-. right. auto.
Qed.
Lemma foil_rules_length (d : dist) obs cs : forall m sh rs sh', foil_rules k phi order cfg d obs cs m sh = Ok (rs, sh') -> (length rs <= length cs)%nat.
Proof.
  induction cs as [|c cs IH]; intros m sh rs sh' H; cbn [foil_rules] in H; [injection H as <- _; auto|]. apply bind_Ok in H as ([bs m1] & _ & H). cbv zeta in H. apply bind_Ok in H as ([v b] & _ & H).
  apply bind_Ok in H as ([rs1 sh1] & E & H). injection H as <- _. apply IH in E. rewrite app_length. cbn [length]. destruct (match v with Some _ => true | None => _ end); [|cbn; lia]. destruct (rev (by_merit bs)); cbn; lia.
Qed.
Lemma create_length (d d' : rule) new : create_rule k phi order cfg d = Ok (d', new) -> (length new <= (match v_criterion cfg with FoilGain => length (r_dist d) | _ => 1 end))%nat.
Proof.
  intros H. unfold create_rule in H. destruct (Nat.ltb _ _); [injection H as _ <-; cbn; lia|].
  assert (Q : forall (H : ' (bs, _) <- suggestions_of k phi order cfg (r_dist d) (r_obs d) None cm_new ;; ' (v, _) <- verdict cfg (r_dist d) (by_merit bs) ;;
      Ok (match v with Some s => (restarted (other_side (sg_test s) (sg_dists s)), [rule_of cfg None s]) | None => (mark d, []) end) = Ok (d', new)), (length new <= 1)%nat).
  { clear H. intros H. apply bind_Ok in H as ([bs m] & _ & H). apply bind_Ok in H as ([v b] & _ & H). destruct v; injection H as _ <-; cbn; lia. }
  destruct (v_criterion cfg); auto. apply bind_Ok in H as ([rs sh] & E & H). injection H as _ <-. apply foil_rules_length in E. unfold dkeys in E. now rewrite map_length in E.
Qed.
Lemma fit_rule_new (r : rule) x y w o new : fit_rule k phi key order det_add det_change cfg r x y w = Ok (o, new) -> new = [].
Proof.
  unfold fit_rule. intros H. apply bind_Ok in H as ([r1 g] & _ & H). destruct g; [injection H as _ <-; auto|]. apply bind_Ok in H as (r2 & _ & H). destruct (v_grace cfg <=? _)%num; [|injection H as _ <-; auto].
  apply bind_Ok in H as ([r3 n3] & E & H). injection H as _ <-. now apply expand_no_new in E.
Qed.
Lemma fit_rules_length x y w : forall rs sk rs' new f, fit_rules k phi key order det_add det_change cfg rs sk x y w = Ok (rs', new, f) -> new = [] /\ (length rs' <= length rs)%nat.
Proof.
  induction rs as [|r rs IH]; intros sk rs' new f H; cbn [fit_rules] in H; [injection H as <- <- <-; auto|]. destruct sk.
  { apply bind_Ok in H as ([[a b] c] & E & H). injection H as <- <- _. destruct (IH _ _ _ _ E). split; auto. cbn. lia. }
  apply bind_Ok in H as (b & _ & H). destruct b.
  - apply bind_Ok in H as ([o n1] & E1 & H). apply fit_rule_new in E1. subst n1. destruct o as [r'|].
    + destruct (v_ordered cfg); [injection H as <- <- _; cbn; auto|]. apply bind_Ok in H as ([[a c] e] & E & H). injection H as <- <- _. destruct (IH _ _ _ _ E) as [-> ?]. split; auto. cbn. lia.
    + apply bind_Ok in H as ([[a c] e] & E & H). injection H as <- <- _. destruct (IH _ _ _ _ E) as [-> ?]. split; auto.  cbn. lia.
  - apply bind_Ok in H as ([[a c] e] & E & H). injection H as <- <- _. destruct (IH _ _ _ _ E) as [-> ?]. split; auto. cbn. lia.
Qed.
End Facts.
