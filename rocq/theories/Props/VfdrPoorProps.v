(** VeryFastDecisionRulesClassifier: which attributes are disabled (C289), and the merit by Hellinger distance (C281). *)
From Coq Require Import List ZArith Bool Reals Lra Lia.
From Verif Require Import Base.Py Base.Num Base.NumFloat Base.Dict Model.Suggestion Model.Adwin Model.Knn Model.NaiveBayes Model.GaussianObs Model.NominalObs Model.SplitTests
  Model.SplitCriteria Model.TreeSkeleton Model.HoeffdingTree Model.Ddm Model.Vfdr Spec.SplitRuleSpec Spec.VfdrSpec Proofs.ExpertRunProofs Proofs.TreeProofs Proofs.HoeffdingProofs Proofs.SplitRuleProofs Proofs.VfdrProofs.
Import ListNotations.

Section Poor.
Context {T D : Type} {N : Num T}.
Variables (k : T) (phi : T -> T) (order : list Z -> list Z) (cfg : vfdr_config T D).
Local Notation sug := (suggestion (pred T) (list (Z * T) * list (Z * T)) T).

Lemma poor_add (best : sug) bound (bs : list sug) : forall acc a, In a (fold_left (fun acc (s : sug) => if gap_gt (sg_merit best) (sg_merit s) bound then acc ++ [pred_att (sg_test s)] else acc) bs acc)
  <-> In a acc \/ exists s, In s bs /\ pred_att (sg_test s) = a /\ gap_gt (sg_merit best) (sg_merit s) bound = true.
Proof.
  induction bs as [|s r IH]; intros acc a; cbn [fold_left]; [split; [auto|intros [H|(s & [] & _)]; auto]|].
  rewrite IH. destruct (gap_gt _ _ _) eqn:E; [rewrite in_app_iff; cbn|]; split.
  - intros [[H|[<-|[]]]|(u & Hu & R)]; [now left|right; exists s; auto|right; exists u; auto].
  - intros [H|(u & [<-|Hu] & A & B)]; [now left; left|left; right; now left|right; exists u; auto].
  - intros [H|(u & Hu & R)]; [now left|right; exists u; cbn; tauto].
  - intros [H|(u & [<-|Hu] & A & B)]; [now left|congruence|right; exists u; cbn; tauto].
Qed.
Lemma poor_remove (best : sug) bound (bs : list sug) : forall acc a, In a (fold_left (fun acc (s : sug) => if gap_lt (sg_merit best) (sg_merit s) bound then filter (fun a => negb (a =? pred_att (sg_test s))%Z) acc else acc) bs acc)
  <-> In a acc /\ forall s, In s bs -> pred_att (sg_test s) = a -> gap_lt (sg_merit best) (sg_merit s) bound = false.
Proof.
  induction bs as [|s r IH]; intros acc a; cbn [fold_left]; [split; [intros H; split; [auto|intros s []]|tauto]|].
  rewrite IH. destruct (gap_lt _ _ _) eqn:E; [rewrite filter_In|]; split.
  - intros ((H & Ne) & R). split; auto. intros u [<-|Hu] A; auto. subst a. rewrite Z.eqb_refl in Ne. discriminate.
  - intros (H & R). split; [split; auto|]. { destruct (Z.eqb_spec a (pred_att (sg_test s))) as [->|]; auto. rewrite R in E; cbn; auto. } intros u Hu. apply R. cbn. auto.
  - intros (H & R). split; auto. intros u [<-|Hu] A; auto.
  - intros (H & R). split; auto. intros u Hu. apply R. cbn. auto.
Qed.
(** An attribute is poor when the best suggestion is ahead of one of its own by more than the bound, and of none of its own by less. *)
Definition about (s : sug) (a : Z) : Prop := match sg_test s with PLe b _ | PGt b _ | PEq b _ | PNe b _ => b = a end.
Definition short_of (eps : T) (a b : option T) : Prop := match a, b with Some x, Some y => (x - y <? eps)%num = true | None, Some _ => True | _, None => False end.
Definition poor (best : sug) (bound : T) (bs : list sug) (a : Z) : Prop :=
  (exists s, In s bs /\ about s a /\ exceeds_by bound (sg_merit best) (sg_merit s)) /\ forall s, In s bs -> about s a -> ~ short_of bound (sg_merit best) (sg_merit s).
Lemma about_att s a : about s a <-> pred_att (sg_test s) = a.
Proof. unfold about, pred_att. destruct (sg_test s); tauto. Qed.
Lemma gt_exceeds a b e : gap_gt a b e = true <-> exceeds_by e a b.
Proof. unfold gap_gt, exceeds_by. destruct a, b; split; auto; try discriminate; intros []. Qed.
Lemma lt_short a b e : gap_lt a b e = false <-> ~ short_of e a b.
Proof. unfold gap_lt, short_of. destruct a as [x|], b as [y|]; try (split; [intros; tauto|reflexivity]); [destruct (_ <? _)%num; split; intros H; try reflexivity; try discriminate; exfalso; apply H; reflexivity|split; [discriminate|tauto]]. Qed.
Lemma disable_get l : forall (r : rule T D) a, dget (r_obs (fold_left r_disable l r)) a = if in_dec Z.eq_dec a l then (match dget (r_obs r) a with Some _ => Some CNull | None => None end) else dget (r_obs r) a.
Proof.
  induction l as [|b l IH]; intros r a; cbn [fold_left]; [reflexivity|]. rewrite IH. unfold r_disable, dmem.
  destruct (dget (r_obs r) b) eqn:Eb; cbn [r_obs].
  - rewrite dget_dset. destruct (Z.eqb_spec b a) as [->|Ne].
    + destruct (in_dec Z.eq_dec a (a :: l)) as [_|n]; [|exfalso; apply n; cbn; auto]. rewrite Eb. destruct (in_dec _ a l); reflexivity.
    + destruct (in_dec Z.eq_dec a l) as [i0|n0'], (in_dec Z.eq_dec a (b :: l)) as [i1|n1']; try reflexivity; [exfalso; apply n1'; cbn; auto|destruct i1; [congruence|contradiction]].
  - destruct (in_dec Z.eq_dec a l) as [i0|n0'], (in_dec Z.eq_dec a (b :: l)) as [i1|n1']; try reflexivity; [exfalso; apply n1'; cbn; auto|destruct i1; [subst; rewrite Eb; reflexivity|contradiction]].
Qed.
(** When a rule is revised and there are two suggestions or more, the observers of the poor attributes are disabled if remove_poor_atts is set, and no others; without remove_poor_atts none. *)
Theorem vfdr_poor_attributes : forall (r r' : rule T D) cls d bs m best second rest, consult k phi order cfg r cls = Ok (r', d) -> suggestions_of k phi order cfg (r_dist r) (r_obs r) cls cm_new = Ok (bs, m) ->
  rev (by_merit bs) = best :: second :: rest ->
  r_dist r' = r_dist r /\ r_preds r' = r_preds r /\ (v_poor cfg = false -> r' = r) /\
  (v_poor cfg = true -> exists bound, rule_bound cfg (r_dist r) = Ok bound /\ forall a, (poor best bound (by_merit bs) a -> dget (r_obs r') a = match dget (r_obs r) a with Some _ => Some CNull | None => None end)
     /\ (~ poor best bound (by_merit bs) a -> dget (r_obs r') a = dget (r_obs r) a)).
Proof.
  intros r r' cls d bs m best second rest H Es Er. unfold consult in H. rewrite Es in H. cbn [bind] in H. unfold verdict in H. rewrite Er in H.
  destruct (rule_bound cfg (r_dist r)) as [bound|e] eqn:Eb; [|discriminate]. cbn [bind] in H. destruct (v_poor cfg) eqn:Ep.
  - injection H as <- <-. destruct (disable_keeps (poor_of best bound (by_merit bs)) r) as (K1 & K2 & K3). split; [tauto|]. split; [tauto|]. split; [discriminate|]. intros _. exists bound. split; auto. intros a.
    assert (I : In a (poor_of best bound (by_merit bs)) <-> poor best bound (by_merit bs) a).
    { unfold poor_of. rewrite poor_remove, poor_add. unfold poor. split.
      - intros ([[]|(s & A & B & C)] & F). split; [exists s; rewrite about_att, <- gt_exceeds; auto|]. intros s' Hs Ha. apply lt_short, F; auto. now apply about_att.
      - intros ((s & A & B & C) & F). split; [right; exists s; rewrite gt_exceeds, <- about_att; auto|]. intros s' Hs Ha. apply lt_short, F; auto. now apply about_att. }
    rewrite disable_get. destruct (in_dec _ _ _) as [i|i]; rewrite I in i; split; tauto.
  - injection H as <- <-. repeat split; auto. discriminate.
Qed.
End Poor.

Local Open Scope R_scope.
(** For two labels: the distance of the shares of label 1 and label 0 that go to either half, and the half where they differ more is kept. *)
Theorem vfdr_hellinger : forall D (cfg : vfdr_config R D) m pre a b g m' lp ln rp rn, v_criterion cfg = Hellinger ->
  dget a 1 = Some lp -> dget a 0 = Some ln -> dget b 1 = Some rp -> dget b 0 = Some rn -> lp + rp <> 0 -> ln + rn <> 0 ->
  rule_merit cfg m pre a b = Ok (Some g, m') ->
  let apart p n := (sqrt (p / (lp + rp)) - sqrt (n / (ln + rn))) ^ 2 in
  g = sqrt (apart lp ln + apart rp rn) /\ (cm_best m' = true <-> apart rp rn <= apart lp ln).
Proof.
  intros D cfg m pre a b g m' lp ln rp rn Ec E1 E0 F1 F0 P Q H. unfold rule_merit in H. rewrite Ec in H. unfold he_rule_merit in H.
  destruct (he_num_loop _ _ _ _) as [n|]; [|discriminate]. cbn [bind] in H. destruct (Nat.ltb n 2); [discriminate|]. rewrite E1, E0, F1, F0 in H. unfold pydiv in H.
  cbn [nadd neqb ndiv NumR] in H. unfold n0 in H. cbn [nofZ NumR] in H. rewrite !(proj2 (Reqb_false _ _)) in H by (cbn; assumption). cbn [bind] in H.
  injection H as <- <-. cbn [cm_best]. change (@nleb R NumR) with Rleb. rewrite Rleb_true. cbn. split; [f_equal; ring|]. rewrite !Rmult_1_r. tauto.
Qed.
Print Assumptions vfdr_poor_attributes.
Print Assumptions vfdr_hellinger.
