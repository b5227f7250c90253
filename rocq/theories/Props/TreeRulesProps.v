(** The rules read off a Hoeffding tree classifier. *)
From Coq Require Import List ZArith Bool Lia Reals Lra Floats QArith.
From Verif Require Import Base.Py Base.Num Base.NumFloat Base.Dict Spec.Lists Model.TreeSkeleton Model.HoeffdingTree Model.TreeRules Model.Knn Spec.TreeSpec Spec.HoeffdingSpec Spec.KnnSpec Spec.LabelSpec Spec.TreeRulesSpec
  Proofs.TreeProofs Proofs.HoeffdingProofs Proofs.KnnProofs Proofs.TreeRulesProofs Props.HoeffdingProps Props.HoeffdingPredictProps Props.LabelCombinationProps.
Import ListNotations.
Local Open Scope Z_scope.

Lemma R_leb_eq (a b : R) : (a <=? b)%num = ((a =? b)%num || (a <? b)%num)%bool.
Proof. cbn. unfold Rleb, Reqb, Rltb. destruct (Rle_dec a b), (Req_EM_T a b), (Rlt_dec a b); cbn; auto; exfalso; lra. Qed.
Lemma R_lt_not_le (a b : R) : (b <? a)%num = negb (a <=? b)%num.
Proof. cbn. unfold Rleb, Rltb. destruct (Rle_dec a b), (Rlt_dec b a); cbn; auto; exfalso; lra. Qed.
Lemma max_key_heaviest (d : list (Z * R)) c : max_key d = Ok c -> exists w, In (c, w) d /\ forall c' w', In (c', w') d -> (w' <= w)%R.
Proof.
  destruct d as [|kv d]; [discriminate|]. cbn [max_key]. intros [= <-].
  assert (G : forall (d : list (Z * R)) kv, let b := fold_left (fun best kv0 => if (snd best <? snd kv0)%num then kv0 else best) d kv in In b (kv :: d) /\ forall e, In e (kv :: d) -> (snd e <= snd b)%R).
  { clear. induction d as [|a d IH]; intros kv; cbn [fold_left]; cbv zeta; [split; [now left|intros e [<-|[]]; apply Rle_refl]|]. cbn [nltb NumR]. unfold Rltb. destruct (Rlt_dec (snd kv) (snd a)) as [L|L].
    - destruct (IH a) as [A B]. split; [destruct A as [A|A]; [right; now left|right; now right]|]. intros e [<-|[<-|He]]; [|apply B; now left|apply B; now right].
      apply Rle_trans with (snd a); [lra|exact (B a (or_introl eq_refl))].
    - destruct (IH kv) as [A B]. split; [destruct A as [A|A]; [now left|right; now right]|]. intros e [<-|[<-|He]]; [apply B; now left| |apply B; now right].
      apply Rle_trans with (snd kv); [lra|exact (B kv (or_introl eq_refl))]. }
  specialize (G d kv). cbv zeta in G. destruct (fold_left _ _ _) as [c w]. destruct G as [A B]. exists w. split; auto. intros c' w' H. apply (B (c', w') H).
Qed.

Section Props.
Variables (k : R) (phi : R -> R) (key : R -> Z) (cfg : ht_config R) (sz : sizes R (leaf R) (list (Z * R)) (list (Z * R)) (htest R)).
Local Notation O := (ht_ops k phi key cfg).
Local Notation run := (ht_run k phi key cfg sz ht_new).

(** C342: after any history of partial_fit and reset calls on rows of one width, the rules of get_model_rules split the
    instances among themselves as the leaves do.  An instance of that width sorted to a leaf is covered by exactly one
    rule; that rule carries the class distribution of the leaf and a label with the greatest weight in it.  An
    instance that stops at a multiway split (a value never seen there) is covered by no rule. *)
Theorem rules_are_leaves : forall n es s r rules x, width n es -> run es = Ok s -> t_root (ht_tree s) = Some r -> model_rules s = Ok rules -> length x = n ->
  exists path m, reaches O r x path m /\
    (if is_split m then forall rl, In rl rules -> rule_covers key rl x = Ok false
     else exists rl, only_rule key rules x rl /\ r_dist rl = stats_of O m /\ heaviest (r_dist rl) (r_class rl)).
Proof.
  intros n es s r rules x W H Er M Lx. pose proof (rrun k phi key cfg sz n es ht_new s W (rgood_new n) H) as [_ G]. rewrite Er in G. unfold model_rules in M. rewrite Er in M.
  destruct (rules_below k phi key cfg n R_leb_eq R_lt_not_le r G [] rules x Lx M true eq_refl) as (p & m & R1 & P). exists p, m. split; [now apply route_reaches|]. unfold picked in P.
  destruct (is_split m); auto. destruct P as (bf & rl & af & -> & C & D & E & F). exists rl. split; [exists bf, af; auto|]. split; auto.
  apply max_key_heaviest in F as (w & F1 & F2). exists w. split; auto. intros c' w' Hc. specialize (F2 _ _ Hc). cbn. unfold Rltb. destruct (Rlt_dec w w'); auto; lra.
Qed.

(** C343: get_model_rules answers one rule per leaf, whenever every leaf has a class distribution that is not empty; a leaf
    without any makes it raise ValueError, and a tree without root AttributeError. *)
Theorem rules_one_per_leaf : forall n es s, width n es -> run es = Ok s ->
  match t_root (ht_tree s) with
  | None => model_rules s = Raise AttributeError
  | Some r =>
      (forall m, In m (nodes r) -> is_split m = false -> stats_of O m <> []) /\ (exists rules, model_rules s = Ok rules /\ Z.of_nat (length rules) = t_active (ht_tree s) + t_inactive (ht_tree s))
      \/ (exists m, In m (nodes r) /\ is_split m = false /\ stats_of O m = []) /\ model_rules s = Raise ValueError
  end.
Proof.
  intros n es s W H. pose proof (rrun k phi key cfg sz n es ht_new s W (rgood_new n) H) as [C G]. unfold model_rules, counters_right in *. destruct (t_root (ht_tree s)) as [r|]; [|reflexivity].
  destruct C as (_ & -> & ->). destruct (rules_exist k phi key cfg n r G []) as [A B]. destruct (forallb (has_stats k phi key cfg) (nodes r)) eqn:E.
  - left. split; auto. rewrite forallb_forall in E. intros m Hm Sm. specialize (E _ Hm). unfold has_stats in E. destruct m; try discriminate; destruct (stats_of O _); congruence.
  - right. split; auto. assert (X : ~ forall m, In m (nodes r) -> has_stats k phi key cfg m = true) by (rewrite <- forallb_forall; congruence).
    clear - X. induction (nodes r) as [|m l IH]; [exfalso; apply X; intros m []|]. destruct (has_stats k phi key cfg m) eqn:Em.
    + destruct IH as (m' & A & B); [|exists m'; split; [now right|auto]]. intros Q. apply X. intros m' [<-|Hm]; auto.
    + exists m. split; [now left|]. unfold has_stats in Em. destruct m; try discriminate; (split; [reflexivity|]); destruct (stats_of O _); congruence.
Qed.

(** C344: with leaf_prediction='mc', weights that are not negative and labels that are not negative, predict answers for an
    instance a label with the weight of the label of the rule that covers it: the same label if there is no tie. *)
Theorem rule_class_is_predicted : forall n es s rules x rl i w, h_kind cfg = MC -> (0 < k)%R -> (forall z, (0 <= phi z)%R) ->
  Forall (fun e => match e with HFit _ _ ws => weights_ok ws | HReset => True end) es -> (forall c, In c (taught es) -> 0 <= c) ->
  width n es -> run es = Ok s -> model_rules s = Ok rules -> length x = n -> In rl rules -> rule_covers key rl x = Ok true ->
  ht_predict k phi key cfg s [x] = Ok [i] -> In (r_class rl, w) (r_dist rl) -> (0 < w)%R ->
  In (Z.of_nat i, w) (r_dist rl) /\ ((forall c' w', In (c', w') (r_dist rl) -> c' <> r_class rl -> (w' < w)%R) -> Z.of_nat i = r_class rl).
Proof.
  intros n es s rules x rl i w MCk Hk Hp Hw Hpos W H M Lx Hrl Cov Pr Hc Pw.
  destruct (t_root (ht_tree s)) as [r|] eqn:Er; [|unfold model_rules in M; rewrite Er in M; discriminate].
  destruct (rules_are_leaves n es s r rules x W H Er M Lx) as (p & m & Rm & Q). destruct (is_split m) eqn:Sm; [rewrite (Q _ Hrl) in Cov; discriminate|].
  destruct Q as (rl' & (bf & af & -> & C1 & C2) & Ed & Hv). assert (rl' = rl) as ->.
  { apply in_app_iff in Hrl as [Hrl|[E|Hrl]]; auto; rewrite C2 in Cov by (apply in_app_iff; auto); discriminate. }
  assert (Ev : ht_votes k phi key cfg s x = Ok (r_dist rl)).
  { apply route_reaches in Rm. unfold ht_votes, answering. rewrite Er, Rm. cbn [bind]. unfold leaf_votes. rewrite MCk, Ed. destruct m; try discriminate; reflexivity. }
  assert (V0 : forall c u, In (c, u) (r_dist rl) -> (0 <= u)%R) by (intros c u; exact (ht_votes_not_negative k phi key cfg sz es s x _ Hk Hp Hw H Ev c u)).
  destruct (ht_votes_labels k phi key cfg sz es s x _ H Ev) as [ND Lab].
  unfold ht_predict in Pr. apply bind_Ok in Pr as (P & EP & Pr).
  destruct (ht_proba_rows k phi key cfg s [x] P EP) as [F _].
  { intros x0 v [<-|[]] Ev0. rewrite Ev in Ev0. injection Ev0 as <-. split; [exact ND|]. apply Forall_forall. intros [c u] Hcu. cbn [fst]. apply (in_map fst) in Hcu. apply Lab in Hcu as [Hl|Hl]; [now apply Hpos|cbn in Hl; lia]. }
  inversion F as [|? row ? P0 (v & Ev1 & Sh) F0]; subst. inversion F0; subst. rewrite Ev in Ev1. injection Ev1 as <-.
  cbn [mapM] in Pr. apply bind_Ok in Pr as (i0 & Ei & Pr). cbn in Pr. injection Pr as ->.
  assert (NE : row <> []) by (destruct row; discriminate). destruct (np_argmax_ok row NE) as (c & Ec & (Lc & Mx & _)). rewrite Ei in Ec. injection Ec as <-.
  assert (Pc : 0 <= r_class rl). { pose proof (in_map fst _ _ Hc) as L1. apply Lab in L1 as [Hl|Hl]; [now apply Hpos|cbn in Hl; lia]. }
  assert (Gc : dget (r_dist rl) (r_class rl) = Some w) by (now apply In_dget).
  set (tot := Rsum (map snd (r_dist rl))). assert (Tp : (0 < tot)%R).
  { unfold tot. clear - V0 Hc Pw. revert V0 Hc. generalize (r_dist rl). induction l as [|[c u] l IH]; intros V0 [].
    - injection H as -> ->. assert (0 <= Rsum (map snd l))%R; [|unfold Rsum in *; cbn in *; lra]. assert (V1 : forall c u, In (c, u) l -> (0 <= u)%R) by (intros; eapply V0; right; eauto). clear - V1.
      induction l as [|[c u] l IH]; [unfold Rsum; cbn; lra|]. pose proof (V1 _ _ (or_introl eq_refl)). specialize (IH ltac:(intros; eapply V1; right; eauto)). unfold Rsum in *; cbn in *; lra.
    - specialize (IH ltac:(intros; eapply V0; right; eauto) H). pose proof (V0 _ _ (or_introl eq_refl)). unfold Rsum in *; cbn in *; lra. }
  assert (S1 : nth (Z.to_nat (r_class rl)) row 0%R = (w / tot)%R). { rewrite Sh. unfold share. cbv zeta. fold tot. rewrite Z2Nat.id, Gc by auto. destruct (Req_EM_T tot 0); [lra|reflexivity]. }
  assert (Pd : (0 < w / tot)%R) by (apply Rdiv_lt_0_compat; auto).
  assert (Lr : (Z.to_nat (r_class rl) < length row)%nat). { destruct (Nat.lt_ge_cases (Z.to_nat (r_class rl)) (length row)) as [L|L]; auto. rewrite nth_overflow in S1 by auto. lra. }
  assert (Mi : (w / tot <= nth i row 0)%R).
  { rewrite <- S1. exact (Mx _ Lr). }
  rewrite Sh in Mi. unfold share in Mi. cbv zeta in Mi. fold tot in Mi. destruct (dget (r_dist rl) (Z.of_nat i)) as [u|] eqn:Eu; [|lra]. destruct (Req_EM_T tot 0); [lra|].
  assert (Lu : (w <= u)%R). { apply (Rmult_le_reg_r (/ tot)); [now apply Rinv_0_lt_compat|exact Mi]. }
  pose proof (dget_In _ _ _ Eu) as Iu. destruct Hv as (w1 & Hw1 & Mw). assert (Ew : Some w1 = Some w) by (rewrite <- Gc; symmetry; now apply In_dget). injection Ew as ->.
  specialize (Mw _ _ Iu) as Mu. cbn in Mu. unfold Rltb in Mu. destruct (Rlt_dec w u); [discriminate|]. assert (u = w) as -> by lra. split; auto.
  intros U. destruct (Z.eq_dec (Z.of_nat i) (r_class rl)) as [E|E]; auto. specialize (U _ _ Iu E). lra.
Qed.
End Props.

(** ** Cases, on floating point numbers *)
Definition num_cfg : ht_config float :=
  @mk_ht float 4%float (@gini float NumF) 0.5%float 0.5%float false false false MC 0%float (fun _ => false) (@mk_cfg float 1000000%float false (fun _ => false)).
Local Notation nrun := (@ht_run float NumF 1%float (fun x => x) ex_key num_cfg ex_sizes (@ht_new float NumF)).
Local Notation nops := (@ht_ops float NumF 1%float (fun x => x) ex_key num_cfg).

(** C342, the limit of the claim: with a value that is not a number the instance is sorted to the leaf of the second branch of a
    numeric split, but no rule covers it. *)
Theorem rules_cover_refuted : exists es s r rules m, width 1 es /\ nrun es = Ok s /\ t_root (ht_tree s) = Some r /\ @model_rules float NumF s = Ok rules
  /\ reaches nops r [PrimFloat.nan] [1] m /\ is_active m = true /\ forall rl, In rl rules -> @rule_covers float NumF ex_key rl [PrimFloat.nan] = Ok false.
Proof.
  destruct (nrun [HFit ex_rows None None]) as [s|e] eqn:E; [|vm_compute in E; discriminate]. exists [HFit ex_rows None None], s.
  destruct (t_root (ht_tree s)) as [r|] eqn:Er; [|exfalso; vm_compute in E; injection E as <-; discriminate]. destruct (@model_rules float NumF s) as [rules|] eqn:Em; [|exfalso; vm_compute in E; injection E as <-; vm_compute in Em; discriminate].
  exists r, rules. vm_compute in E. injection E as <-. vm_compute in Er. injection Er as <-. vm_compute in Em. injection Em as <-. eexists.
  split; [intros e x y [<-|[]] [X|[X|[X|[X|[]]]]]; injection X as <- <-; reflexivity|]. split; [vm_compute; reflexivity|]. split; [reflexivity|]. split; [vm_compute; reflexivity|].
  split; [apply route_reaches; vm_compute; reflexivity|]. split; [reflexivity|]. intros rl [<-|[<-|[]]]; vm_compute; reflexivity.
Qed.

(** C343, the limit of the claim: with no_preprune=True and binary_split=True a constant nominal attribute is split; the
    second branch gets a leaf without class distribution, and get_model_rules raises ValueError. *)
Definition bin_cfg : ht_config float :=
  @mk_ht float 2%float (@gini float NumF) 0.5%float 0.5%float true false true MC 0%float (fun _ => true) (@mk_cfg float 1000000%float false (fun _ => false)).
Theorem rules_exist_refuted : exists es s r, width 1 es /\ @ht_run float NumF 1%float (fun x => x) ex_key bin_cfg ex_sizes (@ht_new float NumF) es = Ok s
  /\ t_root (ht_tree s) = Some r /\ t_active (ht_tree s) = 2 /\ @model_rules float NumF s = Raise ValueError.
Proof.
  exists [HFit [([0%float], 0); ([0%float], 1)] None None]. do 2 eexists. split; [intros e x y [<-|[]] [X|[X|[]]]; injection X as <- <-; reflexivity|]. split; [vm_compute; reflexivity|]. split; [reflexivity|]. split; [reflexivity|]. vm_compute. reflexivity.
Qed.

(** A case: a numeric and, after a new value, a three-way nominal split have two and three rules *)
Example rules_example :
  (exists s rules, nrun [HFit ex_rows None None] = Ok s /\ @model_rules float NumF s = Ok rules /\ map (@r_class float) rules = [0; 1]
     /\ map (fun r => @rule_covers float NumF ex_key r [1%float]) rules = [Ok false; Ok true])
  /\ exists s rules, ex_tree = Ok s /\ @model_rules float NumF s = Ok rules /\ map (@r_class float) rules = [0; 1; 0]
     /\ map (fun r => @rule_covers float NumF ex_key r [2%float]) rules = [Ok false; Ok false; Ok true].
Proof. split; do 2 eexists; (split; [vm_compute; reflexivity|]); (split; [vm_compute; reflexivity|]); vm_compute; auto. Qed.
(** The hypotheses of the theorems hold of an ordinary history, over the reals. *)
Example rules_applies : let es := [HFit [([0%R], 0); ([1%R], 1)] None None; HReset; HFit [([2%R], 1)] None (Some [2%R])] in
  width 1 es /\ Forall (fun e => match e with HFit _ _ ws => weights_ok ws | HReset => True end) es /\ (forall c, In c (taught es) -> 0 <= c).
Proof.
  cbv zeta. split; [intros e x y [<-|[<-|[<-|[]]]]; cbn; intros H; repeat (destruct H as [H|H]; [injection H as <- <-; reflexivity|]); contradiction|].
  split; [repeat constructor; lra|]. intros c H. cbn in H. unfold Reqb in H. repeat (destruct (Req_EM_T _ _) in H; cbn in H); intuition (subst; lia).
Qed.

Print Assumptions rules_are_leaves.
Print Assumptions rules_one_per_leaf.
Print Assumptions rule_class_is_predicted.
Print Assumptions rules_cover_refuted.
Print Assumptions rules_exist_refuted.
