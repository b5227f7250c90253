(** Adaptive leaves of the multi-target trees: which predictor answers. *)
From Coq Require Import List ZArith Bool Reals Lra Lia.
From Verif Require Import Base.Py Base.Num Model.TargetStats Model.Knn Model.TreeSkeleton Model.HoeffdingTree Model.HoeffdingRegressor Model.ISoup Spec.TreeSpec Spec.ISoupSpec Spec.ISoupChoiceSpec
  Proofs.TreeProofs Proofs.ISoupInvProofs Proofs.ISoupPerceptronProofs Proofs.ISoupChoiceProofs Props.ISoupProps.
Import ListNotations.
Local Open Scope R_scope.

Section Choice.
Variables (key int_of : R -> Z) (cfg : htr_config R) (n : nat).
Local Notation MA := (adaptive_model int_of cfg n).
Local Notation MSA := (stacked_adaptive_model int_of cfg n).
Lemma leaf_life (M : model R) (U : M_T M -> Prop) sz es s r p u a d : U (M_new M) -> (forall p, U p -> U (M_child M p)) -> (forall p s i y w p', U p -> M_learn M p s i y w = Ok p' -> U p') ->
  mt_run key cfg n M sz (mt_new M) es = Ok s -> t_root (mt_tree M s) = Some r -> node_at r p = Some u -> leaf_part u = Some (a, d) -> U a.
Proof.
  intros U1 U2 U3 H Er Hn Hl. pose proof (unit_keeps key cfg n M U U1 U2 U3) as K.
  destruct (hinv_run key cfg n M _ _ _ K sz (fun _ => True) ltac:(intros; exact I) ltac:(intros; exact I) ltac:(intros; exact I) es s H (fun _ _ _ _ => I)) as [[_ W] _]. rewrite Er in W.
  pose proof (wf_node_at _ _ _ p r u W Hn) as Wu. destruct Wu as [l Wl|l Wl|te d0 ch]; cbn in Hl; [injection Hl as <- _; apply Wl|injection Hl as <- _; exact Wl|discriminate].
Qed.
(** The answer for target [j] is the answer of the leaf the instance reaches. *)
Lemma leaf_answer (M : model R) s r x p u a d row f : mt_set M s = true -> t_root (mt_tree M s) = Some r -> reaches (mt_ops key cfg n M) r (mfeat x) p u -> leaf_part u = Some (a, d) ->
  mt_predict key cfg n M s [x] = Ok [row] -> M_value M a d (mt_sums M s) x = Ok f -> forall j, (j < n)%nat -> nth j row None = f j.
Proof.
  intros Hs Er Hr Hl Hp Hf j Hj. unfold mt_predict in Hp. rewrite Hs in Hp. cbn [mapM] in Hp. apply bind_Ok in Hp as (v & Hv & Hp). injection Hp as <-. unfold mt_value in Hv. rewrite Er in Hv.
  change x with (mi_x (mk_minst x (mt_sums M s) (fun _ _ => @n0 R NumR) (fun _ _ => @n0 R NumR))) in Hr. apply (feat_reaches key cfg n M) in Hr. rewrite Hr in Hv. cbn [bind] in Hv.
  destruct u as [l|l|te d0 ch]; cbn in Hl; [injection Hl as <- <-|injection Hl as <- <-|discriminate]; rewrite Hf in Hv; cbn [bind] in Hv; injection Hv as <-; now apply nth_map.
Qed.

(** C340: an adaptive leaf of an iSOUP tree keeps, for each target, the faded absolute errors of its mean and of its perceptron since it was
    created; the perceptron answers if its error is not larger, and the mean otherwise. *)
Theorem isoup_adaptive_choice : forall sz es s r x p u a d m row j, mt_run key cfg n MA sz (mt_new MA) es = Ok s -> mt_set MA s = true ->
  t_root (mt_tree MA s) = Some r -> reaches (mt_ops key cfg n MA) r (mfeat x) p u -> leaf_part u = Some (a, d) -> ad_w a = Some m -> 1 < g_seen (mt_sums MA s) ->
  mt_predict key cfg n MA s [x] = Ok [row] -> (j < n)%nat ->
  exists ls f, a_lived int_of cfg n a ls /\ p_value (Some m) d (mt_sums MA s) x = Ok f /\
    let smaller := exists e e', fading (misses k_mean j ls) = Some e /\ fading (misses k_perceptron j ls) = Some e' /\ e' <= e in
    (smaller -> nth j row None = f j) /\ (~ smaller -> nth j row None = m_mean d j).
Proof.
  intros sz es s r x p u a d m row j H Hs Er Hr Hl Hw Hg Hp Hj.
  assert (Hn : node_at r p = Some u) by (apply route_reaches in Hr; exact (proj1 (route_found _ _ _ _ _ Hr))).
  destruct (leaf_life MA (fun a => exists ls, a_lived int_of cfg n a ls /\ a_errors a ls) sz es s r p u a d) as (ls & Hls & He); auto.
  { exists []. split; [constructor|]. intros i. split; reflexivity. }
  { intros q _. exists []. split; [constructor|]. intros i. split; reflexivity. }
  { intros q st i y w q' Hq. apply a_life_learn. exact Hq. }
  assert (Eg : @nleb R NumR (g_seen (mt_sums MA s)) n1 = false) by (apply Rleb_false; exact Hg).
  destruct (p_value (Some m) d (mt_sums MA s) x) as [f|ex] eqn:Ef.
  - exists ls, f. split; [exact Hls|]. split; [reflexivity|]. unfold p_value in Ef. rewrite Eg in Ef. apply bind_Ok in Ef as (xn & En & Ef). apply bind_Ok in Ef as (uu & Eu & Ef). injection Ef as <-.
    assert (Ev : M_value MA a d (mt_sums MA s) x = Ok (fun i => if le_opt (ad_p a i) (ad_m a i) then m_scale (mt_sums MA s) i (m_dot m (Some xn) i) else m_mean d i)).
    { cbn [M_value adaptive_model]. unfold a_value. rewrite Hw, Eg, En. cbn [bind]. rewrite Eu. reflexivity. }
    pose proof (leaf_answer MA s r x p u a d row _ Hs Er Hr Hl Hp Ev j Hj) as E. cbv beta in E. rewrite E. destruct (He j) as [Em Ep]. rewrite Em, Ep. unfold le_opt. cbv zeta.
    destruct (fading (misses k_perceptron j ls)) as [e'|], (fading (misses k_mean j ls)) as [e|].
    + change (@nleb R NumR) with Rleb. destruct (Rleb e' e) eqn:L; [apply Rleb_true in L|apply Rleb_false in L]; split; auto.
      * intros Q. destruct Q. exists e, e'. auto.
      * intros (e1 & e2 & Q1 & Q2 & Q3). injection Q1 as ->. injection Q2 as ->. lra.
    + split; auto. intros (e1 & e2 & Q1 & Q2 & Q3). discriminate.
    + split; auto. intros (e1 & e2 & Q1 & Q2 & Q3). discriminate.
    + split; auto. intros (e1 & e2 & Q1 & Q2 & Q3). discriminate.
  - exfalso. unfold p_value in Ef. rewrite Eg in Ef.
    assert (Ev : M_value MA a d (mt_sums MA s) x = Raise ex).
    { cbn [M_value adaptive_model]. unfold a_value. rewrite Hw, Eg. destruct (m_normalize (mt_sums MA s) x) as [xn|e0]; [|exact Ef]. cbn [bind] in *. destruct (fits m xn); [discriminate|exact Ef]. }
    unfold mt_predict in Hp. rewrite Hs in Hp. cbn [mapM] in Hp. apply bind_Ok in Hp as (v & Hv & _). unfold mt_value in Hv. rewrite Er in Hv.
    change x with (mi_x (mk_minst x (mt_sums MA s) (fun _ _ => @n0 R NumR) (fun _ _ => @n0 R NumR))) in Hr. apply (feat_reaches key cfg n MA) in Hr. rewrite Hr in Hv. cbn [bind] in Hv.
    destruct u as [l|l|te d0 ch]; cbn in Hl; [injection Hl as <- <-|injection Hl as <- <-|discriminate]; rewrite Ev in Hv; discriminate.
Qed.

(** C341: an adaptive leaf of a stacked single-target tree also keeps the faded error of the stacked perceptron.  The mean answers if neither
    perceptron has a smaller error, unless all three errors are equal; the perceptron if its error is the smallest, or if all are equal;
    the stacked perceptron if its error is smaller than the mean's and not larger than the perceptron's. *)
Theorem sst_adaptive_choice : forall sz es s r x p u a d m m2 row j, mt_run key cfg n MSA sz (mt_new MSA) es = Ok s -> mt_set MSA s = true ->
  t_root (mt_tree MSA s) = Some r -> reaches (mt_ops key cfg n MSA) r (mfeat x) p u -> leaf_part u = Some (a, d) -> sa_w a = Some (m, m2) -> 1 < g_seen (mt_sums MSA s) ->
  mt_predict key cfg n MSA s [x] = Ok [row] -> (j < n)%nat ->
  exists ls f g, s_lived int_of cfg n a ls /\ p_value (Some m) d (mt_sums MSA s) x = Ok f /\ s_value n (Some (m, m2)) d (mt_sums MSA s) x = Ok g /\
    forall em ep es, fading (misses k_mean j ls) = Some em -> fading (misses k_perceptron j ls) = Some ep -> fading (misses k_stacked j ls) = Some es ->
      (em <= ep -> em <= es -> ~ (em = ep /\ ep = es) -> nth j row None = m_mean d j) /\
      (em = ep -> ep = es -> nth j row None = f j) /\
      (ep < em -> ep < es -> nth j row None = f j) /\
      (es < em -> es <= ep -> nth j row None = g j).
Proof.
  intros sz es s r x p u a d m m2 row j H Hs Er Hr Hl Hw Hg Hp Hj.
  assert (Hn : node_at r p = Some u) by (apply route_reaches in Hr; exact (proj1 (route_found _ _ _ _ _ Hr))).
  destruct (leaf_life MSA (fun a => exists ls, s_lived int_of cfg n a ls /\ s_errors a ls) sz es s r p u a d) as (ls & Hls & He); auto.
  { exists []. split; [constructor|]. intros i. repeat split; reflexivity. }
  { intros q _. exists []. split; [constructor|]. intros i. repeat split; reflexivity. }
  { intros q st i y w q' Hq. apply s_life_learn. exact Hq. }
  assert (Eg : @nleb R NumR (g_seen (mt_sums MSA s)) n1 = false) by (apply Rleb_false; exact Hg).
  destruct (m_normalize (mt_sums MSA s) x) as [xn|e0] eqn:En; [destruct (fits m xn) as [uu|e0] eqn:Eu|].
  - exists ls. do 2 eexists. split; [exact Hls|]. split; [unfold p_value; rewrite Eg, En; cbn [bind]; rewrite Eu; reflexivity|]. split; [unfold s_value; rewrite En; cbn [bind]; rewrite Eu; reflexivity|].
    intros em ep es0 Q1 Q2 Q3.
    assert (Ev : M_value MSA a d (mt_sums MSA s) x = Ok (fun i => sa_choice (sa_m a i) (sa_p a i) (sa_s a i) (m_mean d i) (m_scale (mt_sums MSA s) i (m_dot m (Some xn) i)) (m_scale (mt_sums MSA s) i (m_dot m2 (with_bias n (m_dot m (Some xn))) i)))).
    { cbn [M_value stacked_adaptive_model]. unfold sa_value. rewrite Hw, En. cbn [bind]. rewrite Eu. reflexivity. }
    pose proof (leaf_answer MSA s r x p u a d row _ Hs Er Hr Hl Hp Ev j Hj) as E. cbv beta in E. rewrite E. destruct (He j) as (Em & Ep & Es). rewrite Em, Ep, Es, Q1, Q2, Q3. apply choice3.
  - exfalso. assert (Ev : M_value MSA a d (mt_sums MSA s) x = Raise e0) by (cbn [M_value stacked_adaptive_model]; unfold sa_value; rewrite Hw, En; cbn [bind]; rewrite Eu; reflexivity).
    unfold mt_predict in Hp. rewrite Hs in Hp. cbn [mapM] in Hp. apply bind_Ok in Hp as (v & Hv & _). unfold mt_value in Hv. rewrite Er in Hv.
    change x with (mi_x (mk_minst x (mt_sums MSA s) (fun _ _ => @n0 R NumR) (fun _ _ => @n0 R NumR))) in Hr. apply (feat_reaches key cfg n MSA) in Hr. rewrite Hr in Hv. cbn [bind] in Hv.
    destruct u as [l|l|te d0 ch]; cbn in Hl; [injection Hl as <- <-|injection Hl as <- <-|discriminate]; rewrite Ev in Hv; discriminate.
  - exfalso. assert (Ev : M_value MSA a d (mt_sums MSA s) x = Raise e0) by (cbn [M_value stacked_adaptive_model]; unfold sa_value; rewrite Hw, En; reflexivity).
    unfold mt_predict in Hp. rewrite Hs in Hp. cbn [mapM] in Hp. apply bind_Ok in Hp as (v & Hv & _). unfold mt_value in Hv. rewrite Er in Hv.
    change x with (mi_x (mk_minst x (mt_sums MSA s) (fun _ _ => @n0 R NumR) (fun _ _ => @n0 R NumR))) in Hr. apply (feat_reaches key cfg n MSA) in Hr. rewrite Hr in Hv. cbn [bind] in Hv.
    destruct u as [l|l|te d0 ch]; cbn in Hl; [injection Hl as <- <-|injection Hl as <- <-|discriminate]; rewrite Ev in Hv; discriminate.
Qed.
End Choice.

(** The hypotheses of C340 and C341: two samples taught, a third answered *)
Local Notation rA := (adaptive_model (fun _ => 1%Z) mr_cfg 2). Local Notation rS := (stacked_adaptive_model (fun _ => 1%Z) mr_cfg 2).
Lemma mr_a_learn g v d y w (a : adaptive) st : (exists b c, g_att g = Some [b] /\ g_attsq g = Some [c]) -> match ad_w a with Some m => mx_cols m = 2%nat | None => True end ->
  exists m em ep, M_learn rA a st (mk_minst [v] g d d) y w = Ok (mk_adaptive (Some m) em ep) /\ mx_cols m = 2%nat.
Proof.
  intros Hg Hp. cbn [M_learn adaptive_model]. unfold a_learn, m_ratio. cbn [r_const mr_cfg bind Z.to_nat mi_sums mi_x]. change (Pos.to_nat 1) with 1%nat. cbn [times]. unfold a_update. destruct (mr_norm g v Hg) as (u & z & ->). cbn [bind]. unfold fits.
  assert (E : mx_cols (@p_start R NumR 2 (ad_w a) (mk_minst [v] g d d)) = 2%nat) by (destruct (ad_w a); cbn; auto). rewrite E. cbn. do 3 eexists. split; [reflexivity|exact E].
Qed.
Lemma mr_s_learn g v d y w (a : stacked) st : (exists b c, g_att g = Some [b] /\ g_attsq g = Some [c]) -> match sa_w a with Some (m, _) => mx_cols m = 2%nat | None => True end ->
  exists m m2 em ep es, M_learn rS a st (mk_minst [v] g d d) y w = Ok (mk_stacked (Some (m, m2)) em ep es) /\ mx_cols m = 2%nat.
Proof.
  intros Hg Hp. cbn [M_learn stacked_adaptive_model]. unfold sa_learn, m_ratio. cbn [r_const mr_cfg bind Z.to_nat mi_sums mi_x]. change (Pos.to_nat 1) with 1%nat.
  destruct (@s_start R NumR 2 (sa_w a) (mk_minst [v] g d d)) as [m0 m20] eqn:Es. assert (E : mx_cols m0 = 2%nat) by (destruct (sa_w a) as [[m m2]|]; cbn in Es; injection Es as <- <-; cbn; auto).
  cbn [times]. unfold sa_update. destruct (mr_norm g v Hg) as (u & z & ->). cbn [bind]. unfold fits. rewrite E. cbn. do 5 eexists. split; [reflexivity|exact E].
Qed.
Local Notation st1 := (mstats_add None (ms_y (mr_row 1)) 1). Local Notation st2 := (mstats_add (Some st1) (ms_y (mr_row 3)) 1).
Local Notation ob1 := (update_mobs (fun _ => 0%Z) mr_cfg [] 0 [1] (ms_y (mr_row 1)) 1). Local Notation ob2 := (update_mobs (fun _ => 0%Z) mr_cfg ob1 0 [3] (ms_y (mr_row 3)) 1).
Example isoup_choice_example : exists s r u a d m row, mt_run (fun _ => 0%Z) mr_cfg 2 rA (mr_sizes rA) (mt_new rA) mr_two = Ok s /\ mt_set rA s = true /\ t_root (mt_tree rA s) = Some r
  /\ reaches (mt_ops (fun _ => 0%Z) mr_cfg 2 rA) r (mfeat [2]) [] u /\ leaf_part u = Some (a, d) /\ ad_w a = Some m /\ 1 < g_seen (mt_sums rA s) /\ mt_predict (fun _ => 0%Z) mr_cfg 2 rA s [[2]] = Ok [row].
Proof.
  set (g1 := msums_add msums_new [1] (ms_y (mr_row 1)) 1). set (g2 := msums_add g1 [3] (ms_y (mr_row 3)) 1).
  destruct (mr_a_learn g1 1 (fun _ _ => 1) (ms_y (mr_row 1)) 1 (M_new rA) st1 ltac:(cbn; eauto) I) as (m1 & em1 & ep1 & L1 & C1).
  destruct (mr_a_learn g2 3 (fun _ _ => 1) (ms_y (mr_row 3)) 1 (mk_adaptive (Some m1) em1 ep1) st2 ltac:(cbn; eauto) C1) as (m2 & em2 & ep2 & L2 & C2).
  destruct (mr_run rA (mr_sizes rA) (mk_mleaf rA (Some st1) ob1 0 (mk_adaptive (Some m1) em1 ep1)) (mk_mleaf rA (Some st2) ob2 0 (mk_adaptive (Some m2) em2 ep2))) as (s & E & S & R & Z).
  - unfold mleaf_learn. cbn [ml_stats ml_model mleaf_new]. fold g1. rewrite L1. reflexivity.
  - cbn. lra.
  - unfold mleaf_learn. cbn [ml_stats ml_model]. fold g1. fold g2. rewrite L2. reflexivity.
  - cbn. lra.
  - fold g1 in Z. fold g2 in Z. exists s.
    assert (V : exists row, mt_predict (fun _ => 0%Z) mr_cfg 2 rA s [[2]] = Ok [row]).
    { unfold mt_predict. rewrite S. cbn [mapM]. unfold mt_value. rewrite R. cbn [route bind M_value adaptive_model ml_model ml_stats]. unfold a_value. cbn [ad_w]. rewrite Z. destruct (_ <=? _)%num; [cbn; eauto|].
      destruct (mr_norm g2 2 ltac:(cbn; eauto)) as (u & z & ->). cbn [bind]. unfold fits. rewrite C2. cbn. eauto. }
    destruct V as (row & V). do 5 eexists. exists row. split; [exact E|]. split; [exact S|]. split; [exact R|]. split; [constructor|]. split; [reflexivity|]. split; [reflexivity|]. split; [rewrite Z; cbn; lra|exact V].
Qed.
Example sst_choice_example : exists s r u a d m row, mt_run (fun _ => 0%Z) mr_cfg 2 rS (mr_sizes rS) (mt_new rS) mr_two = Ok s /\ mt_set rS s = true /\ t_root (mt_tree rS s) = Some r
  /\ reaches (mt_ops (fun _ => 0%Z) mr_cfg 2 rS) r (mfeat [2]) [] u /\ leaf_part u = Some (a, d) /\ sa_w a = Some m /\ 1 < g_seen (mt_sums rS s) /\ mt_predict (fun _ => 0%Z) mr_cfg 2 rS s [[2]] = Ok [row].
Proof.
  set (g1 := msums_add msums_new [1] (ms_y (mr_row 1)) 1). set (g2 := msums_add g1 [3] (ms_y (mr_row 3)) 1).
  destruct (mr_s_learn g1 1 (fun _ _ => 1) (ms_y (mr_row 1)) 1 (M_new rS) st1 ltac:(cbn; eauto) I) as (m1 & n1' & em1 & ep1 & es1 & L1 & C1).
  destruct (mr_s_learn g2 3 (fun _ _ => 1) (ms_y (mr_row 3)) 1 (mk_stacked (Some (m1, n1')) em1 ep1 es1) st2 ltac:(cbn; eauto) C1) as (m2 & n2' & em2 & ep2 & es2 & L2 & C2).
  destruct (mr_run rS (mr_sizes rS) (mk_mleaf rS (Some st1) ob1 0 (mk_stacked (Some (m1, n1')) em1 ep1 es1)) (mk_mleaf rS (Some st2) ob2 0 (mk_stacked (Some (m2, n2')) em2 ep2 es2))) as (s & E & S & R & Z).
  - unfold mleaf_learn. cbn [ml_stats ml_model mleaf_new]. fold g1. rewrite L1. reflexivity.
  - cbn. lra.
  - unfold mleaf_learn. cbn [ml_stats ml_model]. fold g1. fold g2. rewrite L2. reflexivity.
  - cbn. lra.
  - fold g1 in Z. fold g2 in Z. exists s.
    assert (V : exists row, mt_predict (fun _ => 0%Z) mr_cfg 2 rS s [[2]] = Ok [row]).
    { unfold mt_predict. rewrite S. cbn [mapM]. unfold mt_value. rewrite R. cbn [route bind M_value stacked_adaptive_model ml_model ml_stats]. unfold sa_value. cbn [sa_w]. rewrite Z.
      destruct (mr_norm g2 2 ltac:(cbn; eauto)) as (u & z & ->). cbn [bind]. unfold fits. rewrite C2. cbn. eauto. }
    destruct V as (row & V). do 5 eexists. exists row. split; [exact E|]. split; [exact S|]. split; [exact R|]. split; [constructor|]. split; [reflexivity|]. split; [reflexivity|]. split; [rewrite Z; cbn; lra|exact V].
Qed.

Print Assumptions isoup_adaptive_choice.
Print Assumptions sst_adaptive_choice.
