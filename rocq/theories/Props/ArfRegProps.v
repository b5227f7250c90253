(** The regression trees of the adaptive random forests: what their leaves watch, and when they are Hoeffding trees. *)
From Coq Require Import List ZArith QArith Bool Lia.
From Verif Require Import Base.Py Base.Num Base.Dict Model.Adwin Model.SplitTests Model.Knn Model.TargetStats Model.TreeSkeleton Model.HoeffdingTree Model.HoeffdingRegressor Model.ArfTree Spec.TreeSpec Spec.TreeRelSpec Spec.ArfTreeSpec Spec.HoeffdingRegressorSpec
  Proofs.TreeProofs Proofs.TreeRelProofs Proofs.HoeffdingRegressorProofs Proofs.ArfTreeProofs Proofs.ArfRegProofs Props.HoeffdingRegressorProps Props.ArfTreeProps.
Import ListNotations.
Local Open Scope Z_scope.

Section Any.
Context {T : Type} {N : Num T} (key int_of : T -> Z) (cfg : htr_config T) (m : Z) (n : nat) (sz : sizes T (arfr_leaf T) (rinactive T) (option (stat T unit)) (htest T)).
Local Notation run := (arfr_run key int_of cfg m sz).
Local Notation O := (arfr_ops key int_of cfg m).
Definition rsound (x : list T) (p : list Z) : Prop := length x = n /\ right_pick m n p.
Lemma rself_events A es : arfr_each (fun x p => rsound x p /\ Forall A p) es -> Forall2 (revent_rel cfg m A n) es es.
Proof.
  intros H. induction H as [|e es He F IH]; constructor; auto. destruct e as [rows ws|]; cbn; auto. split; auto.
  induction He as [|[[[x y] d] p] rows [[Ln Rp] Fa] _ IHr]; constructor; auto. cbn [fst snd] in *. split; [exact Ln|]. split; [apply agree_refl|]. split; [auto|]. split; [auto|]. split; [exact Rp|]. split; auto.
Qed.
Lemma rreached_rel A es s : arfr_each (fun x p => rsound x p /\ Forall A p) es -> run arfr_new es = Ok s -> rstate_rel cfg m A n s s.
Proof.
  intros H E. pose proof (arfr_run_rel key int_of cfg m A n sz true es es (rself_events A es H) arfr_new arfr_new ltac:(split; [apply rel_new|split; auto])) as R. rewrite E in R. exact R.
Qed.
Lemma reach_mono (P Q : list T -> list Z -> Prop) es : (forall x p, P x p -> Q x p) -> arfr_each P es -> arfr_each Q es.
Proof. intros H F. induction F as [|e es He F IH]; constructor; auto. destruct e; auto. eapply Forall_impl; [|exact He]. cbn. auto. Qed.

(** C310 for regression trees: every leaf that can grow has observers exactly for the max_features distinct attributes it chose
    (none before its first sample), and every split tests one of the n attributes. *)
Theorem arfr_leaf_watches : forall es s r p, arfr_each rsound es -> run arfr_new es = Ok s -> t_root (arr_tree s) = Some r ->
  (forall l, node_at r p = Some (Active l) -> dkeys (rl_obs (arl_leaf l)) = arl_features l /\ (arl_features l = [] \/ right_pick m n (arl_features l))) /\
  (forall te st ch, node_at r p = Some (Split te st ch) -> 0 <= ht_att te < Z.of_nat n).
Proof.
  intros es s r p H E Er. destruct (rreached_rel (fun _ => True) es s) as [[R] _]; auto. { eapply reach_mono; [|exact H]. intros x q Hq. split; auto. apply Forall_forall. auto. }
  rewrite Er in R. split.
  - intros l Hn. destruct (nrel_place _ _ _ _ _ _ _ _ R Hn) as (a' & _ & Ha). inversion Ha as [? ? [_ (W1 & W2 & _)]| |]; subst. auto.
  - intros te st ch Hn. destruct (nrel_place _ _ _ _ _ _ _ _ R Hn) as (a' & _ & Ha). inversion Ha as [| |? ? ? ? ? ? [_ [_ W]]]; subst. auto.
Qed.
Theorem arfr_leaf_keeps : forall l i y w l', o_learn O l i y w = Ok l' -> arl_features l' = match arl_features l with [] => ari_pick i | f => f end.
Proof.
  intros l i y w l' H. cbn [o_learn arfr_ops] in H. unfold arl_learn in H. cbv zeta in H. apply bind_Ok in H as (fs & Ef & H). apply bind_Ok in H as (obs & _ & H). apply bind_Ok in H as (q & _ & H). injection H as <-. cbn [arl_features].
  unfold a_features, a_sample in Ef. destruct (arl_features l); [destruct (_ || _); [discriminate|]|]; now injection Ef as <-.
Qed.
(** C317: with mean leaves, attributes that no leaf chooses do not matter: two histories with the same targets, weights and choices
    whose instances agree on a set of attributes that contains all choices give the same tree, or raise alike; the tree tests only those
    attributes, and both predict alike for instances that agree on them.  (Perceptron leaves read every attribute.) *)
Theorem arfr_unwatched_irrelevant : forall A es es', r_kind cfg = Mean -> arfr_each (fun x p => rsound x p /\ Forall A p) es -> Forall2 (arfr_agree A) es es' ->
  match run arfr_new es, run arfr_new es' with
  | Ok s, Ok s' => arr_tree s = arr_tree s'
      /\ (forall r p te st ch, t_root (arr_tree s) = Some r -> node_at r p = Some (Split te st ch) -> A (ht_att te))
      /\ forall xs xs', Forall2 (agree A) xs xs' -> arfr_predict key int_of cfg m s xs = arfr_predict key int_of cfg m s' xs'
  | Raise e, Raise e' => e = e'
  | _, _ => False
  end.
Proof.
  intros A es es' K H F. assert (Ev : Forall2 (revent_rel cfg m A n) es es').
  { revert H. induction F as [|e e' es es' He F IH]; intros H; inversion H as [|? ? H1 H2]; subst; constructor; [|now apply IH].
    destruct e as [rows ws|], e' as [rows' ws'|]; cbn in He |- *; auto. destruct He as (He & Hw). split; auto. clear - He H1 K.
    induction He as [|[[[x y] d] p] [[[x' y'] d'] p'] rows rows' (Ha & Hy & Hp) _ IH]; inversion H1 as [|? ? [[Ln Rp] Fa] H3]; subst; constructor; auto. cbn [fst snd] in *. split; [exact Ln|]. split; [exact Ha|]. split; [auto|]. split; [auto|]. split; [exact Rp|]. split; auto. }
  pose proof (arfr_run_rel key int_of cfg m A n sz true es es' Ev arfr_new arfr_new ltac:(split; [apply rel_new|split; auto])) as R.
  destruct (run arfr_new es) as [s|e], (run arfr_new es') as [s'|e']; cbn in R; try discriminate; auto. destruct R as [R1 [R2 _]]. pose proof (rtrel_diag _ _ _ _ _ R1) as Et. split; auto. destruct R1 as [R1]. rewrite <- Et in R1. split.
  { intros r p te st ch Er Hn. rewrite Er in R1. destruct (nrel_place _ _ _ _ _ _ _ _ R1 Hn) as (a' & _ & Ha). inversion Ha as [| |? ? ? ? ? ? [_ [W _]]]; subst. auto. }
  intros xs xs' Fx. unfold arfr_predict. rewrite <- Et, <- R2. destruct (t_root (arr_tree s)) as [r|]; auto. destruct (n0 <? _)%num; auto.
  induction Fx as [|x x' xs xs' Ag Fx IH]; cbn [mapM]; [reflexivity|]. rewrite IH. cut (arfr_value key int_of cfg m s r x = arfr_value key int_of cfg m s' r x'); [now intros ->|]. unfold arfr_value.
  assert (Er : route O r (mk_ari (mk_inst x (arr_sums s) (fun _ => n0)) []) = route O r (mk_ari (mk_inst x' (arr_sums s') (fun _ => n0)) [])).
  { clear - R1 Ag. revert R1. generalize r at 2. induction r as [l|i|te st ch IH] using node_rect'; intros r' R; cbn [route]; auto. inversion R as [| |? ? ? ? ? ch' [_ [W1 W2]] _ Hc]; subst. cbn [o_branch arfr_ops ari_inst i_x]. rewrite (branch_agree key A te x x' Ag); [|lia|auto].
    destruct (ht_branch key te x') as [c|]; cbn [bind]; auto. destruct (0 <=? c)%Z; auto. clear - IH Hc. revert ch' Hc. induction IH as [|[kk c0] ch Hc0 _ IHc]; intros ch' Hc; auto. inversion Hc as [|? [k' c1] ? ch1 [Hk Hn] Hc']; subst. cbn in Hc0, Hn. destruct (Z.eqb kk c); [now rewrite (Hc0 _ Hn)|eapply IHc; eauto]. }
  rewrite Er. clear Er. destruct (route O r _) as [[p u]|e]; cbn [bind]; auto. unfold leaf_value. rewrite K. reflexivity.
Qed.
(** C314 for regression trees: a tree asked to watch more attributes than there are refuses its first sample. *)
Theorem arfr_too_many : forall x y d p w, (w =? n0)%num = false -> m < 0 \/ Z.of_nat (length x) < m -> arfr_fit key int_of cfg m sz arfr_new [((x, y, d), p)] (Some [w]) = Raise ValueError.
Proof.
  intros x y d p w Hw Hm. unfold arfr_fit. cbn [length Nat.eqb arfr_rows arr_tree arfr_new]. unfold arfr_one. rewrite Hw. cbv zeta. unfold fit_weighted. rewrite Hw. unfold fit_one. cbn [t_root tree_new route bind learn_found o_new arfr_ops o_learn arr_tree arfr_new]. unfold arl_learn. cbv zeta.
  assert (E : forall pp, a_features m (arl_features (arl_new (T := T) None pp)) (length x) p = Raise ValueError).
  { intros pp. cbn. unfold a_sample. destruct (Z.ltb_spec (Z.of_nat (length x)) m); [reflexivity|]. destruct (Z.ltb_spec m 0); [reflexivity|lia]. }
  cbn [i_x ari_inst ari_pick]. rewrite E. reflexivity.
Qed.
End Any.

(** C318: with max_features equal to the number n of attributes and a generator that lists them in order, the tree is the Hoeffding tree
    regressor: it raises in the same cases, has the same tests, statistics, observers, perceptrons and counters, and predicts the same
    values, when no memory estimate falls due. *)
Theorem arfr_full_is_hoeffding : forall {T} {N : Num T} key int_of (cfg : htr_config T) n sz sz' es, (forall w, c_period_due (r_memory cfg) w = false) ->
  arfr_each (fun x p => length x = n /\ p = all_features n) es ->
  match arfr_run key int_of cfg (Z.of_nat n) sz arfr_new es, htr_run key int_of cfg sz' htr_new (map (fun e => match e with ARFit rows ws => RFit (map fst rows) ws | ARReset => RReset end) es) with
  | Ok s, Ok s' => trel (fun a l => arl_leaf a = l) eq eq eq (arr_tree s) (hr_tree s') /\ arr_sums s = hr_sums s'
      /\ forall xs, Forall (fun x => length x = n) xs -> arfr_predict key int_of cfg (Z.of_nat n) s xs = htr_predict key int_of cfg s' xs
  | Raise e, Raise e' => e = e'
  | _, _ => False
  end.
Proof.
  intros T N key int_of cfg n sz sz' es Q H. pose proof (rfull_run key int_of cfg n sz sz' Q true es H arfr_new htr_new ltac:(split; [apply rel_new|reflexivity])) as R.
  change (map (fun e : arfr_event T => match e with ARFit rows ws => RFit (map fst rows) ws | ARReset => RReset end) es) with (map (@rfull_event T) es).
  destruct (arfr_run key int_of cfg (Z.of_nat n) sz arfr_new es) as [s|e], (htr_run key int_of cfg sz' htr_new (map rfull_event es)) as [s'|e']; cbn in R; try discriminate; auto.
  split; [|split; [apply R|intros xs Lx; exact (rfull_predict key int_of cfg n sz sz' Q s s' xs R Lx)]]. destruct R as [R _]. destruct R. constructor; auto.
  destruct (t_root (arr_tree s)) as [r|], (t_root (hr_tree s')) as [r'|]; auto. revert r r' tr_root. apply nrel_ind'; [intros l l' [Hl _]; now constructor|intros i i' Hi; now constructor|].
  intros te te' st st' ch ch' He Hs _ Hc. now constructor.
Qed.

(** Examples: ten samples of two attributes, the second one noise that no leaf chooses; the tenth splits the root. *)
Definition arq_sizes : sizes Q (arfr_leaf Q) (rinactive Q) (option (stat Q unit)) (htest Q) := mk_sizes (fun _ => 1%Q) (fun _ => 1%Q) (fun _ => 1%Q).
Definition arq_row (noise : Q) (i : nat) : sample Q * list Z := (([inject_Z (Z.of_nat i); noise], if Nat.ltb i 5 then 1%Q else 3%Q, fun _ => 0%Q), [0]).
Definition arq_rows (noise : Q) : list (arfr_event Q) := [ARFit (map (arq_row noise) (seq 0 10)) None].
Example arfr_example : arfr_each (fun x p => @rsound Q 1 2 x p /\ Forall (fun a => a = 0) p) (arq_rows 0%Q) /\ Forall2 (arfr_agree (fun a => a = 0)) (arq_rows 0%Q) (arq_rows 1%Q)
  /\ exists s, arfr_run rq_key rq_int rq_cfg 1 arq_sizes arfr_new (arq_rows 0%Q) = Ok s /\ t_decision (arr_tree s) = 1 /\ arfr_predict rq_key rq_int rq_cfg 1 s [[2; 5]%Q; [7; 0]%Q] = Ok [Some 1%Q; Some 3%Q].
Proof.
  split; [|split].
  - repeat constructor; cbn; auto; try lia.
  - constructor; [|constructor]. cbn. split; [|auto]. repeat (constructor; [split; [split; [reflexivity|]|auto]; intros [|[|a]] Ha; auto; lia|]). constructor.
  - eexists. repeat (split; [vm_compute; reflexivity|]). vm_compute. reflexivity.
Qed.
Definition arq_full : list (arfr_event Q) := [ARFit (map (fun i => (rq_row i, [0])) (seq 0 10)) None].
Example arfr_full_example : arfr_each (fun x p => length x = 1%nat /\ p = all_features 1) arq_full /\ exists s, arfr_run rq_key rq_int rq_cfg 1 arq_sizes arfr_new arq_full = Ok s /\ t_decision (arr_tree s) = 1.
Proof. split; [repeat constructor|]. eexists. split; vm_compute; reflexivity. Qed.

Print Assumptions arfr_leaf_watches.
Print Assumptions arfr_leaf_keeps.
Print Assumptions arfr_unwatched_irrelevant.
Print Assumptions arfr_too_many.
Print Assumptions arfr_full_is_hoeffding.
