(** C49, C50, C88, C89: the attribute observer of regression trees for numeric attributes (E-BST).

    [I] indexes the targets of the tree; [merit] is the split criterion applied to the two sides. *)
From Coq Require Import List ZArith QArith Bool Lia Reals Lra Sorted.
From Verif Require Import Base.Py Base.Num Spec.Lists Spec.ObserverSpec Spec.EbstSpec Model.Suggestion Model.TargetStats Model.Ebst
  Proofs.SuggestionProofs Proofs.EbstProofs.
Import ListNotations.
Local Open Scope R_scope.

(** C49, C50: for every history and every criterion, the suggestion is the cut point of largest merit among the observed values
    (the smallest of them on a tie); its left side has exactly the statistics of the observations up to the cut point, its right
    side the rest of [pre].  The criterion is arbitrary, so this fixes both sides of every candidate.  Without any observation
    the call raises AttributeError; if every merit is -inf the suggestion has no test. *)
Theorem ebst_best_split : forall I (merit : stat R I -> stat R I -> option R) (pre : stat R I) (h : list (option R * (I -> R) * R)),
  let observed v := In v (map e_val (present h)) in
  let left v := stats (upto v (present h)) in
  let merit_at v := merit (left v) (minus pre (left v)) in
  (present h = [] -> ebst_best merit pre (ebst_run h) = Raise AttributeError)
  /\ (present h <> [] -> exists best, ebst_best merit pre (ebst_run h) = Ok best
      /\ ((forall v, observed v -> merit_at v = None) -> best = mkSug None None None)
      /\ ((exists v, observed v /\ merit_at v <> None) ->
          exists v, observed v /\ best = mkSug (Some v) (Some (left v, minus pre (left v))) (merit_at v)
            /\ (forall v', observed v' -> merit_le (merit_at v') (merit_at v))
            /\ (forall v', observed v' -> v' < v -> ~ merit_le (merit_at v) (merit_at v')))).
Proof.
  intros I merit pre h observed left merit_at. pose proof (run_rep h) as R0. unfold ebst_best. split.
  - intros E. rewrite E in R0. destruct (ebst_run h) as [|v s l r]; auto. destruct R0 as ([] & _).
  - intros E. destruct (ebst_run h) as [|v s l r] eqn:Et; [destruct E; now apply R0|]. rewrite <- Et in *. clear Et v s l r.
    rewrite (find_best_ok merit pre (present h) true _ _ _ (mkSug None None None) R0 (ctx_top _)). cbn [fst]. eexists. split; [reflexivity|].
    destruct (best_of_ok merit pre (present h) (cuts (ebst_run h)) (cuts_sorted _ _ _ R0)) as [A B].
    assert (C : forall v, observed v <-> In v (cuts (ebst_run h))) by (intros v; split; [apply cuts_all|apply (cuts_in true)]; auto). split.
    + intros H. apply A. intros v Hv. apply H. now apply C.
    + intros (v & Hv & N). destruct B as (w & W1 & W2 & W3 & W4); [exists v; split; [now apply C|exact N]|]. exists w.
      split; [now apply C|]. split; [exact W2|]. split; intros; [apply W3|apply W4]; auto; now apply C.
Qed.
Print Assumptions ebst_best_split.

(** C88: pruning with [last_check_sdr <> 0] succeeds; it removes only candidates whose merit ratio is below the bound, the
    others keep exact sides: a later search is the search over a set [kept] of observed values that contains every candidate
    that is not bad. *)
Theorem ebst_prune_removes_bad_only : forall I (merit : stat R I -> stat R I -> option R) (pre : stat R I) (h : list (option R * (I -> R) * R)) ratio sdr e,
  let observed v := In v (map e_val (present h)) in
  let left v := stats (upto v (present h)) in
  let merit_at v := merit (left v) (minus pre (left v)) in
  let bad v := match merit_at v with Some m => m / sdr < ratio - 2 * e | None => 0 < sdr end in
  sdr <> 0 -> present h <> [] ->
  exists t (kept : R -> Prop), ebst_prune merit pre ratio sdr e (ebst_run h) = Ok t
    /\ (forall v, kept v -> observed v) /\ (forall v, observed v -> ~ bad v -> kept v)
    /\ ((forall v, ~ kept v) -> t = Leaf)
    /\ forall merit' pre', (exists v, kept v) ->
       let merit_at' v := merit' (left v) (minus pre' (left v)) in
       exists best, ebst_best merit' pre' t = Ok best
       /\ ((forall v, kept v -> merit_at' v = None) -> best = mkSug None None None)
       /\ ((exists v, kept v /\ merit_at' v <> None) ->
          exists v, kept v /\ best = mkSug (Some v) (Some (left v, minus pre' (left v))) (merit_at' v)
            /\ (forall v', kept v' -> merit_le (merit_at' v') (merit_at' v))
            /\ (forall v', kept v' -> v' < v -> ~ merit_le (merit_at' v) (merit_at' v'))).
Proof.
  intros I merit pre h ratio sdr e observed left merit_at bad Hs E. pose proof (run_rep h) as R0. unfold ebst_prune.
  destruct (ebst_run h) as [|v s l r] eqn:Et; [destruct E; now apply R0|]. rewrite <- Et in *. clear Et v s l r.
  destruct (remove_bad_ok merit pre (present h) ratio sdr e true _ Hs _ _ R0 (ctx_top _)) as (t & x & -> & Rt & Inc & Bad & _). cbn [bind].
  exists t, (fun v => In v (cuts t)). split; auto.
  assert (C : forall v, observed v <-> In v (cuts (ebst_run h))) by (intros v; split; [apply cuts_all|apply (cuts_in true)]; auto).
  split; [intros v Hv; apply C; auto|]. split.
  { intros v Hv N. destruct (in_dec Req_EM_T v (cuts t)) as [H|H]; auto. exfalso. apply N. apply (Bad v); auto. now apply C. }
  split; [intros H; destruct t as [|v s l r]; auto; destruct (H v); cbn; apply in_or_app; right; now left|].
  intros merit' pre' (v0 & Hv0). unfold ebst_best. destruct t as [|v s l r] eqn:Et; [destruct Hv0|]. rewrite <- Et in *. clear Et v s l r.
  rewrite (find_best_ok merit' pre' (present h) false _ _ _ (mkSug None None None) Rt (ctx_top _)). cbn [fst]. eexists. split; [reflexivity|].
  exact (best_of_ok merit' pre' (present h) (cuts t) (cuts_sorted _ _ _ Rt)).
Qed.
Print Assumptions ebst_prune_removes_bad_only.

(** C88: hence pruning keeps the suggestion whenever its own merit ratio reaches the bound. *)
Theorem ebst_prune_keeps_best : forall I (merit : stat R I -> stat R I -> option R) (pre : stat R I) (h : list (option R * (I -> R) * R)) ratio sdr e best m,
  sdr > 0 -> ebst_best merit pre (ebst_run h) = Ok best -> sg_merit best = Some m -> ratio - 2 * e <= m / sdr ->
  exists t, ebst_prune merit pre ratio sdr e (ebst_run h) = Ok t /\ ebst_best merit pre t = Ok best.
Proof.
  intros I merit pre h ratio sdr e best m Hs Hb Hm Hr.
  assert (E : present h <> []). { intros E. rewrite (proj1 (ebst_best_split I merit pre h) E) in Hb. discriminate. }
  destruct (ebst_prune_removes_bad_only I merit pre h ratio sdr e ltac:(lra) E) as (t & kept & Et & K1 & K2 & _ & K3). exists t. split; auto.
  destruct (proj2 (ebst_best_split I merit pre h) E) as (b & Eb & B1 & B2). rewrite Hb in Eb. injection Eb as <-.
  set (merit_at v := merit (stats (upto v (present h))) (minus pre (stats (upto v (present h))))) in *.
  assert (NN : exists v, In v (map e_val (present h)) /\ merit_at v <> None).
  { destruct (existsb (fun v => match merit_at v with Some _ => true | None => false end) (map e_val (present h))) eqn:Ex.
    - apply existsb_exists in Ex as (v & Hv & Hn). exists v. split; auto. destruct (merit_at v); congruence.
    - exfalso. rewrite B1 in Hm; [discriminate|]. intros v Hv. destruct (merit_at v) eqn:Ev; auto. assert (X : existsb (fun v => match merit_at v with Some _ => true | None => false end) (map e_val (present h)) = true).
      { apply existsb_exists. exists v. rewrite Ev. auto. } congruence. }
  destruct (B2 NN) as (v & V1 & V2 & V3 & V4). assert (Mv : merit_at v = Some m) by (rewrite V2 in Hm; exact Hm).
  assert (Kv : kept v). { apply K2; auto. fold (merit_at v). rewrite Mv. lra. }
  destruct (K3 merit pre (ex_intro _ v Kv)) as (b & Eb & _ & B3). rewrite Eb. f_equal. clear B1 B2.
  destruct B3 as (v' & W1 & W2 & W3 & W4); [exists v; split; auto; fold (merit_at v); congruence|]. fold (merit_at v') in *.
  assert (v' = v); [|subst v'; rewrite W2, V2; reflexivity].
  destruct (Rtotal_order v' v) as [L|[->|L]]; auto; exfalso.
  - apply (V4 v'); auto.
  - apply (W4 v Kv L). apply V3. auto.
Qed.
Print Assumptions ebst_prune_keeps_best.

(** C89 refuted: after pruning, a candidate forgets the pruned observations.  1 and 3 are observed and 3 is pruned (the
    criterion prefers weight on the right); 3 is observed again.  Three observations are at most 3, but the left side of the
    suggestion "<= 3" has weight 2, and the right side, 3 - 2, weight 1. *)
Definition right_weight (a b : stat Q unit) : option Q := Some (st_w b).
Definition left_weight (a b : stat Q unit) : option Q := Some (st_w a).
Definition seen (v : Q) : option Q * (unit -> Q) * Q := (Some v, fun _ => 1, 1)%Q.
Definition total (n : Q) : stat Q unit := mkS n (fun _ => n) (fun _ => n).
Theorem ebst_pruned_data_lost_refuted :
  match ebst_prune right_weight (total 2%Q) 1%Q 1%Q (1#4)%Q (ebst_run [seen 1%Q; seen 3%Q]) with
  | Ok t => match ebst_best left_weight (total 3%Q) (ebst_update t (seen 3%Q)) with
            | Ok best => sg_test best = Some 3%Q /\ option_map (fun p => (st_w (fst p), st_w (snd p))) (sg_dists best) = Some (2, 1)%Q
            | Raise _ => False
            end
  | Raise _ => False
  end.
Proof. vm_compute. split; reflexivity. Qed.
Print Assumptions ebst_pruned_data_lost_refuted.
(** Without the pruning step the weight is 3. *)
Example ebst_unpruned : match ebst_best left_weight (total 3%Q) (ebst_run [seen 1%Q; seen 3%Q; seen 3%Q]) with
  | Ok best => sg_test best = Some 3%Q /\ option_map (fun p => (st_w (fst p), st_w (snd p))) (sg_dists best) = Some (3, 0)%Q
  | Raise _ => False
  end.
Proof. vm_compute. split; reflexivity. Qed.

(** Non-vacuity: a history with candidates of different merit, and pruning that removes one of them. *)
Example ebst_hypotheses : exists h : list (option R * (unit -> R) * R), (present h <> []) /\  exists v, In v (map e_val (present h)) /\ (fun a b : stat R unit => Some (st_w b)) (stats (upto v (present h))) (stats (upto v (present h))) <> None.
Proof. exists [(Some 1, fun _ => 2, 1); (None, fun _ => 7, 1); (Some 0, fun _ => 3, 2)]. split; [discriminate|]. exists 1. split; [now left|discriminate]. Qed.
Example ebst_tree : match ebst_best (fun a b => Some (st_w a * st_w b)%Q) (total 5%Q) (ebst_run [seen 4%Q; seen 2%Q; seen 9%Q; seen 3%Q; seen 2%Q]) with
  | Ok best => sg_test best = Some 2%Q /\ sg_merit best = Some 6%Q | Raise _ => False end.
Proof. vm_compute. split; reflexivity. Qed.
