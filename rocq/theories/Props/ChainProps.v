(** Theorems about MultiOutputLearner, RegressorChain and the classifier chains. *)
From Coq Require Import List ZArith Bool Arith Lia Permutation Reals Lra QArith.
From Verif Require Import Base.Py Base.Num Model.Adwin Model.Knn Model.Chains Spec.ChainSpec Proofs.ChainProofs Proofs.ChainJoint.
Import ListNotations.
Local Open Scope nat_scope.

(** *** MultiOutputLearner *)
(** After calls that raise nothing, member [j] is the base estimator trained on output [j] alone, by the calls since the last
    fit; column [j] of the predictions is what this estimator predicts. *)
Theorem multi_output_alone {X T B} {N : Num T} (L : tlearner X T B) (base : B) k os s es :
  usual_signatures L -> Forall (m_columns k) os -> mo_run L base mo_init os = (s, es) -> Forall (fun e => e = None) es ->
  match epoch None (map mkind os) with
  | None => mo_ens s = None
  | Some calls => mo_ens s = Some (map (fun j => alone L base j calls) (seq 0 k)) /\
      forall xs P, mo_predict L s xs = Ok P ->
        length P = length xs /\ Forall (fun r => length r = k) P /\ forall j, j < k -> tl_predict L (alone L base j calls) xs = Ok (col j P)
  end.
Proof.
  intros U C H F. apply (mo_run_ok L base k U os None) in H; auto; subst s.
  destruct (epoch None (map mkind os)) as [c|]; cbn [mo_state mo_ens]; [|reflexivity]. split; [reflexivity|].
  intros xs P HP; exact (mo_predict_ok L base k c xs P HP).
Qed.

(** The predictions of an output do not depend on the other outputs. *)
Theorem multi_output_independent {X T B} {N : Num T} (L : tlearner X T B) (base : B) k k' j os os' s s' es es' :
  usual_signatures L -> Forall (m_columns k) os -> Forall (m_columns k') os' -> j < k -> j < k' -> Forall2 (same_output j) os os' ->
  mo_run L base mo_init os = (s, es) -> Forall (fun e => e = None) es -> mo_run L base mo_init os' = (s', es') -> Forall (fun e => e = None) es' ->
  forall xs P P', mo_predict L s xs = Ok P -> mo_predict L s' xs = Ok P' -> col j P = col j P'.
Proof.
  intros U C C' J J' S H F H' F' xs P P' HP HP'.
  apply (mo_run_ok L base k U os None) in H; auto; subst s. apply (mo_run_ok L base k' U os' None) in H'; auto; subst s'.
  pose proof (alone_same L base j os os' S None None I) as A.
  destruct (epoch None (map mkind os)) as [c|], (epoch None (map mkind os')) as [c'|]; try contradiction; [|discriminate].
  apply (mo_predict_ok L base) in HP. apply (mo_predict_ok L base) in HP'.
  destruct HP as (_ & _ & HP), HP' as (_ & _ & HP'). specialize (HP j J); specialize (HP' j J'). rewrite A in HP; congruence.
Qed.

(** With a base estimator that does not fail, nothing fails once the model is trained. *)
Theorem multi_output_never_fails {X T B} {N : Num T} (L : tlearner X T B) (base : B) k os :
  usual_signatures L -> sound L -> Forall (m_columns k) os ->
  Forall (fun e => e = None) (snd (mo_run L base mo_init os)) /\
  (epoch None (map mkind os) <> None -> forall xs, exists P, mo_predict L (fst (mo_run L base mo_init os)) xs = Ok P).
Proof.
  intros U S C. destruct (mo_run L base mo_init os) as [s es] eqn:E; cbn [fst snd].
  pose proof (mo_run_total L base k U S os None s es C E) as F. split; [exact F|].
  intros D xs. apply (mo_run_ok L base k U os None) in E; auto; subst s.
  destruct (epoch None (map mkind os)) as [c|]; [|congruence]. apply mo_predict_total; exact S.
Qed.

(** predict_proba: for each output, the second column of its estimator's probabilities *)
Theorem multi_output_second_class {X T B} {N : Num T} (L : tlearner X T B) (base : B) k os s es calls :
  usual_signatures L -> Forall (m_columns k) os -> mo_run L base mo_init os = (s, es) -> Forall (fun e => e = None) es ->
  epoch None (map mkind os) = Some calls ->
  forall xs P, mo_proba L s xs = Ok P -> length P = length xs /\ Forall (fun r => length r = k) P /\
    forall j, j < k -> exists m, tl_proba L (alone L base j calls) xs = Ok m /\ length m = length xs /\ Forall2 (fun r v => nth_error r 1 = Some v) m (col j P).
Proof.
  intros U C H F E xs P HP. apply (mo_run_ok L base k U os None) in H; auto; subst s. rewrite E in HP.
  apply (mo_proba_ok L base) in HP; destruct HP as (P1 & P2 & P3). split; [exact P1|]. split; [exact P2|].
  intros j J; destruct (P3 j J) as [m [M S]]. exists m; split; [exact M|].
  assert (G : forall (m : list (list T)) v, second m = Ok v -> Forall2 (fun r v => nth_error r 1 = Some v) m v).
  { induction m0 as [|r m0 IH]; intros v Hv; unfold second in *; cbn [mapM] in Hv; [injection Hv as <-; constructor|].
    apply bind_Ok in Hv; destruct Hv as [b [B0 Hv]]; apply bind_Ok in Hv; destruct Hv as [bs [B1 Hv]]; injection Hv as <-.
    constructor; [|apply IH; exact B1]. destruct r as [|? [|? ?]]; try discriminate; cbn in *; congruence. }
  apply G in S. split; [|exact S].
  clear - S P1. assert (E : forall (a : list (list T)) b, Forall2 (fun r v => nth_error r 1 = Some v) a b -> length a = length b) by (induction 1; cbn [length]; congruence).
  rewrite (E _ _ S). unfold col; rewrite map_length; exact P1.
Qed.

(** *** Toy base estimators *)
(** It remembers the last target it saw, and predicts it; [mark] is added for each call of partial_fit *)
Definition memory {X T} `{Num T} (tc tw : bool) : tlearner X T T := mk_tlearner
  (fun b rows _ _ => (match rev rows with (_, y) :: _ => y | [] => b end, None))
  (fun b rows _ _ => (match rev rows with (_, y) :: _ => y | [] => b end, None))
  (fun b xs => Ok (map (fun _ => b) xs))
  (fun b xs => Ok (map (fun _ => [n1 - b; b]%num) xs)) false false tc tw.
Lemma memory_sound {X T} {N : Num T} tc tw : sound (memory (X := X) (T := T) tc tw).
Proof. split; [reflexivity|]. split; [reflexivity|]. intros b xs; exists (map (fun _ => b) xs); split; [reflexivity|apply map_length]. Qed.
(** It predicts the last entry of the row plus the sum of the targets it saw. *)
Definition adder {T} `{Num T} : tlearner (list T) T T := mk_tlearner
  (fun b rows _ _ => (fold_left nadd (map snd rows) b, None))
  (fun b rows _ _ => (fold_left nadd (map snd rows) b, None))
  (fun b xs => Ok (map (fun x => (last x n0 + b)%num) xs))
  (fun b xs => Ok (map (fun _ => [n1 - b; b]%num) xs)) false false true true.
Lemma adder_sound {T} {N : Num T} : sound (adder (T := T)).
Proof. split; [reflexivity|]. split; [reflexivity|]. intros b xs; exists (map (fun x => (last x n0 + b)%num) xs); split; [reflexivity|apply map_length]. Qed.
(** It predicts the last target with the probability of label 2 it was built with, among three labels. *)
Definition three {X T} `{Num T} : tlearner X T T := mk_tlearner
  (fun b rows _ _ => (match rev rows with (_, y) :: _ => y | [] => b end, None))
  (fun b rows _ _ => (match rev rows with (_, y) :: _ => y | [] => b end, None))
  (fun b xs => Ok (map (fun _ => b) xs))
  (fun b xs => Ok (map (fun _ => if (b =? n0)%num then [n1; n0; n0] else [n0; n0; n1]) xs)) true true true true.
(** It saw one label only. *)
Definition single {X T} `{Num T} : tlearner X T T := mk_tlearner
  (fun b rows _ _ => (b, None)) (fun b rows _ _ => (b, None)) (fun b xs => Ok (map (fun _ => b) xs)) (fun b xs => Ok (map (fun _ => [n1]) xs)) true true true true.

Definition q (z : Z) : Q := Qmake z 1.
Example multi_output_runs :
  exists s es P, mo_run (adder (T := Q)) (q 0) mo_init [MFit 2 [([q 5], [q 9; q 9])] None None; MReset; MPartial 2 [([q 1], [q 1; q 10])] None None; MPartial 2 [([q 2], [q 2; q 20])] None None] = (s, es) /\
    Forall (fun e => e = None) es /\ mo_predict adder s [[q 7]; [q 8]] = Ok P /\ P = [[q 10; q 37]; [q 11; q 38]] /\ mo_ens s = Some [q 3; q 30].
Proof. do 3 eexists; split; [vm_compute; reflexivity|]. split; [repeat constructor|]. split; [vm_compute; reflexivity|]. split; reflexivity. Qed.

(** predict_proba does not give the probability of every label: two models whose estimators give different probabilities to
    the labels answer the same; and with an estimator that knows one label it fails. *)
Theorem multi_output_proba_refuted :
  (exists s s' es es', mo_run (three (X := Q) (T := Q)) (q 0) mo_init [MFit 1 [(q 1, [q 0])] None None] = (s, es) /\
     mo_run (three (X := Q)) (q 0) mo_init [MFit 1 [(q 1, [q 2])] None None] = (s', es') /\ Forall (fun e => e = None) (es ++ es') /\
     option_map (map (fun b => tl_proba (three (X := Q)) b [q 1])) (mo_ens s) <> option_map (map (fun b => tl_proba (three (X := Q)) b [q 1])) (mo_ens s') /\
     mo_proba (three (X := Q)) s [q 1] = mo_proba (three (X := Q)) s' [q 1]) /\
  (exists s es, mo_run (single (X := Q) (T := Q)) (q 0) mo_init [MFit 1 [(q 1, [q 0])] None None] = (s, es) /\ Forall (fun e => e = None) es /\
     mo_proba (single (X := Q)) s [q 1] = Raise IndexError).
Proof.
  split.
  - do 4 eexists; split; [vm_compute; reflexivity|]. split; [vm_compute; reflexivity|]. split; [repeat constructor|]. split; [vm_compute; discriminate|vm_compute; reflexivity].
  - do 2 eexists; split; [vm_compute; reflexivity|]. split; [repeat constructor|vm_compute; reflexivity].
Qed.

(** An estimator whose partial_fit takes classes but no sample_weight can be trained once only, even without weights. *)
Theorem multi_output_signature_refuted {X T} {N : Num T} (b : T) (k : nat) (r1 r2 : list (X * list T)) (c1 c2 : option (list Z)) : 0 < k ->
  sound (memory (X := X) (T := T) true false) /\
  exists s s', mo_partial_fit (memory true false) b k r1 c1 None mo_init = (s, None) /\ mo_partial_fit (memory true false) b k r2 c2 None s = (s', Some TypeError).
Proof.
  intros K; split; [apply memory_sound|].
  assert (E : exists l, mo_partial_fit (memory (X := X) true false) b k r1 c1 None mo_init = (mk_multi (Some k) (Some l), None) /\ length l = k).
  { unfold mo_partial_fit; cbn [mo_init mo_n]; unfold mo_fit. rewrite (repeat_seq b k 0).
    match goal with |- context [each k 0 ?f (map ?g _)] => pose proof (each_seq_total f g k (fun i b => eq_refl) 0) as T0; pose proof (each_seq f g k 0) as T1 end.
    destruct (each _ _ _ _) as [l e]; cbn [snd] in T0; subst e. exists l; split; [reflexivity|]. rewrite (T1 l eq_refl), map_length, seq_length; reflexivity. }
  destruct E as [l [E Ll]]. destruct k as [|k]; [lia|]. destruct l as [|b0 l]; [discriminate|].
  do 2 eexists; split; [exact E|reflexivity].
Qed.

(** A call with a wrong number of outputs fails and leaves a model that cannot predict any more. *)
Theorem multi_output_failed_call_refuted :
  exists s s' es, mo_run (memory (X := Q) (T := Q) true true) (q 0) mo_init [MFit 2 [(q 1, [q 1; q 2])] None None] = (s, es) /\ Forall (fun e => e = None) es /\
    mo_partial_fit (memory true true) (q 0) 3 [(q 1, [q 1; q 2; q 3])] None None s = (s', Some IndexError) /\
    mo_predict (memory true true) s [q 1] = Ok [[q 1; q 2]] /\ mo_predict (memory true true) s' [q 1] = Raise IndexError.
Proof. do 3 eexists; split; [vm_compute; reflexivity|]. split; [repeat constructor|]. split; [vm_compute; reflexivity|]. split; vm_compute; reflexivity. Qed.

(** *** Chains *)
(** After calls that raise nothing, member [j] of the chain has learnt target [order[j]] from the instances followed by the
    targets before it in the chain. *)
Theorem chain_training {T B G} {N : Num T} (L : tlearner (list T) T B) (base : B) random seed (shuffle : list nat -> G -> list nat * G) k os s es :
  permutes shuffle -> Forall (c_columns k) os -> ch_run L base random seed shuffle (ch_init seed) os = (s, es) -> Forall (fun e => e = None) es ->
  match epoch None (map ckind os) with
  | None => ch_ens s = None
  | Some calls => exists order, ch_order s = Some order /\ Permutation order (seq 0 k) /\ (random = false -> order = seq 0 k) /\
      ch_ens s = Some (members L base order k calls)
  end.
Proof.
  intros Sh C H F. apply (ch_run_ok L base random seed shuffle k Sh os None) in H; auto; [|split; reflexivity].
  destruct (epoch None (map ckind os)) as [c|]; cbn [ch_ok] in H; [|tauto]. destruct H as (order & O1 & O2 & O3 & O4 & _); eauto.
Qed.

(** The predictions are in the order of the targets, whatever the order of the chain: the prediction of target [order[j]] is
    what member [j] predicts for the instances followed by the predictions of the targets before it. *)
Theorem chain_prediction {T B G} {N : Num T} (L : tlearner (list T) T B) (base : B) random seed (shuffle : list nat -> G -> list nat * G) k os s es calls :
  permutes shuffle -> Forall (c_columns k) os -> ch_run L base random seed shuffle (ch_init seed) os = (s, es) -> Forall (fun e => e = None) es ->
  epoch None (map ckind os) = Some calls ->
  forall xs P, ch_predict L s xs = Ok P ->
    exists order, ch_order s = Some order /\ Permutation order (seq 0 k) /\ length P = length xs /\ Forall (fun r => length r = k) P /\
      forall j, j < k -> tl_predict L (member L base order j calls) (asked order j xs P) = Ok (col (nth j order O) P).
Proof.
  intros Sh C H F E xs P HP. apply (ch_run_ok L base random seed shuffle k Sh os None) in H; auto; [|split; reflexivity]. rewrite E in H.
  destruct (ch_predict_ok L base random k calls s xs P H HP) as (order & O1 & O2 & _ & O4 & O5 & O6); eauto 8.
Qed.

(** With a base estimator that does not fail, nothing fails. *)
Theorem chain_never_fails {T B G} {N : Num T} (L : tlearner (list T) T B) (base : B) random seed (shuffle : list nat -> G -> list nat * G) k os :
  sound L -> permutes shuffle -> Forall (c_columns k) os ->
  Forall (fun e => e = None) (snd (ch_run L base random seed shuffle (ch_init seed) os)) /\
  (epoch None (map ckind os) <> None -> forall xs, exists P, ch_predict L (fst (ch_run L base random seed shuffle (ch_init seed) os)) xs = Ok P).
Proof.
  intros Sd Sh C. destruct (ch_run L base random seed shuffle (ch_init seed) os) as [s es] eqn:E; cbn [fst snd].
  assert (I0 : ch_ok L base random k None (ch_init (B := B) seed)) by (split; reflexivity).
  pose proof (ch_run_total L base random seed shuffle k Sd Sh os None _ s es C I0 E) as F. split; [exact F|].
  intros D xs. pose proof (ch_run_ok L base random seed shuffle k Sh os None _ s es C I0 E F) as K.
  destruct (epoch None (map ckind os)) as [c|]; [|congruence]. eapply ch_predict_total; eauto.
Qed.

(** predict_proba with the default order: column [j] is the probability of label 1 of target [j] given the instances and the
    probabilities of the targets before it. *)
Theorem chain_proba {T B G} {N : Num T} (L : tlearner (list T) T B) (base : B) seed (shuffle : list nat -> G -> list nat * G) k os s es calls :
  permutes shuffle -> Forall (c_columns k) os -> ch_run L base false seed shuffle (ch_init seed) os = (s, es) -> Forall (fun e => e = None) es ->
  epoch None (map ckind os) = Some calls ->
  forall xs P, ch_proba L s xs = Ok P -> length P = length xs /\ Forall (fun r => length r = k) P /\
    forall j, j < k -> exists m, tl_proba L (member L base (seq 0 k) j calls) (asked (seq 0 k) j xs P) = Ok m /\ Forall2 (fun r v => nth_error r 1 = Some v) m (col j P).
Proof.
  intros Sh C H F E xs P HP. apply (ch_run_ok L base false seed shuffle k Sh os None) in H; auto; [|split; reflexivity]. rewrite E in H.
  apply (ch_proba_ok L base false k calls s xs P eq_refl H) in HP. destruct HP as (P1 & P2 & P3). split; [exact P1|]. split; [exact P2|].
  intros j J; destruct (P3 j J) as [m [M S]]. exists m; split; [exact M|]. clear - S. revert S; generalize (col j P); induction m as [|r m IH]; intros v Hv; unfold second in *; cbn [mapM] in Hv; [injection Hv as <-; constructor|].
  apply bind_Ok in Hv; destruct Hv as [b [B0 Hv]]; apply bind_Ok in Hv; destruct Hv as [bs [B1 Hv]]; injection Hv as <-.
  constructor; [|apply IH; exact B1]. destruct r as [|? [|? ?]]; try discriminate; cbn in *; congruence.
Qed.

(** A chain with an order that reverses the targets *)
Definition backwards (l : list nat) (g : unit) : list nat * unit := (rev l, g).
Lemma backwards_permutes : permutes backwards.
Proof. intros l g; apply Permutation_rev. Qed.
Example chain_runs :
  exists s es, ch_run (adder (T := Q)) (q 0) true tt backwards (ch_init tt)
      [CFit 3 [([q 5], [q 9; q 9; q 9])]; CReset; CPartial 3 [([q 1], [q 1; q 10; q 100])]; CPartial 3 [([q 2], [q 2; q 20; q 200])]] = (s, es) /\
    Forall (fun e => e = None) es /\ ch_order s = Some [2; 1; 0] /\ ch_ens s = Some [q 300; q 30; q 3] /\
    ch_predict adder s [[q 7]; [q 8]] = Ok [[q 340; q 337; q 307]; [q 341; q 338; q 308]].
Proof. do 2 eexists; split; [vm_compute; reflexivity|]. split; [repeat constructor|]. split; [reflexivity|]. split; [reflexivity|vm_compute; reflexivity]. Qed.

(** With order='random' every call that trains a new chain (fit; partial_fit on a chain without members) draws its order with the
    next state of the generator; reset goes back to the seed. *)
Fixpoint orders_drawn {T G} (shuffle : list nat -> G -> list nat * G) (seed g : G) (trained : bool) (order : option (list nat)) (os : list (@cop T)) : option (list nat) * G :=
  match os with
  | [] => (order, g)
  | CReset :: os => orders_drawn shuffle seed seed false order os
  | CFit k _ :: os => let '(o, g') := shuffle (seq 0 k) g in orders_drawn shuffle seed g' true (Some o) os
  | CPartial k _ :: os => if trained then orders_drawn shuffle seed g true order os else let '(o, g') := shuffle (seq 0 k) g in orders_drawn shuffle seed g' true (Some o) os
  end.
Theorem chain_orders {T B G} {N : Num T} (L : tlearner (list T) T B) (base : B) seed (shuffle : list nat -> G -> list nat * G) os s es :
  ch_run L base true seed shuffle (ch_init seed) os = (s, es) -> Forall (fun e => e = None) es -> (ch_order s, ch_rng s) = orders_drawn shuffle seed seed false None os.
Proof.
  assert (Ft : forall k rows s0 s1, ch_fit L base true shuffle k rows s0 = (s1, None) -> (ch_order s1, ch_rng s1) = (Some (fst (shuffle (seq 0 k) (ch_rng s0))), snd (shuffle (seq 0 k) (ch_rng s0))) /\ ch_ens s1 <> None).
  { intros k rows s0 s1 E. unfold ch_fit in E. destruct (shuffle (seq 0 k) (ch_rng s0)) as [o g]. destruct (mapM _ rows) as [r|e]; [|discriminate]. destruct (each _ _ _ _) as [l e]. injection E as <- ->. cbn. split; [reflexivity|discriminate]. }
  assert (Gn : forall os s0 s es, ch_run L base true seed shuffle s0 os = (s, es) -> Forall (fun e => e = None) es -> (ch_order s, ch_rng s) = orders_drawn shuffle seed (ch_rng s0) (match ch_ens s0 with Some _ => true | None => false end) (ch_order s0) os).
  { clear os s es. induction os as [|o os IH]; intros s0 s es E F; cbn [ch_run] in E; [injection E as <- <-; reflexivity|]. destruct (ch_step L base true seed shuffle s0 o) as [s1 e] eqn:E1. destruct (ch_run _ _ _ _ _ s1 os) as [s2 es2] eqn:E2. injection E as <- <-. inversion F as [|? ? H0 F']; subst.
    specialize (IH _ _ _ E2 F'). rewrite IH. destruct o as [k rows|k rows|]; cbn [ch_step orders_drawn] in *.
    - apply Ft in E1 as [E1 En]. destruct (shuffle (seq 0 k) (ch_rng s0)) as [o g]. injection E1 as -> ->. destruct (ch_ens s1); [reflexivity|contradiction].
    - unfold ch_partial_fit in E1. destruct (ch_ens s0) as [l|].
      + destruct (existsb _ _); [discriminate|]. destruct (_ && _)%bool; [discriminate|]. destruct (mapM _ rows) as [r|e]; [|discriminate]. destruct (each _ _ _ _) as [l' e]. injection E1 as <- ->. reflexivity.
      + apply Ft in E1 as [E1 En]. destruct (shuffle (seq 0 k) (ch_rng s0)) as [o g]. injection E1 as -> ->. destruct (ch_ens s1); [reflexivity|contradiction].
    - injection E1 as <-. reflexivity. }
  intros E F. exact (Gn os (ch_init seed) s es E F).
Qed.
(** A generator that draws another order every time *)
Definition rotating (l : list nat) (g : nat) : list nat * nat := (skipn g l ++ firstn g l, S g).
Example chain_orders_example :
  fst (orders_drawn (T := Q) rotating 0 0 false None [CFit 3 []; CPartial 3 []; CFit 3 []; CFit 3 []]) = Some [2; 0; 1]
  /\ exists s es, ch_run (adder (T := Q)) (q 0) true 0 rotating (ch_init 0) [CFit 3 []; CPartial 3 []; CFit 3 []; CFit 3 []] = (s, es) /\ Forall (fun e => e = None) es.
Proof. split; [reflexivity|]. do 2 eexists. split; [vm_compute; reflexivity|repeat constructor]. Qed.

(** With order='random', predict_proba answers in the order of the chain: trained on the labels (0, 1) only, by estimators
    that give the label they saw with probability 1, it gives label 1 to the first target and label 0 to the second. *)
Theorem chain_proba_order_refuted :
  exists s es, ch_run (memory (X := list Q) (T := Q) true true) (q 0) true tt backwards (ch_init tt) [CFit 2 [([q 7], [q 0; q 1])]] = (s, es) /\
    Forall (fun e => e = None) es /\ ch_predict (memory true true) s [[q 7]] = Ok [[q 0; q 1]] /\ ch_proba (memory true true) s [[q 7]] = Ok [[q 1; q 0]].
Proof. do 2 eexists; split; [vm_compute; reflexivity|]. split; [repeat constructor|]. split; vm_compute; reflexivity. Qed.

(** reset makes the chain behave like a new one (with an integer seed). *)
Theorem chain_reset {T B G} {N : Num T} (L : tlearner (list T) T B) (base : B) random seed (shuffle : list nat -> G -> list nat * G) (s : chain B G) os :
  snd (ch_run L base random seed shuffle (ch_reset seed s) os) = snd (ch_run L base random seed shuffle (ch_init seed) os) /\
  forall xs, ch_predict L (fst (ch_run L base random seed shuffle (ch_reset seed s) os)) xs = ch_predict L (fst (ch_run L base random seed shuffle (ch_init seed) os)) xs /\
    ch_proba L (fst (ch_run L base random seed shuffle (ch_reset seed s) os)) xs = ch_proba L (fst (ch_run L base random seed shuffle (ch_init seed) os)) xs /\
    pcc_predict L (fst (ch_run L base random seed shuffle (ch_reset seed s) os)) xs = pcc_predict L (fst (ch_run L base random seed shuffle (ch_init seed) os)) xs.
Proof.
  destruct (like_run L base random seed shuffle os (ch_reset seed s) (ch_init seed)) as [A K]; [right; cbn; auto|].
  split; [exact A|]. intros xs; apply like_answers; exact K.
Qed.

(** A call with a wrong number of targets fails and leaves a chain that cannot predict any more. *)
Theorem chain_failed_call_refuted :
  exists s s1 s2 es, ch_run (adder (T := Q)) (q 0) false tt backwards (ch_init tt) [CFit 2 [([q 1], [q 1; q 10])]] = (s, es) /\ Forall (fun e => e = None) es /\
    ch_predict adder s [[q 7]] = Ok [[q 8; q 18]] /\
    ch_partial_fit adder (q 0) false backwards 1 [([q 1], [q 1])] s = (s1, Some IndexError) /\ ch_predict adder s1 [[q 7]] = Raise IndexError /\
    ch_partial_fit adder (q 0) false backwards 3 [([q 1], [q 1; q 10; q 100])] s = (s2, Some IndexError) /\ ch_predict adder s2 [[q 7]] = Raise IndexError /\
    ch_ens s2 <> ch_ens s.
Proof.
  do 4 eexists; split; [vm_compute; reflexivity|]. split; [repeat constructor|]. split; [vm_compute; reflexivity|]. split; [vm_compute; reflexivity|].
  split; [vm_compute; reflexivity|]. split; [vm_compute; reflexivity|]. split; [vm_compute; reflexivity|vm_compute; discriminate].
Qed.

(** *** Probabilistic chains, over the real numbers *)
(** With the default order ProbabilisticClassifierChain predicts the most probable labels. *)
Theorem pcc_mode {B G} (p : B -> list R -> R) (L : tlearner (list R) R B) (base : B) seed (shuffle : list nat -> G -> list nat * G) k os s es calls :
  gives_probabilities p L -> permutes shuffle -> Forall (c_columns k) os -> ch_run L base false seed shuffle (ch_init seed) os = (s, es) -> Forall (fun e => e = None) es ->
  epoch None (map ckind os) = Some calls ->
  forall xs, exists Y, pcc_predict L s xs = Ok Y /\
    Forall2 (fun x row => exists y, row = map IZR y /\ binary_labels k y /\ (0 < joint p (members L base (seq 0 k) k calls) x y)%R /\
      forall z, binary_labels k z -> (joint p (members L base (seq 0 k) k calls) x z <= joint p (members L base (seq 0 k) k calls) x y)%R) xs Y.
Proof.
  intros GP Sh C H F E xs. apply (ch_run_ok L base false seed shuffle k Sh os None) in H; auto; [|split; reflexivity]. rewrite E in H.
  destruct H as (order & O1 & _ & D & O4 & O5). specialize (D eq_refl); subst order. unfold pcc_predict; rewrite O5, O4.
  set (l := members L base (seq 0 k) k calls).
  assert (Ll : length l = k) by (unfold l, members; rewrite map_length, seq_length; reflexivity).
  clearbody l. induction xs as [|x xs IH]; cbn [mapM]; [exists []; split; [reflexivity|constructor]|].
  destruct (pcc_row_ok p L GP l x) as (y & Y1 & Y2 & Y3 & Y4). rewrite Ll in *. rewrite Y1; cbn [bind].
  destruct IH as (Y & E1 & F1). apply bind_Ok in E1; destruct E1 as [ys [M Ey]]; rewrite M; cbn [bind]. injection Ey as <-.
  eexists; split; [reflexivity|]. cbn [map]; constructor; [exists y; split; [reflexivity|auto]|exact F1].
Qed.

(** With order='random' the labels are answered in the order of the chain. *)
Theorem pcc_order_refuted :
  exists s es, ch_run (memory (X := list Q) (T := Q) true true) (q 0) true tt backwards (ch_init tt) [CFit 2 [([q 7], [q 0; q 1])]] = (s, es) /\
    Forall (fun e => e = None) es /\ ch_predict (memory true true) s [[q 7]] = Ok [[q 0; q 1]] /\ pcc_predict (memory true true) s [[q 7]] = Ok [[q 1; q 0]].
Proof. do 2 eexists; split; [vm_compute; reflexivity|]. split; [repeat constructor|]. split; vm_compute; reflexivity. Qed.

(** MonteCarloClassifierChain answers with the most probable among the prediction of the chain and the label vectors drawn by
    sample; there are [M] of them. *)
Theorem mcc_best {B G} (p : B -> list R -> R) (L : tlearner (list R) R B) (base : B) (seed : G) (shuffle : list nat -> G -> list nat * G)
    (choice : list R -> G -> res (Z * G)) (trunc : R -> Z) k os s es calls :
  gives_probabilities p L -> (forall b xs v, tl_predict L b xs = Ok v -> Forall (fun x => x = 0%R \/ x = 1%R) v) ->
  (forall w g v g', choice w g = Ok (v, g') -> v = 0%Z \/ v = 1%Z) -> trunc 0%R = 0%Z -> trunc 1%R = 1%Z ->
  permutes shuffle -> Forall (c_columns k) os -> ch_run L base false seed shuffle (ch_init seed) os = (s, es) -> Forall (fun e => e = None) es ->
  epoch None (map ckind os) = Some calls ->
  forall M x g y g', mcc_row L choice trunc M s x g = Ok (y, g') ->
    let l := members L base (seq 0 k) k calls in
    exists y0 ys, ch_predict L s [x] = Ok [map IZR y0] /\ binary_labels k y0 /\ drawn (mcc_sample L choice k l x) M g ys g' /\
      In y (y0 :: ys) /\ Forall (fun z => (joint p l x z <= joint p l x y)%R) (y0 :: ys).
Proof.
  intros GP PB Ch T0 T1 Sh C H F E M x g y g' HM l.
  apply (ch_run_ok L base false seed shuffle k Sh os None) in H; auto; [|split; reflexivity]. rewrite E in H.
  unfold mcc_row in HM. apply bind_Ok in HM; destruct HM as [Ys [HP HM]].
  destruct (ch_predict_ok L base false k calls s [x] Ys H HP) as (order & O1 & O2 & D & P1 & P2 & P3). specialize (D eq_refl); subst order.
  destruct H as (order' & O1' & _ & D' & O4 & O5). specialize (D' eq_refl); subst order'.
  destruct Ys as [|y0 [|? ?]]; try discriminate. rewrite O4, O5 in HM. fold l in HM.
  assert (Ll : length l = k) by (unfold l, members; rewrite map_length, seq_length; reflexivity).
  pose proof (Forall_inv P2) as P20; cbn beta in P20.
  assert (By : Forall (fun v => v = 0%R \/ v = 1%R) y0).
  { apply Forall_forall; intros v I. apply (In_nth _ _ 0%R) in I. destruct I as [j [J Ev]]. specialize (P3 j ltac:(lia)).
    rewrite nth_seq0 in P3 by lia. apply PB in P3. cbn [col map] in P3. apply Forall_inv in P3; cbn beta in P3. change (@n0 R NumR) with 0%R in P3. rewrite Ev in P3; exact P3. }
  assert (Bz : binary_labels (length l) (map trunc y0) /\ map IZR (map trunc y0) = y0).
  { split; [split; [rewrite map_length; lia|]|].
    - apply Forall_forall; intros v I; apply in_map_iff in I; destruct I as [r [<- I]]. rewrite Forall_forall in By; destruct (By r I) as [-> | ->]; auto.
    - clear - By T0 T1. induction By as [|r y [-> | ->] F IH]; cbn [map]; [reflexivity| |]; rewrite IH; [rewrite T0|rewrite T1]; reflexivity. }
  destruct Bz as [Bz Ez]. rewrite (payoff_ok p L GP) in HM by exact Bz; cbn [bind] in HM.
  apply bind_Ok in HM; destruct HM as [[[yb wb] gb] [HT HM]]; injection HM as <- <-.
  rewrite <- Ll in HT. eapply (tries_ok p L GP choice Ch) in HT; [|exact Bz|reflexivity]. destruct HT as (ys & Dr & Iy & Fy & _). rewrite Ll in Dr.
  exists (map trunc y0), ys. rewrite Ez. split; [exact HP|]. split; [rewrite <- Ll; exact Bz|]. auto.
Qed.

(** *** A model for which the hypotheses hold: label 1 has probability 1/2 at first, then that of the last label seen *)
Definition prob_learner : tlearner (list R) R R := mk_tlearner
  (fun b rows _ _ => (match rev rows with (_, y) :: _ => if Rltb (1/2) y then 1%R else 0%R | [] => b end, None))
  (fun b rows _ _ => (match rev rows with (_, y) :: _ => if Rltb (1/2) y then 1%R else 0%R | [] => b end, None))
  (fun b xs => Ok (map (fun _ => if Rltb (1/2) b then 1%R else 0%R) xs))
  (fun b xs => Ok (map (fun _ => [(1 - Rmax 0 (Rmin 1 b))%R; Rmax 0 (Rmin 1 b)]) xs)) false false true true.
Lemma prob_learner_gives : gives_probabilities (fun b _ => Rmax 0 (Rmin 1 b)) prob_learner.
Proof.
  intros b row; split; [reflexivity|]. split; [apply Rmax_l|]. apply Rmax_lub; [lra|apply Rmin_l].
Qed.
Example pcc_mode_applies : exists s es Y, ch_run prob_learner (1/2)%R false tt backwards (ch_init tt) [CFit 2 [([7%R], [0%R; 1%R])]] = (s, es) /\
  pcc_predict prob_learner s [[7%R]] = Ok Y /\ Y = [[0%R; 1%R]].
Proof.
  destruct (ch_run prob_learner (1/2)%R false tt backwards (ch_init tt) [CFit 2 [([7%R], [0%R; 1%R])]]) as [s es] eqn:E.
  assert (Hs : Forall (c_columns 2) [CFit 2 [([7%R], [0%R; 1%R])]]) by (repeat constructor).
  assert (He : Forall (fun e => e = None) es).
  { change es with (snd (s, es)); rewrite <- E. cbn. repeat constructor. }
  destruct (pcc_mode _ _ _ _ _ _ _ _ _ _ prob_learner_gives backwards_permutes Hs E He eq_refl [[7%R]]) as [Y [HY FY]].
  exists s, es, Y; split; [reflexivity|]. split; [exact HY|].
  inversion FY as [|? row ? rest (y & -> & [By1 By2] & Pos & Mx) FY2]; subst. inversion FY2; subst. f_equal.
  destruct y as [|a [|b [|? ?]]]; try discriminate By1.
  assert (R1 : Rltb (1/2) 0 = false) by (apply Rltb_false; lra). assert (R2 : Rltb (1/2) 1 = true) by (apply Rltb_true; lra).
  unfold members, member, lesson in Pos; cbn [seq map fst snd fold_left tl_fit prob_learner rev app nth joint] in Pos; rewrite R1, R2 in Pos.
  replace (Rmax 0 (Rmin 1 0)) with 0%R in Pos by (rewrite (Rmin_right 1 0) by lra; rewrite Rmax_left by lra; reflexivity).
  replace (Rmax 0 (Rmin 1 1)) with 1%R in Pos by (rewrite (Rmin_left 1 1) by lra; rewrite Rmax_right by lra; reflexivity).
  inversion By2 as [|? ? Ha By3]; subst. inversion By3 as [|? ? Hb _]; subst.
  destruct Ha as [-> | ->], Hb as [-> | ->]; cbn in Pos; try reflexivity; exfalso; lra.
Qed.
Print Assumptions multi_output_alone. Print Assumptions multi_output_independent. Print Assumptions multi_output_never_fails. Print Assumptions multi_output_second_class.
Print Assumptions multi_output_proba_refuted. Print Assumptions multi_output_signature_refuted. Print Assumptions multi_output_failed_call_refuted.
Print Assumptions chain_training. Print Assumptions chain_prediction. Print Assumptions chain_never_fails. Print Assumptions chain_proba. Print Assumptions chain_proba_order_refuted.
Print Assumptions chain_reset. Print Assumptions chain_failed_call_refuted. Print Assumptions pcc_mode. Print Assumptions pcc_order_refuted. Print Assumptions mcc_best.
