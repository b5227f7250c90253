(** C200-C205: Pipeline. *)
From Coq Require Import List ZArith Bool Lia.
From Verif Require Import Base.Py Model.Pipeline Spec.PipelineSpec Proofs.PipelineProofs.
Import ListNotations.

(** *** Steps for the examples: instances are lists of integers, and the state is a count of rows. *)
Definition idx := obj Z (list Z) (list Z) (list Z) (list Z).
(** Subtracts the number of rows it has seen; it has fit, transform and partial_fit with classes, as OneHotToCategorical does *)
Definition shift : idx := mk_obj (Some (fun s x => Ok (map (fun v => (v - s)%Z) x, s))) (Some (fun s x _ => Ok (Z.of_nat (length x)))) None
  (Some (fun s x _ _ => Ok (s + Z.of_nat (length x))%Z)) true None false None None.
(** Adds up what it is given; its partial_fit fails without classes when it has not seen anything, as the ensembles do *)
Definition adder : idx := mk_obj None (Some (fun s x _ => Ok (fold_left Z.add x 0%Z))) None
  (Some (fun s x _ c => match c with None => if (s =? 0)%Z then Raise ValueError else Ok (fold_left Z.add x s) | Some _ => Ok (fold_left Z.add x s) end)) true None false (Some (fun s x => Ok (map (Z.add s) x))) None.

(** *** C200: after any history of partial_fit calls, each step is as if it had been trained on its own with what the step before it
    returned for each batch, after learning that batch; and the calls return if and only if this is so for each step. *)
Theorem pipeline_training {S D Y C P} (ts : list (Z * step S D Y C P)) n (o : obj S D Y C P) s batches steps' : Forall trainable ts ->
  pipe_run (ts ++ [(n, Some (o, s))]) batches = (steps', Ok tt) <->
  exists ts' bs s', in_a_row ts batches ts' bs /\ taught o s bs s' /\ steps' = ts' ++ [(n, Some (o, s'))].
Proof. intros F; split; [apply pipe_columns; exact F|]. intros (ts' & bs & s' & R & T & ->). eapply columns_pipe; eauto. Qed.
(** fit trains each transform with what the one before returns, by fit_transform or by fit and transform, and the last step with what the last transform returns. *)
Theorem pipeline_fit {S D Y C P} (ts : list (Z * step S D Y C P)) n (o : obj S D Y C P) s x y steps' : fit (ts ++ [(n, Some (o, s))]) x y = (steps', Ok tt) <->
  exists ts' x' f s', fitted y ts x ts' x' /\ o_fit o = Some f /\ f s x' y = Ok s' /\ steps' = ts' ++ [(n, Some (o, s'))].
Proof. apply fit_iff. Qed.
(** A step that is None, which predict passes over, makes partial_fit and fit raise. *)
Theorem pipeline_none_refuted {S D Y C P} (ts : list (Z * step S D Y C P)) n k final x y c :
  partial_fit ((k, None) :: ts ++ [(n, final)]) x y c = ((k, None) :: ts ++ [(n, final)], Raise AttributeError) /\
  fit ((k, None) :: ts ++ [(n, final)]) x y = ((k, None) :: ts ++ [(n, final)], Raise AttributeError) /\
  validate ((k, None) :: ts ++ [(n, final)]) = validate (ts ++ [(n, final)]).
Proof.
  rewrite !app_comm_cons. unfold partial_fit, fit. rewrite !sweep_snoc. cbn [through]. repeat split. rewrite !validate_snoc. reflexivity.
Qed.
(** A transform with fit_transform but without partial_fit_transform, as the scalers of scikit-learn, makes every partial_fit raise, though it has partial_fit and transform. *)
Theorem pipeline_fit_transform_refuted {S D Y C P} (ts : list (Z * step S D Y C P)) n k (o : obj S D Y C P) s final ft x y c : o_fit_transform o = Some ft -> o_pft o = None ->
  partial_fit ((k, Some (o, s)) :: ts ++ [(n, final)]) x y c = ((k, Some (o, s)) :: ts ++ [(n, final)], Raise AttributeError).
Proof.
  intros E1 E2. rewrite !app_comm_cons. unfold partial_fit. rewrite sweep_snoc. cbn [through]. unfold pfit_one at 1. rewrite E1. cbn [has]. unfold with_classes. rewrite E2. reflexivity.
Qed.

(** *** C201: predict is the last step's answer for what the transforms, None being passed over, make of the data one after the other. *)
Theorem pipeline_prediction {S D Y C P} (ts : list (Z * step S D Y C P)) n (o : obj S D Y C P) s x steps' p : predict (ts ++ [(n, Some (o, s))]) x = (steps', Ok p) <->
  exists ts' x' pr, transformed ts x ts' x' /\ o_predict o = Some pr /\ pr s x' = Ok p /\ steps' = ts' ++ [(n, Some (o, s))].
Proof. apply predict_iff. Qed.

(** *** C202: a pipeline is refused if and only if it is empty or an intermediate step lacks transform, or both fit and fit_transform. *)
Theorem pipeline_refused {S D Y C P} (ts : list (Z * step S D Y C P)) n final : validate (ts ++ [(n, final)]) = Raise TypeError <->
  exists k o s, In (k, Some (o, s)) ts /\ (o_transform o = None \/ o_fit o = None /\ o_fit_transform o = None).
Proof.
  rewrite validate_snoc. destruct (existsb bad_transform (map snd ts)) eqn:E.
  - split; [intros _|reflexivity]. apply existsb_exists in E. destruct E as (st & I & B). apply in_map_iff in I. destruct I as ((k & st') & <- & I). cbn [snd] in *. destruct st' as [[o s]|]; [|discriminate]. exists k, o, s. split; [exact I|].
    cbn [bad_transform] in B. destruct (o_transform o); [right|left; reflexivity]. destruct (o_fit o), (o_fit_transform o); try discriminate. auto.
  - split; [discriminate|]. intros (k & o & s & I & B). exfalso. assert (Ex : existsb bad_transform (map snd ts) = true); [|congruence]. apply existsb_exists. exists (Some (o, s)). split; [apply in_map_iff; exists (k, Some (o, s)); auto|].
    cbn [bad_transform]. destruct B as [->|[-> ->]]; [apply orb_true_r|reflexivity].
Qed.
Theorem pipeline_empty {S D Y C P} : validate ([] : list (Z * step S D Y C P)) = Raise ValueError.
Proof. reflexivity. Qed.
(** Transforms that have transform, partial_fit and partial_fit_transform, as documented, but no fit: refused *)
Theorem pipeline_stream_transforms_refuted {S D Y C P} (ts : list (Z * step S D Y C P)) n k (o : obj S D Y C P) s final : stream_transform o -> In (k, Some (o, s)) ts -> validate (ts ++ [(n, final)]) = Raise TypeError.
Proof. intros (_ & _ & _ & F1 & F2 & _) I. apply pipeline_refused. exists k, o, s. auto. Qed.
(** A last step without partial_fit, for which TypeError is documented: accepted, and every partial_fit raises AttributeError after training the transforms *)
Theorem pipeline_final_refuted {S D Y C P} (ts : list (Z * step S D Y C P)) n (o : obj S D Y C P) s x y c : Forall trainable ts -> o_pfit o = None ->
  validate (ts ++ [(n, Some (o, s))]) = Ok false /\ exists e, snd (partial_fit (ts ++ [(n, Some (o, s))]) x y c) = Raise e.
Proof.
  intros F E. split.
  - etransitivity; [apply (validate_snoc ts n (Some (o, s)))|]. cbv iota beta. rewrite E. cbn [has]. replace (existsb bad_transform (map snd ts)) with false; [reflexivity|]. symmetry. induction F as [|[k [[o' s']|]] ts H F IH]; [reflexivity| |contradiction]. cbn [map snd existsb bad_transform]. rewrite IH.
    cbn [trainable snd] in H. destruct H as ((f & ->) & _ & (g & ->) & _). reflexivity.
  - pose proof (sweep_snoc false (pfit_one y c) (pfit_final y c) ts n (Some (o, s)) x) as V. unfold partial_fit, step in *. rewrite V. clear V. destruct (through false (pfit_one y c) ts x) as [ts' [x'|e]]; [|exists e; reflexivity]. cbn [pfit_final]. rewrite E. exists AttributeError. reflexivity.
Qed.

(** *** C203: partial_fit is not all or nothing: when a later step fails, the earlier ones have learned. *)
Theorem pipeline_atomic_refuted : exists steps steps', partial_fit steps [5; 6]%Z [0; 1]%Z None = (steps', Raise ValueError) /\ steps = [(0%Z, Some (shift, 0%Z)); (1%Z, Some (adder, 0%Z))] /\ steps' = [(0%Z, Some (shift, 2%Z)); (1%Z, Some (adder, 0%Z))].
Proof. eexists _, _. split; [|split; reflexivity]. reflexivity. Qed.

(** *** C204: partial_fit_predict is partial_fit without classes, and then predict; *)
Theorem pipeline_fit_predict {S D Y C P} (ts : list (Z * step S D Y C P)) n (o : obj S D Y C P) s x y steps' p : Forall steady ts -> o_pfp o = None ->
  partial_fit_predict (ts ++ [(n, Some (o, s))]) x y = (steps', Ok p) -> partial_fit (ts ++ [(n, Some (o, s))]) x y None = (steps', Ok tt) /\ predict steps' x = (steps', Ok p).
Proof. apply pfp_ok. Qed.
(** so that a last step that needs the classes first fails. *)
Theorem pipeline_fit_predict_refuted : exists steps', partial_fit_predict [(0%Z, Some (shift, 0%Z)); (1%Z, Some (adder, 0%Z))] [5; 6]%Z [0; 1]%Z = (steps', Raise ValueError) /\
  snd (partial_fit [(0%Z, Some (shift, 0%Z)); (1%Z, Some (adder, 0%Z))] [5; 6]%Z [0; 1]%Z (Some [0; 1]%Z)) = Ok tt.
Proof. eexists. split; reflexivity. Qed.

(** *** C205: named_steps gives each step by its name; of steps with one name it gives the last. *)
Theorem pipeline_named {S D Y C P} (steps : list (Z * step S D Y C P)) n s : NoDup (map fst steps) -> In (n, s) steps -> named steps n = Ok s.
Proof.
  intros Nd I. unfold named. assert (Nr : NoDup (map fst (rev steps))) by (rewrite map_rev; apply NoDup_rev; exact Nd). apply in_rev in I. revert Nr I. generalize (rev steps) as l. clear.
  induction l as [|[m t] l IH]; intros Nd I; [destruct I|]. cbn [map fst] in Nd. inversion Nd as [|? ? Ni Nd']; subst. cbn [find fst]. destruct (Z.eqb_spec m n) as [->|Dn]; [|destruct I as [I|I]; [congruence|exact (IH Nd' I)]].
  destruct I as [I|I]; [injection I as <-; reflexivity|]. exfalso. apply Ni. apply in_map_iff. exists (n, s). auto.
Qed.
Theorem pipeline_named_last {S D Y C P} (ts : list (Z * step S D Y C P)) n s : named (ts ++ [(n, s)]) n = Ok s.
Proof. unfold named. rewrite rev_app_distr. cbn [rev app find fst]. rewrite Z.eqb_refl. reflexivity. Qed.

(** *** The hypotheses can be met *)
Example shift_trainable : Forall trainable [(0%Z, Some (shift, 0%Z)); (7%Z, Some (shift, 3%Z))] /\ Forall steady [(0%Z, Some (shift, 0%Z))].
Proof. split; repeat constructor; cbn; try (repeat split; eauto; fail). repeat split; eauto. intros tr t x x' t' H H2. cbn in H. injection H as <-. injection H2 as _ <-. reflexivity. Qed.
Example pipeline_training_applies : pipe_run [(0%Z, Some (shift, 0%Z)); (7%Z, Some (shift, 3%Z)); (1%Z, Some (adder, 0%Z))] [([10; 20], [0; 1], Some [0; 1]); ([30], [1], None)]%Z =
  ([(0%Z, Some (shift, 3%Z)); (7%Z, Some (shift, 6%Z)); (1%Z, Some (adder, (10 - 2 - 5 + (20 - 2 - 5) + (30 - 3 - 6))%Z))], Ok tt).
Proof. reflexivity. Qed.
Example stream_transform_exists : stream_transform (mk_obj (Some (fun (s : Z) (x : list Z) => Ok (x, s))) None None (Some (fun s _ (_ : list Z) (_ : option (list Z)) => Ok s)) false (Some (fun s x _ _ => Ok (x, s))) false (None : option (Z -> list Z -> res (list Z))) None).
Proof. repeat split; cbn; eexists; reflexivity. Qed.

Print Assumptions pipeline_training. Print Assumptions pipeline_none_refuted. Print Assumptions pipeline_fit_transform_refuted. Print Assumptions pipeline_prediction. Print Assumptions pipeline_refused. Print Assumptions pipeline_empty.
Print Assumptions pipeline_stream_transforms_refuted. Print Assumptions pipeline_final_refuted. Print Assumptions pipeline_atomic_refuted. Print Assumptions pipeline_fit_predict. Print Assumptions pipeline_fit_predict_refuted. Print Assumptions pipeline_named. Print Assumptions pipeline_named_last.
Example ex_fit : snd (fit [(1%Z, Some (shift, 0%Z)); (2%Z, Some (adder, 0%Z))] [5; 6]%Z [0; 1]%Z) = Ok tt.
Proof. reflexivity. Qed.
