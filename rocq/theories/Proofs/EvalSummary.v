(** Runs that end without a report. *)
From Coq Require Import List ZArith Bool Lia.
From Verif Require Import Model.Evaluate Spec.EvalSpec Proofs.EvalProofs Proofs.HoldoutProofs.
Import ListNotations.

Section Proofs.
Context {X Y P : Type}.
Notation row := (X * Y)%type.
Variable src : source row.
Variable fit_ok : list (ev X Y P) -> nat -> list row -> bool -> bool.
Variable predict : list (ev X Y P) -> nat -> list X -> option (list P).
Variable report_ok : list (ev X Y P) -> bool.
Variable timeout : nat -> bool.
Variable n_models : nat.
Variable classif : bool.
Variables batch n_wait max_samples test_size : nat.
Variable dynamic : bool.

Definition quiet (t : list (ev X Y P)) : Prop := existsb is_report t = false.
Lemma quiet_app t l : quiet t -> quiet l -> quiet (t ++ l).
Proof. unfold quiet. intros H1 H2. now rewrite existsb_app, H1, H2. Qed.
Lemma quiet_map {A} (f : A -> ev X Y P) l : (forall a, is_report (f a) = false) -> quiet (map f l).
Proof. intros H. unfold quiet. induction l; simpl; auto. now rewrite H, IHl. Qed.
Lemma quiet_scores l : Forall (fun e : ev X Y P => exists i y p, e = Score i y p) l -> quiet l.
Proof. intros F. unfold quiet. induction F as [|e l (i & y & p & ->) _ IH]; simpl; auto. Qed.

Lemma fit_all_quiet k rows c is_ t : quiet t -> quiet (fst (fit_all fit_ok is_ t k rows c)).
Proof.
  intros H. pose proof (fit_all_trace fit_ok k rows c is_ t) as F. destruct (fit_all _ _ _ _ _ _) as [t' ok].
  destruct F as (m & -> & _). simpl. apply quiet_app; auto. now apply quiet_map.
Qed.
Lemma predict_all_quiet k rows is_ t acc : quiet t -> quiet (fst (predict_all predict is_ t k rows acc)).
Proof.
  intros H. pose proof (predict_all_trace predict k rows is_ t acc) as F. destruct (predict_all _ _ _ _ _ _) as [t' ok].
  destruct F as (m & -> & _). simpl. apply quiet_app; auto. now apply quiet_map.
Qed.
Lemma score_all_quiet ys preds len0 j (t : list (ev X Y P)) : quiet t -> quiet (fst (score_all j preds len0 t ys)).
Proof.
  intros H. pose proof (score_all_trace ys preds len0 j t) as F. destruct (score_all _ _ _ _ _) as [t' ok].
  destruct F as (l & -> & F & _). simpl. apply quiet_app; auto. now apply quiet_scores.
Qed.

Lemma progress_small amax : (0 <= amax < 20)%Z -> progress_ok amax = false.
Proof. intros H. unfold progress_ok. now rewrite Z.div_small by lia. Qed.

Lemma preq_loop_quiet amax : (0 <= amax < 20)%Z -> forall fuel it s, quiet (tr s) ->
  quiet (tr (fst (preq_loop src fit_ok predict report_ok timeout n_models classif batch n_wait fuel it amax s))).
Proof.
  intros Ha fuel it s Q. destruct fuel; simpl; (destruct (_ && _ && _); [|exact Q]); [exact Q|].
  unfold preq_body. rewrite (progress_small amax Ha).
  pose proof (predict_all_quiet (pos s) (take src (pos s) batch) (seq 0 n_models) (tr s) [] Q) as PQ.
  destruct (predict_all _ _ _ _ _ _) as [t1 [preds|]]; [|exact PQ].
  pose proof (score_all_quiet (map snd (take src (pos s) batch)) preds (length (hd [] preds)) 0 t1 PQ) as SQ.
  destruct (score_all _ _ _ _ _) as [t2 [|]]; exact SQ.
Qed.

Lemma hold_loop_quiet amax : (0 <= amax < 20)%Z -> forall fuel it h, quiet (tr (h_st h)) ->
  quiet (tr (h_st (fst (hold_loop src fit_ok predict report_ok timeout n_models classif batch n_wait test_size dynamic fuel it amax h)))).
Proof.
  intros Ha fuel it h Q. destruct fuel; simpl; (destruct (_ && _ && _); [|exact Q]); [exact Q|].
  unfold hold_body. rewrite (progress_small amax Ha). cbv zeta.
  pose proof (fit_all_quiet (pos (h_st h)) (take src (pos (h_st h)) batch) (first_run (h_st h) && classif) (seq 0 n_models) (tr (h_st h)) Q) as FQ.
  destruct (fit_all _ _ _ _ _ _) as [t1 [|]]; exact FQ.
Qed.

Lemma actual_max_le p0 : p0 <= match src_len src with Some n => n | None => p0 end ->
  (0 <= actual_max src max_samples p0 <= Z.of_nat max_samples)%Z.
Proof.
  unfold actual_max, remaining. destruct (src_len src) as [n|]; intros H.
  - destruct (Z.eqb_spec (Z.of_nat n - Z.of_nat p0) (-1)); simpl; [lia|].
    destruct (Z.gtb_spec (Z.of_nat n - Z.of_nat p0) (Z.of_nat max_samples)); lia.
  - simpl. lia.
Qed.
Lemma actual_max_upper p0 : (actual_max src max_samples p0 <= Z.of_nat max_samples)%Z.
Proof.
  unfold actual_max, remaining. destruct (src_len src) as [n|].
  - destruct (Z.eqb_spec (Z.of_nat n - Z.of_nat p0) (-1)); simpl; [lia|].
    destruct (Z.gtb_spec (Z.of_nat n - Z.of_nat p0) (Z.of_nat max_samples)); lia.
  - simpl. lia.
Qed.
Lemma exhausted_covers p0 p : p0 <= match src_len src with Some n => n | None => p0 end -> 
  has_more src p = false -> (actual_max src max_samples p0 <= Z.of_nat (p - p0))%Z.
Proof.
  unfold has_more, actual_max, remaining. destruct (src_len src) as [n|]; [|discriminate]. intros H0 H.
  apply Nat.ltb_ge in H. destruct (Z.eqb_spec (Z.of_nat n - Z.of_nat p0) (-1)); simpl; [lia|].
  destruct (Z.gtb_spec (Z.of_nat n - Z.of_nat p0) (Z.of_nat max_samples)); lia.
Qed.
End Proofs.
