(** Runs of the weighted expert ensembles, and the votes of their members. *)
From Coq Require Import List ZArith Bool Reals.
From Verif Require Import Base.Py Base.Num Spec.ExpertSpec Model.Adwin Model.Learner Model.Experts.
Import ListNotations.
Local Open Scope R_scope.

Section Votes.
Context {X B : Type} (L : learner X R B).
(** The member: the estimator and its weight. *)
Definition pair_of (e : expert R B) : B * R := (ex_est e, ex_weight e).
(** The answers of the members to the sample [x], nonnegative labels, with what becomes of the estimators. *)
Definition answer_all (x : X) (l : list (expert R B)) (answers : list (Z * B)) : Prop :=
  Forall2 (fun e a => predict_one L (ex_est e) x = Ok a /\ (0 <= fst a)%Z) l answers.
Definition votes_of (ws : list R) (answers : list (Z * B)) : list (Z * R) := combine (map fst answers) ws.
(** The members after they answered: those that are wrong lose the factor [beta] when [hit]. *)
Definition pen (beta : R) (hit : bool) (y c : Z) (w : R) : R := if hit then penalised beta y c w else w.
Definition after_vote (beta : R) (hit : bool) (y : Z) (l : list (expert R B)) (answers : list (Z * B)) : list (expert R B) :=
  map (fun ea => mk_ex (snd (snd ea)) (pen beta hit y (fst (snd ea)) (ex_weight (fst ea)))) (combine l answers).
(** [ps]: the labels that each member gives for a batch.  The votes for the row number [i] of the batch. *)
Definition row_votes_of (l : list (expert R B)) (ps : list (list Z)) (i : nat) : list (Z * R) :=
  combine (map (fun p => nth i p 0%Z) ps) (map ex_weight l).
End Votes.

(** The calls of a user.  The constructor and reset give the same state. *)
Inductive eop (X T : Type) := EFit (rows : list (X * Z)) (classes : option (list Z)) (sw : option (list T)) | EPredict (xs : list X) | EReset.
Arguments EFit {X T}. Arguments EPredict {X T}. Arguments EReset {X T}.

Section Runs.
Context {X T B : Type} {N : Num T} (L : learner X T B) (base : B) (trunc : T -> Z).
Definition dwm_op n period beta theta (s : dwm T B) (o : eop X T) : res (dwm T B) :=
  match o with
  | EFit rows classes sw => dwm_fit L base n period beta theta s rows classes sw
  | EPredict xs => ' (_, s') <- dwm_predict L trunc s xs ;; Ok s'
  | EReset => Ok (dwm_new base)
  end.
Definition dwm_run n period beta theta (ops : list (eop X T)) : res (dwm T B) := foldM (dwm_op n period beta theta) ops (dwm_new base).
Definition dwm_reached n period beta theta s : Prop := exists ops, dwm_run n period beta theta ops = Ok s.

Definition ae_op n beta gamma prune (s : addexp T B) (o : eop X T) : res (addexp T B) :=
  match o with
  | EFit rows classes sw => ae_fit L base n beta gamma prune s rows classes sw
  | EPredict xs => ' (_, s') <- ae_predict L trunc s xs ;; Ok s'
  | EReset => Ok (ae_new base)
  end.
Definition ae_run n beta gamma prune (ops : list (eop X T)) : res (addexp T B) := foldM (ae_op n beta gamma prune) ops (ae_new base).
Definition ae_reached n beta gamma prune s : Prop := exists ops, ae_run n beta gamma prune ops = Ok s.

(** The number of samples learned since the last reset. *)
Definition samples_since (ops : list (eop X T)) : Z :=
  fold_left (fun k o => match o with EFit rows _ _ => k + Z.of_nat (length rows) | EPredict _ => k | EReset => 0 end)%Z ops 0%Z.
(** Calls without sample weights, always with the same classes argument, and nonnegative labels. *)
Definition plain_op (classes : option (list Z)) (o : eop X T) : Prop :=
  match o with EFit rows c sw => c = classes /\ sw = None /\ Forall (fun r => (0 <= snd r)%Z) rows | _ => True end.
End Runs.
