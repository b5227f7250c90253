(** C20: Page-Hinkley (drift_detection/page_hinkley.py). *)
From Coq Require Import List ZArith Reals PrimFloat.
From Verif Require Import Base.Py Base.Num Base.NumFloat Spec.Lists Spec.DetectorSpec Spec.PageHinkleySpec
  Model.PageHinkley Proofs.PageHinkleyProofs.
Import ListNotations.

Local Notation ph_since par := (since ph_init (ph_add par) ph_reset ph_change).

Theorem ph_never_raises :
  forall (par : ph_par R) seg s x, ph_since par seg s -> exists s', ph_add par s x = Ok s'.
Proof. exact ph_never_raises_proof. Qed.

(** C20.  Exact mean, exact and non-negative statistic, and the decision rule. *)
Theorem ph_decision_rule :
  forall (par : ph_par R) seg s, ph_since par seg s -> seg <> [] ->
    ph_mean s = Rmean seg /\ ph_estimation s = Rmean seg
    /\ ph_sum s = ph_stat (pp_alpha par) (pp_delta par) seg /\ (0 <= ph_sum s)%R
    /\ (ph_change s = true <->
         (pp_min_instances par - 1 <= Z.of_nat (length seg))%Z
         /\ (pp_threshold par < ph_stat (pp_alpha par) (pp_delta par) seg)%R).
Proof. exact ph_rule_proof. Qed.

Theorem ph_restarts_after_change :
  forall (T : Type) (N : Num T) (par : ph_par T) s x,
    ph_change s = true -> ph_add par s x = ph_add par ph_init x.
Proof. intros T N par s x H. unfold ph_add. rewrite H. reflexivity. Qed.

#[local] Existing Instance NumF.
Example ph_drift_run :
  let par := mkPhPar 30 0.005%float 50%float 0.9999%float in
  let l := repeat 0%float 100 ++ repeat 1%float 80 in
  filter (fun b : bool => b) (answers (ph_add par) ph_change ph_init l) = [true].
Proof. vm_compute. reflexivity. Qed.

Print Assumptions ph_never_raises.
Print Assumptions ph_decision_rule.
Print Assumptions ph_restarts_after_change.
