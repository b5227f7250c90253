(** Hoeffding trees that differ only in how their leaves answer. *)
From Coq Require Import List ZArith Bool.
From Verif Require Import Base.Py Base.Num Base.Dict Model.TargetStats Model.TreeSkeleton Model.HoeffdingTree Model.HoeffdingRegressor Spec.TreeSpec Spec.TreeRelSpec.
Import ListNotations.

Section Twin.
Context {T : Type} {N : Num T}.
(** Two classifiers constructed with the same arguments but leaf_prediction and nb_threshold *)
Definition same_but_prediction (a b : ht_config T) : Prop :=
  h_grace a = h_grace b /\ h_crit a = h_crit b /\ h_confidence a = h_confidence b /\ h_tie a = h_tie b /\ h_binary a = h_binary b /\ h_poor a = h_poor b
  /\ h_no_preprune a = h_no_preprune b /\ (forall i, h_nominal a i = h_nominal b i) /\ h_memory a = h_memory b.
(** Leaves with the same statistics, observers and time of the last split attempt *)
Definition same_leaf (l l' : leaf T) : Prop := lf_stats l = lf_stats l' /\ lf_obs l = lf_obs l' /\ lf_last l = lf_last l'.
(** The same tree: same tests, statistics and observers at the same places, same counters *)
Definition same_tree (a b : ht T) : Prop := trel same_leaf eq eq eq (ht_tree a) (ht_tree b) /\ ht_classes a = ht_classes b.

(** Two regressors constructed with the same arguments but leaf_prediction and those of the perceptron *)
Definition same_but_model (a b : htr_config T) : Prop :=
  r_grace a = r_grace b /\ r_confidence a = r_confidence b /\ r_tie a = r_tie b /\ r_binary a = r_binary b /\ r_poor a = r_poor b
  /\ r_no_preprune a = r_no_preprune b /\ (forall i, r_nominal a i = r_nominal b i) /\ r_python a = r_python b /\ r_memory a = r_memory b.
Definition same_rleaf (l l' : rleaf T) : Prop := rl_stats l = rl_stats l' /\ rl_obs l = rl_obs l' /\ rl_last l = rl_last l'.
Definition same_rinactive (i i' : rinactive T) : Prop := ri_stats i = ri_stats i'.
Definition same_rtree (a b : htr T) : Prop := trel same_rleaf same_rinactive eq eq (hr_tree a) (hr_tree b) /\ hr_sums a = hr_sums b.
End Twin.
