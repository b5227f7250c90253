(** Vocabulary for the predictions of a Hoeffding tree that is still one leaf, as a function of the samples. *)
From Coq Require Import List ZArith Reals Bool.
From Verif Require Import Base.Py Base.Num Spec.Lists Spec.NaiveBayesSpec Spec.HoeffdingSpec.
Import ListNotations.
Local Open Scope R_scope.

(** The samples that count: those with a weight, since the last reset. *)
Definition samples_since (es : list (ht_event R)) : list sample :=
  fold_left (fun h e => match e with
                        | HReset => []
                        | HFit rows _ ws => h ++ filter (fun s => if Req_EM_T (snd s) 0 then false else true)
                                                        (combine rows (match ws with Some ws => ws | None => map (fun _ => 1) rows end))
                        end) es [].
(** One weight per row, not negative. *)
Definition event_ok (e : ht_event R) : Prop :=
  match e with HFit rows _ (Some ws) => length ws = length rows /\ Forall (fun w => 0 <= w) ws | _ => True end.

(** [c] has the greatest score among the labels seen; of several, it is the smallest label. *)
Definition top_label (score : Z -> R) (h : list sample) (c : Z) : Prop :=
  has_label h c /\ forall d, has_label h d -> score d < score c \/ score d = score c /\ (c <= d)%Z.
(** What the majority class and Naive Bayes, trained on [h], say about [X]; without samples both say 0. *)
Definition majority_says (h : list sample) (c : Z) : Prop := match h with [] => c = 0%Z | _ => top_label (label_weight h) h c end.
Definition bayes_says (k : R) (key : R -> Z) (nominal : Z -> bool) (h : list sample) (X : list R) (c : Z) : Prop :=
  match h with [] => c = 0%Z | _ => top_label (nb_score k key nominal h X) h c end.
(** The weight of the samples whose label was said by a predictor trained on the samples before them. *)
Inductive hits (says : list sample -> list R -> Z -> Prop) : list sample -> R -> Prop :=
| hits_none : hits says [] 0
| hits_right h X y w r : hits says h r -> says h X y -> hits says (h ++ [(X, y, w)]) (r + w)
| hits_wrong h X y w r : hits says h r -> ~ says h X y -> hits says (h ++ [(X, y, w)]) r.

(** Votes: one per label seen. *)
Definition votes_are (score : Z -> R) (h : list sample) (votes : list (Z * R)) : Prop :=
  NoDup (map fst votes) /\ forall c v, In (c, v) votes <-> has_label h c /\ v = score c.
