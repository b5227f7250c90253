(** What the theorems about ensembles assume of a base estimator, in terms of its methods. *)
From Coq Require Import List ZArith.
From Verif Require Import Base.Py Model.Learner.
Import ListNotations.
Local Open Scope Z_scope.

(** It predicts nonnegative labels. *)
Definition nonneg_labels {X T B} (L : learner X T B) : Prop := forall b x c b', predict_one L b x = Ok (c, b') -> 0 <= c.
(** It gives one label per row. *)
Definition label_per_row {X T B} (L : learner X T B) : Prop := forall b xs p b', lr_predict L b xs = Ok (p, b') -> length p = length xs.

(** Starting from [b0], it learns samples one at a time (called with [classes] and without sample weights) and predicts in
    between without failing, and every label it predicts is 0, 1 or at most the greatest label it was given: there are sets
    [I m] of states that contain the states reached with labels up to [m]. *)
Definition well_behaved {X T B} (L : learner X T B) (b0 : B) (classes : option (list Z)) : Prop := exists I : Z -> B -> Prop,
  I 1 b0 /\ (forall m m' b, m <= m' -> I m b -> I m' b) /\
  (forall m b xs, I m b -> exists p b', lr_predict L b xs = Ok (p, b') /\ length p = length xs /\ Forall (fun c => 0 <= c <= m) p /\ I m b') /\
  (forall m b x y, I m b -> 0 <= y <= m -> exists b', lr_fit L b [(x, y)] classes None = Ok b' /\ I m b').
