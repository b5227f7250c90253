(** A base estimator as the ensembles of skmultiflow.meta see it: an object of type [B] with the methods of
    core/base.py (ClassifierMixin, 338-430).

    [X]: instances, [T]: numbers; labels are integers.  The methods are arguments of the models.  predict and predict_proba
    return the object too, since some estimators change when they predict (lazy/knn_classifier.py 172-173).  When a method
    raises, the ensemble forgets what it did to the object. *)
From Coq Require Import List ZArith.
From Verif Require Import Base.Py.
Import ListNotations.

Record learner (X T B : Type) := mk_learner {
  lr_fit : B -> list (X * Z) -> option (list Z) -> option (list T) -> res B;  (* partial_fit(X, y, classes, sample_weight) *)
  lr_predict : B -> list X -> res (list Z * B);                              (* predict(X) *)
  lr_proba : B -> list X -> res (list (list T) * B);                         (* predict_proba(X) *)
  lr_reset : B -> B                                                          (* reset() *)
}.
Arguments lr_fit {X T B} _ _ _ _ _.
Arguments lr_predict {X T B} _ _ _.
Arguments lr_proba {X T B} _ _ _.
Arguments lr_reset {X T B} _ _.

(** The label predicted for one row: an estimator answers with one label per row. *)
Definition predict_one {X T B} (L : learner X T B) (b : B) (x : X) : res (Z * B) :=
  ' (p, b') <- lr_predict L b [x] ;;
  match p with [c] => Ok (c, b') | _ => Raise IndexError end.
