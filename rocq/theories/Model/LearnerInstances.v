(** Base estimators of the ensembles: the modelled classifiers as learners. *)
From Coq Require Import List ZArith Bool.
From Verif Require Import Base.Py Base.Num Model.Knn Model.NaiveBayes Model.Learner.
Import ListNotations.

(** NaiveBayes (bayes/naive_bayes.py); classes given as a Python list.  reset is inherited from core/base.py: the object is
    constructed again with the same nominal attributes. *)
Definition nb_learner {T} `{Num T} (k : T) (key : T -> Z) : learner (list T) T (nb T) :=
  mk_learner _ _ _
    (fun s rows classes sw => nb_fit key s rows (option_map PyList classes) sw)
    (fun s xs => p <- nb_predict k key s xs ;; Ok (map Z.of_nat p, s))
    (fun s xs => p <- nb_proba k key s xs ;; Ok (p, s))
    (fun s => mk_nb [] [] None (nb_nominal s)).
