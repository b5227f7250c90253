(** Vocabulary for the Hoeffding tree classifier. *)
From Coq Require Import List ZArith Bool.
From Verif Require Import Base.Py Base.Num Base.Dict Model.TreeSkeleton Model.HoeffdingTree Spec.TreeSpec.
Import ListNotations.

(** What a user does with a tree: partial_fit(X, y, classes, sample_weight) or reset(). *)
Inductive ht_event (T : Type) :=
| HFit (rows : list (list T * Z)) (classes : option (list Z)) (weights : option (list T))
| HReset.
Arguments HFit {T}. Arguments HReset {T}.
Section Runs.
Context {T : Type} {N : Num T} (k : T) (phi : T -> T) (key : T -> Z) (cfg : ht_config T) (sz : sizes T (leaf T) (list (Z * T)) (list (Z * T)) (htest T)).
Definition ht_step (s : ht T) (e : ht_event T) : res (ht T) :=
  match e with HFit rows c ws => ht_fit k phi key cfg sz s rows c ws | HReset => Ok (ht_reset s) end.
Fixpoint ht_run (s : ht T) (es : list (ht_event T)) : res (ht T) :=
  match es with [] => Ok s | e :: r => s' <- ht_step s e ;; ht_run s' r end.
(** A state reached from a new tree *)
Definition ht_reached (s : ht T) : Prop := exists es, ht_run ht_new es = Ok s.
End Runs.
