(** Vocabulary for the extremely fast decision tree. *)
From Coq Require Import List ZArith Bool Reals.
From Verif Require Import Base.Py Base.Num Base.Dict Model.NaiveBayes Model.TreeSkeleton Model.HoeffdingTree Model.Efdt.
Import ListNotations.

Section Spec.
Context {T : Type} {N : Num T}.
(** A history: calls of partial_fit (rows, classes, sample_weight) and of reset. *)
Inductive efdt_event := EFit (rows : list (list T * Z)) (classes : option (list Z)) (weights : option (list T)) | EClear.

(** The weights the rows of a call have in fact: a call with one row uses the weight given; in every other call the first weight is
    that of all rows. *)
Definition weight_of_all (weights : option (list T)) : T := match weights with Some (w :: _) => w | _ => n1 end.
Definition taught (rows : list (list T * Z)) (weights : option (list T)) : list (Z * T) :=
  filter (fun yw => negb (snd yw =? n0)%num) (map (fun row => (snd row, weight_of_all weights)) rows).
(** The samples since the last reset: label and weight *)
Definition since_clear (es : list efdt_event) : list (Z * T) :=
  fold_left (fun acc e => match e with EFit rows _ ws => acc ++ taught rows ws | EClear => [] end) es [].

Variables (k : T) (phi : T -> T) (key : T -> Z) (cfg : ht_config T) (min_reevaluate : T) (sz : sizes T (leaf T) (list (Z * T)) (esplit T) (htest T)).
Definition efdt_do (s : efdt T) (e : efdt_event) : res (efdt T) :=
  match e with EFit rows c ws => efdt_fit k phi key cfg min_reevaluate sz s rows c ws | EClear => Ok (efdt_reset s) end.
Fixpoint efdt_run (s : efdt T) (es : list efdt_event) : res (efdt T) :=
  match es with [] => Ok s | e :: r => s' <- efdt_do s e ;; efdt_run s' r end.

(** The class distribution kept at a node *)
Definition kept (t : node (leaf T) (list (Z * T)) (esplit T) (htest T)) : list (Z * T) :=
  match t with Active l => lf_stats l | Inactive d => d | Split _ s _ => es_stats s end.

(** Every split the tree can make has two branches: either only binary splits are allowed or no attribute is nominal. *)
Definition two_branches : Prop := h_binary cfg = true \/ forall i, h_nominal cfg i = false.
End Spec.
Arguments efdt_event : clear implicits.

(** The weight of a class among samples *)
Fixpoint class_total (c : Z) (l : list (Z * R)) : R :=
  match l with [] => 0%R | (y, w) :: r => ((if Z.eqb y c then w else 0) + class_total c r)%R end.
