(** Vocabulary shared by the change detectors that process one value per call.

    A detector is described by its state type, the state after construction, add_element (which may raise), reset and
    the flag that detected_change() returns. *)
From Coq Require Import List.
From Verif Require Import Base.Py.
Import ListNotations.

Section Detector.
Context {S X : Type}.
Variables (init : S) (add : S -> X -> res S) (reset : S -> S) (changed : S -> bool).

Inductive dop : Type := DAdd (x : X) | DReset.

Definition dstep (s : S) (o : dop) : res S :=
  match o with DAdd x => add s x | DReset => Ok (reset s) end.

Fixpoint drun (s : S) (ops : list dop) : res S :=
  match ops with [] => Ok s | o :: r => s' <- dstep s o ;; drun s' r end.

(** [since seg s]: some history of add_element and reset calls leads to [s], and [seg] are the values added since the
    last reset() call or since the last call after which detected_change() was True (that call's value belongs to the
    segment it ended). *)
Inductive since : list X -> S -> Prop :=
| since_new : since [] init
| since_add seg s x s' :
    since seg s -> add s x = Ok s' -> since (if changed s then [x] else seg ++ [x]) s'
| since_reset seg s : since seg s -> since [] (reset s).

(** The same without forgetting: all values ever added, oldest first. *)
Inductive after : list X -> S -> Prop :=
| after_new : after [] init
| after_add hist s x s' : after hist s -> add s x = Ok s' -> after (hist ++ [x]) s'.

(** Executable run over a list of values, for examples. *)
Fixpoint feed (s : S) (l : list X) : res S :=
  match l with [] => Ok s | x :: r => s' <- add s x ;; feed s' r end.

(** Answers of detected_change() after each value. *)
Fixpoint answers (s : S) (l : list X) : list bool :=
  match l with
  | [] => []
  | x :: r => match add s x with Ok s' => changed s' :: answers s' r | Raise _ => [] end
  end.

Lemma feed_after l : forall hist s s', after hist s -> feed s l = Ok s' -> after (hist ++ l) s'.
Proof.
  induction l as [|x l IH]; intros hist s s' H E; simpl in E.
  - inversion E; subst. rewrite app_nil_r. auto.
  - destruct (add s x) as [s2|] eqn:Ea; simpl in E; [|discriminate].
    replace (hist ++ x :: l) with ((hist ++ [x]) ++ l) by (rewrite <- app_assoc; auto).
    eapply IH; eauto. econstructor; eauto.
Qed.

End Detector.
Arguments dop : clear implicits.
