(** Python exceptions as values.

    A Python call either returns or raises; methods that mutate their object are modelled
    as functions returning the new object together with their result.  When a method may
    raise after having mutated the object, the model returns the mutated object next to the
    exception ([out] below), so that "what is left behind by a failed call" can be stated. *)

Inductive exc : Type :=
| IndexError | ValueError | KeyError | ZeroDivisionError | TypeError
| AttributeError | AxisError | RuntimeError | NotImplementedError.

Inductive res (A : Type) : Type :=
| Ok (a : A)
| Raise (e : exc).
Arguments Ok {A} a.
Arguments Raise {A} e.

Definition bind {A B} (m : res A) (f : A -> res B) : res B :=
  match m with Ok a => f a | Raise e => Raise e end.

Notation "x <- m ;; k" := (bind m (fun x => k))
  (at level 61, m at next level, right associativity).
Notation "' p <- m ;; k" := (bind m (fun x => let 'p := x in k))
  (at level 61, p pattern, m at next level, right associativity).

Definition is_ok {A} (m : res A) : bool := match m with Ok _ => true | Raise _ => false end.

Lemma bind_Ok {A B} (m : res A) (f : A -> res B) b :
  bind m f = Ok b -> exists a, m = Ok a /\ f a = Ok b.
Proof. destruct m; simpl; intros H; [eauto | discriminate]. Qed.

(** For executable witnesses: run, then check the final state. *)
Lemma ok_ex {A} (m : res A) (P : A -> Prop) :
  match m with Ok s => P s | Raise _ => False end -> exists s, m = Ok s /\ P s.
Proof. destruct m; simpl; intros H; [eauto|contradiction]. Qed.
Lemma ok_ex2 {A B} (m : res A) (n : res B) (P : A -> B -> Prop) :
  match m, n with Ok a, Ok b => P a b | _, _ => False end -> exists a, m = Ok a /\ exists b, n = Ok b /\ P a b.
Proof. destruct m, n; simpl; intros H; try contradiction. eauto 6. Qed.
