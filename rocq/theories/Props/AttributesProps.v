(** Attributes of unsupervised streams and file options. *)
From Coq Require Import String List Bool.
From Verif Require Import Base.Py Model.Attributes.
Import ListNotations.
Local Open Scope string_scope.
Local Open Scope list_scope.

Lemma set_self {V} (c : pyclass) (o : object (V := V)) k v : look c k = Some SelfProperty -> forall limit, set_attr limit c o k v = Raise RuntimeError.
Proof. intros H. induction limit as [|l IH]; cbn; [reflexivity|]. now rewrite H. Qed.
Lemma get_self {V} (c : pyclass) (o : object (V := V)) k : look c k = Some SelfProperty -> forall limit, get_attr limit c o k = Raise RuntimeError.
Proof. intros H. induction limit as [|l IH]; cbn; [reflexivity|]. now rewrite H. Qed.
Lemma set_all_fails {V} limit (c : pyclass) l2 : (forall (o : object (V := V)), set_all limit c o l2 = Raise RuntimeError) -> forall l1 o, (forall k, In k (map fst l1) -> look c k = Some SelfProperty \/ (look c k <> Some SelfProperty /\ limit <> O)) -> set_all limit c o (l1 ++ l2) = Raise RuntimeError.
Proof.
  intros H. induction l1 as [|[k v] l1 IH]; intros o Hk; [apply H|]. cbn [app set_all]. destruct (Hk k (or_introl eq_refl)) as [E|[E L]].
  - now rewrite set_self.
  - destruct limit as [|l]; [congruence|]. cbn [set_attr]. destruct (look c k) as [[|]|]; [congruence| |]; cbn [bind]; apply IH; intros; apply Hk; now right.
Qed.
(** C382: it is not so that a class derived from UnsupervisedStream can be constructed: whatever the interpreter's limit of nested calls, whatever the class
    adds and whatever the constructor of Stream assigns first, the constructor ends in RecursionError; and reading or assigning any of the six properties of
    any such object does. *)
Theorem unsupervised_stream_refuted : forall V limit more (first : list (string * V)) target n values names timestamp weight X y,
  unsupervised_init limit more first target n values names timestamp weight X y = Raise RuntimeError
  /\ forall k (o : object (V := V)) v, In k ["target"; "n_targets"; "target_values"; "target_names"; "timestamp"; "weight"] ->
       get_attr limit (unsupervised more) o k = Raise RuntimeError /\ set_attr limit (unsupervised more) o k v = Raise RuntimeError.
Proof.
  intros V limit more first target n values names timestamp weight X y. split.
  - destruct limit as [|l].
    + unfold unsupervised_init. destruct first as [|[k v] first]; reflexivity.
    + apply set_all_fails; [intros o; cbn [set_all]; now rewrite set_self|]. intros k _. destruct (look (unsupervised more) k) as [[|]|]; [left; reflexivity|right; split; discriminate|right; split; discriminate].
  - intros k o v H. assert (E : look (unsupervised more) k = Some SelfProperty) by (repeat destruct H as [<-|H]; try reflexivity; destruct H). split; [now apply get_self|now apply set_self].
Qed.

(** C383: the methods get_name, get_file_name, get_value, get_option_type and get_cli_char of a FileOption answer what was given to its constructor (the file
    name is the value); but is_output() raises TypeError for every FileOption, as the attribute of this name hides the method. *)
Theorem file_option_answers_refuted : forall V limit (type name value extension is_out : V), (1 <= limit)%nat ->
  exists o, file_option_init limit type name value extension is_out = Ok o
    /\ call limit o "get_name" = Ok (Value name) /\ call limit o "get_value" = Ok (Value value) /\ call limit o "get_file_name" = Ok (Value value)
    /\ call limit o "get_option_type" = Ok (Value type) /\ call limit o "get_cli_char" = Ok (Value value)
    /\ get_attr limit file_option o "is_output" = Ok (Value is_out) /\ call limit o "is_output" = Raise TypeError.
Proof. intros V limit type name value extension is_out H. destruct limit as [|l]; [inversion H|]. eexists. split; [reflexivity|]. repeat split. Qed.

(** An attribute without a property keeps what is assigned to it. *)
Example attribute_example : exists o, set_attr (V := nat) 1 (unsupervised []) [] "X" 3 = Ok o /\ get_attr 1 (unsupervised []) o "X" = Ok (Value 3) /\ get_attr 1 (unsupervised []) o "next_sample" = Ok (Bound "next_sample").
Proof. eexists. split; [reflexivity|]. split; reflexivity. Qed.

Print Assumptions unsupervised_stream_refuted. Print Assumptions file_option_answers_refuted.
