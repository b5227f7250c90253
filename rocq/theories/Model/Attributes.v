(** Model of the attributes of UnsupervisedStream (data/unsupervised_stream.py 4-133, data/base_stream.py __init__) and of FileOption
    (options/file_option.py).

    An object is what its class says of each name and its own dictionary.  A property of the class is asked first, for reading and for writing; all those of
    UnsupervisedStream read or write the attribute of the same name of the same object (lines 27-133), which asks the property again.  Then comes the own
    dictionary, then the methods of the class.  [limit] is the number of nested calls that the interpreter allows; RecursionError, a RuntimeError, is raised
    beyond it. *)
From Coq Require Import String List Bool.
From Verif Require Import Base.Py.
Import ListNotations.
Local Open Scope string_scope.
Local Open Scope list_scope.

Section Attributes.
Context {V : Type}.
Inductive member := SelfProperty | Method.
Inductive found := Value (v : V) | Bound (name : string).
Definition pyclass := list (string * member).
Definition object := list (string * V).
Fixpoint look {A} (l : list (string * A)) (k : string) : option A := match l with [] => None | (k', a) :: l => if String.eqb k' k then Some a else look l k end.
(** object.name = v *)
Fixpoint set_attr (limit : nat) (c : pyclass) (o : object) (name : string) (v : V) : res object :=
  match limit with
  | O => Raise RuntimeError
  | S l => match look c name with Some SelfProperty => set_attr l c o name v | _ => Ok ((name, v) :: o) end
  end.
(** object.name *)
Fixpoint get_attr (limit : nat) (c : pyclass) (o : object) (name : string) : res found :=
  match limit with
  | O => Raise RuntimeError
  | S l => match look c name with
           | Some SelfProperty => get_attr l c o name
           | m => match look o name with Some v => Ok (Value v) | None => match m with Some Method => Ok (Bound name) | _ => Raise AttributeError end end
           end
  end.
Fixpoint set_all (limit : nat) (c : pyclass) (o : object) (l : list (string * V)) : res object :=
  match l with [] => Ok o | (k, v) :: l => o <- set_attr limit c o k v ;; set_all limit c o l end.
(** The class UnsupervisedStream: its six properties and next_sample; a derived class may add [more] that does not replace them *)
Definition unsupervised (more : pyclass) : pyclass :=
  [("target", SelfProperty); ("n_targets", SelfProperty); ("target_values", SelfProperty); ("target_names", SelfProperty); ("timestamp", SelfProperty);
   ("weight", SelfProperty); ("prepare_for_use", Method); ("next_sample", Method)] ++ more.
(** __init__, lines 6-15, after that of Stream; the values assigned are arguments *)
Definition unsupervised_init (limit : nat) (more : pyclass) (stream_init : list (string * V)) (target n_targets values names timestamp weight X y : V) : res object :=
  set_all limit (unsupervised more) []
    (stream_init ++ [("target", target); ("n_targets", n_targets); ("target_values", values); ("target_names", names); ("timestamp", timestamp); ("weight", weight); ("X", X); ("y", y)]).
(** FileOption: the class and __init__, file_option.py 29-36 *)
Definition file_option : pyclass :=
  [("get_name", Method); ("get_file_name", Method); ("get_value", Method); ("get_option_type", Method); ("get_cli_char", Method); ("is_output", Method); ("get_info", Method)].
Definition file_option_init (limit : nat) (type name value extension is_out : V) : res object :=
  set_all limit file_option [] [("option_name", name); ("option_value", value); ("option_type", type); ("file_type", extension); ("is_output", is_out); ("file_name", value)].
(** object.name(): a method found is run, its body reads one attribute (lines 38-53); a value found is not callable *)
Definition body (name : string) : string :=
  if String.eqb name "get_name" then "option_name" else if String.eqb name "get_file_name" then "file_name" else if String.eqb name "get_value" then "option_value"
  else if String.eqb name "get_option_type" then "option_type" else if String.eqb name "get_cli_char" then "option_value" else "is_output".
Definition call (limit : nat) (o : object) (name : string) : res found :=
  f <- get_attr limit file_option o name ;;
  match f with Bound m => get_attr limit file_option o (body m) | Value _ => Raise TypeError end.
End Attributes.
