(** What the parameters of an estimator are, and what a copy is: written without the model's functions. *)
From Coq Require Import List String.
From Verif Require Import Base.Py Model.Params.
Import ListNotations.

(** The name of a nested parameter: component__parameter *)
Fixpoint join (path : list string) : string :=
  match path with [] => EmptyString | [k] => k | k :: p => (k ++ "__" ++ join p)%string end.
(** A name that can be told apart in a nested name: it does not contain "__" and does not end with "_" *)
Definition plain (k : string) : Prop := forall x y, (k ++ "_")%string <> (x ++ "__" ++ y)%string.

Section Spec.
Context {P C D : Type}.
Variables (none : P) (names : C -> list string).
Notation val := (val P). Notation heap := (heap P C D).

(** [value attrs k v]: an attribute; one that was never set counts as None *)
Inductive value (attrs : list (string * val)) (k : string) : val -> Prop :=
| value_set l r v : attrs = l ++ (k, v) :: r -> ~ In k (map fst l) -> value attrs k v
| value_unset : ~ In k (map fst attrs) -> value attrs k (Prim none).

(** [walk h a path v]: following the parameters in [path] from the estimator [a] leads to [v] *)
Inductive walk (h : heap) : nat -> list string -> val -> Prop :=
| walk_last a c attrs k v : nth_error h a = Some (Est c attrs) -> In k (names c) -> value attrs k v -> walk h a [k] v
| walk_step a c attrs k b p v : nth_error h a = Some (Est c attrs) -> In k (names c) -> value attrs k (Ref b) -> walk h b p v -> walk h a (k :: p) v.

(** [fits h n v]: everything that [v] is made of exists, with at most [n] objects inside each other *)
Fixpoint fits (h : heap) (n : nat) (v : val) : Prop :=
  match v with
  | Prim _ => True
  | Ref a =>
      match n with
      | O => False
      | S n => match nth_error h a with
               | None => False
               | Some (Data _) => True
               | Some (Seq l) => forall w, In w l -> fits h n w
               | Some (Est c attrs) => forall k w, In k (names c) -> value attrs k w -> fits h n w
               end
      end
  end.
(** What can be copied without falling back to deepcopy: estimators and collections of them *)
Fixpoint estimators (h : heap) (n : nat) (v : val) : Prop :=
  match n, v with
  | S n, Ref a => match nth_error h a with Some (Est _ _) => True | Some (Seq l) => forall w, In w l -> estimators h n w | _ => False end
  | _, _ => False
  end.

(** [copied h n v w]: [w] is made like [v], of objects at addresses from [n] on only; its estimators are as their constructor made them from their parameters *)
Variable init : C -> list (string * val) -> heap -> res (list (string * val) * heap).
Inductive copied (h : heap) (n : nat) : val -> val -> Prop :=
| copied_prim p : copied h n (Prim p) (Prim p)
| copied_data a b d : nth_error h a = Some (Data d) -> nth_error h b = Some (Data d) -> n <= b -> copied h n (Ref a) (Ref b)
| copied_seq a b l l' : nth_error h a = Some (Seq l) -> nth_error h b = Some (Seq l') -> n <= b -> List.length l' = List.length l ->
    (forall i v w, nth_error l i = Some v -> nth_error l' i = Some w -> copied h n v w) -> copied h n (Ref a) (Ref b)
| copied_est a b c attrs attrs' ps h0 h1 : nth_error h a = Some (Est c attrs) -> nth_error h b = Some (Est c attrs') -> n <= b ->
    map fst ps = names c -> init c ps h0 = Ok (attrs', h1) ->
    (forall k v, In (k, v) ps -> value attrs' k v) ->
    (forall k v w, In k (names c) -> value attrs k v -> In (k, w) ps -> copied h n v w) ->
    copied h n (Ref a) (Ref b).

(** Constructors create objects and change none *)
Definition allocates : Prop := forall c ps h attrs h', init c ps h = Ok (attrs, h') -> exists more, h' = h ++ more.
(** Constructors store their parameters as they are *)
Definition keeps : Prop := forall c ps h, map fst ps = names c -> exists attrs h', init c ps h = Ok (attrs, h') /\ forall k v, In (k, v) ps -> value attrs k v.
End Spec.
