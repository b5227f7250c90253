(** Vocabulary for split tests. *)
From Coq Require Import List ZArith.
From Verif Require Import Base.Py Base.Dict Model.SplitTests.
Import ListNotations.
Local Open Scope Z_scope.

(** The instance has value [v] for attribute [i]. *)
Definition attribute {A} (X : list A) (i : Z) (v : A) : Prop := 0 <= i /\ nth_error X (Z.to_nat i) = Some v.

(** Adding branches for values that have none yet *)
Inductive branches_added : multitest -> list Z -> multitest -> Prop :=
| added_none t : branches_added t [] t
| added_one t v us t1 t2 b X : attribute X (mw_att t) v -> multi_branch t X = Ok (-1) -> multi_add t v = Ok (t1, b) -> branches_added t1 us t2 ->
    branches_added t (v :: us) t2.
