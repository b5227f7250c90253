(** Specification of the counting matrices: tallies read off the history of calls and answers. *)
From Coq Require Import List ZArith Bool.
From Verif Require Import Base.Py Model.ConfMat.
Import ListNotations.
Local Open Scope Z_scope.

Definition is_label (o : option Z) (k : Z) : bool := match o with Some x => x =? k | None => false end.

(** Weight recorded at cell (i, j): accepted updates minus accepted removals since the last restart. *)
Definition tally (h : list (cm_op * res bool)) (i j : Z) : Z :=
  fold_left (fun acc e =>
    match e with
    | (CUpdate a b w, Ok true) => if is_label a i && is_label b j then acc + w else acc
    | (CRemove a b, Ok true) => if is_label a i && is_label b j then acc - 1 else acc
    | (CRestart _, Ok _) => 0
    | _ => acc
    end) h 0.

(** Number of accepted updates minus number of accepted removals since the last restart. *)
Definition net_calls (h : list (cm_op * res bool)) : Z :=
  fold_left (fun acc e =>
    match e with
    | (CUpdate _ _ _, Ok true) => acc + 1
    | (CRemove _ _, Ok true) => acc - 1
    | (CRestart _, Ok _) => 0
    | _ => acc
    end) h 0.

Definition nonneg_label (o : option Z) : Prop := match o with Some x => 0 <= x | None => True end.
Definition nonneg_op (o : cm_op) : Prop :=
  match o with CUpdate i j _ | CRemove i j => nonneg_label i /\ nonneg_label j | _ => True end.

(** The same for the per-target matrices. *)
Definition mtally (h : list (mol_op * res bool)) (t i j : Z) : Z :=
  fold_left (fun acc e =>
    match e with
    | (MUpdate c a b w, Ok true) => if is_label c t && is_label a i && is_label b j then acc + w else acc
    | (MRemove c a b, Ok true) => if is_label c t && is_label a i && is_label b j then acc - 1 else acc
    | (MRestart _, Ok _) => 0
    | _ => acc
    end) h 0.

(** Calls with a non-negative target; explicit reshapes never shrink. *)
Definition mol_sane (s : mol) (o : mol_op) : Prop :=
  match o with
  | MUpdate t _ _ _ => nonneg_label t
  | MReshape t _ _ => mo_size s <= t
  | _ => True
  end.

Fixpoint mol_sane_run (s : mol) (ops : list mol_op) : Prop :=
  match ops with [] => True | o :: r => mol_sane s o /\ mol_sane_run (fst (mol_step s o)) r end.
