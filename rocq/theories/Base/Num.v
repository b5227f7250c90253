(** Arithmetic interface.

    The Python code computes with [int], [float] and numpy scalars.  Models are written
    against the operations below.  The record contains operations only, no laws: a theorem
    quantified over every [Num T] holds for exact numbers and for binary64 floats (NaN,
    infinities, rounding) alike.  *)
From Coq Require Import ZArith QArith Bool Reals Lra.
From Verif Require Import Base.Py.

Class Num (T : Type) : Type := {
  nofZ  : Z -> T;
  nadd  : T -> T -> T;
  nsub  : T -> T -> T;
  nmul  : T -> T -> T;
  ndiv  : T -> T -> T;
  nltb  : T -> T -> bool;
  nleb  : T -> T -> bool;
  neqb  : T -> T -> bool;
  nsqrt : T -> T;
  nln   : T -> T;
  nexp  : T -> T
}.

Declare Scope num_scope.
Delimit Scope num_scope with num.
Infix "+" := nadd : num_scope.
Infix "-" := nsub : num_scope.
Infix "*" := nmul : num_scope.
Infix "/" := ndiv : num_scope.
Infix "<?" := nltb : num_scope.
Infix "<=?" := nleb : num_scope.
Infix "=?" := neqb : num_scope.

Definition n0 {T} `{Num T} : T := nofZ 0.
Definition n1 {T} `{Num T} : T := nofZ 1.

(** Python's [a / b] on Python numbers: raises ZeroDivisionError when [b == 0]. *)
Definition pydiv {T} `{Num T} (a b : T) : res T :=
  if neqb b n0 then Raise ZeroDivisionError else Ok (ndiv a b).

(** math.sqrt and math.log: raise ValueError ("math domain error") outside their domain.  (numpy's versions return
    nan instead, models of numpy code use [nsqrt] / [nln] directly.) *)
Definition py_sqrt {T} `{Num T} (x : T) : res T :=
  if nltb x n0 then Raise ValueError else Ok (nsqrt x).
Definition py_log {T} `{Num T} (x : T) : res T :=
  if nleb x n0 then Raise ValueError else Ok (nln x).

(** max(a, b): Python keeps the first argument unless the second is greater. *)
Definition py_max {T} `{Num T} (a b : T) : T := if nltb a b then b else a.

(** A value that may still be float("inf"): [None].  [x <= inf] holds unless x is nan (x != x), [x > inf] never. *)
Definition le_inf {T} `{Num T} (x : T) (m : option T) : bool :=
  match m with None => neqb x x | Some y => nleb x y end.

(** *** Exact real numbers (used for the numerical theorems) *)
Definition Rltb (x y : R) : bool := if Rlt_dec x y then true else false.
Definition Rleb (x y : R) : bool := if Rle_dec x y then true else false.
Definition Reqb (x y : R) : bool := if Req_EM_T x y then true else false.

#[export] Instance NumR : Num R := {
  nofZ := IZR; nadd := Rplus; nsub := Rminus; nmul := Rmult; ndiv := Rdiv;
  nltb := Rltb; nleb := Rleb; neqb := Reqb; nsqrt := R_sqrt.sqrt; nln := ln; nexp := exp
}.

(** *** Exact rationals (used for executable witnesses).  Results are reduced so that witnesses
    stay small.  sqrt, ln and exp do not exist there: a witness must not depend on them; they are
    the identity. *)
#[export] Instance NumQ : Num Q := {
  nofZ := inject_Z;
  nadd := fun a b => Qred (Qplus a b);
  nsub := fun a b => Qred (Qminus a b);
  nmul := fun a b => Qred (Qmult a b);
  ndiv := fun a b => Qred (Qdiv a b);
  nltb := fun a b => negb (Qle_bool b a);
  nleb := Qle_bool; neqb := Qeq_bool;
  nsqrt := fun x => x; nln := fun x => x; nexp := fun x => x
}.

(** *** Reflection lemmas for the real instance *)
Lemma Rltb_true x y : Rltb x y = true <-> (x < y)%R.
Proof. unfold Rltb; destruct (Rlt_dec x y); split; intros; try easy; try lra. Qed.
Lemma Rltb_false x y : Rltb x y = false <-> (y <= x)%R.
Proof. unfold Rltb; destruct (Rlt_dec x y); split; intros; try easy; try lra. Qed.
Lemma Rleb_true x y : Rleb x y = true <-> (x <= y)%R.
Proof. unfold Rleb; destruct (Rle_dec x y); split; intros; try easy; try lra. Qed.
Lemma Rleb_false x y : Rleb x y = false <-> (y < x)%R.
Proof. unfold Rleb; destruct (Rle_dec x y); split; intros; try easy; try lra. Qed.
Lemma Reqb_true x y : Reqb x y = true <-> x = y.
Proof. unfold Reqb; destruct (Req_EM_T x y); split; intros; try easy. Qed.
Lemma Reqb_false x y : Reqb x y = false <-> x <> y.
Proof. unfold Reqb; destruct (Req_EM_T x y); split; intros; try easy. Qed.

Ltac rcase :=
  match goal with
  | H : Rltb ?x ?y = true |- _ => apply Rltb_true in H
  | H : Rltb ?x ?y = false |- _ => apply Rltb_false in H
  | H : Rleb ?x ?y = true |- _ => apply Rleb_true in H
  | H : Rleb ?x ?y = false |- _ => apply Rleb_false in H
  | H : Reqb ?x ?y = true |- _ => apply Reqb_true in H
  | H : Reqb ?x ?y = false |- _ => apply Reqb_false in H
  end.
