(** Textbook regression errors over a list of (true value, prediction) pairs. *)
From Coq Require Import List Reals ZArith.
From Verif Require Import Spec.Lists.
Import ListNotations.
Local Open Scope R_scope.

(** mean, 0 of nothing *)
Definition mean0 (l : list R) : R := match l with [] => 0 | _ => Rmean l end.

Definition mse (h : list (R * R)) : R := mean0 (map (fun r => (fst r - snd r) ^ 2) h).
Definition mae (h : list (R * R)) : R := mean0 (map (fun r => Rabs (fst r - snd r)) h).

(** the results of target [k] *)
Definition target (k : nat) (h : list (list R * list R)) : list (R * R) := map (fun r => (nth k (fst r) 0, nth k (snd r) 0)) h.

(** averages over the [m] targets *)
Definition amse (m : nat) (h : list (list R * list R)) : R := mean0 (map (fun k => mse (target k h)) (seq 0 m)).
Definition amae (m : nat) (h : list (list R * list R)) : R := mean0 (map (fun k => mae (target k h)) (seq 0 m)).
Definition armse (m : nat) (h : list (list R * list R)) : R := mean0 (map (fun k => sqrt (mse (target k h))) (seq 0 m)).

(** Timed actions: train or test from clock reading [a] to clock reading [b], or report [n] samples. *)
Inductive action : Type := Train (a b : R) | Test (a b : R) | Report (n : Z).

Definition train_time (l : list action) : R := Rsum (map (fun x => match x with Train a b => b - a | _ => 0 end) l).
Definition test_time (l : list action) : R := Rsum (map (fun x => match x with Test a b => b - a | _ => 0 end) l).
Definition samples (l : list action) : Z :=
  fold_right Z.add 0%Z (map (fun x => match x with Report n => if (0 <? n)%Z then n else 1%Z | _ => 0%Z end) l).
(** the actions up to and including the last report *)
Fixpoint upto_report (l : list action) : list action :=
  match l with
  | [] => []
  | x :: r => match upto_report r, x with [], Report _ => [x] | [], _ => [] | u, _ => x :: u end
  end.
