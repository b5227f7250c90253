(** The EDDM statistic over a segment of values, oldest first; the value 1 is an error. *)
From Coq Require Import List Reals ZArith Bool Arith.
From Verif Require Import Base.Num Spec.Lists.
Import ListNotations.
Local Open Scope R_scope.

Definition is_error (x : R) : bool := Reqb x 1.

(** Positions (1-based, offset [k]) of the errors. *)
Fixpoint error_positions (k : nat) (l : list R) : list nat :=
  match l with
  | [] => []
  | x :: r => (if is_error x then [S k] else []) ++ error_positions (S k) r
  end.

(** Distances between consecutive errors, the first one counted from [from]. *)
Fixpoint gaps (from : nat) (ps : list nat) : list R :=
  match ps with [] => [] | p :: r => INR (p - from) :: gaps p r end.

Definition distances (l : list R) : list R := gaps 0 (error_positions 0 l).
Definition n_errors (l : list R) : nat := length (error_positions 0 l).

(** mean distance plus two standard deviations *)
Definition m2s (l : list R) : R := Rmean (distances l) + 2 * sqrt (Rvariance (distances l)).

Definition ends_in_error (l : list R) : bool := match rev l with x :: _ => is_error x | [] => false end.

(** Points at which the statistic is compared: errors from the 29th value on. *)
Definition evaluated (l : list R) : bool := ends_in_error l && (29 <=? length l)%nat.

Definition prefixes (l : list R) : list (list R) := map (fun k => firstn k l) (seq 1 (length l)).

(** Largest statistic at an evaluated prefix (0 if there is none). *)
Definition m2s_max (l : list R) : R := fold_right Rmax 0 (map m2s (filter evaluated (prefixes l))).

(** [l] up to and including its last error. *)
Fixpoint drop_ok (rl : list R) : list R := match rl with [] => [] | x :: r => if is_error x then rl else drop_ok r end.
Definition upto_last_error (l : list R) : list R := rev (drop_ok (rev l)).
