(** The W-test of HDDM (Frias-Blanco et al. 2015) over lists of values, oldest first. *)
From Coq Require Import List Reals ZArith.
From Verif Require Import Spec.Lists Spec.DdmSpec.
Import ListNotations.
Local Open Scope R_scope.

(** exponentially weighted mean: the first value, then lambda * x + (1 - lambda) * previous *)
Fixpoint ewma_rev (lam : R) (rl : list R) : R :=
  match rl with
  | [] => 0
  | x :: r => match r with [] => x | _ => lam * x + (1 - lam) * ewma_rev lam r end
  end.
Definition ewma (lam : R) (l : list R) : R := ewma_rev lam (rev l).

(** sum of the squared weights of [n] values in that mean *)
Fixpoint weights2 (lam : R) (n : nat) : R :=
  match n with
  | O => 0
  | S k => match k with O => 1 | _ => lam * lam + (1 - lam) * (1 - lam) * weights2 lam k end
  end.

(** McDiarmid radius *)
Definition mradius (v conf : R) : R := sqrt (v * ln (1 / conf) / 2).

Definition upper_w (lam conf : R) (p : list R) : R := ewma lam p + mradius (weights2 lam (length p)) conf.

(** [p] is the shortest non-empty prefix of [seg] with the smallest upper bound *)
Definition first_low (lam conf : R) (p seg : list R) : Prop :=
  p <> [] /\ prefix_of p seg /\
  forall q, q <> [] -> prefix_of q seg ->
    upper_w lam conf p <= upper_w lam conf q /\ ((length q < length p)%nat -> upper_w lam conf p < upper_w lam conf q).

(** the mean of the values after [p] exceeds the mean of [p] significantly *)
Definition rises (lam conf : R) (p rest : list R) : Prop :=
  rest <> [] /\
  mradius (weights2 lam (length p) + weights2 lam (length rest)) conf < ewma lam rest - ewma lam p.
