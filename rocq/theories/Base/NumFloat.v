From Coq Require Import ZArith PrimFloat Uint63 List.
From Verif Require Import Base.Num.

(** *** IEEE 754 binary64, bit exact (Coq's primitive floats) for + - * / sqrt and comparisons. *)
Definition float_of_Z (z : Z) : float :=
  match z with
  | Z0 => PrimFloat.zero
  | Zpos p => PrimFloat.of_uint63 (Uint63.of_Z (Zpos p))
  | Zneg p => PrimFloat.opp (PrimFloat.of_uint63 (Uint63.of_Z (Zpos p)))
  end.

(** ln and exp are not primitive: the series below are accurate to a few units in the last place on the positive
    normal numbers used in the examples, not bit-identical to libm.  No theorem depends on them, only executable
    examples whose decisions have a wide margin. *)
Fixpoint atanh_series (k : nat) (z2 zp : float) (den : Z) (acc : float) : float :=
  match k with
  | O => acc
  | S k' => atanh_series k' z2 (zp * z2)%float (den + 2)%Z (acc + zp / float_of_Z den)%float
  end.

Definition float_ln (x : float) : float :=
  let '(m, e) := PrimFloat.frshiftexp x in
  let z := ((m - 1) / (m + 1))%float in
  (2 * atanh_series 40 (z * z) z 1%Z 0
   + float_of_Z (Uint63.to_Z e - 2101)%Z * 0.69314718055994530942)%float.

Fixpoint exp_series (k : nat) (x : float) (i : Z) (term acc : float) : float :=
  match k with
  | O => acc
  | S k' => let t := (term * x / float_of_Z i)%float in exp_series k' x (i + 1)%Z t (acc + t)%float
  end.

(** exp x = (exp (x/1024))^1024 *)
Definition float_exp (x : float) : float :=
  let y := exp_series 20 (x / 1024)%float 1 1%float 1%float in
  Nat.iter 10 (fun v => v * v)%float y.

Definition NumF : Num float := {|
  nofZ := float_of_Z;
  nadd := PrimFloat.add; nsub := PrimFloat.sub; nmul := PrimFloat.mul; ndiv := PrimFloat.div;
  nltb := PrimFloat.ltb; nleb := PrimFloat.leb; neqb := PrimFloat.eqb;
  nsqrt := PrimFloat.sqrt; nln := float_ln; nexp := float_exp
|}.
