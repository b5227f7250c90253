(** The A-test of HDDM (Frias-Blanco et al. 2015) over lists of values, oldest first. *)
From Coq Require Import List Reals ZArith.
From Verif Require Import Spec.Lists Spec.DdmSpec.
Import ListNotations.
Local Open Scope R_scope.

(** Hoeffding radius of a mean over [n] values *)
Definition radius (conf : R) (n : nat) : R := sqrt (1 / (2 * INR n) * ln (1 / conf)).
Definition upper (conf : R) (p : list R) : R := Rmean p + radius conf (length p).
Definition lower (conf : R) (p : list R) : R := Rmean p - radius conf (length p).

(** the longest non-empty prefix with the smallest upper / the largest lower bound *)
Definition low_cut (conf : R) (p seg : list R) : Prop :=
  p <> [] /\ prefix_of p seg /\
  forall q, q <> [] -> prefix_of q seg ->
    upper conf p <= upper conf q /\ ((length p < length q)%nat -> upper conf p < upper conf q).
Definition high_cut (conf : R) (p seg : list R) : Prop :=
  p <> [] /\ prefix_of p seg /\
  forall q, q <> [] -> prefix_of q seg ->
    lower conf q <= lower conf p /\ ((length p < length q)%nat -> lower conf q < lower conf p).

(** radius for the difference of the mean of [seg] and of its prefix [p] *)
Definition diff_radius (conf : R) (p seg : list R) : R :=
  sqrt ((INR (length seg) - INR (length p)) / INR (length p) * (1 / INR (length seg)) / 2 * ln (2 / conf)).

Definition increase (conf : R) (p seg : list R) : Prop :=
  length p <> length seg /\ diff_radius conf p seg <= Rmean seg - Rmean p.
Definition decrease (conf : R) (p seg : list R) : Prop :=
  length p <> length seg /\ diff_radius conf p seg <= Rmean p - Rmean seg.

(** [textbook drift warn two_side hist blk seg change warning]: after the values [hist], the test is working on the
    segment [seg]; [blk] is the part, after the cut, of the segment whose test made it restart last; [change] and
    [warning] are the answers after the last value. *)
Inductive textbook (drift warn : R) (two_side : bool) : list R -> list R -> list R -> bool -> bool -> Prop :=
| tb_new : textbook drift warn two_side [] [] [] false false
| tb_increase h b s c w x p rest :
    textbook drift warn two_side h b s c w ->
    low_cut drift p (s ++ [x]) -> s ++ [x] = p ++ rest -> increase drift p (s ++ [x]) ->
    textbook drift warn two_side (h ++ [x]) rest [] true false
| tb_decrease h b s c w x p q rest w' :
    textbook drift warn two_side h b s c w ->
    low_cut drift p (s ++ [x]) -> ~ increase drift p (s ++ [x]) ->
    (w' = true <-> increase warn p (s ++ [x])) ->
    two_side = true -> high_cut drift q (s ++ [x]) -> s ++ [x] = q ++ rest -> decrease drift q (s ++ [x]) ->
    textbook drift warn two_side (h ++ [x]) rest [] false w'
| tb_continue h b s c w x p w' :
    textbook drift warn two_side h b s c w ->
    low_cut drift p (s ++ [x]) -> ~ increase drift p (s ++ [x]) ->
    (w' = true <-> increase warn p (s ++ [x])) ->
    (two_side = true -> exists q, high_cut drift q (s ++ [x]) /\ ~ decrease drift q (s ++ [x])) ->
    textbook drift warn two_side (h ++ [x]) b (s ++ [x]) false w'.
