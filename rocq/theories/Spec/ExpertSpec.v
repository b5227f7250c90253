(** Vocabulary for the weighted expert ensembles: votes, and one round of Dynamic Weighted Majority as the paper of Kolter
    and Maloof gives it.  A member is a pair of an estimator and its weight. *)
From Coq Require Import List ZArith Reals.
From Verif Require Import Spec.Lists.
Import ListNotations.
Local Open Scope R_scope.

(** A vote is a label and the weight of the expert that answered with it. *)
Definition support (votes : list (Z * R)) (c : Z) : R := Rsum (map snd (filter (fun v => Z.eqb (fst v) c) votes)).
(** The label with the greatest support among 0 .. k-1, the smallest one when several have it. *)
Definition plurality (k : Z) (votes : list (Z * R)) (c : Z) : Prop :=
  (0 <= c < k)%Z /\ (forall d, (0 <= d < k)%Z -> support votes d <= support votes c) /\
  (forall d, (0 <= d < c)%Z -> support votes d < support votes c).
(** An expert that answers wrongly loses the factor [beta]. *)
Definition penalised (beta : R) (y c : Z) (w : R) : R := if Z.eqb c y then w else w * beta.

Section Round.
Context {A : Type}.
Definition greatest (l : list (A * R)) (t : R) : Prop := In t (map snd l) /\ forall m, In m l -> snd m <= t.
(** [l'] is [l] without one member of least weight. *)
Definition without_least (l l' : list (A * R)) : Prop :=
  exists a m b, l = a ++ m :: b /\ l' = a ++ b /\ forall m', In m' l -> snd m <= snd m'.
(** [kept] : weights divided by the greatest, members that fall under [theta] gone.  Both lists keep the order. *)
Inductive kept (theta t : R) : list (A * R) -> list (A * R) -> Prop :=
| kept_nil : kept theta t [] []
| kept_stays a w l l' : theta <= w / t -> kept theta t l l' -> kept theta t ((a, w) :: l) ((a, w / t) :: l')
| kept_goes a w l l' : w / t < theta -> kept theta t l l' -> kept theta t ((a, w) :: l) l'.
(** The end of a period: [wrong] says that the ensemble answered wrongly; [fresh] is a new estimator. *)
Inductive round (n : nat) (theta : R) (fresh : A) (l : list (A * R)) : bool -> list (A * R) -> Prop :=
| round_right t k : greatest l t -> kept theta t l k -> round n theta fresh l false k
| round_room t k : greatest l t -> kept theta t l k -> length k <> n -> round n theta fresh l true (k ++ [(fresh, 1)])
| round_full t k k' : greatest l t -> kept theta t l k -> length k = n -> without_least k k' ->
    round n theta fresh l true (k' ++ [(fresh, 1)]).
End Round.

(** Conversion of a number to int: towards zero. *)
Definition Rtrunc (x : R) : Z := if Rle_dec 0 x then Int_part x else (- Int_part (- x))%Z.
(** The mean of the labels, weighted. *)
Definition mean_label (votes : list (Z * R)) : R := Rsum (map (fun v => IZR (fst v) * snd v) votes) / Rsum (map snd votes).
