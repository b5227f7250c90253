(** What users expect of streaming random patches: which rows and which features each estimator has learnt, and what the subspaces are. *)
From Coq Require Import List ZArith Reals Bool Sorting.Sorted.
From Verif Require Import Base.Py Base.Num Spec.Lists Spec.AdaptiveForestSpec.
Import ListNotations.

(** How many subsets of [k] elements a set of [n] has *)
Fixpoint binom (n k : nat) : nat :=
  match k, n with
  | O, _ => 1
  | S k, O => 0
  | S k', S n' => binom n' k' + binom n' k
  end.
(** A subset of [k] of the numbers below [n], in increasing order *)
Definition k_subset (k n : nat) (l : list nat) : Prop := length l = k /\ StronglySorted lt l /\ Forall (fun i => i < n) l.

(** The positions in [feats] of the nominal features; None if there are none *)
Definition nominal_positions (nominal feats : list nat) (o : option (list nat)) : Prop :=
  match o with
  | None => forall i, i < length feats -> ~ In (nth i feats 0) nominal
  | Some l => l <> [] /\ StronglySorted lt l /\ forall i, In i l <-> i < length feats /\ In (nth i feats 0) nominal
  end.

Section Spec.
Context {V T B E : Type} (b_fit : B -> list V -> Z -> option (list Z) -> Z -> res B) (b_nominal : B -> option (list nat) -> B) (nominal : list nat).
(** The features in [feats] of the instance [x] *)
Definition restricted (feats : option (list nat)) (x xs : list V) : Prop :=
  match feats with None => xs = x | Some l => length xs = length l /\ forall j i, nth_error l j = Some i -> nth_error xs j = nth_error x i /\ nth_error xs j <> None end.
(** [sgrown feats told b fs b']: [b'] is [b] after learning, in order, the rows of [fs] with a positive number, each reduced to the features [feats], with that number as weight,
    and nothing else.  If [told], it is told its nominal features before the first row it learns. *)
Inductive sgrown (feats : option (list nat)) (told : bool) (b : B) : list (fed (list V) T) -> B -> Prop :=
| sgrown_none : sgrown feats told b [] b
| sgrown_skip fs b' f : sgrown feats told b fs b' -> (r_k f <= 0)%Z -> sgrown feats told b (fs ++ [f]) b'
| sgrown_first fs b' f l o xs b'' : sgrown feats told b fs b' -> (0 < r_k f)%Z -> feats = Some l -> told = true -> existsb (fun f => (0 <? r_k f)%Z) fs = false ->
    nominal_positions nominal l o -> restricted feats (r_x f) xs -> b_fit (b_nominal b' o) xs (r_y f) (r_cl f) (r_k f) = Ok b'' -> sgrown feats told b (fs ++ [f]) b''
| sgrown_row fs b' f xs b'' : sgrown feats told b fs b' -> (0 < r_k f)%Z -> (feats = None \/ told = false \/ existsb (fun f => (0 <? r_k f)%Z) fs = true) ->
    restricted feats (r_x f) xs -> b_fit b' xs (r_y f) (r_cl f) (r_k f) = Ok b'' -> sgrown feats told b (fs ++ [f]) b''.
End Spec.

(** *** Votes over the reals: a ballot is the class probabilities of a member and its accuracy.  It counts when the probabilities have a positive sum; its weight is the accuracy, or 1 if the vote is
    unweighted or the accuracy is not positive. *)
Local Open Scope R_scope.
Definition sweight (unweighted : bool) (b : list R * R) : R :=
  if Rlt_dec 0 (Rsum (fst b)) then (if unweighted then 1 else if Rlt_dec 0 (snd b) then snd b else 1) else 0.
Definition svoice (unweighted : bool) (b : list R * R) (c : nat) : R := sweight unweighted b * (nth c (fst b) 0 / Rsum (fst b)).
