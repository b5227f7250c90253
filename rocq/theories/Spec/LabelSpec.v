(** Vocabulary for the labels a Hoeffding tree was taught and for label combinations. *)
From Coq Require Import List ZArith Bool.
From Verif Require Import Base.Py Base.Num Spec.HoeffdingSpec Model.LabelCombination.
Import ListNotations.

Section Taught.
Context {T : Type} {N : Num T}.
(** The labels of the samples of one call whose weight is not zero; without weights all weigh one. *)
Definition labels_of {Y} (rows : list (list T * Y)) (ws : option (list T)) : list Y :=
  map (fun rw => snd (fst rw)) (filter (fun rw => negb (snd rw =? n0)%num) (combine rows (match ws with Some ws => ws | None => map (fun _ => n1) rows end))).
(** The labels taught since the last reset *)
Definition taught (es : list (ht_event T)) : list Z := fold_left (fun acc e => match e with HFit rows _ ws => acc ++ labels_of rows ws | HReset => [] end) es [].
Definition lc_taught (es : list (lc_event T)) : list (list Z) := fold_left (fun acc e => match e with LFit rows _ ws => acc ++ labels_of rows ws | LReset => [] end) es [].
End Taught.

(** A combination of [n] labels: a list of [n] zeros and ones *)
Definition combination (n : nat) (y : list Z) : Prop := length y = n /\ Forall (fun b => b = 0%Z \/ b = 1%Z) y.
(** Its number: the first label is the highest digit *)
Fixpoint number (y : list Z) : Z := match y with [] => 0 | b :: r => b * 2 ^ Z.of_nat (length r) + number r end%Z.
(** All the label vectors of all the calls are combinations of [n] labels. *)
Definition combinations {T} (n : nat) (es : list (lc_event T)) : Prop :=
  Forall (fun e => match e with LFit rows _ _ => Forall (fun xy => combination n (snd xy)) rows | LReset => True end) es.
(** The same calls of a Hoeffding tree with the numbers of the combinations; [classes] is never given. *)
Definition numbered {T} (es : list (lc_event T)) : list (ht_event T) :=
  map (fun e => match e with LFit rows _ ws => HFit (map (fun xy => (fst xy, number (snd xy))) rows) None ws | LReset => HReset end) es.
