(** The Hoeffding tree split rule, in words of the paper: the best suggestion, the runner-up and the bound. *)
From Coq Require Import List ZArith Bool.
From Verif Require Import Base.Py Base.Num Base.Dict Model.Suggestion Model.SplitCriteria.
Import ListNotations.

(** The numbers are ordered: no NaN. *)
Definition ordered (T : Type) {N : Num T} : Prop :=
  (forall a b : T, (a <? b)%num = true -> (b <? a)%num = false) /\ (forall a b c : T, (a <? b)%num = false -> (b <? c)%num = false -> (a <? c)%num = false).

(** ... and subtraction respects the order. *)
Definition subtractive (T : Type) {N : Num T} : Prop :=
  forall a b c e : T, (b <? a)%num = false -> (e <? c - b)%num = true -> (e <? c - a)%num = true.

Section Rule.
Context {T : Type} {N : Num T} {A D : Type}.
Local Notation sug := (suggestion A D T).
(** Merits are numbers or -inf ([None]). *)
Definition below (a b : option T) : Prop := match b, a with Some y, Some x => (x <? y)%num = true | Some _, None => True | None, _ => False end.
Definition exceeds_by (eps : T) (a b : option T) : Prop := match a, b with Some x, Some y => (eps <? x - y)%num = true | Some _, None => True | None, _ => False end.
(** The last of the suggestions with the greatest merit, and the others *)
Definition best_is (bs : list sug) (best : sug) (others : list sug) : Prop :=
  exists pre post, bs = pre ++ best :: post /\ others = pre ++ post
    /\ (forall o, In o pre -> ~ below (sg_merit best) (sg_merit o)) /\ (forall o, In o post -> below (sg_merit o) (sg_merit best)).
(** The best exceeds every other one by more than the bound (a single suggestion wins), or the bound is below the tie threshold. *)
Definition wins (eps tie : T) (best : sug) (others : list sug) : Prop :=
  (forall o, In o others -> exceeds_by eps (sg_merit best) (sg_merit o)) \/ (eps <? tie)%num = true.
(** sqrt(R^2 ln(1/delta) / 2n) *)
Definition epsilon (range delta n : T) : T := nsqrt ((range * range * nln (n1 / delta)) / (nofZ 2 * n))%num.
(** At least two labels with a weight *)
Definition mixed (d : list (Z * T)) : Prop :=
  exists a b u v, a <> b /\ dget d a = Some u /\ dget d b = Some v /\ (u =? n0)%num = false /\ (v =? n0)%num = false.
End Rule.
