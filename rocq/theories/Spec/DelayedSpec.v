(** Vocabulary for runs of the delayed prequential evaluation.  Rows are named by their stream position. *)
From Coq Require Import List ZArith Bool.
From Verif Require Import Base.Py Model.Evaluate Model.EvaluateDelayed.
Import ListNotations.

Section Spec.
Context {X Y P W : Type}.
Variable src : source (drow X Y W).
Notation row n := (src_at src n).

(** The stream clock: the last arrival time announced. *)
Definition clock (t : list (dev X Y P W)) : option Z :=
  fold_left (fun a e => match e with DClock z => Some z | _ => a end) t None.
(** Positions scored for model i, and positions model i was trained on, in order. *)
Definition dscored (i : nat) (t : list (dev X Y P W)) : list nat :=
  flat_map (fun e => match e with DScore j n _ _ => if j =? i then [n] else [] | _ => [] end) t.
Definition dtrained (i : nat) (t : list (dev X Y P W)) : list nat :=
  flat_map (fun e => match e with DFit j xs _ _ _ => if j =? i then map fst xs else [] | _ => [] end) t.
Definition dpredicted (i : nat) (t : list (dev X Y P W)) : list nat :=
  flat_map (fun e => match e with DPredict j xs _ => if j =? i then map fst xs else [] | _ => [] end) t.
(** Model i predicted p for the row at position n. *)
Definition predicted (i n : nat) (p : P) (t : list (dev X Y P W)) : Prop :=
  exists xs ps x, In (DPredict i xs ps) t /\ In ((n, x), p) (combine xs ps).
Definition dfitted (i : nat) (t : list (dev X Y P W)) : bool :=
  existsb (fun e => match e with DFit j _ _ _ _ => j =? i | _ => false end) t.
(** The label of row n is available: the clock has reached its availability time, or the main loop is over. *)
Definition label_available (n : nat) (t : list (dev X Y P W)) : Prop :=
  In DDrain t \/ exists now, clock t = Some now /\ (d_av (row n) <= now)%Z.

Definition dthroughout (ok : list (dev X Y P W) -> dev X Y P W -> Prop) (t : list (dev X Y P W)) : Prop :=
  forall t1 e t2, t = t1 ++ e :: t2 -> ok t1 e.

Definition delayed_ok (p0 pre n_models : nat) (classif : bool) (before : list (dev X Y P W)) (e : dev X Y P W) : Prop :=
  match e with
  | DPredict i xs ps =>
      (* the rows as they are in the stream; none of them was scored for, or used to train, this model *)
      i < n_models /\ xs = map (fun n => (n, d_x (row n))) (map fst xs)
      /\ forall n, In n (map fst xs) -> p0 + pre <= n /\ ~ In n (dscored i before) /\ ~ In n (dtrained i before) /\ ~ In n (dpredicted i before)
  | DScore i n y p =>
      (* true label against the prediction this model made, once, and only with the label available *)
      i < n_models /\ y = d_y (row n) /\ predicted i n p before /\ ~ In n (dscored i before)
      /\ label_available n before
  | DFit i xs ys ws cls =>
      i < n_models /\ cls = classif && negb (dfitted i before)
      /\ xs = map (fun n => (n, d_x (row n))) (map fst xs) /\ ys = map (fun n => d_y (row n)) (map fst xs)
      /\ ((* pretraining *) (map fst xs = seq p0 (length xs) /\ length xs <= pre /\ 0 < pre /\ forall j, dpredicted j before = [])
          \/ (* rows already predicted and scored, each for the first time, labels available *)
          forall n, In n (map fst xs) -> In n (dscored i before) /\ ~ In n (dtrained i before) /\ label_available n before)
  | _ => True
  end.
End Spec.
