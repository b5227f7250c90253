(** What robust soft learning vector quantization should do, over the reals. *)
From Coq Require Import List ZArith Bool Reals.
From Verif Require Import Base.Py Base.Num Spec.Lists Model.Rslvq.
Import ListNotations.

Section Vectors.
Local Open Scope R_scope.
(** Squared Euclidean distance *)
Definition dist2 (a b : list R) : R := Rsum (map (fun p => (fst p - snd p) * (fst p - snd p)) (combine a b)).
(** [w + a (x - w)] *)
Definition toward (a : R) (x w : list R) : list R := map (fun p => snd p + a * (fst p - snd p)) (combine x w).
(** Prototype number [j] is the nearest to [x] of those with a good class, the first one if there are several. *)
Definition nearest_of (good : Z -> Prop) (x : list R) (ws : list (list R * Z)) (j : nat) : Prop :=
  exists w c, nth_error ws j = Some (w, c) /\ good c
    /\ forall i w' c', nth_error ws i = Some (w', c') -> good c' -> dist2 x w <= dist2 x w' /\ ((i < j)%nat -> dist2 x w < dist2 x w').
Definition all_width (d : nat) (ws : list (list R * Z)) : Prop := forall w c, In (w, c) ws -> length w = d.
(** Prototype [j] becomes [w'] with its class, the others stay. *)
Definition replaced (ws : list (list R * Z)) (j : nat) (w' : list R) (ws' : list (list R * Z)) : Prop :=
  length ws' = length ws /\ (exists w c, nth_error ws j = Some (w, c) /\ nth_error ws' j = Some (w', c)) /\ forall k, k <> j -> nth_error ws' k = nth_error ws k.
(** The model of the data: a mixture of normal distributions around the prototypes *)
Definition density (sigma : R) (x w : list R) : R := exp (- dist2 x w / (2 * sigma)).
Definition total (sigma : R) (x : list R) (ws : list (list R * Z)) : R := Rsum (map (fun p => density sigma x (fst p)) ws).
Definition posterior (sigma : R) (ws : list (list R * Z)) (x w : list R) : R := density sigma x w / total sigma x ws.
Definition posterior_in (sigma : R) (ws : list (list R * Z)) (y : Z) (x w : list R) : R := density sigma x w / total sigma x (filter (fun p => Z.eqb (snd p) y) ws).
(** One sample: if no prototype of another class is nearer than all those of its class nothing happens, otherwise the nearest of its
    class is attracted, then the nearest of another class is repelled. *)
Definition lvq_step (sigma : R) (x : list R) (y : Z) (ws ws' : list (list R * Z)) : Prop :=
  (exists jc wc c, nearest_of (fun c => c = y) x ws jc /\ nth_error ws jc = Some (wc, c) /\ (forall w c, In (w, c) ws -> c <> y -> dist2 x wc <= dist2 x w) /\ ws' = ws)
  \/ (exists jc ji wc wi ci mid, nearest_of (fun c => c = y) x ws jc /\ nearest_of (fun c => c <> y) x ws ji /\ nth_error ws jc = Some (wc, y) /\ nth_error ws ji = Some (wi, ci)
      /\ dist2 x wi < dist2 x wc
      /\ replaced ws jc (toward ((posterior_in sigma ws y x wc - posterior sigma ws x wc) / sigma) x wc) mid
      /\ replaced mid ji (toward (- (posterior sigma mid x wi / sigma)) x wi) ws').
Inductive lvq_steps (sigma : R) : list (list R * Z) -> list (list R * Z) -> list (list R * Z) -> Prop :=
| steps_nil ws : lvq_steps sigma [] ws ws
| steps_cons x y r ws ws1 ws2 : lvq_step sigma x y ws ws1 -> lvq_steps sigma r ws1 ws2 -> lvq_steps sigma ((x, y) :: r) ws ws2.
End Vectors.

(** Calls of partial_fit *)
Section Calls.
Context {T : Type} {N : Num T}.
Record rs_call := mk_call { k_xs : list (list T); k_ys : list Z; k_classes : @classes_arg; k_junk : nat -> list T * Z; k_noise : nat -> nat -> list T }.
Definition rs_do (cfg : rs_config T) (s : rs T) (k : rs_call) : res (rs T) := rs_fit cfg s (k_xs k) (k_ys k) (k_classes k) (k_junk k) (k_noise k).
Fixpoint rs_run (cfg : rs_config T) (s : rs T) (l : list rs_call) : res (rs T) :=
  match l with [] => Ok s | k :: r => s' <- rs_do cfg s k ;; rs_run cfg s' r end.
(** A new object without initial prototypes *)
Definition rs_new : rs T := mk_rs true [] [] None [] NoProtos.
Definition labels_seen (l : list rs_call) : list Z := flat_map k_ys l.
End Calls.
Arguments rs_call : clear implicits.
