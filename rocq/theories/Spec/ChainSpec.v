(** What the multi-output estimators do, in terms of base estimators and calls. *)
From Coq Require Import List ZArith Permutation Reals.
From Verif Require Import Base.Py Base.Num Model.Chains.
Import ListNotations.

(** Column [j] of a matrix *)
Definition col {T} `{Num T} (j : nat) (m : list (list T)) : list T := map (fun r => nth j r n0) m.

(** *** Calls since the object was last new, or since the last call of fit: the first one trains new copies of the base
    estimator with fit, the others train them further with partial_fit. *)
Section Calls.
Context {A : Type}.
Inductive kind := Refit (a : A) | More (a : A) | Renew.
Fixpoint epoch (st : option (A * list A)) (os : list kind) : option (A * list A) :=
  match os with
  | [] => st
  | Refit a :: os => epoch (Some (a, [])) os
  | More a :: os => epoch (match st with None => Some (a, []) | Some (f, r) => Some (f, r ++ [a]) end) os
  | Renew :: os => epoch None os
  end.
End Calls.
Arguments kind : clear implicits.

(** *** MultiOutputLearner *)
Section Multi.
Context {X T B : Type} {N : Num T} (L : tlearner X T B) (base : B).
Definition mkind (o : mop X T) : kind (list (X * list T) * option (list Z) * option (list T)) :=
  match o with MFit _ rows c w => Refit (rows, c, w) | MPartial _ rows c w => More (rows, c, w) | MReset => Renew end.
(** [k] columns in every y *)
Definition m_columns (k : nat) (o : mop X T) : Prop :=
  match o with MFit k' rows _ _ | MPartial k' rows _ _ => k' = k /\ Forall (fun r => length (snd r) = k) rows | MReset => True end.
(** One output of the samples *)
Definition output (j : nat) (rows : list (X * list T)) : list (X * T) := map (fun r => (fst r, nth j (snd r) n0)) rows.
(** Methods that have a parameter named classes have one named sample_weight too. *)
Definition usual_signatures : Prop :=
  (tl_fit_classes L = true -> tl_fit_weight L = true) /\ (tl_pfit_classes L = true -> tl_pfit_weight L = true).
(** A base estimator that learns output [j] alone; the methods get those of the two arguments they have. *)
Definition alone (j : nat) (calls : (list (X * list T) * option (list Z) * option (list T)) * list (list (X * list T) * option (list Z) * option (list T))) : B :=
  fold_left (fun b '(rows, c, w) => fst (tl_pfit L b (output j rows) (if tl_pfit_classes L then c else None) (if tl_pfit_weight L then w else None)))
    (snd calls)
    (let '(rows, c, w) := fst calls in fst (tl_fit L base (output j rows) (if tl_fit_classes L then c else None) (if tl_fit_weight L then w else None))).
(** The two calls agree in everything but the columns of y other than column [j]. *)
Definition same_output (j : nat) (o o' : mop X T) : Prop :=
  match o, o' with
  | MFit _ rows c w, MFit _ rows' c' w' | MPartial _ rows c w, MPartial _ rows' c' w' => output j rows = output j rows' /\ c = c' /\ w = w'
  | MReset, MReset => True
  | _, _ => False
  end.
(** A base estimator whose training never fails and that predicts one number per row *)
Definition sound : Prop :=
  (forall b rows c w, snd (tl_fit L b rows c w) = None) /\ (forall b rows c w, snd (tl_pfit L b rows c w) = None) /\
  (forall b xs, exists p, tl_predict L b xs = Ok p /\ length p = length xs).
End Multi.

(** *** Chains *)
Section Chain.
Context {T B G : Type} {N : Num T} (L : tlearner (list T) T B) (base : B).
Definition ckind (o : cop T) : kind (list (list T * list T)) :=
  match o with CFit _ rows => Refit rows | CPartial _ rows => More rows | CReset => Renew end.
Definition c_columns (k : nat) (o : cop T) : Prop :=
  match o with CFit k' rows | CPartial k' rows => k' = k /\ Forall (fun r => length (snd r) = k) rows | CReset => True end.
(** An instance followed by the values [y] of the first [j] targets of the chain *)
Definition extended (order : list nat) (j : nat) (x y : list T) : list T := x ++ map (fun i => nth i y n0) (firstn j order).
(** What member [j] learns: the value of target [order[j]], given x and the values of the targets before it in the chain *)
Definition lesson (order : list nat) (j : nat) (rows : list (list T * list T)) : list (list T * T) :=
  map (fun r => (extended order j (fst r) (snd r), nth (nth j order O) (snd r) n0)) rows.
Definition member (order : list nat) (j : nat) (calls : list (list T * list T) * list (list (list T * list T))) : B :=
  fold_left (fun b rows => fst (tl_pfit L b (lesson order j rows) None None)) (snd calls) (fst (tl_fit L base (lesson order j (fst calls)) None None)).
(** The members of a chain of [k] targets in the given order *)
Definition members (order : list nat) (k : nat) calls : list B := map (fun j => member order j calls) (seq 0 k).
(** The rows given to member [j] when the predictions are [P] *)
Definition asked (order : list nat) (j : nat) (xs P : list (list T)) : list (list T) := map (fun p => extended order j (fst p) (snd p)) (combine xs P).
(** shuffle permutes *)
Definition permutes (shuffle : list nat -> G -> list nat * G) : Prop := forall l g, Permutation l (fst (shuffle l g)).
End Chain.

(** *** Joint probability of binary labels under a chain: [q b row] is the probability of label 1 given by member [b] *)
Section Joint.
Context {B : Type} (q : B -> list R -> R).
Fixpoint joint (l : list B) (row : list R) (y : list Z) : R :=
  match l, y with
  | b :: l, v :: y => ((if Z.eqb v 1 then q b row else 1 - q b row) * joint l (row ++ [IZR v]) y)%R
  | _, _ => 1%R
  end.
Definition binary_labels (k : nat) (y : list Z) : Prop := length y = k /\ Forall (fun v => v = 0%Z \/ v = 1%Z) y.
(** predict_proba gives the two probabilities of the labels 0 and 1. *)
Definition gives_probabilities (L : tlearner (list R) R B) : Prop :=
  forall b row, tl_proba L b [row] = Ok [[(1 - q b row)%R; q b row]] /\ (0 <= q b row <= 1)%R.
End Joint.

(** Samples drawn one after the other *)
Inductive drawn {A G : Type} (draw : G -> res (A * G)) : nat -> G -> list A -> G -> Prop :=
| drawn_none g : drawn draw 0 g [] g
| drawn_more g a g1 n l g2 : draw g = Ok (a, g1) -> drawn draw n g1 l g2 -> drawn draw (S n) g (a :: l) g2.
