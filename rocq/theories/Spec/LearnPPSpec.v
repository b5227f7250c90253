(** What Learn++ builds and how it votes, over the real numbers. *)
From Coq Require Import List ZArith Reals.
From Verif Require Import Base.Py Model.Windowed Model.LearnPP Spec.Lists Spec.NaiveBayesSpec.
Import ListNotations.
Local Open Scope R_scope.

Definition distribution (D : list R) : Prop := Forall (fun d => 0 <= d) D /\ Rsum D = 1.
(** The generator draws from every distribution, and only items of positive probability. *)
Definition fair_choice {G} (choose : list R -> nat -> G -> res (list nat * G)) : Prop := forall p n g, distribution p ->
  exists idx g', choose p n g = Ok (idx, g') /\ length idx = n /\ Forall (fun i => (i < length p)%nat /\ 0 < nth i p 0) idx.
(** The weighted share of wrong answers *)
Definition weighted_error (D : list R) (ys ps : list Z) : R :=
  Rsum (map (fun dyp => if Z.eq_dec (fst (snd dyp)) (snd (snd dyp)) then 0 else fst dyp) (combine D (combine ys ps))) / Rsum D.
(** The vote of a member with normalized error [e] *)
Definition vote_weight (e : R) : R := ln (1 / (e + 1 / 10 ^ 50)).
(** [row] holds the total votes of the labels 0 .. K-1 for the answers of the members. *)
Definition tally {B} (K : nat) (members : list (B * R)) (answers : list Z) (row : list R) : Prop := length row = K /\
  forall j, (j < K)%nat -> nth j row 0 = Rsum (map (fun ba => if Z.eq_dec (snd ba) (Z.of_nat j) then vote_weight (snd (fst ba)) else 0) (combine members answers)).
(** [c] is the first label with the greatest total vote of the members for [x]. *)
Definition voted {X B} (L : wlearner X R B) (K : nat) (members : list (B * R)) (x : X) (c : nat) : Prop :=
  exists answers row, Forall2 (fun be a => wl_predict L (fst be) [x] = Ok [a] /\ (0 <= a < Z.of_nat K)%Z) members answers /\
    tally K members answers row /\ first_greatest row c.
(** A member was tested on rows of the window drawn with positive weights, with an error [E] below the threshold, and [e] = E / (1 - E). *)
Definition tested {X B} (L : wlearner X R B) (threshold : R) (win : list (X * Z)) (be : B * R) : Prop :=
  exists D test p E, length test = Nat.div (length win) 2 /\ length D = length test /\ Forall (fun d => 0 < d) D /\ (forall r, In r test -> In r win) /\
    wl_predict L (fst be) (map fst test) = Ok p /\ length p = length test /\
    E = weighted_error D (map snd test) p /\ 0 <= E < threshold /\ snd be = E / (1 - E).
(** The members so far, voting together, had an error below the threshold on the window, under some distribution. *)
Definition approved {X B} (L : wlearner X R B) (threshold : R) (K : nat) (win : list (X * Z)) (members : list (B * R)) : Prop :=
  exists D c, distribution D /\ length D = length win /\ Forall2 (fun r l => voted L K members (fst r) l) win c /\
    weighted_error D (map snd win) (map Z.of_nat c) < threshold.
(** A copy of the base estimator trained, once or more, on half a window of rows of the window *)
Inductive half_trained {X T B} (L : wlearner X T B) (base : B) (win : list (X * Z)) : B -> Prop :=
| trained_first sub b : length sub = Nat.div (length win) 2 -> (forall r, In r sub -> In r win) -> wl_fit L base sub None = Ok b -> half_trained L base win b
| trained_again sub b b' : half_trained L base win b -> length sub = Nat.div (length win) 2 -> (forall r, In r sub -> In r win) -> wl_fit L b sub None = Ok b' -> half_trained L base win b'.
(** The ensemble of a window *)
Definition built {X B} (L : wlearner X R B) (base : B) (threshold : R) (n_estimators K : nat) (win : list (X * Z)) (ens : list (B * R)) : Prop :=
  (length ens <= n_estimators)%nat /\ Forall (fun be => half_trained L base win (fst be)) ens /\ forall k be, nth_error ens k = Some be -> tested L threshold win be /\ approved L threshold K win (firstn (S k) ens).
(** Estimators that answer labels 0 .. K-1, one per row *)
Definition nonneg_answers {X T B} (L : wlearner X T B) : Prop := forall b xs p, wl_predict L b xs = Ok p -> Forall (fun c => (0 <= c)%Z) p.
Definition answers_below {X T B} (L : wlearner X T B) (K : nat) : Prop :=
  (forall b rows, exists b', wl_fit L b rows None = Ok b') /\
  (forall b xs, exists p, wl_predict L b xs = Ok p /\ length p = length xs /\ Forall (fun c => (0 <= c < Z.of_nat K)%Z) p).
(** The rows given since the object was new or reset *)
Fixpoint lpp_given {X} (acc : list (X * Z)) (os : list (lop X)) : list (X * Z) :=
  match os with [] => acc | LFit rows _ :: os => lpp_given (acc ++ rows) os | LReset :: os => lpp_given [] os end.
(** Trained on any of the rows, the estimator answers right on all of them. *)
Definition learns_all {X T B} (L : wlearner X T B) (rows : list (X * Z)) : Prop := forall b sub, (forall r, In r sub -> In r rows) -> exists b', wl_fit L b sub None = Ok b' /\
  forall test, (forall r, In r test -> In r rows) -> wl_predict L b' (map fst test) = Ok (map snd test).
