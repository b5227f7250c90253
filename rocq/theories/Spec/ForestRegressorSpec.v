(** What users expect of an adaptive random forest for regression. *)
From Coq Require Import List ZArith Reals Bool.
From Verif Require Import Base.Py Base.Num Spec.Lists.
Import ListNotations.

(** A row as one member sees it: its number (the first is 1), the instance, the target and the random number of times it is to be learnt *)
Record rrow (X T : Type) := mk_rrow { q_n : nat; q_x : X; q_y : T; q_k : Z }.
Arguments mk_rrow {X T}. Arguments q_n {X T}. Arguments q_x {X T}. Arguments q_y {X T}. Arguments q_k {X T}.
Definition rsince {X T} (c : nat) (fs : list (rrow X T)) : list (rrow X T) := filter (fun f => Nat.ltb c (q_n f)) fs.
Fixpoint rfeed {X T} (n : nat) (rows : list (X * T)) (ks : list Z) : list (rrow X T) :=
  match rows with [] => [] | (x, y) :: rows => mk_rrow n x y (hd 0%Z ks) :: rfeed (S n) rows (tl ks) end.

Section Career.
Context {X T B E : Type} (t_fit : B -> X -> T -> Z -> res B) (t_predict : B -> X -> res T) (e_new : E) (e_add : E -> T -> T -> res E).
(** [career b fs b' e ps]: a tree that starts as [b], with a new evaluator, meets the rows [fs]; of each row with a positive number it is asked first, its answer
    goes with the target to the evaluator, and then it learns the row with the number as weight.  At the end it is [b'], the evaluator [e], and [ps] are the targets
    and answers. *)
Inductive career (b : B) : list (rrow X T) -> B -> E -> list (T * T) -> Prop :=
| career_none : career b [] b e_new []
| career_skip fs b' e ps f : career b fs b' e ps -> (q_k f <= 0)%Z -> career b (fs ++ [f]) b' e ps
| career_row fs b' e ps f p e' b'' : career b fs b' e ps -> (0 < q_k f)%Z -> t_predict b' (q_x f) = Ok p -> e_add e (q_y f) p = Ok e' -> t_fit b' (q_x f) (q_y f) (q_k f) = Ok b'' ->
    career b (fs ++ [f]) b'' e' (ps ++ [(q_y f, p)]).
End Career.

Local Open Scope R_scope.
(** The standard score of the last of the values [xs ++ [x]], moved from [-3, 3] to [0, 1]; the first value counts as -3, a value without spread as 0. *)
Definition sample_sd (l : list R) : R := sqrt (Rsqdev l / (INR (length l) - 1)).
Definition scored (xs : list R) (x : R) : R :=
  match xs with
  | [] => 0
  | _ => ((if Rlt_dec 0 (sample_sd (xs ++ [x])) then (x - Rmean (xs ++ [x])) / sample_sd (xs ++ [x]) else 0) + 3) / 6
  end.
(** The weight of a tree with error [e] among trees with the errors [es] *)
Definition tree_weight (es : list R) (e : R) : R := (Rsum es - e) / (INR (length es - 1) * Rsum es).
