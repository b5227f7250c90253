(** Vocabulary for the adaptive regression tree: the errors a leaf has made and the scores its detector is told. *)
From Coq Require Import List ZArith Reals Bool.
From Verif Require Import Base.Py Base.Num Base.Dict Model.Adwin Model.TargetStats Model.TreeSkeleton Model.HoeffdingTree Model.HoeffdingRegressor Model.AdaTree Model.HoeffdingAdaptive Model.HoeffdingAdaptiveRegressor
  Spec.Lists Spec.ForestRegressorSpec Spec.AdaSpec.
Import ListNotations.

Section Errors.
Context {T A G : Type} {N : Num T}.
Variables (key : T -> Z) (int_of : T -> Z) (cfg : htr_config T) (bootstrap : bool) (D : det T A) (g_new : G) (poisson : G -> Z * G) (uniform : G -> nat -> list T * G).
(** [erred l es]: the leaf [l] was created, was taught samples and has perhaps tried to split; before each sample its answer was off by the
    entry of [es] ([None]: the answer was not a number). *)
Inductive erred : arleaf T A G -> list (option T) -> Prop :=
| erred_new s p : erred (ar_new D g_new s p) []
| erred_learn l es x y w p l' : erred l es -> ar_value cfg l x = Ok p -> ar_learn key int_of cfg bootstrap D poisson uniform l x y w = Ok l' ->
    erred l' (es ++ [match p with Some p => Some (nabs (y - p)%num) | None => None end])
| erred_attempt l es l' : erred l es -> (exists d, ar_decide int_of cfg l = Ok d /\ match d with Keep l2 | NullWins l2 | SplitOn l2 _ _ => l' = l2 end) -> erred l' es.
(** A detector that was told the values [vs], the first first *)
Inductive told : list T -> A -> Prop :=
| told_new : told [] (d_new D)
| told_next vs a v a' change : told vs a -> d_see D a v = Ok (a', change) -> told (vs ++ [v]) a'.
(** The leaves of the tree and its alternate trees *)
Definition all_leaves (t : anode (arleaf T A G) unit (option (stat T unit)) (htest T) (welford T * A)) : list (arleaf T A G) :=
  flat_map (fun n => match n with ALeaf l => [l] | _ => [] end) (main_nodes t ++ alternates t).
End Errors.

(** ** The regression tree taught the same calls of partial_fit *)
Section Calls.
Context {T G : Type} {N : Num T}.
Variables (key : T -> Z) (int_of : T -> Z) (cfg : htr_config T) (g_new : G) (uniform : G -> nat -> list T * G).
Variable sz : sizes T (rleaf T) (rinactive T) (option (stat T unit)) (htest T).
(** The numbers a new generator draws for an instance *)
Definition first_draws (x : list T) : nat -> T := fun j => nth j (fst (uniform g_new (length x + 1))) n0.
Definition with_draws (rows : list (list T * T)) : list (sample T) := map (fun r => (fst r, snd r, first_draws (fst r))) rows.
Definition htr_calls (h : htr T) (calls : list (list (list T * T) * option (list T))) : res (htr T) :=
  foldM (fun h c => htr_fit key int_of cfg sz h (with_draws (fst c)) (snd c)) calls h.
(** A weight below the grace period; the weights of calls (1 by default) *)
Definition small (w : T) : Prop := (r_grace cfg <=? w - n0)%num = false.
Definition calls_small (calls : list (list (list T * T) * option (list T))) : Prop :=
  forall rows ws, In (rows, ws) calls -> match ws with Some ws => forall w, In w ws -> small w | None => small n1 end.
End Calls.

Local Open Scope R_scope.
(** The scores of errors, the first first: each is compared with itself and those before it. *)
Fixpoint scores_after (seen es : list R) : list R := match es with [] => [] | e :: r => scored seen e :: scores_after (seen ++ [e]) r end.
Definition scores (es : list R) : list R := scores_after [] es.
(** The samples with their weights (1 by default) taught since the last reset *)
Definition since_reset {T} {N : Num T} (os : list (hatr_op T)) (acc : list ((list T * T) * T)) : list ((list T * T) * T) :=
  fold_left (fun acc o => match o with
                          | TFit rows ws => acc ++ combine rows (match ws with Some ws => ws | None => repeat n1 (length rows) end)
                          | TReset => []
                          end) os acc.
