(** Vocabulary for the adaptive leaves of the multi-target trees: what a leaf compared in each pass of learning, and faded errors. *)
From Coq Require Import List ZArith Bool Reals.
From Verif Require Import Base.Py Base.Num Model.TargetStats Model.Knn Model.TreeSkeleton Model.HoeffdingTree Model.HoeffdingRegressor Model.ISoup.
Import ListNotations.
Local Open Scope R_scope.

(** One pass: for each target the standardised target, the standardised mean of the leaf, the outputs of the perceptron and of the stacked
    perceptron before the pass changes the weights; [None] is not a number. *)
Record look := mk_look { k_target : nat -> option R; k_mean : nat -> option R; k_perceptron : nat -> option R; k_stacked : nat -> option R }.
(** How far a predictor was off for target [j] in the passes [ks] *)
Definition misses (pred : look -> nat -> option R) (j : nat) (ks : list look) : list (option R) :=
  map (fun k => match k_target k j, pred k j with Some t, Some v => Some (Rabs (t - v)) | _, _ => None end) ks.
(** The faded error: the sum of 0.95^age times the error, the newest error (the last) with age 0 *)
Fixpoint fading (ds : list (option R)) : option R :=
  match ds with
  | [] => Some 0
  | d :: r => match d, fading r with Some d, Some e => Some ((95 / 100) ^ length r * d + e) | _, _ => None end
  end.

Section Life.
Variables (int_of : R -> Z) (cfg : htr_config R) (n : nat).
(** The passes over one sample that change the perceptron's weights from [m] to [m'] *)
Inductive a_passes (s : stat R nat) (i : minst R) (y : nat -> R) (ratio : R) : matrix R -> list look -> matrix R -> Prop :=
| a_rest m : a_passes s i y ratio m [] m
| a_pass m xn ks m' : m_normalize (mi_sums i) (mi_x i) = Ok xn ->
    let yn := fun j => m_target (mi_sums i) j (Some (y j)) in
    a_passes s i y ratio (m_step n m ratio yn (m_dot m (Some xn)) (Some xn)) ks m' ->
    a_passes s i y ratio m (mk_look yn (fun j => m_target (mi_sums i) j (m_mean (Some s) j)) (m_dot m (Some xn)) (fun _ => None) :: ks) m'.
(** An adaptive leaf since it was created (or activated again), int(weight) passes per sample; [s] are the statistics of its targets *)
Inductive a_lived : adaptive -> list look -> Prop :=
| a_born w : a_lived (mk_adaptive w no_errors no_errors) []
| a_taught a ls s i y w ratio ks m a' : a_lived a ls -> m_ratio cfg s = Ok ratio -> a_passes s i y ratio (p_start n (ad_w a) i) ks m -> length ks = Z.to_nat (int_of w) ->
    a_learn int_of cfg n a s i y w = Ok a' -> ad_w a' = Some m -> a_lived a' (ls ++ ks).
(** The same with the two perceptrons of stacked single-target leaves *)
Inductive s_passes (s : stat R nat) (i : minst R) (y : nat -> R) (ratio : R) : matrix R * matrix R -> list look -> matrix R * matrix R -> Prop :=
| s_rest c : s_passes s i y ratio c [] c
| s_pass m m2 xn ks c' : m_normalize (mi_sums i) (mi_x i) = Ok xn ->
    let yn := fun j => m_target (mi_sums i) j (Some (y j)) in let base := m_dot m (Some xn) in let b := with_bias n base in
    s_passes s i y ratio (m_step n m ratio yn base (Some xn), m_step n m2 ratio yn (m_dot m2 b) b) ks c' ->
    s_passes s i y ratio (m, m2) (mk_look yn (fun j => m_target (mi_sums i) j (m_mean (Some s) j)) base (m_dot m2 b) :: ks) c'.
Inductive s_lived : stacked -> list look -> Prop :=
| s_born w : s_lived (mk_stacked w no_errors no_errors no_errors) []
| s_taught a ls s i y w ratio ks c a' : s_lived a ls -> m_ratio cfg s = Ok ratio -> s_passes s i y ratio (s_start n (sa_w a) i) ks c -> length ks = Z.to_nat (int_of w) ->
    sa_learn int_of cfg n a s i y w = Ok a' -> sa_w a' = Some c -> s_lived a' (ls ++ ks).
End Life.
(** What a leaf keeps beside the observers; nothing for a split node *)
Definition leaf_part {M : model R} (u : node (mleaf M) (minactive M) (option (stat R nat)) (htest R)) : option (M_T M * option (stat R nat)) :=
  match u with Active l => Some (ml_model M l, ml_stats M l) | Inactive l => Some (mn_model M l, mn_stats M l) | Split _ _ _ => None end.
