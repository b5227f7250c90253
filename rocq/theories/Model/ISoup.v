(** Model of [iSOUPTreeRegressor] (trees/isoup_tree.py) with the leaves of trees/_nodes/isouptr_nodes.py, and of
    [StackedSingleTargetHoeffdingTreeRegressor] (trees/stacked_single_target_hoeffding_tree_regressor.py) with the leaves of
    trees/_nodes/sst_htr_nodes.py, as instances of the skeleton.  The five kinds of leaves differ in what they keep beside the
    statistics and in how they predict; this part is the argument [M : model] of the tree.

    Simplifications, beside those of Model/HoeffdingRegressor.v (whose configuration is reused without r_kind and r_python): all target
    vectors have the same number [n] of entries, and a target vector is a function of its index, read below [n]; a number that is nan or
    infinite is [None]; a row of weights with a nan is [None]; arrays of features of a length other than that of the sums raise ValueError
    (numpy stretches an array of length one, and the product with the weights raises then).  Every sample carries the numbers that the
    generator of a leaf would draw for its first weights. *)
From Coq Require Import List ZArith Bool.
From Verif Require Import Base.Py Base.Num Base.Dict Model.Suggestion Model.Adwin Model.TargetStats Model.Ebst Model.NominalObs Model.SplitTests
  Model.SplitCriteria Model.Knn Model.TreeSkeleton Model.HoeffdingTree Model.HoeffdingRegressor.
Import ListNotations.

Section Multi.
Context {T : Type} {N : Num T}.
Variables (key int_of : T -> Z) (cfg : htr_config T) (n : nat).
Local Notation st := (stat T nat).
Local Notation target := (nat -> T).

(** ** Sums over the whole stream: isoup_tree.py 192-196, 348-363; [None]: the 0.0 of the constructor *)
Record msums := mk_msums { g_seen : T; g_sum : target; g_sq : target; g_att : option (list T); g_attsq : option (list T) }.
Definition msums_new : msums := mk_msums n0 (fun _ => n0) (fun _ => n0) None None.
Definition m_iadd (acc : option (list T)) (v : list T) : list T :=
  match acc, v with
  | None, _ => v
  | Some a, [u] => map (fun z => (z + u)%num) a
  | Some a, _ => if Nat.eqb (length a) (length v) then map (fun p => (fst p + snd p)%num) (combine a v) else v
  end.
Definition msums_add (g : msums) (x : list T) (y : target) (w : T) : msums :=
  mk_msums (g_seen g + w)%num (fun i => g_sum g i + w * y i)%num (fun i => g_sq g i + w * y i * y i)%num
           (Some (m_iadd (g_att g) (map (fun v => (w * v)%num) x))) (Some (m_iadd (g_attsq g) (map (fun v => (w * v * v)%num) x))).
(** variance and sd, isoup_tree.py 244-248, 271-274, isouptr_nodes.py 56-58; [None] is inf (a positive number by zero; nan and -inf fail
    the test [variance >= 0.0]) *)
Definition m_sd (sq v seen : T) : option T :=
  let a := (sq - (v * v) / seen)%num in
  if (seen - n1 =? n0)%num then (if (n0 <? a)%num then None else Some n0)
  else let var := (a / (seen - n1))%num in Some (if (n0 <=? var)%num then nsqrt var else n0).
(** normalize_sample, isoup_tree.py 226-257 *)
Definition m_entry (seen : T) (p : T * (T * T)) : T :=
  let '(v, (s, q)) := p in match m_sd q s seen with Some d => if (d =? n0)%num then n0 else ((v - s / seen) / d)%num | None => n0 end.
Definition m_normalize (g : msums) (x : list T) : res (list T) :=
  if (g_seen g <=? n1)%num then Ok (repeat n0 (length x + 1)) else
  match g_att g, g_attsq g with
  | Some a, Some b => if Nat.eqb (length a) (length x) then Ok (map (m_entry (g_seen g)) (combine x (combine a b)) ++ [n1]) else Raise ValueError
  | _, _ => Raise ValueError
  end.
(** normalize_target_value, isoup_tree.py 259-281, entry [i]; [v] may be nan *)
Definition m_target (g : msums) (i : nat) (v : option T) : option T :=
  if (g_seen g <=? n1)%num then Some n0 else
  match m_sd (g_sq g i) (g_sum g i) (g_seen g) with
  | Some d => if (d =? n0)%num then Some n0 else match v with Some v => Some ((v - g_sum g i / g_seen g) / d)%num | None => None end
  | None => Some n0
  end.
(** stats[1] / stats[0] if len(stats) > 0 else 0.0, entry [i] *)
Definition m_mean (s : option st) (i : nat) : option T := match s with Some s => quot (st_s s i) (st_w s) | None => Some n0 end.
(** prediction * sd + mean, isouptr_nodes.py 54-60, entry [i] *)
Definition m_scale (g : msums) (i : nat) (v : option T) : option T :=
  match v, m_sd (g_sq g i) (g_sum g i) (g_seen g), quot (g_sum g i) (g_seen g) with Some v, Some d, Some m => Some (v * d + m)%num | _, _, _ => None end.

(** An instance as a leaf sees it: the features, the sums of the tree and the numbers the generator would draw for row i, column j of
    the first and of the second matrix of weights *)
Record minst := mk_minst { mi_x : list T; mi_sums : msums; mi_draw : nat -> nat -> T; mi_draw2 : nat -> nat -> T }.

(** ** What a leaf keeps beside statistics and observers *)
Record model := mk_model {
  M_T : Type;
  M_new : M_T;                   (** _new_learning_node() *)
  M_child : M_T -> M_T;          (** _new_learning_node(stats, parent): a branch leaf, or a leaf that is activated *)
  M_learn : M_T -> st -> minst -> target -> T -> res M_T;   (** the part of learn_one after the statistics and observers *)
  M_value : M_T -> option st -> msums -> list T -> res (nat -> option T) }.   (** predict_one *)

(** leaf_prediction = 'mean': htr_nodes.py 47-74 *)
Definition mean_model : model := mk_model unit tt (fun _ => tt) (fun _ _ _ _ _ => Ok tt) (fun _ s _ _ => Ok (m_mean s)).

(** Matrices of weights: the number of columns, and the rows *)
Record matrix := mk_matrix { mx_cols : nat; mx_rows : list (option (list T)) }.
(** _normalize_perceptron_weights, isouptr_nodes.py 90-95 *)
Definition m_unit (ws : list T) : option (list T) :=
  let s := nsum (map nabs ws) in if (s =? n0)%num then None else Some (map (fun v => (v / s)%num) ws).
Definition m_draw (draw : nat -> nat -> T) (cols : nat) : matrix :=
  mk_matrix cols (map (fun i => m_unit (map (draw i) (seq 0 cols))) (seq 0 n)).
(** np.matmul of the weights and a vector, which may have a nan; entry [i] *)
Definition m_row (m : matrix) (i : nat) : option (list T) := nth i (mx_rows m) None.
Definition m_dot (m : matrix) (x : option (list T)) (i : nat) : option T :=
  match m_row m i, x with Some ws, Some x => Some (dot ws x) | _, _ => None end.
(** weights += ratio * (Y_norm - Y_pred)[:, None] @ x[None, :], then normalised; isouptr_nodes.py 82-88 *)
Definition m_step (m : matrix) (ratio : T) (yn pred : nat -> option T) (x : option (list T)) : matrix :=
  mk_matrix (mx_cols m) (map (fun i => match m_row m i, yn i, pred i, x with
    | Some ws, Some y, Some p, Some x => m_unit (map (fun q => (fst q + ratio * (y - p) * snd q)%num) (combine ws x))
    | _, _, _, _ => None end) (seq 0 n)).
(** isouptr_nodes.py 38-42 *)
Definition m_ratio (s : st) : res T := if r_const cfg then Ok (r_ratio cfg) else pydiv (r_ratio cfg) (n1 + st_w s * r_decay cfg)%num.
Fixpoint times {A} (k : nat) (f : A -> res A) (a : A) : res A := match k with O => Ok a | S k => b <- f a ;; times k f b end.
Definition fits (m : matrix) (xn : list T) : res unit := if Nat.eqb (mx_cols m) (length xn) then Ok tt else Raise ValueError.

(** 'perceptron': LearningNodePerceptronMultiTarget, isouptr_nodes.py 10-95 *)
Definition p_update (g : msums) (x : list T) (y : target) (ratio : T) (m : matrix) : res matrix :=
  xn <- m_normalize g x ;; _ <- fits m xn ;;
  Ok (m_step m ratio (fun i => m_target g i (Some (y i))) (m_dot m (Some xn)) (Some xn)).
Definition p_start (m : option matrix) (i : minst) : matrix := match m with Some m => m | None => m_draw (mi_draw i) (length (mi_x i) + 1) end.
Definition p_learn (m : option matrix) (s : st) (i : minst) (y : target) (w : T) : res (option matrix) :=
  ratio <- m_ratio s ;;
  m <- times (Z.to_nat (int_of w)) (p_update (mi_sums i) (mi_x i) y ratio) (p_start m i) ;; Ok (Some m).
Definition p_value (m : option matrix) (s : option st) (g : msums) (x : list T) : res (nat -> option T) :=
  match m with
  | Some m => if (g_seen g <=? n1)%num then Ok (m_mean s) else
      xn <- m_normalize g x ;; _ <- fits m xn ;; Ok (fun i => m_scale g i (m_dot m (Some xn) i))
  | None => Ok (m_mean s)
  end.
Definition perceptron_model : model := mk_model (option matrix) None (fun m => m) p_learn p_value.

(** 'adaptive': LearningNodeAdaptiveMultiTarget, isouptr_nodes.py 98-158; fMAE_M and fMAE_P, isoup_tree.py 300-306.  A new leaf starts
    with errors 0; a leaf that is deactivated keeps them until it learns or is activated again. *)
Definition errors := nat -> option T.
Definition no_errors : errors := fun _ => Some n0.
Definition fade (e : option T) (a b : option T) : option T :=
  match e, a, b with Some e, Some a, Some b => Some (nofZ 95 / nofZ 100 * e + nabs (a - b))%num | _, _, _ => None end.
Record adaptive := mk_adaptive { ad_w : option matrix; ad_m : errors; ad_p : errors }.
Definition a_update (s : st) (g : msums) (x : list T) (y : target) (ratio : T) (c : matrix * errors * errors) : res (matrix * errors * errors) :=
  let '(m, em, ep) := c in
  xn <- m_normalize g x ;; _ <- fits m xn ;;
  let yn i := m_target g i (Some (y i)) in
  let pred := m_dot m (Some xn) in
  Ok (m_step m ratio yn pred (Some xn), (fun i => fade (em i) (yn i) (m_target g i (m_mean (Some s) i))), (fun i => fade (ep i) (yn i) (pred i))).
Definition a_learn (a : adaptive) (s : st) (i : minst) (y : target) (w : T) : res adaptive :=
  ratio <- m_ratio s ;;
  ' (m, em, ep) <- times (Z.to_nat (int_of w)) (a_update s (mi_sums i) (mi_x i) y ratio) (p_start (ad_w a) i, ad_m a, ad_p a) ;;
  Ok (mk_adaptive (Some m) em ep).
Definition le_opt (a b : option T) : bool := match a, b with Some a, Some b => (a <=? b)%num | _, _ => false end.
Definition eq_opt (a b : option T) : bool := match a, b with Some a, Some b => (a =? b)%num | _, _ => false end.
Definition a_value (a : adaptive) (s : option st) (g : msums) (x : list T) : res (nat -> option T) :=
  match ad_w a with
  | Some m => if (g_seen g <=? n1)%num then Ok (m_mean s) else
      xn <- m_normalize g x ;; _ <- fits m xn ;;
      Ok (fun i => if le_opt (ad_p a i) (ad_m a i) then m_scale g i (m_dot m (Some xn) i) else m_mean s i)
  | None => Ok (m_mean s)
  end.
Definition adaptive_model : model := mk_model adaptive (mk_adaptive None no_errors no_errors) (fun a => mk_adaptive (ad_w a) no_errors no_errors) a_learn a_value.

(** SSTLearningNode, sst_htr_nodes.py 9-119: a second matrix predicts from the predictions of the first *)
Definition all_some (f : nat -> option T) : option (list T) :=
  fold_right (fun i r => match f i, r with Some v, Some l => Some (v :: l) | _, _ => None end) (Some []) (seq 0 n).
Definition with_bias (f : nat -> option T) : option (list T) := match all_some f with Some l => Some (l ++ [n1]) | None => None end.
Definition s_update (g : msums) (x : list T) (y : target) (ratio : T) (c : matrix * matrix) : res (matrix * matrix) :=
  let '(m, m2) := c in
  xn <- m_normalize g x ;; _ <- fits m xn ;;
  let yn i := m_target g i (Some (y i)) in
  let base := m_dot m (Some xn) in
  let b := with_bias base in
  Ok (m_step m ratio yn base (Some xn), m_step m2 ratio yn (m_dot m2 b) b).
Definition s_start (c : option (matrix * matrix)) (i : minst) : matrix * matrix :=
  match c with Some c => c | None => (m_draw (mi_draw i) (length (mi_x i) + 1), m_draw (mi_draw2 i) (n + 1)) end.
Definition s_learn (c : option (matrix * matrix)) (s : st) (i : minst) (y : target) (w : T) : res (option (matrix * matrix)) :=
  ratio <- m_ratio s ;;
  c <- times (Z.to_nat (int_of w)) (s_update (mi_sums i) (mi_x i) y ratio) (s_start c i) ;; Ok (Some c).
Definition s_value (c : option (matrix * matrix)) (s : option st) (g : msums) (x : list T) : res (nat -> option T) :=
  match c with
  | Some (m, m2) => xn <- m_normalize g x ;; _ <- fits m xn ;; Ok (fun i => m_scale g i (m_dot m2 (with_bias (m_dot m (Some xn))) i))
  | None => Ok (m_mean s)
  end.
Definition stacked_model : model := mk_model (option (matrix * matrix)) None (fun c => c) s_learn s_value.

(** SSTLearningNodeAdaptive, sst_htr_nodes.py 122-215; the new faded errors use stats[1] / stats[0] after the statistics are updated *)
Record stacked := mk_stacked { sa_w : option (matrix * matrix); sa_m : errors; sa_p : errors; sa_s : errors }.
Definition sa_update (s : st) (g : msums) (x : list T) (y : target) (ratio : T) (c : matrix * matrix * errors * errors * errors) : res (matrix * matrix * errors * errors * errors) :=
  let '(m, m2, em, ep, es) := c in
  xn <- m_normalize g x ;; _ <- fits m xn ;;
  let yn i := m_target g i (Some (y i)) in
  let base := m_dot m (Some xn) in
  let b := with_bias base in
  let meta := m_dot m2 b in
  Ok (m_step m ratio yn base (Some xn), m_step m2 ratio yn meta b, (fun i => fade (em i) (yn i) (m_target g i (m_mean (Some s) i))), (fun i => fade (ep i) (yn i) (base i)),
      (fun i => fade (es i) (yn i) (meta i))).
Definition sa_learn (a : stacked) (s : st) (i : minst) (y : target) (w : T) : res stacked :=
  ratio <- m_ratio s ;;
  let '(m, m2) := s_start (sa_w a) i in
  ' (m, m2, em, ep, es) <- times (Z.to_nat (int_of w)) (sa_update s (mi_sums i) (mi_x i) y ratio) (m, m2, sa_m a, sa_p a, sa_s a) ;;
  Ok (mk_stacked (Some (m, m2)) em ep es).
(** np.argmin of three numbers: the first nan, or the first of the smallest *)
Definition argmin3 (a b c : option T) : nat :=
  match a, b, c with
  | None, _, _ => 0 | Some _, None, _ => 1 | Some _, Some _, None => 2
  | Some a, Some b, Some c => if (b <? a)%num then (if (c <? b)%num then 2 else 1) else if (c <? a)%num then 2 else 0
  end.
(** The loop of predict_one, sst_htr_nodes.py 157-176, entry [i]: the mean, the perceptron or the stacked perceptron *)
Definition sa_choice (em ep es mean p sp : option T) : option T :=
  match argmin3 em ep es with
  | 0 => if eq_opt em ep && eq_opt ep es then p else mean
  | 1 => if eq_opt ep es then sp else p
  | _ => sp
  end.
Definition sa_value (a : stacked) (s : option st) (g : msums) (x : list T) : res (nat -> option T) :=
  match sa_w a with
  | Some (m, m2) =>
      xn <- m_normalize g x ;; _ <- fits m xn ;;
      let base := m_dot m (Some xn) in let meta := m_dot m2 (with_bias base) in
      Ok (fun i => sa_choice (sa_m a i) (sa_p a i) (sa_s a i) (m_mean s i) (m_scale g i (base i)) (m_scale g i (meta i)))
  | None => Ok (m_mean s)
  end.
Definition stacked_adaptive_model : model := mk_model stacked (mk_stacked None no_errors no_errors no_errors) (fun a => mk_stacked (sa_w a) no_errors no_errors no_errors) sa_learn sa_value.

(** ** Leaves *)
Variable M : model.
Local Notation P := (M_T M).
Inductive mobs := MNum (t : bst T nat) | MNom (d : list (Z * st)) | MNull.
Record mleaf := mk_mleaf { ml_stats : option st; ml_obs : list (Z * mobs); ml_last : T; ml_model : P }.
Record minactive := mk_minactive { mn_stats : option st; mn_model : P }.
Definition m_weight (s : option st) : T := match s with Some s => st_w s | None => n0 end.
Definition mleaf_new (s : option st) (p : P) : mleaf := mk_mleaf s [] (m_weight s) p.
(** update_stats, htr_nodes.py 51-60, on arrays *)
Definition mstats_add (s : option st) (y : target) (w : T) : st :=
  let d := mkS w (fun i => y i * w)%num (fun i => y i * y i * w)%num in match s with Some s => s_add s d | None => d end.
Definition mobs_new (nominal : bool) : mobs := if nominal then MNom [] else MNum Leaf.
Definition mobs_update (o : mobs) (v : T) (y : target) (w : T) : mobs :=
  match o with MNum t => MNum (bst_insert v y w t) | MNom d => MNom (nr_update d (Some (key v)) y w) | MNull => MNull end.
(** update_attribute_observers, base.py 426-437 *)
Fixpoint update_mobs (obs : list (Z * mobs)) (i : Z) (x : list T) (y : target) (w : T) : list (Z * mobs) :=
  match x with
  | [] => obs
  | v :: r => let o := match dget obs i with Some o => o | None => mobs_new (r_nominal cfg i) end in
              update_mobs (dset obs i (mobs_update o v y w)) (i + 1) r y w
  end.
(** learn_one, isouptr_nodes.py 14-45 *)
Definition mleaf_learn (l : mleaf) (i : minst) (y : target) (w : T) : res mleaf :=
  let s := mstats_add (ml_stats l) y w in
  p <- M_learn M (ml_model l) s i y w ;; Ok (mk_mleaf (Some s) (update_mobs (ml_obs l) 0 (mi_x i) y w) (ml_last l) p).
Definition minactive_learn (l : minactive) (i : minst) (y : target) (w : T) : res minactive :=
  let s := mstats_add (mn_stats l) y w in
  p <- M_learn M (mn_model l) s i y w ;; Ok (mk_minactive (Some s) p).

(** ** Split decision.  IntraClusterVarianceReductionSplitCriterion: np.mean gives a numpy number, so nothing raises *)
Local Notation sug := (suggestion (option (htest T)) (list (option st)) T).
Definition mmerit (pre : st) (post : list st) : option T := match ic_merit (seq 0 n) pre post with Ok m => Some m | Raise _ => None end.
Definition mbest_of (pre : st) (i : Z) (o : mobs) : res (option sug) :=
  match o with
  | MNum t =>
      s <- ebst_best (fun a b => mmerit pre [a; b]) pre t ;;
      Ok (Some (match sg_test s, sg_dists s with
                | Some v, Some (a, b) => mkSug (Some (TNum (mkNum i v true))) [Some a; Some b] (sg_merit s)
                | _, _ => mkSug None [None] (sg_merit s)
                end))
  | MNom d =>
      Ok (match nr_best (mmerit pre) pre (r_binary cfg) d with
          | Some s => Some (mkSug (Some (match sg_test s with Multiway b => TMulti (multi_new i b) | Binary a => TNom i a end)) (map Some (sg_dists s)) (sg_merit s))
          | None => None end)
  | MNull => Ok None
  end.
(** get_best_split_suggestions, base.py 439-480 *)
Definition mnull_split (pre : st) : sug := mkSug None [None] (mmerit pre [pre]).
Definition msuggestions (l : mleaf) (pre : st) : res (list sug) :=
  bs <- mapM (fun io => mbest_of pre (fst io) (snd io)) (ml_obs l) ;;
  Ok ((if r_no_preprune cfg then [] else [mnull_split pre]) ++ flat_map (fun b => match b with Some s => [s] | None => [] end) bs).
Definition mmerit_of (s : sug) : T := match sg_merit s with Some m => m | None => n0 end.
(** The merit is the Python number 0.0 of line 16 of the criterion *)
Definition mpy_merit (pre : st) (s : sug) : bool :=
  existsb (fun w => (w <? nofZ 5)%num) (match sg_test s with Some _ => map m_weight (sg_dists s) | None => [st_w pre] end).
Definition mmerit_ratio (pre : st) (a b : sug) : res (option T) :=
  if (mmerit_of b =? n0)%num then (if mpy_merit pre a && mpy_merit pre b then Raise ZeroDivisionError else Ok None) else Ok (Some (mmerit_of a / mmerit_of b)%num).
(** isoup_tree.py 504-519 *)
Fixpoint mpoor_atts (pre : st) (best : sug) (ratio : option T) (bound : T) (l : list sug) : res (list Z) :=
  match l with
  | [] => Ok []
  | s :: r =>
      match sg_test s with
      | None => mpoor_atts pre best ratio bound r
      | Some te =>
          q <- mmerit_ratio pre s best ;; p <- mpoor_atts pre best ratio bound r ;;
          Ok (match q, ratio with Some q, Some t => if (q <? t - nofZ 2 * bound)%num then ht_att te :: p else p | _, _ => p end)
      end
  end.
Definition mdisable (l : mleaf) (a : Z) : mleaf :=
  if dmem (ml_obs l) a then mk_mleaf (ml_stats l) (dset (ml_obs l) a MNull) (ml_last l) (ml_model l) else l.
(** manage_memory, htr_nodes.py 25-44 *)
Definition mmanage (l : mleaf) (pre : st) (ratio sdr e : T) : res mleaf :=
  obs <- mapM (fun io => o <- match snd io with
                              | MNum t => t' <- ebst_prune (fun a b => mmerit pre [a; b]) pre ratio sdr e t ;; Ok (MNum t')
                              | o => Ok o
                              end ;; Ok (fst io, o)) (ml_obs l) ;;
  Ok (mk_mleaf (ml_stats l) obs (ml_last l) (ml_model l)).
(** _attempt_to_split up to the decision, isoup_tree.py 449-566; then last_split_attempt_at = weight_seen *)
Definition mdecide (l : mleaf) : res (decision mleaf (option st) (htest T)) :=
  let touched l := mk_mleaf (ml_stats l) (ml_obs l) (m_weight (ml_stats l)) (ml_model l) in
  match ml_stats l with
  | None => Raise KeyError
  | Some pre =>
      bs <- msuggestions l pre ;;
      let bs := sort_stable (fun a b => negb (mgt (sg_merit a) (sg_merit b))) bs in
      let take l := match rev bs with
                    | best :: _ => match sg_test best with None => NullWins l | Some te => SplitOn l te (sg_dists best) end
                    | [] => Keep (touched l)
                    end in
      match rev bs with
      | best :: second :: _ =>
          bound <- hoeffding_bound vr_range (r_confidence cfg) (st_w pre) ;;
          let should := (n0 <? mmerit_of best)%num && ((mmerit_of second / mmerit_of best <? n1 - bound)%num || (bound <? r_tie cfg)%num) in
          if should then Ok (take l) else
          poor <- (if r_poor cfg then ratio <- mmerit_ratio pre second best ;; mpoor_atts pre best ratio bound bs else Ok []) ;;
          let l := fold_left mdisable poor l in
          if (n0 <? mmerit_of best)%num && (n0 <? mmerit_of second)%num then
            l <- mmanage l pre (mmerit_of second / mmerit_of best)%num (mmerit_of best) bound ;; Ok (Keep (touched l))
          else Ok (Keep (touched l))
      | _ => Ok (take l)
      end
  end.

(** ** The tree.  _new_learning_node, isoup_tree.py 283-317, stacked_single_target_hoeffding_tree_regressor.py 172-203; _partial_fit,
    isoup_tree.py 333-409, is the skeleton's *)
Definition mt_ops : ops minst target T mleaf minactive (option st) (htest T) :=
  mk_ops minst target T mleaf minactive (option st) (htest T)
    (mleaf_new None (M_new M)) (fun l d => mleaf_new d (M_child M (ml_model l))) (fun l => mk_minactive (ml_stats l) (ml_model l)) (fun i => mleaf_new (mn_stats i) (M_child M (mn_model i)))
    mleaf_learn minactive_learn (fun l => (r_grace cfg <=? m_weight (ml_stats l) - ml_last l)%num) mdecide ml_stats mn_stats
    (fun te i => ht_branch key te (mi_x i)) ht_multiway (fun te i => ht_add key te (mi_x i)) ht_max
    (fun a b => Nat.leb (fst b) (fst a)).
Local Notation tr := (tree T mleaf minactive (option st) (htest T)).
Variable sz : sizes T mleaf minactive (option st) (htest T).
(** [mt_set]: _n_targets_set *)
Record mt := mk_mt { mt_tree : tr; mt_sums : msums; mt_set : bool }.
Definition mt_new : mt := mk_mt tree_new msums_new false.
(** reset is inherited: hoeffding_tree.py 235-247 *)
Definition mt_reset (s : mt) : mt := mk_mt tree_new (mt_sums s) (mt_set s).
(** One sample: the features, the targets, the numbers of the generator *)
Record msample := mk_ms { ms_x : list T; ms_y : target; ms_draw : nat -> nat -> T; ms_draw2 : nat -> nat -> T }.
Definition mt_one (s : mt) (r : msample) (w : T) : res mt :=
  if (w =? n0)%num then Ok s else
  let g := msums_add (mt_sums s) (ms_x r) (ms_y r) w in
  t <- fit_weighted mt_ops (r_memory cfg) sz (mt_tree s) (mk_minst (ms_x r) g (ms_draw r) (ms_draw2 r)) (ms_y r) w ;; Ok (mk_mt t g (mt_set s)).
Fixpoint mt_rows (s : mt) (rows : list msample) (ws : list T) : res mt :=
  match rows, ws with r :: rr, w :: wr => s' <- mt_one s r w ;; mt_rows s' rr wr | _, _ => Ok s end.
(** partial_fit, isoup_tree.py 319-331 *)
Definition mt_fit (s : mt) (rows : list msample) (weights : option (list T)) : res mt :=
  let ws := match weights with Some ws => ws | None => repeat n1 (length rows) end in
  if Nat.eqb (length rows) (length ws) then mt_rows (mk_mt (mt_tree s) (mt_sums s) true) rows ws else Raise ValueError.
(** One row of predict, isoup_tree.py 432-440 *)
Definition mt_value (s : mt) (x : list T) : res (list (option T)) :=
  match t_root (mt_tree s) with
  | None => Raise AttributeError
  | Some r =>
      ' (_, u) <- route mt_ops r (mk_minst x (mt_sums s) (fun _ _ => n0) (fun _ _ => n0)) ;;
      f <- match u with
           | None => Raise AttributeError
           | Some (Active l) => M_value M (ml_model l) (ml_stats l) (mt_sums s) x
           | Some (Inactive i) => M_value M (mn_model i) (mn_stats i) (mt_sums s) x
           | Some (Split _ d _) => Ok (m_mean d)
           end ;;
      Ok (map f (seq 0 n))
  end.
(** predict, isoup_tree.py 411-442 *)
Definition mt_predict (s : mt) (xs : list (list T)) : res (list (list (option T))) :=
  if mt_set s then mapM (mt_value s) xs else Ok (map (fun _ => [Some n0]) xs).
End Multi.
Arguments msums : clear implicits. Arguments minst : clear implicits. Arguments model T : clear implicits. Arguments matrix : clear implicits.
Arguments mobs : clear implicits. Arguments msample : clear implicits.
Arguments mleaf {T} M. Arguments minactive {T} M. Arguments mt {T} M.
