(** Model of [HoeffdingTreeRegressor] (trees/hoeffding_tree_regressor.py) with the leaves of trees/_nodes/htr_nodes.py and
    trees/_nodes/base.py, as an instance of the skeleton.

    Simplifications: an instance is a list of numbers, a target a number; [key] gives the dictionary key of a nominal value;
    [int_of] is int(.) on weights; a quotient by zero of numpy numbers (nan or inf) is [None]; object sizes and the test
    [weight % memory_estimate_period == 0] are arguments.  Every sample carries the numbers that the generator of a leaf would
    draw if the leaf needs its first perceptron weights.  The merit of VarianceReductionSplitCriterion is always a number
    ([None], that is -inf, would need int(weight) = 0 for a weight of at least 5).  When a call raises, the model forgets the
    state. *)
From Coq Require Import List ZArith Bool.
From Verif Require Import Base.Py Base.Num Base.Dict Model.Suggestion Model.Adwin Model.TargetStats Model.Ebst Model.NominalObs Model.SplitTests
  Model.SplitCriteria Model.Knn Model.TreeSkeleton Model.HoeffdingTree.
Import ListNotations.

(** leaf_prediction: 'mean', 'perceptron' *)
Inductive reg_kind := Mean | Perceptron.

Section HTR.
Context {T : Type} {N : Num T}.
Local Notation st := (stat T unit).

(** A quotient of numpy numbers *)
Definition quot (a b : T) : option T := if (b =? n0)%num then None else Some (a / b)%num.

(** The constructor's arguments, hoeffding_tree_regressor.py 142-192.  [r_python]: the weights given to partial_fit are Python
    numbers (by default they are numpy numbers). *)
Record htr_config := mk_htr {
  r_grace : T; r_confidence : T; r_tie : T; r_binary : bool; r_poor : bool; r_no_preprune : bool;
  r_kind : reg_kind; r_nominal : Z -> bool; r_ratio : T; r_decay : T; r_const : bool; r_python : bool;
  r_memory : config T }.
(** External functions *)
Variables (key : T -> Z) (int_of : T -> Z).
Variable cfg : htr_config.

(** ** Sums over the whole stream: samples_seen, sum_of_values, sum_of_squares, sum_of_attribute_values,
    sum_of_attribute_squares ([None]: the list [] of the constructor), hoeffding_tree_regressor.py 187-191 *)
Record sums := mk_sums { n_seen : T; n_sum : T; n_sq : T; n_att : option (list T); n_attsq : option (list T) }.
Definition sums_new : sums := mk_sums n0 n0 n0 None None.
(** [acc += v], and [acc = v] on ValueError, hoeffding_tree_regressor.py 354-359.  [] + array is the sum of two arrays, and an
    array of length one is stretched to the length of the other operand (here to none). *)
Definition np_iadd (acc : option (list T)) (v : list T) : list T :=
  match acc, v with
  | None, [_] => []
  | None, _ => v
  | Some a, [u] => map (fun z => (z + u)%num) a
  | Some a, _ => if Nat.eqb (length a) (length v) then map (fun p => (fst p + snd p)%num) (combine a v) else v
  end.
(** hoeffding_tree_regressor.py 350-359 *)
Definition sums_add (s : sums) (x : list T) (y w : T) : sums :=
  mk_sums (n_seen s + w)%num (n_sum s + w * y)%num (n_sq s + w * y * y)%num
          (Some (np_iadd (n_att s) (map (fun v => (w * v)%num) x)))
          (Some (np_iadd (n_attsq s) (map (fun v => (w * v * v)%num) x))).
(** compute_sd, htr_nodes.py 214-219 *)
Definition compute_sd (sq v n : T) : T :=
  if (n1 <? n)%num then
    let a := (sq - (v * v) / n)%num in if (n0 <? a)%num then nsqrt (a / n)%num else n0
  else n0.
(** normalize_sample, hoeffding_tree_regressor.py 217-252 *)
Definition norm_entry (s : sums) (i : nat) (v : T) : res T :=
  if negb (r_nominal cfg (Z.of_nat i)) && (n1 <? n_seen s)%num then
    m <- py_get (match n_att s with Some a => a | None => [] end) (Z.of_nat i) ;;
    q <- py_get (match n_attsq s with Some a => a | None => [] end) (Z.of_nat i) ;;
    let sd := compute_sd q m (n_seen s) in
    Ok (if (n0 <? sd)%num then (v - m / n_seen s) / (nofZ 3 * sd) else n0)%num
  else Ok (if r_nominal cfg (Z.of_nat i) then v else n0).
Definition normalize (s : sums) (x : list T) : res (list T) :=
  l <- mapM (fun p => norm_entry s (fst p) (snd p)) (combine (seq 0 (length x)) x) ;;
  Ok (l ++ [if (n1 <? n_seen s)%num then n1 else n0]).
(** normalize_target_value, hoeffding_tree_regressor.py 254-273 *)
Definition norm_target (s : sums) (y : T) : T :=
  if (n1 <? n_seen s)%num then
    let sd := compute_sd (n_sq s) (n_sum s) (n_seen s) in
    if (n0 <? sd)%num then ((y - n_sum s / n_seen s) / (nofZ 3 * sd))%num else n0
  else n0.

(** ** Perceptron weights: None, an array with nan, or numbers *)
Inductive pweights := PNone | PNan | PW (ws : list T).
Definition nabs (v : T) : T := if (v <? n0)%num then (n0 - v)%num else v.
Definition nsum (l : list T) : T := fold_left nadd l n0.
Definition dot (a b : list T) : T := nsum (map (fun p => (fst p * snd p)%num) (combine a b)).
(** _update_weights, htr_nodes.py 117-141; dot raises for different lengths *)
Definition update_weights (s : sums) (x : list T) (y ratio : T) (p : pweights) : res pweights :=
  xn <- normalize s x ;;
  match p with
  | PW ws =>
      if Nat.eqb (length ws) (length xn) then
        let delta := (norm_target s y - dot ws xn)%num in
        let ws := map (fun p => (fst p + ratio * delta * snd p)%num) (combine ws xn) in
        let n := nsum (map nabs ws) in
        Ok (if (n =? n0)%num then PNan else PW (map (fun v => (v / n)%num) ws))
      else Raise ValueError
  | _ => Ok p
  end.
Fixpoint repeat_update (k : nat) (s : sums) (x : list T) (y ratio : T) (p : pweights) : res pweights :=
  match k with O => Ok p | S k => p' <- update_weights s x y ratio p ;; repeat_update k s x y ratio p' end.
(** An instance as a leaf sees it: the features, the sums of the tree and the numbers the generator would draw. *)
Record inst := mk_inst { i_x : list T; i_sums : sums; i_draw : nat -> T }.
(** LearningNodePerceptron.learn_one, htr_nodes.py 86-103; [sw] is stats[0] *)
Definition perceptron_learn (p : pweights) (sw : T) (i : inst) (y w : T) : res pweights :=
  let p := match p with PNone => PW (map (i_draw i) (seq 0 (length (i_x i) + 1))) | _ => p end in
  ratio <- (if r_const cfg then Ok (r_ratio cfg) else pydiv (r_ratio cfg) (n1 + sw * r_decay cfg)%num) ;;
  repeat_update (Z.to_nat (int_of w)) (i_sums i) (i_x i) y ratio p.

(** ** Leaves.  htr_nodes.py 47-141, base.py 343-408: [rl_stats] is {} or {0, 1, 2}, [rl_last] last_split_attempt_at *)
Inductive robs := RNum (t : bst T unit) | RNom (d : list (Z * st)) | RNull.
Record rleaf := mk_rleaf { rl_stats : option st; rl_obs : list (Z * robs); rl_last : T; rl_pw : pweights }.
Record rinactive := mk_rinactive { ri_stats : option st; ri_pw : pweights }.
(** total_weight, htr_nodes.py 64-74 *)
Definition weight_of (s : option st) : T := match s with Some s => st_w s | None => n0 end.
(** htr_nodes.py 76-84, base.py 343-346; without a parent the weights are None *)
Definition rleaf_new (s : option st) (p : pweights) : rleaf := mk_rleaf s [] (weight_of s) p.
(** update_stats, htr_nodes.py 51-60 *)
Definition rstats_add (s : option st) (y w : T) : st :=
  let d := mkS w (fun _ => y * w)%num (fun _ => y * y * w)%num in
  match s with Some s => s_add s d | None => d end.
(** update of an observer: numeric_attribute_regression_observer.py:74-81, nominal_attribute_regression_observer.py:16-33,
    attribute_observer_null.py:14-15 *)
Definition robs_new (nominal : bool) : robs := if nominal then RNom [] else RNum Leaf.
Definition robs_update (o : robs) (v y w : T) : robs :=
  match o with
  | RNum t => RNum (bst_insert v (fun _ => y) w t)
  | RNom d => RNom (nr_update d (Some (key v)) (fun _ => y) w)
  | RNull => RNull
  end.
(** update_attribute_observers, base.py 438-448 *)
Fixpoint update_robs (obs : list (Z * robs)) (i : Z) (x : list T) (y w : T) : list (Z * robs) :=
  match x with
  | [] => obs
  | v :: r =>
      let o := match dget obs i with Some o => o | None => robs_new (r_nominal cfg i) end in
      update_robs (dset obs i (robs_update o v y w)) (i + 1) r y w
  end.
Definition pw_learn (p : pweights) (s : st) (i : inst) (y w : T) : res pweights :=
  match r_kind cfg with Mean => Ok p | Perceptron => perceptron_learn p (st_w s) i y w end.
(** learn_one of an active leaf: base.py 351-368, htr_nodes.py 86-103 *)
Definition rleaf_learn (l : rleaf) (i : inst) (y w : T) : res rleaf :=
  let s := rstats_add (rl_stats l) y w in
  p <- pw_learn (rl_pw l) s i y w ;;
  Ok (mk_rleaf (Some s) (update_robs (rl_obs l) 0 (i_x i) y w) (rl_last l) p).
(** learn_one of an inactive leaf *)
Definition rinactive_learn (l : rinactive) (i : inst) (y w : T) : res rinactive :=
  let s := rstats_add (ri_stats l) y w in
  p <- pw_learn (ri_pw l) s i y w ;; Ok (mk_rinactive (Some s) p).
(** predict_one, htr_nodes.py 62-63, 105-115 *)
Definition mean_of (s : option st) : option T := match s with Some s => quot (st_s s tt) (st_w s) | None => Some n0 end.
Definition leaf_value (s : option st) (p : pweights) (g : sums) (x : list T) : res (option T) :=
  match r_kind cfg, p with
  | Mean, _ | Perceptron, PNone => Ok (mean_of s)
  | Perceptron, PNan => xn <- normalize g x ;; Ok None
  | Perceptron, PW ws =>
      xn <- normalize g x ;;
      if Nat.eqb (length ws) (length xn) then
        let sd := compute_sd (n_sq g) (n_sum g) (n_seen g) in
        Ok (match quot (n_sum g) (n_seen g) with Some m => Some (dot ws xn * sd * nofZ 3 + m)%num | None => None end)
      else Raise ValueError
  end.

(** ** Split decision *)
Local Notation sug := (suggestion (option (htest T)) (list (option st)) T).
(** VarianceReductionSplitCriterion.get_merit_of_split *)
Definition rmerit (pre : st) (post : list st) : option T :=
  match vr_merit (fun v => nofZ (int_of v)) pre post with Ok m => Some m | Raise _ => None end.
(** get_best_evaluated_split_suggestion of the observer of attribute [i] *)
Definition rbest_of (pre : st) (i : Z) (o : robs) : res (option sug) :=
  match o with
  | RNum t =>
      s <- ebst_best (fun a b => rmerit pre [a; b]) pre t ;;
      Ok (Some (match sg_test s, sg_dists s with
                | Some v, Some (a, b) => mkSug (Some (TNum (mkNum i v true))) [Some a; Some b] (sg_merit s)
                | _, _ => mkSug None [None] (sg_merit s)
                end))
  | RNom d =>
      Ok (match nr_best (rmerit pre) pre (r_binary cfg) d with
          | Some s => Some (mkSug (Some (match sg_test s with Multiway b => TMulti (multi_new i b) | Binary a => TNom i a end)) (map Some (sg_dists s)) (sg_merit s))
          | None => None end)
  | RNull => Ok None
  end.
(** get_best_split_suggestions, base.py 450-480 *)
Definition rnull_split (pre : st) : sug := mkSug None [None] (rmerit pre [pre]).
Definition rsuggestions (l : rleaf) (pre : st) : res (list sug) :=
  bs <- mapM (fun io => rbest_of pre (fst io) (snd io)) (rl_obs l) ;;
  Ok ((if r_no_preprune cfg then [] else [rnull_split pre]) ++ flat_map (fun b => match b with Some s => [s] | None => [] end) bs).
Definition merit_of (s : sug) : T := match sg_merit s with Some m => m | None => n0 end.
(** The merit is a Python number: the weights are, or it is the literal 0.0 of line 19 of the criterion *)
Definition py_merit (pre : st) (s : sug) : bool :=
  r_python cfg || existsb (fun w => (w <? nofZ 5)%num) (match sg_test s with Some _ => map weight_of (sg_dists s) | None => [st_w pre] end).
(** merit / merit: [Ok None] is nan *)
Definition merit_ratio (pre : st) (a b : sug) : res (option T) :=
  if (merit_of b =? n0)%num then (if py_merit pre a && py_merit pre b then Raise ZeroDivisionError else Ok None) else Ok (Some (merit_of a / merit_of b)%num).
(** The loop over remove_poor_atts, hoeffding_tree_regressor.py 458-470 *)
Fixpoint rpoor_atts (pre : st) (best : sug) (ratio : option T) (bound : T) (l : list sug) : res (list Z) :=
  match l with
  | [] => Ok []
  | s :: r =>
      match sg_test s with
      | None => rpoor_atts pre best ratio bound r
      | Some te =>
          q <- merit_ratio pre s best ;; p <- rpoor_atts pre best ratio bound r ;;
          Ok (match q, ratio with Some q, Some t => if (q <? t - nofZ 2 * bound)%num then ht_att te :: p else p | _, _ => p end)
      end
  end.
(** disable_attribute, base.py 482-492 *)
Definition rdisable (l : rleaf) (a : Z) : rleaf :=
  if dmem (rl_obs l) a then mk_rleaf (rl_stats l) (dset (rl_obs l) a RNull) (rl_last l) (rl_pw l) else l.
(** manage_memory, htr_nodes.py 25-44 *)
Definition rmanage (l : rleaf) (pre : st) (ratio sdr e : T) : res rleaf :=
  obs <- mapM (fun io => o <- match snd io with
                              | RNum t => t' <- ebst_prune (fun a b => rmerit pre [a; b]) pre ratio sdr e t ;; Ok (RNum t')
                              | o => Ok o
                              end ;; Ok (fst io, o)) (rl_obs l) ;;
  Ok (mk_rleaf (rl_stats l) obs (rl_last l) (rl_pw l)).
(** _attempt_to_split up to the decision, hoeffding_tree_regressor.py 441-500; then last_split_attempt_at = weight_seen *)
Definition rdecide (l : rleaf) : res (decision rleaf (option st) (htest T)) :=
  let touched l := mk_rleaf (rl_stats l) (rl_obs l) (weight_of (rl_stats l)) (rl_pw l) in
  match rl_stats l with
  | None => Raise KeyError
  | Some pre =>
      bs <- rsuggestions l pre ;;
      let bs := sort_stable (fun a b => negb (mgt (sg_merit a) (sg_merit b))) bs in
      let take l := match rev bs with
                    | best :: _ => match sg_test best with None => NullWins l | Some te => SplitOn l te (sg_dists best) end
                    | [] => Keep (touched l)
                    end in
      match rev bs with
      | best :: second :: _ =>
          bound <- hoeffding_bound vr_range (r_confidence cfg) (st_w pre) ;;
          let should := (n0 <? merit_of best)%num && ((merit_of second / merit_of best <? n1 - bound)%num || (bound <? r_tie cfg)%num) in
          poor <- (if r_poor cfg then ratio <- merit_ratio pre second best ;; rpoor_atts pre best ratio bound bs else Ok []) ;;
          let l := fold_left rdisable poor l in
          if should then Ok (take l)
          else if (n0 <? merit_of best)%num && (n0 <? merit_of second)%num then
            l <- rmanage l pre (merit_of second / merit_of best)%num (merit_of best) bound ;; Ok (Keep (touched l))
          else Ok (Keep (touched l))
      | _ => Ok (take l)
      end
  end.

(** ** The tree.  _new_learning_node, hoeffding_tree_regressor.py 275-294: a leaf made from another one copies its weights.
    _sort_learning_nodes, lines 502-505: the deepest first. *)
Definition htr_ops : ops inst T T rleaf rinactive (option st) (htest T) :=
  mk_ops inst T T rleaf rinactive (option st) (htest T)
    (rleaf_new None PNone) (fun l d => rleaf_new d (rl_pw l)) (fun l => mk_rinactive (rl_stats l) (rl_pw l)) (fun i => rleaf_new (ri_stats i) (ri_pw i))
    rleaf_learn rinactive_learn (fun l => (r_grace cfg <=? weight_of (rl_stats l) - rl_last l)%num) rdecide rl_stats ri_stats
    (fun te i => ht_branch key te (i_x i)) ht_multiway (fun te i => ht_add key te (i_x i)) ht_max
    (fun a b => Nat.leb (fst b) (fst a)).
Local Notation tr := (tree T rleaf rinactive (option st) (htest T)).
Variable sz : sizes T rleaf rinactive (option st) (htest T).

Record htr := mk_tr { hr_tree : tr; hr_sums : sums }.
Definition htr_new : htr := mk_tr tree_new sums_new.
(** reset is inherited: hoeffding_tree.py 235-247 *)
Definition htr_reset (s : htr) : htr := mk_tr tree_new (hr_sums s).
(** One sample of partial_fit: the features, the target, the numbers of the generator *)
Definition sample := (list T * T * (nat -> T))%type.
(** _partial_fit, hoeffding_tree_regressor.py 335-402, within the loop of lines 330-333 *)
Definition htr_one (s : htr) (r : sample) (w : T) : res htr :=
  let '(x, y, draw) := r in
  if (w =? n0)%num then Ok s else
  let g := sums_add (hr_sums s) x y w in
  t <- fit_weighted htr_ops (r_memory cfg) sz (hr_tree s) (mk_inst x g draw) y w ;; Ok (mk_tr t g).
Fixpoint htr_rows (s : htr) (rows : list sample) (ws : list T) : res htr :=
  match rows, ws with
  | r :: rr, w :: wr => s' <- htr_one s r w ;; htr_rows s' rr wr
  | _, _ => Ok s
  end.
(** partial_fit, hoeffding_tree_regressor.py 296-333 *)
Definition htr_fit (s : htr) (rows : list sample) (weights : option (list T)) : res htr :=
  let ws := match weights with Some ws => ws | None => repeat n1 (length rows) end in
  if Nat.eqb (length rows) (length ws) then htr_rows s rows ws else Raise ValueError.
(** One row of predict, hoeffding_tree_regressor.py 421-428 *)
Definition htr_value (s : htr) (r : node rleaf rinactive (option st) (htest T)) (x : list T) : res (option T) :=
  ' (_, n) <- route htr_ops r (mk_inst x (hr_sums s) (fun _ => n0)) ;;
  match n with
  | None => Raise AttributeError
  | Some (Active l) => leaf_value (rl_stats l) (rl_pw l) (hr_sums s) x
  | Some (Inactive i) => leaf_value (ri_stats i) (ri_pw i) (hr_sums s) x
  | Some (Split _ d _) => match d with Some d => Ok (quot (st_s d tt) (st_w d)) | None => Raise KeyError end
  end.
(** predict, hoeffding_tree_regressor.py 404-432 *)
Definition htr_predict (s : htr) (xs : list (list T)) : res (list (option T)) :=
  match t_root (hr_tree s) with
  | Some r => if (n0 <? n_seen (hr_sums s))%num then mapM (htr_value s r) xs else Ok [Some n0]
  | None => Ok [Some n0]
  end.
(** get_model_measurements / _measure_tree_depth, hoeffding_tree.py 460-470 *)
Definition htr_depth (s : htr) : nat := match t_root (hr_tree s) with Some r => depth r | None => 0 end.
End HTR.
Arguments htr_config : clear implicits.
Arguments sums : clear implicits.
Arguments inst : clear implicits.
Arguments pweights : clear implicits.
Arguments robs : clear implicits.
Arguments rleaf : clear implicits.
Arguments rinactive : clear implicits.
Arguments htr : clear implicits.
Arguments sample : clear implicits.
