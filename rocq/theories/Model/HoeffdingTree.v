(** Model of [HoeffdingTreeClassifier] (trees/hoeffding_tree.py) with the leaves of trees/_nodes/htc_nodes.py and
    trees/_nodes/base.py, as an instance of the skeleton.

    Simplifications: an instance is a list of numbers, a label an integer; [key] gives the dictionary key of a nominal value
    (two values are equal when their keys are); the split criterion is a pair of functions ([cr_merit] answers [None] for
    -inf); [k] is math.sqrt(2 * math.pi) and [phi] the normal distribution function; object sizes and the test
    [weight % memory_estimate_period == 0] are arguments.  When a call raises, the model forgets the state. *)
From Coq Require Import List ZArith Bool.
From Verif Require Import Base.Py Base.Num Base.Dict Model.Suggestion Model.Adwin Model.GaussianObs Model.NominalObs Model.SplitTests
  Model.SplitCriteria Model.Knn Model.NaiveBayes Model.TreeSkeleton.
Import ListNotations.

(** leaf_prediction: 'mc', 'nb', 'nba' *)
Inductive leaf_kind := MC | NB | NBA.

Section HT.
Context {T : Type} {N : Num T}.
Local Notation dist := (list (Z * T)).

(** The split criterion: get_merit_of_split and get_range_of_merit *)
Record criterion := mk_crit { cr_merit : dist -> list dist -> option T; cr_range : dist -> T }.
(** InfoGainSplitCriterion with min_branch_frac_option=0.01; it never fails, see [info_gain_range] *)
Definition info_gain : criterion :=
  mk_crit (fun pre post => match ig_merit (n1 / nofZ 100)%num pre post with Ok m => m | Raise _ => None end) ig_range.
(** GiniSplitCriterion; a total weight of zero is the only failure *)
Definition gini : criterion := mk_crit (fun _ post => match gini_merit post with Ok m => Some m | Raise _ => None end) (fun _ => n1).

(** The constructor's arguments, hoeffding_tree.py 153-192 *)
Record ht_config := mk_ht {
  h_grace : T; h_crit : criterion; h_confidence : T; h_tie : T; h_binary : bool; h_poor : bool; h_no_preprune : bool;
  h_kind : leaf_kind; h_nb_threshold : T; h_nominal : Z -> bool;
  h_memory : config T }.
(** External functions *)
Variables (k : T) (phi : T -> T) (key : T -> Z).
Variable cfg : ht_config.

(** ** Split tests.  Nominal tests compare keys. *)
Inductive htest := TNum (t : numtest (T := T)) | TNom (att val : Z) | TMulti (t : multitest).
(** branch_for_instance: numeric_attribute_binary_test.py:12-18, nominal_attribute_binary_test.py:18-27, nominal_attribute_multiway_test.py:27-33 *)
Definition ht_branch (t : htest) (x : list T) : res Z :=
  match t with
  | TNum t => num_branch t x
  | TNom a v => if no_attribute a x then Ok (-1)%Z else u <- at_index x a ;; Ok (if (key u =? v)%Z then 0 else 1)%Z
  | TMulti t => multi_branch t (map key x)
  end.
(** max_branches *)
Definition ht_max (t : htest) : Z := match t with TMulti _ => -1 | _ => 2 end%Z.
Definition ht_multiway (t : htest) : bool := match t with TMulti _ => true | _ => false end.
Definition ht_att (t : htest) : Z := match t with TNum t => nt_att t | TNom a _ => a | TMulti t => mw_att t end.
(** add_new_branch(X[get_atts_test_depends_on()[0]]), hoeffding_tree.py 343-346 *)
Definition ht_add (t : htest) (x : list T) : res (htest * Z) :=
  match t with
  | TMulti t => v <- at_index (map key x) (mw_att t) ;; ' (t', b) <- multi_add t v ;; Ok (TMulti t', b)
  | _ => Raise AttributeError
  end.

(** ** Leaves.  htc_nodes.py 19-198, base.py 343-408: [lf_last] is last_split_attempt_at *)
Record leaf := mk_leaf { lf_stats : dist; lf_obs : list (Z * cobs T); lf_mc : T; lf_nb : T; lf_last : T }.
Definition leaf_new (d : dist) : leaf := mk_leaf d [] n0 n0 (vsum d).
(** update_stats, htc_nodes.py 19-24 *)
Definition update_stats (d : dist) (y : Z) (w : T) : dist :=
  match dget d y with Some v => dset d y (v + w)%num | None => dsort (dset d y w) end.
(** max(d, key=d.get): the first key with the greatest value *)
Definition max_key (d : dist) : res Z :=
  match d with
  | [] => Raise ValueError
  | kv :: r => Ok (fst (fold_left (fun best kv => if (snd best <? snd kv)%num then kv else best) r kv))
  end.
(** LearningNodeNBA.learn_one, htc_nodes.py 78-103: the two counters *)
Definition nba_counters (l : leaf) (x : list T) (y : Z) (w : T) : res (T * T) :=
  m <- match lf_stats l with [] => Ok 0%Z | _ => max_key (lf_stats l) end ;;
  v <- nb_votes k key x (lf_stats l) (lf_obs l) ;;
  b <- max_key v ;;
  Ok ((if (m =? y)%Z then (lf_mc l + w)%num else lf_mc l), (if (b =? y)%Z then (lf_nb l + w)%num else lf_nb l)).
(** learn_one of an active leaf: htc_nodes.py 26-28, 78-103, base.py 351-368, 438-448 *)
Definition leaf_learn (l : leaf) (x : list T) (y : Z) (w : T) : res leaf :=
  ' (mc, nb) <- match h_kind cfg with NBA => nba_counters l x y w | _ => Ok (lf_mc l, lf_nb l) end ;;
  obs <- update_observers key (h_nominal cfg) (lf_obs l) 0 x y w ;;
  Ok (mk_leaf (update_stats (lf_stats l) y w) obs mc nb (lf_last l)).
(** total_weight, htc_nodes.py 34-44 *)
Definition leaf_weight (l : leaf) : T := vsum (lf_stats l).
(** observed_class_distribution_is_pure, htc_nodes.py 45-60 *)
Definition leaf_pure (l : leaf) : bool := Nat.ltb (length (filter (fun kv => negb (snd kv =? n0)%num) (lf_stats l))) 2.
(** predict_one, htc_nodes.py 30-31, 65-69, 105-127 *)
Definition leaf_votes (l : leaf) (x : list T) : res dist :=
  match h_kind cfg with
  | MC => Ok (lf_stats l)
  | NB => if (h_nb_threshold cfg <=? leaf_weight l)%num then nb_votes k key x (lf_stats l) (lf_obs l) else Ok (lf_stats l)
  | NBA => if (lf_nb l <? lf_mc l)%num then Ok (lf_stats l) else nb_votes k key x (lf_stats l) (lf_obs l)
  end.
(** calculate_promise, base.py 118-132 *)
Definition promise (d : dist) : T :=
  if (n0 <? vsum d)%num then
    match dvals d with [] => n0 | v :: r => (vsum d - fold_left (fun m v => if (m <? v)%num then v else m) r v)%num end
  else n0.

(** ** Split decision *)
Local Notation sug := (suggestion (option htest) (list dist) T).
(** get_best_evaluated_split_suggestion of the observer of attribute [i]; the null observer has none *)
Definition best_of (pre : dist) (i : Z) (o : cobs T) : res (option sug) :=
  match o with
  | CNum g =>
      s <- go_best k phi 10 (fun a b => cr_merit (h_crit cfg) pre [a; b]) g ;;
      Ok (match s with Some s => Some (mkSug (Some (TNum (mkNum i (sg_test s) true))) [fst (sg_dists s); snd (sg_dists s)] (sg_merit s)) | None => None end)
  | CNom m =>
      Ok (match no_best (cr_merit (h_crit cfg) pre) (h_binary cfg) m with
          | Some s => Some (mkSug (Some (match sg_test s with Multiway b => TMulti (multi_new i b) | Binary a => TNom i a end)) (sg_dists s) (sg_merit s))
          | None => None end)
  | CNull => Ok None
  end.
(** get_best_split_suggestions, base.py 450-480 *)
Definition null_split (pre : dist) : sug := mkSug None [[]] (cr_merit (h_crit cfg) pre [pre]).
Definition suggestions (l : leaf) : res (list sug) :=
  bs <- mapM (fun io => best_of (lf_stats l) (fst io) (snd io)) (lf_obs l) ;;
  Ok ((if h_no_preprune cfg then [] else [null_split (lf_stats l)]) ++ flat_map (fun b => match b with Some s => [s] | None => [] end) bs).
(** _hoeffding_bound, hoeffding_tree.py 546 *)
Definition hoeffding_bound (range confidence n : T) : res T :=
  i <- pydiv n1 confidence ;; Ok (nsqrt ((range * range * nln i) / (nofZ 2 * n)))%num.
(** merit1 - merit2 > bound; -inf minus anything is not greater *)
Definition gap_gt (a b : option T) (bound : T) : bool :=
  match a, b with Some x, Some y => (bound <? x - y)%num | Some _, None => true | None, _ => false end.
(** The loop over remove_poor_atts, hoeffding_tree.py 598-610: the null split has no test *)
Fixpoint poor_atts (best : sug) (bound : T) (l : list sug) : res (list Z) :=
  match l with
  | [] => Ok []
  | s :: r =>
      match sg_test s with
      | None => Raise AttributeError
      | Some te => p <- poor_atts best bound r ;; Ok (if gap_gt (sg_merit best) (sg_merit s) bound then ht_att te :: p else p)
      end
  end.
(** disable_attribute, base.py 482-492; nothing in the leaves that use Naive Bayes, htc_nodes.py 164-175, 190-201 *)
Definition disable (l : leaf) (a : Z) : leaf :=
  match h_kind cfg with
  | MC => if dmem (lf_obs l) a then mk_leaf (lf_stats l) (dset (lf_obs l) a CNull) (lf_mc l) (lf_nb l) (lf_last l) else l
  | _ => l
  end.
(** _attempt_to_split up to the decision, hoeffding_tree.py 576-614; then last_split_attempt_at = weight_seen *)
Definition decide (l : leaf) : res (decision leaf dist htest) :=
  let touched l := mk_leaf (lf_stats l) (lf_obs l) (lf_mc l) (lf_nb l) (leaf_weight l) in
  if leaf_pure l then Ok (Keep (touched l)) else
  bs <- suggestions l ;;
  let bs := sort_stable (fun a b => negb (mgt (sg_merit a) (sg_merit b))) bs in
  let take l := match rev bs with
                | best :: _ => match sg_test best with None => NullWins l | Some te => SplitOn l te (sg_dists best) end
                | [] => Keep (touched l)
                end in
  match rev bs with
  | best :: second :: _ =>
      bound <- hoeffding_bound (cr_range (h_crit cfg) (lf_stats l)) (h_confidence cfg) (leaf_weight l) ;;
      poor <- (if h_poor cfg then poor_atts best bound bs else Ok []) ;;
      let l := fold_left disable poor l in
      Ok (if gap_gt (sg_merit best) (sg_merit second) bound || (bound <? h_tie cfg)%num then take l else Keep (touched l))
  | _ => Ok (take l)
  end.

(** ** The tree.  Inactive leaves keep their statistics only: InactiveLearningNodeMC *)
Definition ht_ops : ops (list T) Z T leaf dist dist htest :=
  mk_ops (list T) Z T leaf dist dist htest (leaf_new []) (fun _ d => leaf_new d) lf_stats leaf_new leaf_learn
    (fun d _ y w => Ok (update_stats d y w)) (fun l => (h_grace cfg <=? leaf_weight l - lf_last l)%num) decide lf_stats (fun d => d)
    ht_branch ht_multiway ht_add ht_max
    (fun a b => let d n := match n with Active l => lf_stats l | Inactive d => d | Split _ d _ => d end in
                negb (promise (d (snd b)) <? promise (d (snd a)))%num).
Variable sz : sizes T leaf dist dist htest.

Record ht := mk_htc { ht_tree : tree T leaf dist dist htest; ht_classes : option (list Z) }.
Definition ht_new : ht := mk_htc tree_new None.
(** reset, hoeffding_tree.py 235-247: [classes] stays *)
Definition ht_reset (s : ht) : ht := mk_htc tree_new (ht_classes s).
(** The loop of partial_fit, hoeffding_tree.py 296-299 *)
Fixpoint ht_rows (t : tree T leaf dist dist htest) (rows : list (list T * Z)) (ws : list T) : res (tree T leaf dist dist htest) :=
  match rows, ws with
  | (x, y) :: r, w :: wr => t' <- fit_weighted ht_ops (h_memory cfg) sz t x y w ;; ht_rows t' r wr
  | _, _ => Ok t
  end.
(** partial_fit, hoeffding_tree.py 287-301 *)
Definition ht_fit (s : ht) (rows : list (list T * Z)) (classes : option (list Z)) (weights : option (list T)) : res ht :=
  let c := match ht_classes s with None => classes | c => c end in
  let ws := match weights with Some ws => ws | None => repeat n1 (length rows) end in
  if Nat.eqb (length rows) (length ws) then t <- ht_rows (ht_tree s) rows ws ;; Ok (mk_htc t c) else Raise ValueError.

(** _get_votes_for_instance, hoeffding_tree.py 355-376 *)
Definition ht_votes (s : ht) (x : list T) : res dist :=
  n <- answering ht_ops (ht_tree s) x ;;
  match n with
  | None => Ok []
  | Some (Active l) => leaf_votes l x
  | Some (Inactive d) => Ok d
  | Some (Split _ d _) => Ok d
  end.
(** One row of predict_proba, hoeffding_tree.py 416-429.  When the greatest label is below -1, np.zeros raises ValueError; the model raises IndexError. *)
Definition ht_row (classes : option (list Z)) (votes : dist) : res (list T) :=
  match votes with
  | [] => Ok [n0]
  | _ =>
      let s := vsum votes in
      let votes := if (s =? n0)%num then votes else map (fun kv => (fst kv, (snd kv / s)%num)) votes in
      m <- zmax (match classes with Some c => c | None => dkeys votes end) ;;
      foldM (fun row kv => py_set row (fst kv) (snd kv)) votes (repeat n0 (Z.to_nat (m + 1)))
  end.
(** zip_longest(..., fillvalue=0.0) transposed twice: rows padded to the longest, hoeffding_tree.py 434-436 *)
Definition pad_rows (rows : list (list T)) : list (list T) :=
  let w := fold_left Nat.max (map (@length T) rows) 0%nat in
  map (fun r => r ++ repeat n0 (w - length r)) rows.
(** predict_proba, hoeffding_tree.py 400-437.  With [classes] given and rows of different lengths np.asarray makes an array of
    objects; the model keeps the rows. *)
Definition ht_proba (s : ht) (xs : list (list T)) : res (list (list T)) :=
  rows <- mapM (fun x => v <- ht_votes s x ;; ht_row (ht_classes s) v) xs ;;
  Ok (match ht_classes s with Some _ => rows | None => pad_rows rows end).
(** predict, hoeffding_tree.py 378-398 *)
Definition ht_predict (s : ht) (xs : list (list T)) : res (list nat) := p <- ht_proba s xs ;; mapM np_argmax p.

(** _measure_tree_depth, hoeffding_tree.py 460-470 *)
Definition ht_depth (s : ht) : nat := match t_root (ht_tree s) with Some r => depth r | None => 0 end.
End HT.
Arguments leaf : clear implicits.
Arguments criterion : clear implicits.
Arguments ht_config : clear implicits.
Arguments htest : clear implicits.
Arguments ht : clear implicits.
