(** Model of [HoeffdingAdaptiveTreeRegressor] (trees/hoeffding_adaptive_tree_regressor.py) with the nodes of trees/_nodes/hatr_nodes.py, as an
    instance of [AdaTree]; leaves, split tests and split decisions are those of [HoeffdingRegressor].

    Simplifications: those of [AdaTree] and [HoeffdingRegressor]; the detector is an argument ([adwin_det] is ADWIN); random_state is an
    integer, so that each leaf has a generator of its own that starts with this seed ([g_new]); [None] is a prediction, a mean or a sum that
    is nan or inf; math.sqrt does not raise (its argument is not negative, see [hatr_spread]); when a call raises, the model forgets the
    state. *)
From Coq Require Import List ZArith Bool.
From Verif Require Import Base.Py Base.Num Base.Dict Model.Suggestion Model.Adwin Model.TargetStats Model.Ebst Model.NominalObs Model.SplitTests
  Model.SplitCriteria Model.Knn Model.TreeSkeleton Model.HoeffdingTree Model.HoeffdingRegressor Model.AdaTree Model.HoeffdingAdaptive.
Import ListNotations.

Section HATR.
Context {T A G : Type} {N : Num T}.
Local Notation st := (stat T unit).
Variables (key : T -> Z) (int_of : T -> Z).
(** The constructor's arguments, hoeffding_adaptive_tree_regressor.py 124-160: those of the regression tree and bootstrap_sampling *)
Variable cfg : htr_config T.
Variable bootstrap : bool.
Variable D : det T A.
(** RandomState(random_state), poisson(1.0) and uniform(-1, 1, n) *)
Variable g_new : G.
Variable poisson : G -> Z * G.
Variable uniform : G -> nat -> list T * G.

(** ** The error a node monitors.  _n, _pM, _pS, hatr_nodes.py 33, 174 *)
Record welford := mk_wf { wf_n : Z; wf_mean : option T; wf_sq : option T }.
Definition wf_new : welford := mk_wf 0 (Some n0) (Some n0).
(** get_normalized_error, hatr_nodes.py 242-270: abs(y - prediction), Welford's update, the standard score, scaled from [-3, 3] to [0, 1] *)
Definition norm_error (s : welford) (y : T) (p : option T) : welford * T :=
  let n := (wf_n s + 1)%Z in
  let d := match p with Some p => Some (nabs (y - p)%num) | None => None end in
  if (n =? 1)%Z then (mk_wf n d (Some n0), n0) else
  match d, wf_mean s, wf_sq s with
  | Some d, Some m, Some q =>
      let m' := (m + (d - m) / nofZ n)%num in
      let q' := (q + (d - m) * (d - m'))%num in
      let sd := nsqrt (q' / nofZ (n - 1))%num in
      let z := if (n0 <? sd)%num then ((d - m') / sd)%num else n0 in
      (mk_wf n (Some m') (Some q'), ((z + nofZ 3) / nofZ 6)%num)
  | _, _, _ => (mk_wf n None None, (nofZ 3 / nofZ 6)%num)
  end.

(** ** Leaves.  They are ActiveLearningNodePerceptron whatever leaf_prediction says, hatr_nodes.py 147. *)
Definition perceptron_config : htr_config T :=
  mk_htr (r_grace cfg) (r_confidence cfg) (r_tie cfg) (r_binary cfg) (r_poor cfg) (r_no_preprune cfg) Perceptron (r_nominal cfg) (r_ratio cfg)
         (r_decay cfg) (r_const cfg) (r_python cfg) (r_memory cfg).
(** AdaActiveLearningNodeRegressor.__init__, hatr_nodes.py 168-174 *)
Record arleaf := mk_arl { ar_leaf : rleaf T; ar_wf : welford; ar_det : A; ar_rng : G }.
Definition ar_new (s : option st) (p : pweights T) : arleaf := mk_arl (rleaf_new s p) wf_new (d_new D) g_new.
(** What a node sees of a sample: the features and the sums over the stream, which already include it *)
Definition rx := (list T * sums T)%type.
(** predict_one, hatr_nodes.py 226-232 *)
Definition ar_value (l : arleaf) (x : rx) : res (option T) :=
  match r_kind cfg with
  | Mean => Ok (Some (match rl_stats (ar_leaf l) with Some s => if (n0 <? st_w s)%num then (st_s s tt / st_w s)%num else n0 | None => n0 end))
  | Perceptron => leaf_value perceptron_config (rl_stats (ar_leaf l)) (rl_pw (ar_leaf l)) (snd x) (fst x)
  end.
(** add_element, detected_change, and the change is forgotten if the error has become smaller: hatr_nodes.py 46-55, 207-215 *)
Definition rwatch (a : A) (v : T) : res (A * bool) :=
  ' (a', change) <- d_see D a v ;; Ok (a', change && negb (d_est D a' <? d_est D a)%num).
(** learn_one of a leaf up to the attempt to split, hatr_nodes.py 194-218; the first weights are drawn after the bootstrap weight. *)
Definition ar_learn (l : arleaf) (x : rx) (y w : T) : res arleaf :=
  p <- ar_value l x ;;
  let '(wf, v) := norm_error (ar_wf l) y p in
  let '(w, g) := boot bootstrap poisson (ar_rng l) w in
  ' (a, _) <- rwatch (ar_det l) v ;;
  let '(ws, g) := match rl_pw (ar_leaf l) with PNone => uniform g (length (fst x) + 1) | _ => ([], g) end in
  lf <- rleaf_learn key int_of perceptron_config (ar_leaf l) (mk_inst (fst x) (snd x) (fun j => nth j ws n0)) y w ;;
  Ok (mk_arl lf wf a g).
(** hatr_nodes.py 220-224 *)
Definition ar_due (l : arleaf) : bool := (r_grace cfg <=? weight_of (rl_stats (ar_leaf l)) - rl_last (ar_leaf l))%num.
Definition ar_decide (l : arleaf) : res (decision arleaf (option st) (htest T)) :=
  d <- rdecide int_of perceptron_config (ar_leaf l) ;;
  let w lf := mk_arl lf (ar_wf l) (ar_det l) (ar_rng l) in
  Ok (match d with Keep lf => Keep (w lf) | NullWins lf => NullWins (w lf) | SplitOn lf te ds => SplitOn (w lf) te ds end).

(** ** Split nodes *)
(** The bound, hatr_nodes.py 66-73 *)
Definition hatr_bound (old walt wself : T) : T :=
  let sq := (nofZ 2 * old * (n1 - old) * nln (nofZ 2 / (n1 / nofZ 20)) * (n1 / walt + n1 / wself))%num in
  if (n0 <? sq)%num then nsqrt sq else n0.
(** hatr_nodes.py 37-55: without a leaf the error is 0.0 *)
Definition rsee (wt : welford * A) (p : option (option T)) (y : T) : res ((welford * A) * bool) :=
  let '(wf, v) := match p with Some p => norm_error (fst wt) y p | None => (fst wt, n0) end in
  ' (a, change) <- rwatch (snd wt) v ;; Ok ((wf, a), change).
(** _new_learning_node and _new_split_node, hoeffding_adaptive_tree_regressor.py 162-179, 238-239.  A leaf that is deactivated becomes the class
    InactiveLearningNodeMean or InactiveLearningNodePerceptron itself, not an instance: [tt].  It is no leaf that could be activated, and
    its methods, called without an instance, raise TypeError.  (kill_tree_children would not count it, but n_leaves raises before.)
    A branch is added whatever the test, hatr_nodes.py 100-112. *)
Definition hatr_ops : aops rx T T arleaf unit (option st) (htest T) (welford * A) (option T) :=
  mk_aops rx T T arleaf unit (option st) (htest T) (welford * A) (option T)
    (ar_new None PNone) (fun l d => ar_new d (rl_pw (ar_leaf l))) ar_learn ar_due ar_decide (fun l => rl_stats (ar_leaf l)) (fun _ => tt)
    (fun _ => None)
    (fun te x => ht_branch key te (fst x)) (fun _ _ => true) (fun te x => ht_add key te (fst x)) ht_max
    (wf_new, d_new D) rsee
    (fun wt => d_est D (snd wt)) (fun wt => d_width D (snd wt)) (fun l => d_est D (ar_det l)) (fun l => d_width D (ar_det l)) hatr_bound
    ar_value (fun _ _ => Raise TypeError) (fun s _ => Ok (mean_of s)).
Local Notation rnode := (anode arleaf unit (option st) (htest T) (welford * A)).

(** ** The tree *)
Record hatr := mk_hatr { hatr_root : option rnode; hatr_counts : counts; hatr_sums : sums T }.
Definition hatr_init : hatr := mk_hatr None (mk_counts 0 0 0 0 0 0) sums_new.
(** reset is inherited, hoeffding_tree.py 235-247: it knows neither the sums nor the counters of the alternate trees. *)
Definition hatr_reset (s : hatr) : hatr :=
  let c := hatr_counts s in mk_hatr None (mk_counts 0 0 0 (k_alternate c) (k_pruned c) (k_switched c)) (hatr_sums s).
(** _partial_fit, hoeffding_adaptive_tree_regressor.py 181-212, in the loop of partial_fit, hoeffding_tree_regressor.py 330-333 *)
Definition hatr_one (s : hatr) (x : list T) (y w : T) : res hatr :=
  if (w =? n0)%num then Ok s else
  let g := sums_add (hatr_sums s) x y w in
  let c := hatr_counts s in
  let '(r, c) := match hatr_root s with
                 | Some r => (r, c)
                 | None => (ALeaf (ar_new None PNone), mk_counts 1 (k_inactive c) (k_decision c) (k_alternate c) (k_pruned c) (k_switched c))
                 end in
  ' (r', over, c') <- alearn hatr_ops true r (x, g) y w c ;;
  Ok (mk_hatr (Some (match over with Some n => n | None => r' end)) c' g).
Fixpoint hatr_rows (s : hatr) (rows : list (list T * T)) (ws : list T) : res hatr :=
  match rows, ws with
  | (x, y) :: r, w :: wr => s' <- hatr_one s x y w ;; hatr_rows s' r wr
  | _, _ => Ok s
  end.
(** partial_fit, hoeffding_tree_regressor.py 296-333 *)
Definition hatr_fit (s : hatr) (rows : list (list T * T)) (weights : option (list T)) : res hatr :=
  let ws := match weights with Some ws => ws | None => repeat n1 (length rows) end in
  if Nat.eqb (length rows) (length ws) then hatr_rows s rows ws else Raise ValueError.
(** One row of predict, hoeffding_tree_regressor.py 414-422 *)
Definition hatr_value (s : hatr) (r : rnode) (x : list T) : res (option T) :=
  n <- aroute hatr_ops r (x, hatr_sums s) ;;
  match n with
  | None => Raise AttributeError
  | Some (ALeaf l) => ar_value l (x, hatr_sums s)
  | Some (ADead _) => Raise TypeError
  | Some (ASplit _ d _ _ _) => match d with Some d => Ok (quot (st_s d tt) (st_w d)) | None => Raise KeyError end
  end.
(** predict, hoeffding_tree_regressor.py 398-426 *)
Definition hatr_predict (s : hatr) (xs : list (list T)) : res (list (option T)) :=
  match hatr_root s with
  | Some r => if (n0 <? n_seen (hatr_sums s))%num then mapM (hatr_value s r) xs else Ok [Some n0]
  | None => Ok [Some n0]
  end.

(** Calls of partial_fit and reset *)
Inductive hatr_op := TFit (rows : list (list T * T)) (weights : option (list T)) | TReset.
Definition hatr_step (s : hatr) (o : hatr_op) : res hatr := match o with TFit r w => hatr_fit s r w | TReset => Ok (hatr_reset s) end.
Definition hatr_run (s : hatr) (os : list hatr_op) : res hatr := foldM hatr_step os s.
End HATR.
Arguments welford : clear implicits.
Arguments arleaf : clear implicits.
Arguments hatr : clear implicits.
Arguments hatr_op : clear implicits.
