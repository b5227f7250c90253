(** Model of [ARFHoeffdingTreeClassifier] (trees/arf_hoeffding_tree.py) and [ARFHoeffdingTreeRegressor]
    (trees/arf_hoeffding_tree_regressor.py) with the leaves of trees/_nodes/arf_htc_nodes.py and arf_htr_nodes.py, as instances of the
    skeleton.

    Simplifications, beside those of Model/HoeffdingTree.v and Model/HoeffdingRegressor.v: the generator is not modelled.  An instance
    carries the features [choice(n_features, size=max_features, replace=False)] would answer were it asked now; [a_sample] is
    what numpy checks of its arguments.  feature_indices is a list, [] before the leaf's first sample. *)
From Coq Require Import List ZArith Bool.
From Verif Require Import Base.Py Base.Num Base.Dict Model.Adwin Model.SplitTests Model.SplitCriteria Model.Knn Model.NaiveBayes Model.TargetStats Model.TreeSkeleton
  Model.HoeffdingTree Model.HoeffdingRegressor.
Import ListNotations.

(** _sample_features, arf_htc_nodes.py 32-35: choice without replacement raises when more are asked for than there are, or fewer than none *)
Definition a_sample (max_features : Z) (n : nat) (pick : list Z) : res (list Z) :=
  if (Z.of_nat n <? max_features)%Z || (max_features <? 0)%Z then Raise ValueError else Ok pick.
(** update_attribute_observers, arf_htc_nodes.py 18-20: the features the leaf watches *)
Definition a_features (max_features : Z) (features : list Z) (n : nat) (pick : list Z) : res (list Z) :=
  match features with [] => a_sample max_features n pick | _ => Ok features end.

Section Arf.
Context {T : Type} {N : Num T}.
Variables (k : T) (phi : T -> T) (key : T -> Z).
Variables (cfg : ht_config T) (max_features : Z).
Local Notation dist := (list (Z * T)).

(** ** Classifier *)
Record arf_inst := mk_ai { ai_x : list T; ai_pick : list Z }.
(** RandomActiveLearningNodeMC/NB/NBA, arf_htc_nodes.py 38-114 *)
Record arf_leaf := mk_al { al_leaf : leaf T; al_features : list Z }.
Definition al_new (d : dist) : arf_leaf := mk_al (leaf_new d) [].
(** The loop of update_attribute_observers, arf_htc_nodes.py 22-31 *)
Definition a_observe (x : list T) (y : Z) (w : T) (obs : list (Z * cobs T)) (i : Z) : res (list (Z * cobs T)) :=
  let o := match dget obs i with Some o => o | None => co_new (h_nominal cfg i) end in
  v <- at_index x i ;; o' <- co_update key o v y w ;; Ok (dset obs i o').
(** learn_one, htc_nodes.py 26-28, 78-103, base.py 351-368 with the method above *)
Definition al_learn (l : arf_leaf) (i : arf_inst) (y : Z) (w : T) : res arf_leaf :=
  let lf := al_leaf l in
  ' (mc, nb) <- match h_kind cfg with NBA => nba_counters k key lf (ai_x i) y w | _ => Ok (lf_mc lf, lf_nb lf) end ;;
  fs <- a_features max_features (al_features l) (length (ai_x i)) (ai_pick i) ;;
  obs <- foldM (a_observe (ai_x i) y w) fs (lf_obs lf) ;;
  Ok (mk_al (mk_leaf (update_stats (lf_stats lf) y w) obs mc nb (lf_last lf)) fs).
(** disable_attribute is the one of ActiveLeaf for all kinds of leaf (base.py 482-492): RandomActiveLeafClass does not inherit from
    ActiveLearningNodeNB.  In [decide] this is what the majority class leaves do. *)
Definition a_cfg : ht_config T :=
  mk_ht (h_grace cfg) (h_crit cfg) (h_confidence cfg) (h_tie cfg) (h_binary cfg) (h_poor cfg) (h_no_preprune cfg) MC (h_nb_threshold cfg) (h_nominal cfg) (h_memory cfg).
(** _attempt_to_split is inherited: hoeffding_tree.py 548-633 *)
Definition al_decide (l : arf_leaf) : res (decision arf_leaf dist (htest T)) :=
  d <- decide k phi a_cfg (al_leaf l) ;;
  Ok (match d with
      | Keep lf => Keep (mk_al lf (al_features l)) | NullWins lf => NullWins (mk_al lf (al_features l))
      | SplitOn lf te ds => SplitOn (mk_al lf (al_features l)) te ds end).
(** _new_learning_node, arf_hoeffding_tree.py 112-136: every new leaf chooses anew *)
Definition arf_ops : ops arf_inst Z T arf_leaf dist dist (htest T) :=
  mk_ops arf_inst Z T arf_leaf dist dist (htest T) (al_new []) (fun _ d => al_new d) (fun l => lf_stats (al_leaf l)) al_new al_learn
    (fun d _ y w => Ok (update_stats d y w)) (fun l => (h_grace cfg <=? leaf_weight (al_leaf l) - lf_last (al_leaf l))%num) al_decide
    (fun l => lf_stats (al_leaf l)) (fun d => d)
    (fun te i => ht_branch key te (ai_x i)) ht_multiway (fun te i => ht_add key te (ai_x i)) ht_max
    (fun a b => let d n := match n with Active l => lf_stats (al_leaf l) | Inactive d => d | Split _ d _ => d end in
                negb (promise (d (snd b)) <? promise (d (snd a)))%num).
Local Notation tr := (tree T arf_leaf dist dist (htest T)).
Variable sz : sizes T arf_leaf dist dist (htest T).

Record arf := mk_arf { ar_tree : tr; ar_classes : option (list Z) }.
Definition arf_new : arf := mk_arf tree_new None.
(** reset, arf_hoeffding_tree.py 138-140, hoeffding_tree.py 235-247 *)
Definition arf_reset (s : arf) : arf := mk_arf tree_new (ar_classes s).
(** partial_fit is inherited: hoeffding_tree.py 287-301 *)
Fixpoint arf_rows (t : tr) (rows : list (arf_inst * Z)) (ws : list T) : res tr :=
  match rows, ws with
  | (x, y) :: r, w :: wr => t' <- fit_weighted arf_ops (h_memory cfg) sz t x y w ;; arf_rows t' r wr
  | _, _ => Ok t
  end.
Definition arf_fit (s : arf) (rows : list (arf_inst * Z)) (classes : option (list Z)) (weights : option (list T)) : res arf :=
  let c := match ar_classes s with None => classes | c => c end in
  let ws := match weights with Some ws => ws | None => repeat n1 (length rows) end in
  if Nat.eqb (length rows) (length ws) then t <- arf_rows (ar_tree s) rows ws ;; Ok (mk_arf t c) else Raise ValueError.
(** _get_votes_for_instance is inherited: hoeffding_tree.py 355-376; predict_one, htc_nodes.py 30-31, 65-69, 105-127 *)
Definition arf_votes (s : arf) (x : list T) : res dist :=
  n <- answering arf_ops (ar_tree s) (mk_ai x []) ;;
  match n with
  | None => Ok []
  | Some (Active l) => leaf_votes k key cfg (al_leaf l) x
  | Some (Inactive d) => Ok d
  | Some (Split _ d _) => Ok d
  end.
(** predict_proba is inherited: hoeffding_tree.py 400-437 *)
Definition arf_proba (s : arf) (xs : list (list T)) : res (list (list T)) :=
  rows <- mapM (fun x => v <- arf_votes s x ;; ht_row (ar_classes s) v) xs ;;
  Ok (match ar_classes s with Some _ => rows | None => pad_rows rows end).
(** predict is inherited: hoeffding_tree.py 378-398 *)
Definition arf_predict (s : arf) (xs : list (list T)) : res (list nat) := p <- arf_proba s xs ;; mapM np_argmax p.
End Arf.
Arguments arf_inst : clear implicits.
Arguments arf_leaf : clear implicits.
Arguments arf : clear implicits.

(** ** Regressor *)
Section ArfReg.
Context {T : Type} {N : Num T}.
Variables (key int_of : T -> Z) (cfg : htr_config T) (max_features : Z).
Local Notation st := (stat T unit).
Record arfr_inst := mk_ari { ari_inst : inst T; ari_pick : list Z }.
(** RandomActiveLearningNodeMean/Perceptron, arf_htr_nodes.py 44-98 *)
Record arfr_leaf := mk_arl { arl_leaf : rleaf T; arl_features : list Z }.
Definition arl_new (s : option st) (p : pweights T) : arfr_leaf := mk_arl (rleaf_new s p) [].
(** The loop of update_attribute_observers, arf_htc_nodes.py 22-31, with the observers of arf_htr_nodes.py 11-18 *)
Definition ar_observe (x : list T) (y w : T) (obs : list (Z * robs T)) (i : Z) : res (list (Z * robs T)) :=
  let o := match dget obs i with Some o => o | None => robs_new (r_nominal cfg i) end in
  v <- at_index x i ;; Ok (dset obs i (robs_update key o v y w)).
(** learn_one, base.py 351-368, htr_nodes.py 86-103.  The statistics and observers are updated before the weights; a call that raises
    forgets the state, and the model keeps which exception is raised first. *)
Definition arl_learn (l : arfr_leaf) (i : arfr_inst) (y w : T) : res arfr_leaf :=
  let lf := arl_leaf l in
  let s := rstats_add (rl_stats lf) y w in
  let x := i_x (ari_inst i) in
  fs <- a_features max_features (arl_features l) (length x) (ari_pick i) ;;
  obs <- foldM (ar_observe x y w) fs (rl_obs lf) ;;
  p <- pw_learn int_of cfg (rl_pw lf) s (ari_inst i) y w ;;
  Ok (mk_arl (mk_rleaf (Some s) obs (rl_last lf) p) fs).
(** _attempt_to_split is inherited: hoeffding_tree_regressor.py 404-500; manage_memory, arf_htr_nodes.py 20-41, is that of htr_nodes.py 25-44 *)
Definition arl_decide (l : arfr_leaf) : res (decision arfr_leaf (option st) (htest T)) :=
  d <- rdecide int_of cfg (arl_leaf l) ;;
  Ok (match d with
      | Keep lf => Keep (mk_arl lf (arl_features l)) | NullWins lf => NullWins (mk_arl lf (arl_features l))
      | SplitOn lf te ds => SplitOn (mk_arl lf (arl_features l)) te ds end).
(** _new_learning_node, arf_hoeffding_tree_regressor.py 96-118 *)
Definition arfr_ops : ops arfr_inst T T arfr_leaf (rinactive T) (option st) (htest T) :=
  mk_ops arfr_inst T T arfr_leaf (rinactive T) (option st) (htest T)
    (arl_new None PNone) (fun l d => arl_new d (rl_pw (arl_leaf l))) (fun l => mk_rinactive (rl_stats (arl_leaf l)) (rl_pw (arl_leaf l)))
    (fun i => arl_new (ri_stats i) (ri_pw i))
    arl_learn (fun d i => rinactive_learn int_of cfg d (ari_inst i)) (fun l => (r_grace cfg <=? weight_of (rl_stats (arl_leaf l)) - rl_last (arl_leaf l))%num) arl_decide
    (fun l => rl_stats (arl_leaf l)) ri_stats
    (fun te i => ht_branch key te (i_x (ari_inst i))) ht_multiway (fun te i => ht_add key te (i_x (ari_inst i))) ht_max
    (fun a b => Nat.leb (fst b) (fst a)).
Local Notation tr := (tree T arfr_leaf (rinactive T) (option st) (htest T)).
Variable sz : sizes T arfr_leaf (rinactive T) (option st) (htest T).
Record arfr := mk_arfr { arr_tree : tr; arr_sums : sums T }.
Definition arfr_new : arfr := mk_arfr tree_new sums_new.
(** reset, arf_hoeffding_tree_regressor.py 120-122, hoeffding_tree.py 235-247: the sums stay *)
Definition arfr_reset (s : arfr) : arfr := mk_arfr tree_new (arr_sums s).
(** _partial_fit is inherited: hoeffding_tree_regressor.py 335-402 *)
Definition arfr_one (s : arfr) (r : sample T * list Z) (w : T) : res arfr :=
  let '((x, y, draw), pick) := r in
  if (w =? n0)%num then Ok s else
  let g := sums_add (arr_sums s) x y w in
  t <- fit_weighted arfr_ops (r_memory cfg) sz (arr_tree s) (mk_ari (mk_inst x g draw) pick) y w ;; Ok (mk_arfr t g).
Fixpoint arfr_rows (s : arfr) (rows : list (sample T * list Z)) (ws : list T) : res arfr :=
  match rows, ws with
  | r :: rr, w :: wr => s' <- arfr_one s r w ;; arfr_rows s' rr wr
  | _, _ => Ok s
  end.
(** partial_fit is inherited: hoeffding_tree_regressor.py 296-333 *)
Definition arfr_fit (s : arfr) (rows : list (sample T * list Z)) (weights : option (list T)) : res arfr :=
  let ws := match weights with Some ws => ws | None => repeat n1 (length rows) end in
  if Nat.eqb (length rows) (length ws) then arfr_rows s rows ws else Raise ValueError.
(** predict is inherited: hoeffding_tree_regressor.py 404-432 *)
Definition arfr_value (s : arfr) (r : node arfr_leaf (rinactive T) (option st) (htest T)) (x : list T) : res (option T) :=
  ' (_, n) <- route arfr_ops r (mk_ari (mk_inst x (arr_sums s) (fun _ => n0)) []) ;;
  match n with
  | None => Raise AttributeError
  | Some (Active l) => leaf_value cfg (rl_stats (arl_leaf l)) (rl_pw (arl_leaf l)) (arr_sums s) x
  | Some (Inactive i) => leaf_value cfg (ri_stats i) (ri_pw i) (arr_sums s) x
  | Some (Split _ d _) => match d with Some d => Ok (quot (st_s d tt) (st_w d)) | None => Raise KeyError end
  end.
Definition arfr_predict (s : arfr) (xs : list (list T)) : res (list (option T)) :=
  match t_root (arr_tree s) with
  | Some r => if (n0 <? n_seen (arr_sums s))%num then mapM (arfr_value s r) xs else Ok [Some n0]
  | None => Ok [Some n0]
  end.
End ArfReg.
Arguments arfr_inst : clear implicits.
Arguments arfr_leaf : clear implicits.
Arguments arfr : clear implicits.
