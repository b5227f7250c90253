(** Model of [HoeffdingAdaptiveTreeClassifier] (trees/hoeffding_adaptive_tree.py) with the nodes of trees/_nodes/hatc_nodes.py, as an instance of
    [AdaTree]; leaves, split tests and split decisions are those of [HoeffdingTree] (the leaves learn as those of 'nba' do).

    Simplifications: those of [AdaTree] and [HoeffdingTree]; the detector is an argument [det] ([adwin_det] is ADWIN); random_state is an
    integer, so that each leaf has a generator of its own that starts with this seed ([g_new]); when a call raises, the model forgets the
    state. *)
From Coq Require Import List ZArith Bool.
From Verif Require Import Base.Py Base.Num Base.Dict Model.Suggestion Model.Adwin Model.SplitTests Model.SplitCriteria Model.Knn Model.NaiveBayes
  Model.TreeSkeleton Model.HoeffdingTree Model.AdaTree.
Import ListNotations.

(** A drift detector: add_element followed by detected_change; estimation and width *)
Record det (T A : Type) := mk_det { d_new : A; d_see : A -> T -> res (A * bool); d_est : A -> T; d_width : A -> T }.
Arguments d_new {T A}. Arguments d_see {T A}. Arguments d_est {T A}. Arguments d_width {T A}.
(** ADWIN(), drift_detection/adwin.py: delta = 0.002 *)
Definition adwin_det {T : Type} {N : Num T} : det T (adwin T) :=
  mk_det T (adwin T) (adwin_init (nofZ 2 / nofZ 1000)%num)
    (fun a v => a <- adwin_add a v ;; r <- adwin_detect a ;; match r with Some p => Ok p | None => Raise RuntimeError end)
    adwin_estimation (fun a => nofZ (ad_width a)).

Section HAT.
Context {T A G : Type} {N : Num T}.
Local Notation dist := (list (Z * T)).
Variables (k : T) (phi : T -> T) (key : T -> Z).
(** The constructor's arguments, hoeffding_adaptive_tree.py 137-174: those of the Hoeffding tree and bootstrap_sampling *)
Variable cfg : ht_config T.
Variable bootstrap : bool.
Variable D : det T A.
(** RandomState(random_state) and poisson(1.0) *)
Variable g_new : G.
Variable poisson : G -> Z * G.

(** The leaves are ActiveLearningNodeNBA, hatc_nodes.py 49. *)
Definition nba_config : ht_config T :=
  mk_ht (h_grace cfg) (h_crit cfg) (h_confidence cfg) (h_tie cfg) (h_binary cfg) (h_poor cfg) (h_no_preprune cfg) NBA (h_nb_threshold cfg)
        (h_nominal cfg) (h_memory cfg).
(** AdaLearningNode.__init__, hatc_nodes.py 60-64 *)
Record aleaf := mk_al { al_leaf : leaf T; al_det : A; al_rng : G }.
Definition al_new (d : dist) : aleaf := mk_al (leaf_new d) (d_new D) g_new.
(** get_max_value_key, utils/utils.py 67-83 *)
Definition max_value_key (d : dist) : res Z := match d with [] => Ok 0%Z | _ => max_key d end.
(** add_element, detected_change, and the change is forgotten if the error has become smaller: hatc_nodes.py 101-112, 205-216 *)
Definition watch (a : A) (correct : bool) : res (A * bool) :=
  ' (a', change) <- d_see D a (if correct then n0 else n1) ;;
  Ok (a', change && negb (d_est D a' <? d_est D a)%num).
(** predict_one of a leaf, hatc_nodes.py 119-139; normalize_values_in_dict, utils/utils.py 39-64 *)
Definition al_votes (l : aleaf) (x : list T) : res dist :=
  d <- match h_kind cfg with
       | MC => Ok (lf_stats (al_leaf l))
       | NB => nb_votes k key x (lf_stats (al_leaf l)) (lf_obs (al_leaf l))
       | NBA => leaf_votes k key nba_config (al_leaf l) x
       end ;;
  let f := (vsum d * d_est D (al_det l) * d_est D (al_det l))%num in
  Ok (if (n0 <? f)%num then map (fun kv => (fst kv, (snd kv / f)%num)) d else d).
(** The weight of a sample: hatc_nodes.py 90-94 *)
Definition boot (g : G) (w : T) : T * G :=
  if bootstrap then let '(n, g) := poisson g in ((if (0 <? n)%Z then (w * nofZ n)%num else w), g) else (w, g).
(** learn_one of a leaf up to the attempt to split, hatc_nodes.py 87-117 *)
Definition al_learn (l : aleaf) (x : list T) (y : Z) (w : T) : res aleaf :=
  let '(w, g) := boot (al_rng l) w in
  v <- al_votes l x ;; m <- max_value_key v ;;
  ' (a, _) <- watch (al_det l) (y =? m)%Z ;;
  lf <- leaf_learn k key nba_config (al_leaf l) x y w ;;
  Ok (mk_al lf a g).
Definition al_due (l : aleaf) : bool := (h_grace cfg <=? leaf_weight (al_leaf l) - lf_last (al_leaf l))%num.
Definition al_decide (l : aleaf) : res (decision aleaf dist (htest T)) :=
  d <- decide k phi nba_config (al_leaf l) ;;
  let w lf := mk_al lf (al_det l) (al_rng l) in
  Ok (match d with Keep lf => Keep (w lf) | NullWins lf => NullWins (w lf) | SplitOn lf te ds => SplitOn (w lf) te ds end).

(** The bound, hatc_nodes.py 229-234: fDelta = .05 *)
Definition hat_bound (old walt wself : T) : T :=
  nsqrt (nofZ 2 * old * (n1 - old) * nln (nofZ 2 / (n1 / nofZ 20)) * (n1 / walt + n1 / wself))%num.
(** _new_learning_node and _new_split_node, hoeffding_adaptive_tree.py 214-224; inactive leaves are InactiveLearningNodeMC, which predict with
    their statistics, as split nodes do, hatc_nodes.py 272-273 *)
Definition hat_ops : aops (list T) Z T aleaf dist dist (htest T) A dist :=
  mk_aops (list T) Z T aleaf dist dist (htest T) A dist
    (al_new []) (fun _ d => al_new d) al_learn al_due al_decide (fun l => lf_stats (al_leaf l)) (fun l => lf_stats (al_leaf l))
    (fun l => if c_stop (h_memory cfg) then None else Some (al_new (lf_stats (al_leaf l))))
    (ht_branch key) (fun te b => ht_multiway te && (b <? 0)%Z) (ht_add key) ht_max
    (d_new D)
    (fun a p y => m <- match p with Some d => max_value_key d | None => Ok 0%Z end ;; watch a (y =? m)%Z)
    (d_est D) (d_width D) (fun l => d_est D (al_det l)) (fun l => d_width D (al_det l)) hat_bound
    al_votes (fun d _ => Ok d) (fun d _ => Ok d).
Local Notation hnode := (anode aleaf dist dist (htest T) A).

(** ** The tree *)
Record hat := mk_hat { hat_root : option hnode; hat_counts : counts; hat_classes : option (list Z); hat_weight : T }.
Definition hat_init : hat := mk_hat None (mk_counts 0 0 0 0 0 0) None n0.
(** reset, hoeffding_adaptive_tree.py 176-180: the root and the counters of the alternate trees *)
Definition hat_reset (s : hat) : hat :=
  let c := hat_counts s in mk_hat None (mk_counts (k_active c) (k_inactive c) (k_decision c) 0 0 0) (hat_classes s) (hat_weight s).
(** _partial_fit, hoeffding_adaptive_tree.py 183-190 *)
Definition hat_fit_one (s : hat) (x : list T) (y : Z) (w : T) : res hat :=
  let c := hat_counts s in
  let '(r, c) := match hat_root s with
                 | Some r => (r, c)
                 | None => (ALeaf (al_new []), mk_counts 1 (k_inactive c) (k_decision c) (k_alternate c) (k_pruned c) (k_switched c))
                 end in
  match r with
  | ADead d => Ok (mk_hat (Some (ADead (update_stats d y w))) c (hat_classes s) (hat_weight s))
  | _ => ' (r', over, c') <- alearn hat_ops true r x y w c ;;
         Ok (mk_hat (Some (match over with Some n => n | None => r' end)) c' (hat_classes s) (hat_weight s))
  end.
(** The loop of partial_fit, hoeffding_tree.py 296-299 *)
Fixpoint hat_rows (s : hat) (rows : list (list T * Z)) (ws : list T) : res hat :=
  match rows, ws with
  | (x, y) :: r, w :: wr =>
      s' <- (if (w =? n0)%num then Ok s else hat_fit_one (mk_hat (hat_root s) (hat_counts s) (hat_classes s) (hat_weight s + w)%num) x y w) ;;
      hat_rows s' r wr
  | _, _ => Ok s
  end.
(** partial_fit, hoeffding_tree.py 287-301 *)
Definition hat_fit (s : hat) (rows : list (list T * Z)) (classes : option (list Z)) (weights : option (list T)) : res hat :=
  let c := match hat_classes s with None => classes | c => c end in
  let ws := match weights with Some ws => ws | None => repeat n1 (length rows) end in
  if Nat.eqb (length rows) (length ws) then hat_rows (mk_hat (hat_root s) (hat_counts s) c (hat_weight s)) rows ws else Raise ValueError.

(** add_dict_values, utils/utils.py 184-215 *)
Definition add_dict_values (a b : dist) : dist :=
  fold_left (fun r kv => match dget r (fst kv) with Some v => dset r (fst kv) (v + snd kv)%num | None => dset r (fst kv) (snd kv) end) b a.
(** _get_votes_for_instance, hoeffding_adaptive_tree.py 193-211: nodes of alternate trees (-999) are left out *)
Definition hat_votes (s : hat) (x : list T) : res dist :=
  match hat_root s with
  | None => Ok []
  | Some (ADead d) => Ok (add_dict_values [] d)
  | Some r =>
      ns <- afound hat_ops r x (-1)%Z ;;
      foldM (fun acc nb => if (snd nb =? -999)%Z then Ok acc else v <- avote hat_ops (fst nb) x ;; Ok (add_dict_values acc v)) ns []
  end.
(** predict_proba and predict, hoeffding_tree.py 378-437 *)
Definition hat_proba (s : hat) (xs : list (list T)) : res (list (list T)) :=
  rows <- mapM (fun x => v <- hat_votes s x ;; ht_row (hat_classes s) v) xs ;;
  Ok (match hat_classes s with Some _ => rows | None => pad_rows rows end).
Definition hat_predict (s : hat) (xs : list (list T)) : res (list nat) := p <- hat_proba s xs ;; mapM np_argmax p.

(** Calls of partial_fit and reset *)
Inductive hat_op := HFit (rows : list (list T * Z)) (classes : option (list Z)) (weights : option (list T)) | HReset.
Definition hat_step (s : hat) (o : hat_op) : res hat := match o with HFit r c w => hat_fit s r c w | HReset => Ok (hat_reset s) end.
Definition hat_run (s : hat) (os : list hat_op) : res hat := foldM hat_step os s.
End HAT.
Arguments aleaf : clear implicits.
Arguments hat : clear implicits.
Arguments hat_op : clear implicits.
