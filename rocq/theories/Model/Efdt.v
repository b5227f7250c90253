(** ExtremelyFastDecisionTreeClassifier (trees/extremely_fast_decision_tree.py, trees/_nodes/efdtc_nodes.py), a Hoeffding tree whose split nodes keep
    learning and are re-evaluated.  Leaves, tests, candidates, routing and memory management are those of [HoeffdingTree] and
    [TreeSkeleton]; the simplifications made there hold here.  A split node, changed in place by the code, is replaced at its place;
    everything that acts on the whole tree (_enforce_tracker_limit) happens at the end of the walk, since the code stops there. *)
From Coq Require Import List ZArith Bool.
From Verif Require Import Base.Py Base.Num Base.Dict Model.Suggestion Model.Adwin Model.Knn Model.NaiveBayes Model.GaussianObs Model.NominalObs Model.SplitTests
  Model.SplitCriteria Model.TreeSkeleton Model.HoeffdingTree.
Import ListNotations.

(** EFDTSplitNode, efdtc_nodes.py 78-96: [es_seen] is _weight_seen_at_last_split_reevaluation *)
Record esplit (T : Type) := mk_es { es_stats : list (Z * T); es_obs : list (Z * cobs T); es_seen : T }.
Arguments mk_es {T}. Arguments es_stats {T}. Arguments es_obs {T}. Arguments es_seen {T}.

Section EFDT.
Context {T : Type} {N : Num T}.
Local Notation dist := (list (Z * T)).
Local Notation enode := (node (leaf T) dist (esplit T) (htest T)).
Local Notation sug := (suggestion (option (htest T)) (list dist) T).
Variables (k : T) (phi : T -> T) (key : T -> Z).
(** The constructor, extremely_fast_decision_tree.py 148-177: remove_poor_atts and no_preprune are False; min_samples_reevaluate *)
Variables (cfg : ht_config T) (min_reevaluate : T).

(** _new_learning_node and what the memory management needs *)
Definition efdt_ops : ops (list T) Z T (leaf T) dist (esplit T) (htest T) :=
  mk_ops (list T) Z T (leaf T) dist (esplit T) (htest T) (leaf_new []) (fun _ s => leaf_new (es_stats s)) lf_stats leaf_new (leaf_learn k key cfg)
    (fun d _ y w => Ok (update_stats d y w)) (fun l => (h_grace cfg <=? leaf_weight l - lf_last l)%num) (fun l => Ok (Keep l))
    (fun l => mk_es (lf_stats l) (lf_obs l) n0) (fun d => mk_es d [] n0)
    (ht_branch key) ht_multiway (ht_add key) ht_max
    (fun a b => let d n := match n with Active l => lf_stats l | Inactive d => d | Split _ s _ => es_stats s end in
                negb (promise (d (snd b)) <? promise (d (snd a)))%num).

(** get_best_split_suggestions without the null split, efdtc_nodes.py 36-63, sorted by merit *)
Definition candidates (pre : dist) (obs : list (Z * cobs T)) : res (list sug) :=
  bs <- mapM (fun io => best_of k phi cfg pre (fst io) (snd io)) obs ;;
  Ok (sort_stable (fun a b => negb (mgt (sg_merit a) (sg_merit b))) (flat_map (fun b => match b with Some s => [s] | None => [] end) bs)).
(** get_null_split, efdtc_nodes.py 12-34: -inf becomes 0.0 *)
Definition null_merit (pre : dist) : T := match cr_merit (h_crit cfg) pre [pre] with Some m => m | None => n0 end.
(** observed_class_distribution_is_pure, efdtc_nodes.py 199-215 *)
Definition pure (d : dist) : bool := Nat.ltb (length (filter (fun kv => negb (snd kv =? n0)%num) d)) 2.
Definition bound_of (pre : dist) : res T := hoeffding_bound (cr_range (h_crit cfg) pre) (h_confidence cfg) (vsum pre).
(** get_atts_test_depends_on()[0]; every candidate has a test *)
Definition att_of (s : sug) : Z := match sg_test s with Some te => ht_att te | None => -1 end.

(** A new split node with one new leaf per distribution: 430-440 and 521-531.  set_child cannot fail: there are as many
    distributions as branches *)
Definition new_split (te : htest T) (stats : dist) (obs : list (Z * cobs T)) (ds : list dist) : enode :=
  Split te (mk_es stats obs (vsum stats)) (combine (map Z.of_nat (seq 0 (length ds))) (map (fun d => Active (leaf_new d)) ds)).
(** count_nodes, efdtc_nodes.py 65-75, 163-182, 236-247: range(n_children) *)
Fixpoint count_nodes (t : enode) : Z * Z :=
  match t with
  | Split _ _ ch =>
      let sub := (fix go (l : list (Z * enode)) : list (Z * (Z * Z)) := match l with [] => [] | (b, c) :: r => (b, count_nodes c) :: go r end) ch in
      fold_left (fun acc i => match dget sub (Z.of_nat i) with Some c => (fst acc + fst c, snd acc + snd c)%Z | None => acc end) (seq 0 (length ch)) (1, 0)%Z
  | _ => (0, 1)%Z
  end.

(** _reevaluate_best_split up to its effect, 330-459 *)
Inductive verdict := Stay | Kill | Resplit (te : htest T) (ds : list dist) | Retest (te : htest T).
Definition reconsider (te : htest T) (stats : dist) (obs : list (Z * cobs T)) : res verdict :=
  if pure stats then Ok Stay else
  bs <- candidates stats obs ;;
  match rev bs with
  | [] => Ok Stay
  | best :: _ =>
      bound <- bound_of stats ;;
      if gap_gt (Some (null_merit stats)) (sg_merit best) bound then Ok Kill else
      match find (fun s => (att_of s =? ht_att te)%Z) (rev bs), sg_test best with
      | Some current, Some best_test =>
          Ok (if gap_gt (sg_merit best) (sg_merit current) bound || (bound <? h_tie cfg)%num
              then if (att_of best =? ht_att te)%Z then Retest best_test else Resplit best_test (sg_dists best)
              else Stay)
      | _, _ => Raise AttributeError
      end
  end.
(** _attempt_to_split up to its effect, 462-540 *)
Definition attempt (l : leaf T) : res (option (htest T * list dist)) :=
  if leaf_pure l then Ok None else
  bs <- candidates (lf_stats l) (lf_obs l) ;;
  match rev bs with
  | [] => Ok None
  | best :: _ =>
      bound <- bound_of (lf_stats l) ;;
      Ok (match sg_test best with
          | Some te => if gap_gt (sg_merit best) (Some (null_merit (lf_stats l))) bound || (bound <? h_tie cfg)%num then Some (te, sg_dists best) else None
          | None => None
          end)
  end.

(** _process_nodes, 239-297, with the replacements of 388-459, 515-540 and _kill_subtree 542-559.  The answer: the new node, how the
    counters of split nodes and active leaves change, and whether _enforce_tracker_limit is called. *)
Fixpoint process (growth : bool) (t : enode) (x : list T) (y : Z) (w : T) : res (enode * (Z * Z) * bool) :=
  match t with
  | Inactive _ => Ok (t, (0, 0)%Z, false)
  | Active l =>
      if growth && (h_grace cfg <=? leaf_weight l - lf_last l)%num then
        d <- attempt l ;;
        Ok (match d with
            | None => (Active (mk_leaf (lf_stats l) (lf_obs l) (lf_mc l) (lf_nb l) (leaf_weight l)), (0, 0)%Z, false)
            | Some (te, ds) => (new_split te (lf_stats l) (lf_obs l) ds, (1, Z.of_nat (length ds) - 1)%Z, true)
            end)
      else Ok (t, (0, 0)%Z, false)
  | Split te st ch =>
      obs <- update_observers key (h_nominal cfg) (es_obs st) 0 x y w ;;
      let stats := update_stats (es_stats st) y w in
      let st := mk_es stats obs (es_seen st) in
      v <- (if (min_reevaluate <=? vsum stats - es_seen st)%num then reconsider te stats obs else Ok Stay) ;;
      let c := count_nodes t in
      let down te :=
        b <- ht_branch key te x ;;
        if (0 <=? b)%Z then
          (fix look (l : list (Z * enode)) : res (enode * (Z * Z) * bool) :=
             match l with
             | [] => Ok (Split te st ch, (0, 0)%Z, false)
             | (i, n) :: r => if (i =? b)%Z then ' (n', d, e) <- process growth n x y w ;; Ok (Split te st (dset ch b n'), d, e) else look r
             end) ch
        else Ok (Split te st ch, (0, 0)%Z, false) in
      match v with
      | Kill => Ok (Active (mk_leaf stats obs n0 n0 n0), (- fst c, 1 - snd c)%Z, true)
      | Resplit te' ds => Ok (new_split te' stats obs ds, (1 - fst c, Z.of_nat (length ds) - snd c)%Z, true)
      | Retest te' => down te'
      | Stay => down te
      end
  end.

Variable sz : sizes T (leaf T) dist (esplit T) (htest T).
Local Notation etree := (tree T (leaf T) dist (esplit T) (htest T)).
(** _sort_instance_into_leaf, 299-328 *)
Definition sort_into_leaf (s : etree) (r : enode) (x : list T) (y : Z) (w : T) : res etree :=
  ' (p, n) <- route efdt_ops r x ;;
  s <- match n with
       | None => l <- leaf_learn k key cfg (leaf_new []) x y w ;; r' <- replace_at efdt_ops r p (Active l) ;; Ok (with_root s r' 0 1 0)
       | Some (Active l) => l' <- leaf_learn k key cfg l x y w ;; r' <- update_at r p (fun _ => Ok (Active l')) ;; Ok (with_root s r' 0 0 0)
       | Some (Inactive d) => r' <- update_at r p (fun _ => Ok (Inactive (update_stats d y w))) ;; Ok (with_root s r' 0 0 0)
       | Some (Split _ _ _) => Ok s
       end ;;
  if c_period_due (h_memory cfg) (t_weight s) then estimate efdt_ops (h_memory cfg) sz s else Ok s.
(** _partial_fit, 210-237 *)
Definition efdt_one (s : etree) (x : list T) (y : Z) (w : T) : res etree :=
  let '(s, r) := match t_root s with
                 | Some r => (s, r)
                 | None => let r := Active (leaf_new []) in
                           (mk_tree (Some r) (t_decision s) 1 (t_inactive s) (t_inactive_size s) (t_active_size s) (t_overhead s) (t_growth s) (t_weight s), r)
                 end in
  s <- sort_into_leaf s r x y w ;;
  r <- root_of s ;;
  ' (r', d, e) <- process (t_growth s) r x y w ;;
  let s := with_root s r' (fst d) (snd d) 0 in
  if e then enforce efdt_ops (h_memory cfg) s else Ok s.
(** The loop of partial_fit, 205-208 *)
Definition efdt_weighted (s : etree) (x : list T) (y : Z) (w : T) : res etree :=
  if (w =? n0)%num then Ok s else
  efdt_one (mk_tree (t_root s) (t_decision s) (t_active s) (t_inactive s) (t_inactive_size s) (t_active_size s) (t_overhead s) (t_growth s) (t_weight s + w)%num) x y w.
Fixpoint efdt_rows (s : etree) (rows : list (list T * Z)) (ws : list T) : res etree :=
  match rows, ws with
  | (x, y) :: r, w :: wr => s' <- efdt_weighted s x y w ;; efdt_rows s' r wr
  | [], _ => Ok s
  | _ :: _, [] => Raise IndexError
  end.
(** Lines 199-204: get_dimensions (utils/utils.py 12-36) counts one row in an array or list of numbers *)
Definition weights_used (n : nat) (ws : option (list T)) : res (list T) :=
  let ws := match ws with None => [n1] | Some ws => ws end in
  if Nat.eqb n 1 then Ok ws else match ws with w :: _ => Ok (repeat w n) | [] => Raise IndexError end.

Record efdt := mk_efdt { ef_tree : etree; ef_classes : option (list Z) }.
Definition efdt_new : efdt := mk_efdt tree_new None.
(** reset is inherited, hoeffding_tree.py 235-247 *)
Definition efdt_reset (s : efdt) : efdt := mk_efdt tree_new (ef_classes s).
(** partial_fit, 178-208 *)
Definition efdt_fit (s : efdt) (rows : list (list T * Z)) (classes : option (list Z)) (weights : option (list T)) : res efdt :=
  let c := match ef_classes s with None => classes | c => c end in
  ws <- weights_used (length rows) weights ;; t <- efdt_rows (ef_tree s) rows ws ;; Ok (mk_efdt t c).
(** predict and predict_proba are inherited, hoeffding_tree.py 355-437 *)
Definition efdt_votes (s : efdt) (x : list T) : res dist :=
  n <- answering efdt_ops (ef_tree s) x ;;
  match n with
  | None => Ok []
  | Some (Active l) => leaf_votes k key cfg l x
  | Some (Inactive d) => Ok d
  | Some (Split _ s _) => Ok (es_stats s)
  end.
Definition efdt_proba (s : efdt) (xs : list (list T)) : res (list (list T)) :=
  rows <- mapM (fun x => v <- efdt_votes s x ;; ht_row (ef_classes s) v) xs ;;
  Ok (match ef_classes s with Some _ => rows | None => pad_rows rows end).
Definition efdt_predict (s : efdt) (xs : list (list T)) : res (list nat) := p <- efdt_proba s xs ;; mapM np_argmax p.
End EFDT.
Arguments efdt : clear implicits.
