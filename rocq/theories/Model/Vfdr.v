(** VeryFastDecisionRulesClassifier (rules/very_fast_decision_rules.py, rules/base_rule.py, rules/base_predicate.py, rules/*_criterion.py,
    rules/*_observer.py).  The observers of rules/ count as those of trees/ do ([GaussianObs], [NominalObs]); only the choice of the best
    suggestion differs.

    Simplifications: an instance is a list of numbers, a label an integer; [key] gives the dictionary key of a nominal value (two values are
    equal when their keys are); [order] is the order in which Python walks through a set; [k] is math.sqrt(2 * math.pi) and [phi] the normal
    distribution function; a merit is a number or -inf ([None]); a division by a zero weight raises, as for Python floats, where numpy scalars
    answer nan.  A drift detector is a state with [det_add] and [det_change].  When a call raises, the model forgets the state. *)
From Coq Require Import List ZArith Bool.
From Verif Require Import Base.Py Base.Num Base.Dict Model.Suggestion Model.Adwin Model.Knn Model.NaiveBayes Model.GaussianObs Model.NominalObs Model.SplitTests
  Model.SplitCriteria Model.TreeSkeleton Model.HoeffdingTree.
Import ListNotations.

(** expand_criterion *)
Inductive ecriterion := InfoGain | Hellinger | FoilGain.
(** rule_prediction *)
Inductive rprediction := FirstHit | WeightedMax | WeightedSum.

(** Predicate(att_idx, operator, value), base_predicate.py 30-58, with the operators the learner uses: <=, >, =, != *)
Inductive pred (T : Type) := PLe (att : Z) (v : T) | PGt (att : Z) (v : T) | PEq (att v : Z) | PNe (att v : Z).
Arguments PLe {T}. Arguments PGt {T}. Arguments PEq {T}. Arguments PNe {T}.
(** Rule, base_rule.py 27-37 and very_fast_decision_rules.py 167-171 *)
Record rule (T D : Type) := mk_rule {
  r_dist : list (Z * T); r_obs : list (Z * cobs T); r_last : T; r_preds : list (pred T); r_class : option Z; r_det : option D }.
Arguments mk_rule {T D}. Arguments r_dist {T D}. Arguments r_obs {T D}. Arguments r_last {T D}. Arguments r_preds {T D}.
Arguments r_class {T D}. Arguments r_det {T D}.
(** The constructor's arguments, very_fast_decision_rules.py 938-970 *)
Record vfdr_config (T D : Type) := mk_vc {
  v_confidence : T; v_ordered : bool; v_grace : T; v_tie : T; v_prediction : rprediction; v_nominal : Z -> bool; v_max : Z;
  v_nb_threshold : T; v_nb : bool; v_detector : option D; v_criterion : ecriterion; v_poor : bool; v_min_weight : T }.
Arguments v_confidence {T D}. Arguments v_ordered {T D}. Arguments v_grace {T D}. Arguments v_tie {T D}. Arguments v_prediction {T D}.
Arguments v_nominal {T D}. Arguments v_max {T D}. Arguments v_nb_threshold {T D}. Arguments v_nb {T D}. Arguments v_detector {T D}.
Arguments v_criterion {T D}. Arguments v_poor {T D}. Arguments v_min_weight {T D}.
(** The ordered_rules setter, 1049-1056: an ordered set predicts by first hit *)
Definition vfdr_config_of {T D} confidence (ordered : bool) grace tie prediction nominal max threshold nb detector criterion poor min_weight : vfdr_config T D :=
  mk_vc T D confidence ordered grace tie (if ordered then FirstHit else prediction) nominal max threshold nb detector criterion poor min_weight.

Section VFDR.
Context {T D : Type} {N : Num T}.
Local Notation dist := (list (Z * T)).
Local Notation rule := (rule T D).
Local Notation sug := (suggestion (pred T) (dist * dist) T).
Variables (k : T) (phi : T -> T) (key : T -> Z) (order : list Z -> list Z).
Variables (det_add : D -> T -> res D) (det_change : D -> bool).
Variable cfg : vfdr_config T D.

(** *** Rules *)
(** covers_instance of a predicate, base_predicate.py 60-88 *)
Definition p_covers (p : pred T) (x : list T) : res bool :=
  match p with
  | PLe a v => u <- at_index x a ;; Ok (u <=? v)%num
  | PGt a v => u <- at_index x a ;; Ok (v <? u)%num
  | PEq a z => u <- at_index x a ;; Ok (key u =? z)%Z
  | PNe a z => u <- at_index x a ;; Ok (negb (key u =? z)%Z)
  end.
(** covers_instance of a rule, base_rule.py 62-79 *)
Fixpoint covers_all (ps : list (pred T)) (x : list T) : res bool :=
  match ps with [] => Ok true | p :: r => b <- p_covers p x ;; if b then covers_all r x else Ok false end.
Definition r_covers (r : rule) (x : list T) : res bool := covers_all (r_preds r) x.
(** get_weight_seen, very_fast_decision_rules.py 233-242 *)
Definition r_weight (r : rule) : T := vsum (r_dist r).
(** new_rule(None, detector, class_idx), 332-350: nothing has been seen *)
Definition rule_new (d : option D) (c : option Z) : rule := mk_rule [] [] n0 [] c d.
(** learn_from_instance, 197-231 *)
Definition r_learn (r : rule) (x : list T) (y : Z) (w : T) : res rule :=
  obs <- update_observers key (v_nominal cfg) (r_obs r) 0 x y w ;;
  Ok (mk_rule (update_stats (r_dist r) y w) obs (r_last r) (r_preds r) (r_class r) (r_det r)).
(** get_class_votes, 269-289 *)
Definition r_votes (r : rule) (x : list T) : res dist :=
  if (v_nb_threshold cfg <=? r_weight r)%num && v_nb cfg then nb_votes k key x (r_dist r) (r_obs r) else Ok (r_dist r).
(** disable_attribute, 291-301 *)
Definition r_disable (r : rule) (a : Z) : rule :=
  if dmem (r_obs r) a then mk_rule (r_dist r) (dset (r_obs r) a CNull) (r_last r) (r_preds r) (r_class r) (r_det r) else r.
(** predict, 309-330: 1 if the first label with the greatest weight is the true one *)
Definition r_correct (r : rule) (y : Z) : res T :=
  m <- match r_dist r with [] => Ok 0%Z | d => max_key d end ;; Ok (if (m =? y)%Z then n1 else n0).

(** *** Expand criteria: what the criterion object remembers between two splits *)
Record cmem := mk_cm { cm_lowest : option T; cm_best : bool; cm_class : Z }.   (* lowest_entropy; best_idx is 0; class_idx *)
Definition cm_new : cmem := mk_cm None true 0.
(** compute_entropy of info_gain_rule_criterion.py 49-62: one branch after the other *)
Definition ig_note (m : cmem) (first : bool) (e : T) : cmem :=
  match cm_lowest m with
  | Some l => if (e <? l)%num then mk_cm (Some e) first (cm_class m) else m
  | None => mk_cm (Some e) first (cm_class m)
  end.
(** get_merit_of_split, info_gain_rule_criterion.py 22-25 *)
Definition ig_rule_merit (m : cmem) (pre a b : dist) : res (option T * cmem) :=
  n <- he_num_loop (vtotal [a; b]) (n1 / nofZ 100)%num [a; b] 0 ;;
  if Nat.ltb n 2 then Ok (None, m) else
  e <- entropy_list [a; b] ;;
  Ok (Some (entropy_dict pre - e)%num, ig_note (ig_note m true (entropy_dict a)) false (entropy_dict b)).
(** get_merit_of_split, hellinger_distance_criterion.py 28-55 *)
Definition he_rule_merit (m : cmem) (pre a b : dist) : res (option T * cmem) :=
  n <- he_num_loop (vtotal [a; b]) (n1 / nofZ 100)%num [a; b] 0 ;;
  if Nat.ltb n 2 then Ok (None, m) else
  match dget a 1, dget a 0, dget b 1, dget b 0 with
  | Some lp, Some ln, Some rp, Some rn =>
      let tn := (ln + rn)%num in let tp := (lp + rp)%num in
      x1 <- pydiv lp tp ;; x2 <- pydiv ln tn ;; x3 <- pydiv rp tp ;; x4 <- pydiv rn tn ;;
      let d1 := ((nsqrt x1 - nsqrt x2) * (nsqrt x1 - nsqrt x2))%num in let d2 := ((nsqrt x3 - nsqrt x4) * (nsqrt x3 - nsqrt x4))%num in
      Ok (Some (nsqrt (d1 + d2)%num), mk_cm (cm_lowest m) (d2 <=? d1)%num (cm_class m))
  | _, _, _, _ => Ok (Some n0, m)
  end.
(** compute_entropy, foil_gain_rule_criterion.py 44-48: log2 of the share of the class, 0 when the label is absent; log2(0) is -inf ([None]) *)
Definition foil_log (d : dist) (c : Z) : res (option T) :=
  match dget d c with
  | None => Ok (Some n0)
  | Some v => r <- pydiv v (vsum d) ;; Ok (if (r =? n0)%num then None else Some (log2 r))
  end.
Definition oge (a b : option T) : bool := match a, b with _, None => true | None, Some _ => false | Some x, Some y => (y <=? x)%num end.
(** get_merit_of_split, foil_gain_rule_criterion.py 21-35.  A class of weight zero before the split, or in both branches, where numpy computes
    with infinities and nan, is answered by -inf. *)
Definition foil_merit (m : cmem) (pre a b : dist) : res (option T * cmem) :=
  n <- he_num_loop (vtotal [a; b]) (n1 / nofZ 100)%num [a; b] 0 ;;
  if Nat.ltb n 2 then Ok (None, m) else
  ea <- foil_log a (cm_class m) ;; eb <- foil_log b (cm_class m) ;;
  let first := oge ea eb in
  let e := if first then eb else ea in
  p <- foil_log pre (cm_class m) ;;
  let m := mk_cm (cm_lowest m) first (cm_class m) in
  Ok (match dget (if first then a else b) (cm_class m) with
      | None => Some n0
      | Some v => match e, p with Some e, Some p => Some (v * (e - p))%num | _, _ => None end
      end, m).
Definition rule_merit (m : cmem) (pre a b : dist) : res (option T * cmem) :=
  match v_criterion cfg with InfoGain => ig_rule_merit m pre a b | Hellinger => he_rule_merit m pre a b | FoilGain => foil_merit m pre a b end.
(** get_range_of_merit: info_gain_rule_criterion.py 28-31, hellinger_distance_criterion.py 58-61, foil_gain_rule_criterion.py 37-42 *)
Definition rule_range (d : dist) : T := match v_criterion cfg with FoilGain => log2 (nofZ (Z.of_nat (length d))) | _ => ig_range d end.

(** *** Suggestions *)
(** One candidate split: numeric_attribute_class_observer.py 53-63, nominal_attribute_class_observer.py 46-56 *)
Definition consider (pre : dist) (st : option sug * cmem) (p0 p1 : pred T) (a b : dist) : res (option sug * cmem) :=
  ' (merit, m) <- rule_merit (snd st) pre a b ;;
  Ok (keep_best (fst st) (mkSug (if cm_best m then p0 else p1) (a, b) merit), m).
(** get_best_evaluated_split_suggestion *)
Definition rule_best (pre : dist) (i : Z) (o : cobs T) (m : cmem) : res (option sug * cmem) :=
  match o with
  | CNum g => vs <- go_points 10 g ;;
              foldM (fun st v => ' (a, b) <- go_split k phi g v ;; consider pre st (PLe i v) (PGt i v) a b) vs (None, m)
  | CNom n => foldM (fun st v => match no_binary n v with [a; b] => consider pre st (PEq i v) (PNe i v) a b | _ => Ok st end)
                (order (no_values n)) (None, m)
  | CNull => Ok (None, m)
  end.
(** get_best_expand_suggestion, very_fast_decision_rules.py 244-267; class_idx is set on the criterion before every merit *)
Definition suggestions_of (d : dist) (obs : list (Z * cobs T)) (cls : option Z) (m : cmem) : res (list sug * cmem) :=
  foldM (fun st io => ' (s, m) <- rule_best d (fst io) (snd io) (snd st) ;; Ok (fst st ++ match s with Some s => [s] | None => [] end, m))
    obs ([], match cls with Some c => mk_cm (cm_lowest m) (cm_best m) c | None => m end).
(** sort(key=attrgetter('merit')) *)
Definition by_merit (l : list sug) : list sug := sort_stable (fun a b => negb (mgt (sg_merit a) (sg_merit b))) l.
(** compute_hoeffding_bound, 899-936 *)
Definition rule_bound (d : dist) : res T := hoeffding_bound (rule_range d) (v_confidence cfg) (vsum d).
(** should_expand, 551-568 and 641-652, with the bound when it has been computed: a single suggestion is taken without looking at it *)
Definition verdict (d : dist) (bs : list sug) : res (option sug * option T) :=
  match rev bs with
  | [] => Ok (None, None)
  | [best] => Ok (Some best, None)
  | best :: second :: _ =>
      bound <- rule_bound d ;;
      Ok (if gap_gt (sg_merit best) (sg_merit second) bound || (bound <? v_tie cfg)%num then Some best else None, Some bound)
  end.
(** merit1 - merit2 < bound *)
Definition gap_lt (a b : option T) (bound : T) : bool :=
  match a, b with Some x, Some y => (x - y <? bound)%num | None, Some _ => true | _, None => false end.
Definition pred_att (p : pred T) : Z := match p with PLe a _ | PGt a _ | PEq a _ | PNe a _ => a end.
(** poor_atts, 654-675: one scan adds, one scan removes *)
Definition poor_of (best : sug) (bound : T) (bs : list sug) : list Z :=
  let add := fold_left (fun acc s => if gap_gt (sg_merit best) (sg_merit s) bound then acc ++ [pred_att (sg_test s)] else acc) bs [] in
  fold_left (fun acc s => if gap_lt (sg_merit best) (sg_merit s) bound then filter (fun a => negb (a =? pred_att (sg_test s))%Z) acc else acc) bs add.

(** *** Expanding a rule *)
(** The part of the split a predicate keeps *)
Definition kept_side (p : pred T) (ds : dist * dist) : dist := match p with PLe _ _ | PEq _ _ => fst ds | PGt _ _ | PNe _ _ => snd ds end.
Definition nmin (a b : T) : T := if (b <? a)%num then b else a.
Definition nmax (a b : T) : T := if (a <? b)%num then b else a.
(** The loop over predicate_set, 681-693: the first predicate with the same attribute and operator is changed; [None] when there is none *)
Fixpoint merge (ps : list (pred T)) (p : pred T) : option (list (pred T)) :=
  match ps with
  | [] => None
  | q :: r =>
      match q, p with
      | PLe a v, PLe a' v' => if (a =? a')%Z then Some (PLe a (nmin v v') :: r) else option_map (cons q) (merge r p)
      | PGt a v, PGt a' v' => if (a =? a')%Z then Some (PGt a (nmax v v') :: r) else option_map (cons q) (merge r p)
      | PEq a _, PEq a' _ | PNe a _, PNe a' _ => if (a =? a')%Z then Some ps else option_map (cons q) (merge r p)
      | _, _ => option_map (cons q) (merge r p)
      end
  end.
Definition ordinal (p : pred T) : bool := match p with PLe _ _ | PGt _ _ => true | _ => false end.
(** 677-704 *)
Definition r_expand (r : rule) (s : sug) : rule * bool :=
  let p := sg_test s in
  match merge (r_preds r) p with
  | Some ps => (mk_rule (if ordinal p then kept_side p (sg_dists s) else r_dist r) [] (r_last r) ps (r_class r) (r_det r), false)
  | None => (mk_rule (kept_side p (sg_dists s)) [] (r_last r) (r_preds r ++ [p]) (r_class r) (r_det r), true)
  end.
(** 632-675 and, for a new rule, 712-751 *)
Definition consult (r : rule) (cls : option Z) : res (rule * option sug) :=
  ' (bs, _) <- suggestions_of (r_dist r) (r_obs r) cls cm_new ;;
  let bs := by_merit bs in
  ' (d, bound) <- verdict (r_dist r) bs ;;
  let r := match rev bs, bound with
           | best :: _, Some bound => if v_poor cfg then fold_left r_disable (poor_of best bound bs) r else r
           | _, _ => r
           end in
  Ok (r, d).
(** 706-782: rules for the other classes, appended to the set.  They are collected apart: the loop of partial_fit would visit them, but there
    are none, see [vfdr_foil_no_new_rules]. *)
Definition others (r : rule) : res (list rule) :=
  foldM (fun acc c =>
           if match r_class r with Some c' => (c =? c')%Z | None => false end then Ok acc else
           let n := mk_rule (r_dist r) (r_obs r) (r_last r) (r_preds r) (Some c) (r_det r) in
           ' (n, d) <- consult n (Some c) ;;
           Ok (match d with Some s => acc ++ [fst (r_expand n s)] | None => acc end)) (dkeys (r_dist r)) [].
(** _expand_rule, 623-782 *)
Definition expand_rule (r : rule) : res (rule * list rule) :=
  if Nat.ltb (length (r_dist r)) 2 then Ok (r, []) else
  ' (r, d) <- consult r (match v_criterion cfg with FoilGain => r_class r | _ => None end) ;;
  match d with
  | None => Ok (r, [])
  | Some s =>
      let '(r, added) := r_expand r s in
      new <- match v_criterion cfg with FoilGain => if added && negb (v_ordered cfg) then others r else Ok [] | _ => Ok [] end ;;
      Ok (r, new)
  end.
(** weight_seen_at_last_expand = get_weight_seen() *)
Definition mark (r : rule) : rule := mk_rule (r_dist r) (r_obs r) (r_weight r) (r_preds r) (r_class r) (r_det r).
(** What a rule that fires does, 519-529; [None]: it is removed *)
Definition fit_rule (r : rule) (x : list T) (y : Z) (w : T) : res (option rule * list rule) :=
  ' (r, gone) <- match v_detector cfg with
                 | None => Ok (r, false)
                 | Some _ => p <- r_correct r y ;;
                     match r_det r with
                     | None => Raise AttributeError
                     | Some d => d <- det_add d p ;;
                                 Ok (mk_rule (r_dist r) (r_obs r) (r_last r) (r_preds r) (r_class r) (Some d), det_change d && (v_min_weight cfg <? r_weight r)%num)
                     end
                 end ;;
  if gone : bool then Ok (None, []) else
  r <- r_learn r x y w ;;
  if (v_grace cfg <=? r_weight r - r_last r)%num then ' (r, new) <- expand_rule r ;; Ok (Some (mark r), new) else Ok (Some r, []).
(** The loop over rule_set, 515-531: [enumerate] goes on by position, so that the rule after a removed one is passed over.  [skip] is set
    behind a removed rule.  The answer: the rules, and whether one fired. *)
Fixpoint fit_rules (rs : list rule) (skip : bool) (x : list T) (y : Z) (w : T) : res (list rule * list rule * bool) :=
  match rs with
  | [] => Ok ([], [], false)
  | r :: rest =>
      if skip then ' (rest, new, f) <- fit_rules rest false x y w ;; Ok (r :: rest, new, f) else
      b <- r_covers r x ;;
      if b : bool then
        ' (o, new) <- fit_rule r x y w ;;
        match o with
        | None => ' (rest, new', _) <- fit_rules rest true x y w ;; Ok (rest, new ++ new', true)
        | Some r => if v_ordered cfg then Ok (r :: rest, new, true)
                    else ' (rest, new', _) <- fit_rules rest false x y w ;; Ok (r :: rest, new ++ new', true)
        end
      else ' (rest, new, f) <- fit_rules rest false x y w ;; Ok (r :: rest, new, f)
  end.

(** *** Creating rules: _create_rule, 539-621.  The default rule and the rules to append *)
(** restart, base_rule.py 81-87 and 303-307; the default rule has no detector *)
Definition restarted (d : dist) : rule := mk_rule d [] n0 [] None None.
Definition rule_of (cls : option Z) (s : sug) : rule := mk_rule (kept_side (sg_test s) (sg_dists s)) [] n0 [sg_test s] cls (v_detector cfg).
Definition other_side (p : pred T) (ds : dist * dist) : dist := match p with PLe _ _ | PEq _ _ => snd ds | PGt _ _ | PNe _ _ => fst ds end.
(** 588-619: one class after the other; should_expand is not set back *)
Fixpoint foil_rules (d : dist) (obs : list (Z * cobs T)) (cs : list Z) (m : cmem) (should : bool) : res (list rule * bool) :=
  match cs with
  | [] => Ok ([], should)
  | c :: r =>
      ' (bs, m) <- suggestions_of d obs (Some c) m ;;
      let bs := by_merit bs in
      ' (v, bound) <- verdict d bs ;;
      let should := match v, bound with Some _, _ => true | None, Some _ => should | None, None => false end in
      let new := if should then match rev bs with best :: _ => [rule_of (Some c) best] | [] => [] end else [] in
      ' (rs, should) <- foil_rules d obs r m should ;;
      Ok (new ++ rs, should)
  end.
Definition create_rule (r : rule) : res (rule * list rule) :=
  if Nat.ltb (length (r_dist r)) 2 then Ok (mark r, []) else
  match v_criterion cfg with
  | FoilGain =>
      ' (rs, should) <- foil_rules (r_dist r) (r_obs r) (dkeys (r_dist r)) cm_new false ;;
      Ok (if should then restarted [] else mark r, rs)
  | _ =>
      ' (bs, _) <- suggestions_of (r_dist r) (r_obs r) None cm_new ;;
      ' (v, _) <- verdict (r_dist r) (by_merit bs) ;;
      Ok (match v with Some s => (restarted (other_side (sg_test s) (sg_dists s)), [rule_of None s]) | None => (mark r, []) end)
  end.

(** *** The classifier, 968-970 *)
Record vfdr := mk_v { v_rules : list rule; v_default : rule; v_classes : option (list Z) }.
Definition vfdr_new : vfdr := mk_v [] (rule_new None None) None.
(** reset, 854-866 *)
Definition vfdr_reset (s : vfdr) : vfdr := mk_v [] (rule_new None None) None.
(** _partial_fit, 500-537 *)
Definition vfdr_one (s : vfdr) (x : list T) (y : Z) (w : T) : res vfdr :=
  ' (rs, new, fired) <- fit_rules (v_rules s) false x y w ;;
  let rs := rs ++ new in
  if fired : bool then Ok (mk_v rs (v_default s) (v_classes s)) else
  d <- r_learn (v_default s) x y w ;;
  if (Z.of_nat (length rs) <? v_max cfg)%Z && (v_grace cfg <=? r_weight d - r_last d)%num
  then ' (d, new) <- create_rule d ;; Ok (mk_v (rs ++ new) d (v_classes s))
  else Ok (mk_v rs d (v_classes s)).
(** The loop of partial_fit, 494-496 *)
Fixpoint vfdr_rows (s : vfdr) (rows : list (list T * Z)) (ws : list T) : res vfdr :=
  match rows, ws with
  | (x, y) :: r, w :: wr => s <- (if (w =? n0)%num then Ok s else vfdr_one s x y w) ;; vfdr_rows s r wr
  | _, _ => Ok s
  end.
(** partial_fit, 485-498 *)
Definition vfdr_fit (s : vfdr) (rows : list (list T * Z)) (classes : option (list Z)) (weights : option (list T)) : res vfdr :=
  let s := mk_v (v_rules s) (v_default s) (match v_classes s with None => classes | c => c end) in
  let ws := match weights with Some ws => ws | None => repeat n1 (length rows) end in
  if Nat.eqb (length rows) (length ws) then vfdr_rows s rows ws else Raise ValueError.

(** *** Prediction *)
(** if sum(votes.values()) != 0: normalize_values_in_dict(votes), utils.py 39-64 *)
Definition normalized (v : dist) : res dist :=
  let s := vsum v in
  if (s =? n0)%num then Ok v else if (s =? s)%num then Ok (map (fun kv => (fst kv, (snd kv / s)%num)) v) else Raise ValueError.
(** first_hit, 372-391 *)
Fixpoint first_hit (rs : list rule) (d : rule) (x : list T) : res dist :=
  match rs with
  | [] => r_votes d x
  | r :: rest => b <- r_covers r x ;; if b : bool then r_votes r x else first_hit rest d x
  end.
(** weighted_max, 393-420 *)
Fixpoint weighted_max (rs : list rule) (x : list T) (highest : T) (final : dist) : res dist :=
  match rs with
  | [] => Ok final
  | r :: rest =>
      b <- r_covers r x ;;
      if b : bool then
        v <- r_votes r x ;; v <- normalized v ;;
        let '(highest, final) := fold_left (fun hf u => if (fst hf <=? u)%num then (u, v) else hf) (dvals v) (highest, final) in
        weighted_max rest x highest final
      else weighted_max rest x highest final
  end.
(** {k: final_votes.get(k, 0) + votes.get(k, 0) for k in set(final_votes) | set(votes)} *)
Definition add_votes (f v : dist) : dist :=
  let get d c := match dget d c with Some u => u | None => n0 end in
  map (fun c => (c, (get f c + get v c)%num)) (order (sorted_set (dkeys f ++ dkeys v))).
(** weighted_sum, 422-449: normalised after every rule *)
Fixpoint weighted_sum (rs : list rule) (x : list T) (final : dist) (fired : bool) : res (dist * bool) :=
  match rs with
  | [] => Ok (final, fired)
  | r :: rest =>
      b <- r_covers r x ;;
      if b : bool then
        v <- r_votes r x ;; v <- normalized v ;; f <- normalized (add_votes final v) ;; weighted_sum rest x f true
      else weighted_sum rest x final fired
  end.
(** get_votes_for_instance, 352-370 *)
Definition vfdr_votes (s : vfdr) (x : list T) : res dist :=
  match v_prediction cfg with
  | FirstHit => first_hit (v_rules s) (v_default s) x
  | WeightedMax => d <- r_votes (v_default s) x ;; weighted_max (v_rules s) x n0 d
  | WeightedSum => ' (f, fired) <- weighted_sum (v_rules s) x [] false ;; if fired : bool then Ok f else r_votes (v_default s) x
  end.
(** One row of predict_proba, 822-836: as that of the Hoeffding tree *)
Definition vfdr_row (s : vfdr) (x : list T) : res (list T) := v <- vfdr_votes s x ;; ht_row (v_classes s) v.
(** predict_proba, 806-837.  Rows of different lengths make an array of objects; the model keeps the rows. *)
Definition vfdr_proba (s : vfdr) (xs : list (list T)) : res (list (list T)) := mapM (vfdr_row s) xs.
(** predict, 784-804 *)
Definition vfdr_predict (s : vfdr) (xs : list (list T)) : res (list nat) := p <- vfdr_proba s xs ;; mapM np_argmax p.

(** *** Reading the model *)
(** get_model_rules, 868-878: the rules, and the model, whose rules have their class set *)
Definition vfdr_get_rules (s : vfdr) : res vfdr :=
  rs <- mapM (fun r => c <- max_key (r_dist r) ;; Ok (mk_rule (r_dist r) (r_obs r) (r_last r) (r_preds r) (Some c) (r_det r))) (v_rules s) ;;
  Ok (mk_v rs (v_default s) (v_classes s)).
(** get_model_description, 880-896: the labels it names, those of the rules and that of the default rule *)
Definition vfdr_describe (s : vfdr) : res (list Z * Z) :=
  cs <- mapM (fun r => max_key (r_dist r)) (v_rules s) ;; c <- max_key (r_dist (v_default s)) ;; Ok (cs, c).
End VFDR.
Arguments cmem : clear implicits.
Arguments vfdr : clear implicits.
