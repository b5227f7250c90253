(** Vocabulary for the decision rules. *)
From Coq Require Import List ZArith Bool.
From Verif Require Import Base.Py Base.Num Base.Dict Model.Suggestion Model.NaiveBayes Model.SplitCriteria Model.Vfdr Spec.SplitRuleSpec.
Import ListNotations.

Section Spec.
Context {T D : Type} {N : Num T}.
Variable key : T -> Z.

(** The value x[a] of an attribute; negative positions count from the end. *)
Definition value (x : list T) (a : Z) : option T :=
  let i := if (a <? 0)%Z then (a + Z.of_nat (length x))%Z else a in if (i <? 0)%Z then None else nth_error x (Z.to_nat i).
(** A sample meets a condition: it has the attribute and its value satisfies the comparison. *)
Definition meets (x : list T) (p : pred T) : Prop :=
  match p with
  | PLe a v => exists u, value x a = Some u /\ (u <=? v)%num = true
  | PGt a v => exists u, value x a = Some u /\ (v <? u)%num = true
  | PEq a z => exists u, value x a = Some u /\ key u = z
  | PNe a z => exists u, value x a = Some u /\ key u <> z
  end.
(** A rule fires when the sample meets all its conditions. *)
Definition fires (r : rule T D) (x : list T) : Prop := forall p, In p (r_preds r) -> meets x p.
(** Two conditions constrain the same attribute with the same operator. *)
Definition same_kind (p q : pred T) : bool :=
  match p, q with
  | PLe a _, PLe b _ | PGt a _, PGt b _ | PEq a _, PEq b _ | PNe a _, PNe b _ => (a =? b)%Z
  | _, _ => false
  end.
(** What becomes of the conditions of a rule when the learner settles on one more: a threshold on the same attribute and in the same
    direction is moved to the stricter of the two; an = or != on an attribute that has one already is dropped; anything else is added. *)
Definition stricter (q p : pred T) : pred T :=
  match q, p with
  | PLe a v, PLe _ v' => PLe a (if (v' <? v)%num then v' else v)
  | PGt a v, PGt _ v' => PGt a (if (v <? v')%num then v' else v)
  | _, _ => q
  end.
Fixpoint tightened (ps : list (pred T)) (p : pred T) : list (pred T) :=
  match ps with [] => [p] | q :: r => if same_kind q p then stricter q p :: r else q :: tightened r p end.
(** The condition says something new: no = or != on the same attribute is there already. *)
Definition effective (ps : list (pred T)) (p : pred T) : Prop :=
  match p with PLe _ _ | PGt _ _ => True | _ => forall q, In q ps -> same_kind q p = false end.
(** The half of a split on a condition that meets it, and the other half *)
Definition inside (p : pred T) (ds : list (Z * T) * list (Z * T)) : list (Z * T) := match p with PLe _ _ | PEq _ _ => fst ds | PGt _ _ | PNe _ _ => snd ds end.
Definition outside (p : pred T) (ds : list (Z * T) * list (Z * T)) : list (Z * T) := match p with PLe _ _ | PEq _ _ => snd ds | PGt _ _ | PNe _ _ => fst ds end.

(** The weight of a label *)
Definition weight_of (d : list (Z * T)) (c : Z) : option T := dget d c.
(** One sample of label [y] and weight [w] has been counted. *)
Definition counted (y : Z) (w : T) (d d' : list (Z * T)) : Prop :=
  forall c, weight_of d' c = if (c =? y)%Z then Some (match weight_of d c with Some v => (v + w)%num | None => w end) else weight_of d c.

(** The first of the labels with the greatest weight; label 0 when nothing has been counted *)
Definition majority (d : list (Z * T)) (c : Z) : Prop :=
  (d = [] /\ c = 0%Z) \/ exists pre v post, d = pre ++ (c, v) :: post /\ (forall a u, In (a, u) pre -> (u <? v)%num = true) /\ (forall a u, In (a, u) post -> (v <? u)%num = false).

(** A history: calls of partial_fit (rows, classes, sample_weight) and of reset. *)
Inductive vfdr_event := VFit (rows : list (list T * Z)) (classes : option (list Z)) (weights : option (list T)) | VClear.
(** The labels taught since the last reset, those of weight zero left out *)
Definition labels_in (rows : list (list T * Z)) (weights : option (list T)) : list Z :=
  map (fun rw => snd (fst rw)) (filter (fun rw => negb (snd rw =? n0)%num) (combine rows (match weights with Some ws => ws | None => map (fun _ => n1) rows end))).
Definition labels_since (es : list vfdr_event) : list Z :=
  fold_left (fun acc e => match e with VFit rows _ ws => acc ++ labels_in rows ws | VClear => [] end) es [].

Variables (k : T) (phi : T -> T) (order : list Z -> list Z) (det_add : D -> T -> res D) (det_change : D -> bool) (cfg : vfdr_config T D).
(** A rule has learnt a sample: its label is counted, every attribute is shown to its observer, the rest stays. *)
Definition learned (x : list T) y w (r r1 : rule T D) : Prop :=
  counted y w (r_dist r) (r_dist r1) /\ update_observers key (v_nominal cfg) (r_obs r) 0 x y w = Ok (r_obs r1)
  /\ r_last r1 = r_last r /\ r_preds r1 = r_preds r /\ r_class r1 = r_class r /\ r_det r1 = r_det r.
(** The Hoeffding bound of a distribution *)
Definition eps_of (d : list (Z * T)) : T := epsilon (rule_range cfg d) (v_confidence cfg) (vsum d).
(** What becomes of a rule that has seen a grace period: with fewer than two labels, or when no suggested condition wins, it stays as it is; the
    condition that wins is taken up, the weights become those of the half that meets it, and the observers start again. *)
Definition revised (r r' : rule T D) : Prop :=
  r_class r' = r_class r /\ r_det r' = r_det r /\ r_last r' = vsum (r_dist r')
  /\ ((length (r_dist r) < 2)%nat -> r_preds r' = r_preds r /\ r_dist r' = r_dist r /\ r_obs r' = r_obs r)
  /\ ((2 <= length (r_dist r))%nat -> exists bs m, suggestions_of k phi order cfg (r_dist r) (r_obs r) (match v_criterion cfg with FoilGain => r_class r | _ => None end) cm_new = Ok (bs, m) /\
       ((exists best others, best_is bs best others /\ wins (eps_of (r_dist r)) (v_tie cfg) best others
          /\ r_preds r' = tightened (r_preds r) (sg_test best) /\ r_obs r' = []
          /\ (effective (r_preds r) (sg_test best) -> r_dist r' = inside (sg_test best) (sg_dists best)) /\ (~ effective (r_preds r) (sg_test best) -> r_dist r' = r_dist r))
        \/ ((forall best others, best_is bs best others -> ~ wins (eps_of (r_dist r)) (v_tie cfg) best others)
          /\ r_preds r' = r_preds r /\ r_dist r' = r_dist r /\ (v_poor cfg = false -> r_obs r' = r_obs r)))).
(** A rule after one sample, when no drift is looked for *)
Definition fitted (x : list T) y w (r r' : rule T D) : Prop :=
  exists r1, learned x y w r r1 /\ ((v_grace cfg <=? vsum (r_dist r1) - r_last r1)%num = false -> r' = r1) /\ ((v_grace cfg <=? vsum (r_dist r1) - r_last r1)%num = true -> revised r1 r').
(** A new rule (information gain, Hellinger distance): the condition that wins becomes the only condition of the new rule, which gets the weights
    of the half that meets it; the default rule starts again from the weights of the other half. *)
Definition seen_mark (d : rule T D) : rule T D := mk_rule (r_dist d) (r_obs d) (vsum (r_dist d)) (r_preds d) (r_class d) (r_det d).
Definition created (d d' : rule T D) (new : list (rule T D)) : Prop :=
  ((length (r_dist d) < 2)%nat -> d' = seen_mark d /\ new = [])
  /\ ((2 <= length (r_dist d))%nat -> exists bs m, suggestions_of k phi order cfg (r_dist d) (r_obs d) None cm_new = Ok (bs, m) /\
       ((exists best others, best_is bs best others /\ wins (eps_of (r_dist d)) (v_tie cfg) best others
          /\ d' = mk_rule (outside (sg_test best) (sg_dists best)) [] n0 [] None None
          /\ new = [mk_rule (inside (sg_test best) (sg_dists best)) [] n0 [sg_test best] None (v_detector cfg)])
        \/ ((forall best others, best_is bs best others -> ~ wins (eps_of (r_dist d)) (v_tie cfg) best others) /\ d' = seen_mark d /\ new = []))).
(** The default rule after one sample, when there are [n] rules *)
Definition default_fitted (n : nat) (x : list T) y w (d d' : rule T D) (new : list (rule T D)) : Prop :=
  exists d1, learned x y w d d1 /\
    ((Z.of_nat n <? v_max cfg)%Z && (v_grace cfg <=? vsum (r_dist d1) - r_last d1)%num = false -> d' = d1 /\ new = [])
    /\ ((Z.of_nat n <? v_max cfg)%Z && (v_grace cfg <=? vsum (r_dist d1) - r_last d1)%num = true -> v_criterion cfg <> FoilGain -> created d1 d' new).
Definition vfdr_do (s : vfdr T D) (e : vfdr_event) : res (vfdr T D) :=
  match e with VFit rows c ws => vfdr_fit k phi key order det_add det_change cfg s rows c ws | VClear => Ok (vfdr_reset s) end.
Fixpoint vfdr_run (s : vfdr T D) (es : list vfdr_event) : res (vfdr T D) :=
  match es with [] => Ok s | e :: r => s' <- vfdr_do s e ;; vfdr_run s' r end.
End Spec.
