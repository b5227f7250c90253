(** Model of AdaptiveRandomForestClassifier and ARFBaseLearner (meta/adaptive_random_forests.py), with check_weights
    (utils/validation.py) and normalize_values_in_dict (utils/utils.py).

    [X]: instances; [B]: trees, [R]: the random generators of trees; [D]: drift detectors; [E]: performance evaluators; [G]: the
    generator of the forest.  Their methods are arguments.  A tree and its background tree share one random generator
    (new_instance passes the object on, trees/arf_hoeffding_tree.py 145-159), so training returns it.  Simplifications: random_state is an
    integer, so that the trees' generators are not the forest's; when a method raises, the history ends. *)
From Coq Require Import List ZArith Bool.
From Verif Require Import Base.Py Base.Num Base.Dict Model.Adwin Model.Knn.
Import ListNotations.

(** *** check_weights (validation.py 33-62): a number, a list or an array; [n] is expand_length *)
Inductive weights (T : Type) := WNum (w : T) | WList (ws : list T) | WArray (ws : list T).
Arguments WNum {T}. Arguments WList {T}. Arguments WArray {T}.
Definition check_weights {T} (w : weights T) (n : nat) : res (list T) :=
  match w with
  | WNum v => if Nat.leb 1 n then Ok (repeat v n) else Raise ValueError
  | WList ws => if Nat.eqb n 1 then Ok ws else Raise ValueError
  | WArray [v] => if Nat.leb 1 n then Ok (repeat v n) else Raise ValueError
  | WArray [] => Raise ValueError
  | WArray ws => if Nat.eqb n 1 then Ok ws else Raise ValueError
  end.

(** *** _set_max_features (lines 461-488); [rsqrt] and [rlog2] are round(math.sqrt(n)) and round(math.log2(n)), [part f n] is int(f * n) *)
Inductive mf (T : Type) := MAuto | MLog2 | MInt (z : Z) | MFloat (f : T) | MNone | MOther.
Arguments MAuto {T}. Arguments MLog2 {T}. Arguments MInt {T}. Arguments MFloat {T}. Arguments MNone {T}. Arguments MOther {T}.
Definition max_features {T} (rsqrt rlog2 : nat -> Z) (part : T -> nat -> Z) (m : mf T) (n : nat) : Z :=
  let v := match m with MAuto => rsqrt n | MLog2 => rlog2 n | MInt z => z | MFloat f => part f n | MNone => Z.of_nat n | MOther => rsqrt n end in
  let v := if (v <? 0)%Z then (v + Z.of_nat n)%Z else v in
  let v := if (v <=? 0)%Z then 1%Z else v in
  if (Z.of_nat n <? v)%Z then Z.of_nat n else v.

Section Votes.
Context {T : Type} {N : Num T}.
Definition vsum (d : list (Z * T)) : T := fold_left nadd (dvals d) n0.
(** normalize_values_in_dict (utils.py 37-63) of a dictionary with a sum that is not 0 *)
Definition normalized (d : list (Z * T)) : list (Z * T) := map (fun kv => (fst kv, (snd kv / vsum d)%num)) d.
(** lines 426-432: the values are added to those of the same key *)
Definition add_votes (acc d : list (Z * T)) : list (Z * T) :=
  fold_left (fun acc kv => dset acc (fst kv) (match dget acc (fst kv) with Some v => (v + snd kv)%num | None => snd kv end)) d acc.
(** numpy.zeros(int(m) + 1) and the votes at their keys, a negative key counting from the end (lines 390-395) *)
Fixpoint put_votes (arr : list T) (d : list (Z * T)) : res (list T) :=
  match d with [] => Ok arr | (k, v) :: d => arr' <- py_set arr k v ;; put_votes arr' d end.
Definition zeros (m : Z) : list T := repeat n0 (Z.to_nat (m + 1)).
End Votes.

Section ARF.
Context {X T B R D E G : Type} {N : Num T}.
Variables (t_init : Z -> B * R) (t_fit : B -> R -> X -> Z -> option (list Z) -> Z -> res (B * R)) (t_predict : B -> X -> res Z)
  (t_votes : B -> X -> res (list (Z * T))) (t_reset : B -> R -> B * R) (t_new : B -> B)
  (d_add : D -> bool -> D) (d_change : D -> bool) (d_reset : D -> D)
  (e_new : E) (e_add : E -> Z -> Z -> T -> res E) (e_score : E -> res T)
  (poisson : G -> Z * G) (seed : G) (width : X -> nat) (rsqrt rlog2 : nat -> Z) (part : T -> nat -> Z)
  (n_estimators : nat) (drift warning : option D) (unweighted : bool).

(** ARFBaseLearner (lines 516-553); of a background learner only the tree, the detectors and created_on matter. *)
Record background := mk_bg { b_tree : B; b_created : nat; b_drift : option D; b_warn : option D }.
Record member := mk_member {
  m_tree : B; m_rng : R; m_created : nat; m_drift : option D; m_warn : option D; m_bg : option background; m_eval : E;
  m_last_drift : nat; m_last_warn : nat; m_drifts : nat; m_warns : nat
}.
Definition new_member (maxf : Z) (seen : nat) : member :=
  mk_member (fst (t_init maxf)) (snd (t_init maxf)) seen drift warning None e_new 0 0 0 0.

(** reset (lines 555-567) *)
Definition member_reset (seen : nat) (m : member) : member :=
  match m_bg m, m_warn m with
  | Some b, Some _ => mk_member (b_tree b) (m_rng m) (b_created b) (b_drift b) (b_warn b) None e_new (m_last_drift m) (m_last_warn m) (m_drifts m) (m_warns m)
  | _, _ =>
      let '(t, r) := t_reset (m_tree m) (m_rng m) in
      mk_member t r seen (option_map d_reset (m_drift m)) (m_warn m) (m_bg m) e_new (m_last_drift m) (m_last_warn m) (m_drifts m) (m_warns m)
  end.
(** partial_fit, the check for a warning (lines 580-599) *)
Definition check_warning (wrong : bool) (seen : nat) (m : member) : member :=
  match m_warn m with
  | None => m
  | Some w =>
      let w1 := d_add w wrong in
      if d_change w1 then
        mk_member (m_tree m) (m_rng m) (m_created m) (m_drift m) (Some (d_reset w1)) (Some (mk_bg (t_new (m_tree m)) seen drift warning)) (m_eval m) (m_last_drift m) seen (m_drifts m) (S (m_warns m))
      else mk_member (m_tree m) (m_rng m) (m_created m) (m_drift m) (Some w1) (m_bg m) (m_eval m) (m_last_drift m) (m_last_warn m) (m_drifts m) (m_warns m)
  end.
(** ... and for a drift (lines 601-607) *)
Definition check_drift (wrong : bool) (seen : nat) (m : member) : member :=
  match m_drift m with
  | None => m
  | Some d =>
      let d1 := d_add d wrong in
      let m1 := mk_member (m_tree m) (m_rng m) (m_created m) (Some d1) (m_warn m) (m_bg m) (m_eval m) (m_last_drift m) (m_last_warn m) (m_drifts m) (m_warns m) in
      if d_change d1 then member_reset seen (mk_member (m_tree m) (m_rng m) (m_created m) (Some d1) (m_warn m) (m_bg m) (m_eval m) seen (m_last_warn m) (S (m_drifts m)) (m_warns m))
      else m1
  end.
(** partial_fit (lines 569-607): the trees are trained with weight [k], then the tree is asked about the same instance *)
Definition member_fit (x : X) (y : Z) (cl : option (list Z)) (k : Z) (seen : nat) (m : member) : res member :=
  ' (t, r) <- t_fit (m_tree m) (m_rng m) x y cl k ;;
  ' (bg, r) <- match m_bg m with None => Ok (None, r) | Some b => ' (bt, r2) <- t_fit (b_tree b) r x y cl k ;; Ok (Some (mk_bg bt (b_created b) (b_drift b) (b_warn b)), r2) end ;;
  let m1 := mk_member t r (m_created m) (m_drift m) (m_warn m) bg (m_eval m) (m_last_drift m) (m_last_warn m) (m_drifts m) (m_warns m) in
  match m_drift m with
  | None => Ok m1
  | Some _ => p <- t_predict t x ;; let wrong := negb (p =? y)%Z in Ok (check_drift wrong seen (check_warning wrong seen m1))
  end.
(** The loop body of _partial_fit (lines 323-331): the answer is given to the evaluator as the true label, and the label as the answer. *)
Definition member_row (x : X) (y : Z) (w : T) (cl : option (list Z)) (k : Z) (seen : nat) (m : member) : res member :=
  p <- t_predict (m_tree m) x ;;
  e <- e_add (m_eval m) p y w ;;
  let m1 := mk_member (m_tree m) (m_rng m) (m_created m) (m_drift m) (m_warn m) (m_bg m) e (m_last_drift m) (m_last_warn m) (m_drifts m) (m_warns m) in
  if (0 <? k)%Z then member_fit x y cl k seen m1 else Ok m1.

Record forest := mk_forest { f_members : option (list member); f_seen : nat; f_classes : option (list Z); f_maxf : mf T; f_rng : G }.
(** __init__ (lines 214-274) *)
Definition arf_init (m : mf T) : forest := mk_forest None 0 None m seed.
(** _init_ensemble (lines 435-459): max_features, a parameter of the forest, is overwritten *)
Definition init_ensemble (x : X) (s : forest) : list member * forest :=
  match f_members s with
  | Some ms => (ms, s)
  | None =>
      let v := max_features rsqrt rlog2 part (f_maxf s) (width x) in
      let ms := repeat (new_member v (f_seen s)) n_estimators in
      (ms, mk_forest (Some ms) (f_seen s) (f_classes s) (MInt v) (f_rng s))
  end.
Fixpoint members_row (x : X) (y : Z) (w : T) (cl : option (list Z)) (seen : nat) (ms : list member) (g : G) : res (list member * G) :=
  match ms with
  | [] => Ok ([], g)
  | m :: r => let (k, g1) := poisson g in m' <- member_row x y w cl k seen m ;; ' (r', g2) <- members_row x y w cl seen r g1 ;; Ok (m' :: r', g2)
  end.
(** _partial_fit (lines 317-331) *)
Definition arf_row (x : X) (y : Z) (w : T) (s : forest) : res forest :=
  let '(ms, s1) := init_ensemble x (mk_forest (f_members s) (S (f_seen s)) (f_classes s) (f_maxf s) (f_rng s)) in
  ' (ms', g) <- members_row x y w (f_classes s) (f_seen s1) ms (f_rng s1) ;;
  Ok (mk_forest (Some ms') (f_seen s1) (f_classes s1) (f_maxf s1) g).
Fixpoint arf_rows (rows : list (X * Z)) (ws : list T) (s : forest) : res forest :=
  match rows with
  | [] => Ok s
  | (x, y) :: rows => match ws with [] => Raise IndexError | w :: ws => s' <- (if (w =? n0)%num then Ok s else arf_row x y w s) ;; arf_rows rows ws s' end
  end.
(** partial_fit (lines 276-315) *)
Definition arf_fit (rows : list (X * Z)) (cl : option (list Z)) (w : option (weights T)) (s : forest) : res forest :=
  let s1 := mk_forest (f_members s) (f_seen s) (match f_classes s with None => cl | c => c end) (f_maxf s) (f_rng s) in
  ws <- check_weights (match w with None => WNum n1 | Some w => w end) (length rows) ;;
  arf_rows rows ws s1.
(** reset (lines 404-409): the classes and max_features stay *)
Definition arf_reset (s : forest) : forest := mk_forest None 0 (f_classes s) (f_maxf s) seed.

(** _get_votes_for_instance (lines 411-433) *)
Fixpoint combined_votes (x : X) (ms : list member) (acc : list (Z * T)) : res (list (Z * T)) :=
  match ms with
  | [] => Ok acc
  | m :: r =>
      v <- t_votes (m_tree m) x ;;
      if match v with [] => false | _ => true end && (n0 <? vsum v)%num then
        let v := normalized v in
        v <- (if unweighted then Ok v else p <- e_score (m_eval m) ;; Ok (if negb (p =? n0)%num then map (fun kv => (fst kv, (snd kv * p)%num)) v else v)) ;;
        combined_votes x r (add_votes acc v)
      else combined_votes x r acc
  end.
(** predict_proba (lines 354-402), one row; [zmax] is max(...) of a list that is not empty *)
Definition zmax (l : list Z) : Z := match l with [] => 0%Z | z :: l => fold_left Z.max l z end.
Definition arf_proba_row (s : forest) (ms : list member) (x : X) : res (list T) :=
  v <- combined_votes x ms [] ;;
  match v with
  | [] => Ok [n0]
  | _ =>
      let v := if negb (vsum v =? n0)%num then normalized v else v in
      put_votes (zeros (zmax (match f_classes s with Some c => c | None => dkeys v end))) v
  end.
(** predict (lines 333-352), one row *)
Definition arf_predict_row (s : forest) (x : X) : res (Z * forest) :=
  let '(ms, s1) := init_ensemble x s in
  p <- arf_proba_row s1 ms x ;; i <- np_argmax p ;; Ok (Z.of_nat i, s1).

(** A history of calls *)
Inductive arf_op := AFit (rows : list (X * Z)) (cl : option (list Z)) (w : option (weights T)) | AAsk (x : X) | AReset.
Definition arf_step (s : forest) (o : arf_op) : res forest :=
  match o with
  | AFit rows cl w => arf_fit rows cl w s
  | AAsk x => ' (_, s') <- arf_predict_row s x ;; Ok s'
  | AReset => Ok (arf_reset s)
  end.
Fixpoint arf_run (s : forest) (os : list arf_op) : res forest := match os with [] => Ok s | o :: os => s' <- arf_step s o ;; arf_run s' os end.
End ARF.
Arguments background : clear implicits. Arguments member : clear implicits. Arguments forest : clear implicits. Arguments arf_op : clear implicits.
