(** Models of the online ensembles for imbalanced streams: OnlineBoostingClassifier (meta/online_boosting.py),
    OnlineAdaC2Classifier (meta/online_adac2.py), OnlineCSB2Classifier (meta/online_csb2.py), OnlineRUSBoostClassifier
    (meta/online_rus_boost.py), OnlineUnderOverBaggingClassifier (meta/online_under_over_bagging.py) and
    OnlineSMOTEBaggingClassifier (meta/online_smote_bagging.py).  The six files share everything but what a member does with a
    sample and the weight of its vote: the record [algo].

    Simplifications, as in Model/Bagging.v: labels are integers; a RandomState is an arbitrary state machine of type [G];
    [seed] is the state that check_random_state(random_state) gives, the same at each call (an int seed); copy.deepcopy of the
    base estimator is the value itself; asking an estimator several times in a row for the label of the same sample is asking
    it once; the arrays of statistics, of which each member owns one entry, are one list with the entries of each member; when
    a call raises the model forgets the state.  Poisson rates so great that numpy refuses them are not treated. *)
From Coq Require Import List ZArith Bool.
From Verif Require Import Base.Py Base.Num Model.Adwin Model.Knn Model.Learner Model.Bagging.
Import ListNotations.

(** What a member's probabilities do to the sums: [WFun f]: += f p; [WSkip]: a division by zero in the weight is caught and
    the entry is left out; [WAppend]: an IndexError in the weight is caught and p itself appended. *)
Inductive weight (T : Type) := WFun (f : T -> T) | WSkip | WAppend.
Arguments WFun {T}. Arguments WSkip {T}. Arguments WAppend {T}.

(** [St]: the statistics of one member, [E]: what the members share.  [al_step i m lam row b st e g]: member [i] of [m] learns
    the row. *)
Record algo (X T B G St E : Type) := mk_algo {
  al_st : St; al_ext : nat -> E;
  al_step : option (list Z) -> option (list T) -> nat -> nat -> T -> X * Z -> B -> St -> E -> G -> res (B * St * E * T * G);
  al_weight : nat -> St -> E -> weight T }.
Arguments mk_algo {X T B G St E}. Arguments al_st {X T B G St E}. Arguments al_ext {X T B G St E}. Arguments al_step {X T B G St E}. Arguments al_weight {X T B G St E}.

Section Online.
Context {X T B G D St E : Type} {N : Num T} (L : learner X T B) (P : edet T D) (A : algo X T B G St E) (base : B) (n_estimators : nat) (drift : bool) (seed : G).
(** [on_ready]: self.ensemble is not None *)
Record ons := mk_ons { on_ready : bool; on_ens : list (B * D); on_stats : list St; on_ext : E; on_classes : option (list Z); on_rng : G }.
(** __init__: online_boosting.py 113-133 and alike *)
Definition on_new : ons := mk_ons false [] [] (al_ext A 0) None seed.
(** __configure and reset: online_boosting.py 135-150 and alike; the classes stay *)
Definition on_reset (s : ons) : ons :=
  mk_ons true (repeat (lr_reset L base, e_new P) n_estimators) (repeat (al_st A) n_estimators) (al_ext A n_estimators) (on_classes s) seed.
(** __adjust_ensemble_size: online_boosting.py 254-263 and alike.  The statistics of all members are new when members are
    added; what the members share is not (in online_adac2.py that includes wacc and werr, 278-289) *)
Definition on_adjust (classes : list Z) (s : ons) : ons :=
  if Nat.ltb (length (on_ens s)) (length classes) then
    mk_ons (on_ready s) (on_ens s ++ repeat (lr_reset L base, e_new P) (length classes - length (on_ens s))) (repeat (al_st A) (length classes)) (on_ext s) (on_classes s) (on_rng s)
  else s.
(** The drift part, online_boosting.py 227-239 and alike: the member predicts the whole batch, its ADWIN gets 1 for each right
    label.  A ValueError of predict is caught and clears change_detected *)
Definition on_watch (rows : list (X * Z)) (m : B * D) (change : bool) : res ((B * D) * bool) :=
  if drift then
    match lr_predict L (fst m) (map fst rows) with
    | Raise ValueError => Ok (m, false)
    | Raise e => Raise e
    | Ok (p, b') =>
        if Nat.ltb (length p) (length rows) then Raise IndexError
        else
          d <- add_all P (snd m) (map (fun pr => (fst pr =? snd (snd pr))%Z) (combine p rows)) ;;
          ' (d', c) <- e_change P d ;;
          Ok ((b', d'), (if c && (e_est P (snd m) <? e_est P d')%num then true else change))
    end
  else Ok (m, change).
(** The loop over the members *)
Fixpoint on_members (rows : list (X * Z)) classes sw (row : X * Z) (i m : nat) (lam : T) (ens : list (B * D)) (sts : list St) (e : E) (g : G) (change : bool)
  : res (list (B * D) * list St * E * G * bool) :=
  match ens, sts with
  | bd :: ens, st :: sts =>
      ' (b, st, e, lam, g) <- al_step A classes sw i m lam row (fst bd) st e g ;;
      ' (bd, change) <- on_watch rows (b, snd bd) change ;;
      ' (ens, sts, e, g, change) <- on_members rows classes sw row (S i) m lam ens sts e g change ;;
      Ok (bd :: ens, st :: sts, e, g, change)
  | _, _ => Ok ([], [], e, g, change)
  end.
(** One row: online_boosting.py 208-250 and alike *)
Definition on_row (rows : list (X * Z)) classes sw (s : ons) (row : X * Z) : res ons :=
  ' (ens, sts, e, g, change) <- on_members rows classes sw row 0 (length (on_ens s)) n1 (on_ens s) (on_stats s) (on_ext s) (on_rng s) false ;;
  Ok (mk_ons true (if change && drift then reset_max L P ens else ens) sts e (on_classes s) g).
(** partial_fit: online_boosting.py 187-252 and alike *)
Definition on_fit (s : ons) (rows : list (X * Z)) (classes : option (list Z)) (sw : option (list T)) : res ons :=
  let s := if on_ready s then s else on_reset s in
  cl <- check_classes (on_classes s) classes ;;
  foldM (on_row rows classes sw) rows (on_adjust cl (mk_ons true (on_ens s) (on_stats s) (on_ext s) (Some cl) (on_rng s))).

(** predict_proba: online_boosting.py 291-362 and alike *)
Fixpoint add_row_w (w : weight T) (acc p : list T) : list T :=
  match acc, p with
  | a :: acc', x :: p' => (match w with WFun f => (a + f x)%num | _ => a end) :: add_row_w w acc' p'
  | [], p => p
  | acc, [] => acc
  end.
Definition add_weighted (w : weight T) (acc p : list T) : list T := match w with WAppend => acc ++ p | _ => add_row_w w acc p end.
Fixpoint add_rows_w (w : weight T) (acc p : list (list T)) : list (list T) :=
  match acc, p with a :: acc', x :: p' => add_weighted w a x :: add_rows_w w acc' p' | _, _ => acc end.
Fixpoint sum_weighted (classes : option (list Z)) (r : nat) (xs : list X) (l : list B) (ws : list (weight T)) (acc : list (list T))
  : res (option (list (list T)) * list B) :=
  match l, ws with
  | b :: rest, w :: ws =>
      match lr_proba L b xs with
      | Raise ValueError | Raise TypeError => Ok (None, l)
      | Raise e => Raise e
      | Ok (p, b') =>
          match p with
          | [] => Raise IndexError
          | row0 :: _ =>
              match classes with
              | None | Some [] => Ok (None, b' :: rest)
              | Some (c :: cs) =>
                  if (fold_left Z.max cs c + 1 <? Z.of_nat (length row0))%Z then Ok (None, b' :: rest)
                  else if Nat.ltb (length p) r then Raise IndexError
                  else
                    let p := firstn r p in
                    let acc := match acc with [] => map (fun row => repeat n0 (length row)) p | _ => acc end in
                    ' (o, rest') <- sum_weighted classes r xs rest ws (add_rows_w w acc p) ;; Ok (o, b' :: rest')
              end
          end
      end
  | _, _ => Ok (Some acc, [])
  end.
Definition on_weights (s : ons) : list (weight T) := map (fun i => match nth_error (on_stats s) i with Some st => al_weight A i st (on_ext s) | None => WSkip end) (seq 0 (length (on_ens s))).
Definition on_proba (s : ons) (xs : list X) : res (list (list T) * ons) :=
  if on_ready s then
    ' (o, l) <- sum_weighted (on_classes s) (length xs) xs (map fst (on_ens s)) (on_weights s) [] ;;
    let s' := mk_ons true (combine l (map snd (on_ens s))) (on_stats s) (on_ext s) (on_classes s) (on_rng s) in
    match o with
    | None => Ok (map (fun _ => [n0]) xs, s')
    | Some acc => if Nat.ltb (length acc) (length xs) then Raise IndexError else Ok (map normalize acc, s')
    end
  else Ok (map (fun _ => [n0]) xs, s).
(** predict: online_boosting.py 265-289 and alike *)
Definition on_predict (s : ons) (xs : list X) : res (list nat * ons) :=
  ' (p, s') <- on_proba s xs ;; q <- mapM np_argmax p ;; Ok (q, s').
End Online.
Arguments ons : clear implicits.
Arguments mk_ons {B G D St E}. Arguments on_ready {B G D St E}. Arguments on_ens {B G D St E}. Arguments on_stats {B G D St E}. Arguments on_ext {B G D St E}.
Arguments on_classes {B G D St E}. Arguments on_rng {B G D St E}.

Section Algos.
Context {X T B G : Type} {N : Num T} (L : learner X T B) (pois : T -> G -> nat * G).
(** RandomState.poisson(lam): ValueError for a negative rate or nan *)
Definition poisson (lam : T) (g : G) : res (nat * G) := if (n0 <=? lam)%num then Ok (pois lam g) else Raise ValueError.
Definition n2 : T := nofZ 2.
(** log((1 - epsilon) / epsilon), when numpy does not warn *)
Definition log_odds (eps : T) : weight T :=
  if (eps =? n0)%num || (eps =? n1)%num then WSkip else let w := nln ((n1 - eps) / eps)%num in WFun (fun p => (w * p)%num).

(** *** OnlineBoosting: lam_sc, lam_sw, epsilon *)
Record bst := mk_bst { b_sc : T; b_sw : T; b_eps : T }.
(** online_boosting.py 212-225 *)
Definition boost_step (classes : option (list Z)) (sw : option (list T)) (i m : nat) (lam : T) (row : X * Z) (b : B) (st : bst) (e : unit) (g : G) : res (B * bst * unit * T * G) :=
  ' (k, g) <- poisson lam g ;;
  if Nat.ltb 0 k then
    b <- times k (fun b => lr_fit L b [row] classes sw) b ;;
    ' (c, b) <- predict_one L b (fst row) ;;
    if (c =? snd row)%Z then
      let sc := (b_sc st + lam)%num in
      let eps := (b_sw st / (b_sw st + sc))%num in
      Ok (b, mk_bst sc (b_sw st) eps, e, (if (eps =? n0)%num then lam else lam / (n2 * (n1 - eps)))%num, g)
    else
      let sw := (b_sw st + lam)%num in
      let eps := (sw / (sw + b_sc st))%num in
      Ok (b, mk_bst (b_sc st) sw eps, e, (if (eps =? n0)%num then lam else lam / (n2 * eps))%num, g)
  else Ok (b, st, e, lam, g).
(** the weight: online_boosting.py 339-340 *)
Definition boosting : algo X T B G bst unit := mk_algo (mk_bst n0 n0 n0) (fun _ => tt) boost_step (fun _ st _ => log_odds (b_eps st)).

(** *** OnlineAdaC2: lam_tp, lam_fn, lam_tn, lam_fp, lam_sum; shared: wacc, werr *)
Section Costs.
Variables (cost_positive cost_negative : T).
Record ast := mk_ast { a_tp : T; a_fn : T; a_tn : T; a_fp : T; a_sum : T }.
(** the two assignments that follow each case, 229-230 and alike *)
Definition set_errors (i : nat) (st : ast) (e : list T * list T) : res (list T * list T) :=
  if Nat.ltb i (length (fst e)) && Nat.ltb i (length (snd e)) then
    Ok (set_nth (fst e) i ((a_tp st + a_tn st) / a_sum st)%num, set_nth (snd e) i ((a_fp st + a_fn st) / a_sum st)%num)
  else Raise IndexError.
(** online_adac2.py 224-249 *)
Definition adac2_step (classes : option (list Z)) (sw : option (list T)) (i m : nat) (lam : T) (row : X * Z) (b : B) (st : ast) (e : list T * list T) (g : G) : res (B * ast * (list T * list T) * T * G) :=
  let st := mk_ast (a_tp st) (a_fn st) (a_tn st) (a_fp st) (a_sum st + lam)%num in
  ' (k, g) <- poisson lam g ;;
  if Nat.ltb 0 k then
    b <- times k (fun b => lr_fit L b [row] classes sw) b ;;
    ' (c, b) <- predict_one L b (fst row) ;;
    let y := snd row in
    if (c =? 1)%Z && (y =? 1)%Z then
      let st := mk_ast (a_tp st + cost_positive * lam)%num (a_fn st) (a_tn st) (a_fp st) (a_sum st) in
      e <- set_errors i st e ;; Ok (b, st, e, (cost_positive * lam / (n2 * nth i (fst e) n0))%num, g)
    else if (c =? 0)%Z && (y =? 0)%Z then
      let st := mk_ast (a_tp st) (a_fn st) (a_tn st + cost_negative * lam)%num (a_fp st) (a_sum st) in
      e <- set_errors i st e ;; Ok (b, st, e, (cost_negative * lam / (n2 * nth i (fst e) n0))%num, g)
    else if (c =? 0)%Z && (y =? 1)%Z then
      let st := mk_ast (a_tp st) (a_fn st + cost_positive * lam)%num (a_tn st) (a_fp st) (a_sum st) in
      e <- set_errors i st e ;; Ok (b, st, e, (cost_positive * lam / (n2 * nth i (snd e) n0))%num, g)
    else if (c =? 1)%Z && (y =? 0)%Z then
      let st := mk_ast (a_tp st) (a_fn st) (a_tn st) (a_fp st + cost_negative * lam)%num (a_sum st) in
      e <- set_errors i st e ;; Ok (b, st, e, (cost_negative * lam / (n2 * nth i (snd e) n0))%num, g)
    else Ok (b, st, e, lam, g)
  else Ok (b, st, e, lam, g).
(** log(wacc / werr), 366-367 *)
Definition adac2_weight (i : nat) (_ : ast) (e : list T * list T) : weight T :=
  match nth_error (fst e) i, nth_error (snd e) i with
  | Some a, Some r => if (r =? n0)%num || (a =? n0)%num then WSkip else let w := nln (a / r)%num in WFun (fun p => (w * p)%num)
  | _, _ => WAppend
  end.
Definition adac2 : algo X T B G ast (list T * list T) :=
  mk_algo (mk_ast n0 n0 n0 n0 n0) (fun n => (repeat n0 n, repeat n0 n)) adac2_step adac2_weight.

(** *** OnlineCSB2: lam_fn, lam_fp, lam_sum, lam_sw, werr, epsilon *)
Record cst := mk_cst { c_fn : T; c_fp : T; c_sum : T; c_sw : T; c_werr : T; c_eps : T }.
(** online_csb2.py 217-241; both kinds of errors are counted with cost_positive *)
Definition csb2_step (classes : option (list Z)) (sw : option (list T)) (i m : nat) (lam : T) (row : X * Z) (b : B) (st : cst) (e : unit) (g : G) : res (B * cst * unit * T * G) :=
  let sum := (c_sum st + lam)%num in
  ' (k, g) <- poisson lam g ;;
  if Nat.ltb 0 k then
    b <- times k (fun b => lr_fit L b [row] classes sw) b ;;
    ' (c, b) <- predict_one L b (fst row) ;;
    let y := snd row in
    if (c =? y)%Z then
      let eps := (c_sw st / sum)%num in
      let werr := ((c_fp st + c_fn st) / sum)%num in
      let lam' := if negb (eps + werr =? n0)%num && negb (eps =? n1)%num then (eps / ((n1 - eps) * (eps + werr)))%num else lam in
      Ok (b, mk_cst (c_fn st) (c_fp st) sum (c_sw st) werr eps, e, lam', g)
    else
      let pos := ((c =? 0)%Z && (y =? 1)%Z)%bool in
      let fp := if pos then (c_fp st + cost_positive * lam)%num else c_fp st in
      let fn := if pos then c_fn st else (c_fn st + cost_positive * lam)%num in
      let sw := (c_sw st + lam)%num in
      let eps := (sw / sum)%num in
      let werr := ((fp + fn) / sum)%num in
      Ok (b, mk_cst fn fp sum sw werr eps, e, ((if pos then cost_positive else cost_negative) * lam / (eps + werr))%num, g)
  else Ok (b, mk_cst (c_fn st) (c_fp st) sum (c_sw st) (c_werr st) (c_eps st), e, lam, g).
Definition csb2 : algo X T B G cst unit := mk_algo (mk_cst n0 n0 n0 n0 n0 n0) (fun _ => tt) csb2_step (fun _ st _ => log_odds (c_eps st)).
End Costs.

(** *** OnlineRUSBoost: lam_sc, lam_pos, lam_neg, lam_sw, epsilon; shared: n_pos, n_neg *)
Section Rates.
Variables (rate : T) (algorithm : Z).
Record rst := mk_rst { r_sc : T; r_pos : T; r_neg : T; r_sw : T; r_eps : T }.
(** online_rus_boost.py 228-254.  The sampling rate is not 0 *)
Definition lam_rus (y : Z) (lam pos neg : T) (np nn : Z) : T :=
  let p := nofZ np in let n := nofZ nn in
  if (algorithm =? 1)%Z then
    if (y =? 1)%Z then
      if (nn =? 0)%Z then n1 else (lam * ((pos + neg) / (pos + neg * (rate * (p / n))) * (((rate + n1) * p) / (p + n))))%num
    else
      if (np =? 0)%Z then n1 else (lam * ((pos + neg) / (pos + neg * (n / (p * rate))) * (((rate + n1) * p) / (p + n))))%num
  else if (algorithm =? 2)%Z then
    if (y =? 1)%Z then (((lam * p) / (p + n)) / (pos / (pos + neg)))%num
    else (((lam * rate * p) / (p + n)) / (neg / (pos + neg)))%num
  else if (algorithm =? 3)%Z then (if (y =? 1)%Z then lam else lam / rate)%num
  else n1.
(** online_rus_boost.py 221-270: epsilon changes whether the member learned the sample or not *)
Definition rus_step (classes : option (list Z)) (sw : option (list T)) (i m : nat) (lam : T) (row : X * Z) (b : B) (st : rst) (e : Z * Z) (g : G) : res (B * rst * (Z * Z) * T * G) :=
  let y := snd row in
  let pos := if (y =? 1)%Z then (r_pos st + lam)%num else r_pos st in
  let neg := if (y =? 1)%Z then r_neg st else (r_neg st + lam)%num in
  let e := if (y =? 1)%Z then (fst e + 1, snd e)%Z else (fst e, snd e + 1)%Z in
  ' (k, g) <- poisson (lam_rus y lam pos neg (fst e) (snd e)) g ;;
  b <- times k (fun b => lr_fit L b [row] classes sw) b ;;
  ' (c, b) <- predict_one L b (fst row) ;;
  if (c =? y)%Z then
    let sc := (r_sc st + lam)%num in
    let eps := (r_sw st / (sc + r_sw st))%num in
    Ok (b, mk_rst sc pos neg (r_sw st) eps, e, (if (eps =? n1)%num then lam else lam / (n2 * (n1 - eps)))%num, g)
  else
    let sw := (r_sw st + lam)%num in
    let eps := (sw / (r_sc st + sw))%num in
    Ok (b, mk_rst (r_sc st) pos neg sw eps, e, (if (eps =? n0)%num then lam else lam / (n2 * eps))%num, g).
Definition rusboost : algo X T B G rst (Z * Z) := mk_algo (mk_rst n0 n0 n0 n0 n0) (fun _ => (0, 0)%Z) rus_step (fun _ st _ => log_odds (r_eps st)).

(** *** OnlineUnderOverBagging: online_under_over_bagging.py 202-211, 322 *)
Definition uob_rate (i m : nat) (y : Z) : T :=
  let a := (nofZ (Z.of_nat (S i)) / nofZ (Z.of_nat m))%num in if (y =? 1)%Z then (a * rate)%num else a.
Definition uob_step (classes : option (list Z)) (sw : option (list T)) (i m : nat) (lam : T) (row : X * Z) (b : B) (st e : unit) (g : G) : res (B * unit * unit * T * G) :=
  ' (k, g) <- poisson (uob_rate i m (snd row)) g ;;
  b <- times k (fun b => lr_fit L b [row] classes sw) b ;;
  Ok (b, st, e, lam, g).
Definition uobagging : algo X T B G unit unit := mk_algo tt (fun _ => tt) uob_step (fun _ _ _ => WFun (fun p => p)).
End Rates.
End Algos.
Arguments bst : clear implicits. Arguments ast : clear implicits. Arguments cst : clear implicits. Arguments rst : clear implicits.
Arguments mk_bst {T}. Arguments b_sc {T}. Arguments b_sw {T}. Arguments b_eps {T}.
Arguments mk_ast {T}. Arguments a_tp {T}. Arguments a_fn {T}. Arguments a_tn {T}. Arguments a_fp {T}. Arguments a_sum {T}.
Arguments mk_cst {T}. Arguments c_fn {T}. Arguments c_fp {T}. Arguments c_sum {T}. Arguments c_sw {T}. Arguments c_werr {T}. Arguments c_eps {T}.
Arguments mk_rst {T}. Arguments r_sc {T}. Arguments r_pos {T}. Arguments r_neg {T}. Arguments r_sw {T}. Arguments r_eps {T}.

(** *** OnlineSMOTEBagging.  Shared: pos_samples *)
Section Smote.
Context {T B G : Type} {N : Num T} (L : learner (list T) T B) (pois : T -> G -> nat * G) (randint : nat -> G -> nat * G) (rand : G -> T * G) (rate : T).
(** euclidean_distances(a, [x]): a matrix with one column *)
Definition sq_dist (a b : list T) : T := fold_left nadd (map (fun ab => ((fst ab - snd ab) * (fst ab - snd ab))%num) (combine a b)) n0.
Definition distances_to (l : list (list T)) (x : list T) : list (list T) := map (fun a => [nsqrt (sq_dist a x)]) l.
(** argsort of a vector: the indices in the order of the values (stable; ties are not specified by numpy) *)
Fixpoint insert_by (v : nat -> T) (i : nat) (l : list nat) : list nat :=
  match l with [] => [i] | j :: r => if (v j <=? v i)%num then j :: insert_by v i r else i :: l end.
Definition argsort (l : list T) : list nat := fold_left (fun acc i => insert_by (fun j => nth j l n0) i acc) (seq 0 (length l)) [].
(** online_smote, 261-272 *)
Definition online_smote (pos : list (list T)) (g : G) : res (list T * G) :=
  match rev pos with
  | [] => Raise IndexError
  | [x] => Ok (x, g)
  | x :: _ =>
      match distances_to (removelast pos) x with
      | [] => Raise IndexError
      | distance_vector :: _ =>
          let neighbors := argsort distance_vector in
          let k := Nat.min 5 (length neighbors) in
          let '(i, g) := randint k g in
          let '(gamma, g) := rand g in
          match nth_error neighbors i with
          | None => Raise IndexError
          | Some j => match nth_error pos j with
                      | None => Raise IndexError
                      | Some p => Ok (map (fun ab => (fst ab + gamma * (fst ab - snd ab))%num) (combine x p), g)
                      end
          end
      end
  end.
Fixpoint learn_smote (k : nat) (pos : list (list T)) (y : Z) classes sw (b : B) (g : G) : res (B * G) :=
  match k with
  | O => Ok (b, g)
  | S k => ' (x, g) <- online_smote pos g ;; b <- lr_fit L b [(x, y)] classes sw ;; learn_smote k pos y classes sw b g
  end.
(** online_smote_bagging.py 205-224; lam is 1 when the label is not 1 *)
Definition smote_step (classes : option (list Z)) (sw : option (list T)) (i m : nat) (lam : T) (row : list T * Z) (b : B) (st : unit) (pos : list (list T)) (g : G) : res (B * unit * list (list T) * T * G) :=
  let a := (nofZ (Z.of_nat (S i)) / nofZ (Z.of_nat m))%num in
  if (snd row =? 1)%Z then
    let pos := pos ++ [fst row] in
    let lam := (a * rate)%num in
    ' (k, g) <- poisson pois lam g ;;
    b <- times k (fun b => lr_fit L b [row] classes sw) b ;;
    ' (ks, g) <- poisson pois ((n1 - a) * rate)%num g ;;
    ' (b, g) <- learn_smote ks pos (snd row) classes sw b g ;;
    Ok (b, st, pos, lam, g)
  else
    ' (k, g) <- poisson pois lam g ;;
    b <- times k (fun b => lr_fit L b [row] classes sw) b ;;
    Ok (b, st, pos, lam, g).
Definition smotebagging : algo (list T) T B G unit (list (list T)) := mk_algo tt (fun _ => []) smote_step (fun _ _ _ => WFun (fun p => p)).
End Smote.
