(** Model of AdaptiveRandomForestRegressor and ARFRegBaseLearner (meta/adaptive_random_forest_regressor.py).

    [X]: instances; [B]: trees, each with its own random generator, which a reset or new tree makes again from its seed; [D]: drift detectors;
    [E]: performance evaluators; [G]: the generator of the forest.  Their methods are arguments.  Simplification: when a method raises, the history ends. *)
From Coq Require Import List ZArith Bool.
From Verif Require Import Base.Py Base.Num Model.Adwin Model.Knn Model.AdaptiveForest.
Import ListNotations.

(** numpy's result of an average: a number, or nan *)
Inductive fval (T : Type) := Val (v : T) | NaN.
Arguments Val {T}. Arguments NaN {T}.

Section Normal.
Context {T : Type} {N : Num T}.
(** _normalize_drift_input (lines 516-544): _k, _pM, _pS.  S is not negative over the reals, so math.sqrt does not raise. *)
Record norm := mk_norm { w_k : Z; w_M : T; w_S : T }.
Definition norm_new : norm := mk_norm 0 n0 n0.
Definition normalize (x : T) (w : norm) : T * norm :=
  let k := (w_k w + 1)%Z in
  if (k =? 1)%Z then (n0, mk_norm k x n0)
  else
    let M := (w_M w + (x - w_M w) / nofZ k)%num in
    let S := (w_S w + (x - w_M w) * (x - M))%num in
    let sd := nsqrt (S / nofZ (k - 1))%num in
    let z := if (n0 <? sd)%num then ((x - M) / sd)%num else n0 in
    (((z + nofZ 3) / nofZ 6)%num, mk_norm k M S).

(** numpy.median: of the sorted values the middle one, or the mean of the two in the middle *)
Fixpoint insert (x : T) (l : list T) : list T := match l with [] => [x] | y :: r => if (x <=? y)%num then x :: l else y :: insert x r end.
Definition sort (l : list T) : list T := fold_right insert [] l.
Definition median (l : list T) : T :=
  let s := sort l in let n := length l in
  if Nat.odd n then nth (n / 2) s n0 else ((nth (n / 2 - 1) s n0 + nth (n / 2) s n0) / nofZ 2)%num.
Definition total (l : list T) : T := fold_left nadd l n0.
Definition mean (l : list T) : T := (total l / nofZ (Z.of_nat (length l)))%num.
(** predict with aggregation 'mean' and a strategy (lines 323-336): when the weights have the sum 0, dividing gives nan, and so does the average *)
Definition weighted (ps errs : list T) : fval T :=
  let s := total errs in
  if negb (s =? n0)%num then
    let ws := map (fun e => (s - e)%num) errs in
    if (total ws =? n0)%num then NaN
    else let ws := map (fun w => (w / total ws)%num) ws in
         Val (total (map (fun pw => (fst pw * snd pw)%num) (combine ps ws)) / total ws)%num
  else Val (mean ps).
End Normal.
Arguments norm : clear implicits.

Inductive aggregation := ByMean | ByMedian.
Inductive criterion := CSquare | CAbs | CPrediction.

Section ARFR.
Context {X T B D E G : Type} {N : Num T}.
Variables (t_init : Z -> Z -> B) (t_fit : B -> X -> T -> Z -> res B) (t_predict : B -> X -> res T) (t_reset t_new : B -> B)
  (d_add : D -> T -> D) (d_change : D -> bool) (d_reset : D -> D)
  (e_new : E) (e_add : E -> T -> T -> res E) (e_error : E -> res T)
  (poisson : G -> Z * G) (seeds : G -> nat -> list Z * G) (seed : G) (width : X -> nat) (rsqrt rlog2 : nat -> Z) (part : T -> nat -> Z)
  (n_estimators : nat) (drift warning : option D) (agg : aggregation) (by_error : bool) (crit : criterion).

(** ARFRegBaseLearner (lines 469-514) *)
Record rbackground := mk_rbg { rb_tree : B; rb_eval : E; rb_created : nat; rb_drift : option D; rb_warn : option D }.
Record rmember := mk_rm {
  rm_tree : B; rm_eval : E; rm_created : nat; rm_drift : option D; rm_warn : option D; rm_bg : option rbackground; rm_norm : norm T;
  rm_last_drift : nat; rm_last_warn : nat; rm_drifts : nat; rm_warns : nat
}.
Definition new_rmember (maxf : Z) (seen : nat) (sd : Z) : rmember := mk_rm (t_init maxf sd) e_new seen drift warning None norm_new 0 0 0 0.
(** reset (lines 546-562) *)
Definition rmember_reset (seen : nat) (m : rmember) : rmember :=
  match rm_bg m, rm_warn m with
  | Some b, Some _ => mk_rm (rb_tree b) (rb_eval b) (rb_created b) (rb_drift b) (rb_warn b) None norm_new (rm_last_drift m) (rm_last_warn m) (rm_drifts m) (rm_warns m)
  | _, _ => mk_rm (t_reset (rm_tree m)) e_new seen (option_map d_reset (rm_drift m)) (rm_warn m) (rm_bg m) norm_new (rm_last_drift m) (rm_last_warn m) (rm_drifts m) (rm_warns m)
  end.
(** partial_fit, the check for a warning (lines 590-614) and for a drift (lines 616-624) *)
Definition check_rwarning (v : T) (seen : nat) (m : rmember) : rmember :=
  match rm_warn m with
  | None => m
  | Some w =>
      let w1 := d_add w v in
      if d_change w1 then mk_rm (rm_tree m) (rm_eval m) (rm_created m) (rm_drift m) (Some (d_reset w1)) (Some (mk_rbg (t_new (rm_tree m)) e_new seen drift warning)) (rm_norm m) (rm_last_drift m) seen (rm_drifts m) (S (rm_warns m))
      else mk_rm (rm_tree m) (rm_eval m) (rm_created m) (rm_drift m) (Some w1) (rm_bg m) (rm_norm m) (rm_last_drift m) (rm_last_warn m) (rm_drifts m) (rm_warns m)
  end.
Definition check_rdrift (v : T) (seen : nat) (m : rmember) : rmember :=
  match rm_drift m with
  | None => m
  | Some d =>
      let d1 := d_add d v in
      if d_change d1 then rmember_reset seen (mk_rm (rm_tree m) (rm_eval m) (rm_created m) (Some d1) (rm_warn m) (rm_bg m) (rm_norm m) seen (rm_last_warn m) (S (rm_drifts m)) (rm_warns m))
      else mk_rm (rm_tree m) (rm_eval m) (rm_created m) (Some d1) (rm_warn m) (rm_bg m) (rm_norm m) (rm_last_drift m) (rm_last_warn m) (rm_drifts m) (rm_warns m)
  end.
(** The quantity the detectors watch (lines 580-586) *)
Definition watched (y p : T) : T :=
  match crit with
  | CSquare => ((y - p) * (y - p))%num
  | CAbs => if (y - p <? n0)%num then (n0 - (y - p))%num else (y - p)%num
  | CPrediction => p
  end.
(** partial_fit (lines 564-624) *)
Definition rmember_fit (x : X) (y : T) (k : Z) (seen : nat) (m : rmember) : res rmember :=
  p <- t_predict (rm_tree m) x ;;
  e <- e_add (rm_eval m) y p ;;
  t <- t_fit (rm_tree m) x y k ;;
  bg <- match rm_bg m with
        | None => Ok None
        | Some b => q <- t_predict (rb_tree b) x ;; be <- e_add (rb_eval b) y q ;; bt <- t_fit (rb_tree b) x y k ;; Ok (Some (mk_rbg bt be (rb_created b) (rb_drift b) (rb_warn b)))
        end ;;
  let m1 := mk_rm t e (rm_created m) (rm_drift m) (rm_warn m) bg (rm_norm m) (rm_last_drift m) (rm_last_warn m) (rm_drifts m) (rm_warns m) in
  match rm_drift m with
  | None => Ok m1
  | Some _ =>
      let '(v, w) := normalize (watched y p) (rm_norm m) in
      Ok (check_rdrift v seen (check_rwarning v seen (mk_rm t e (rm_created m) (rm_drift m) (rm_warn m) bg w (rm_last_drift m) (rm_last_warn m) (rm_drifts m) (rm_warns m))))
  end.
Definition rmember_row (x : X) (y : T) (k : Z) (seen : nat) (m : rmember) : res rmember := if (0 <? k)%Z then rmember_fit x y k seen m else Ok m.

Record rforest := mk_rforest { rf_members : option (list rmember); rf_seen : nat; rf_maxf : mf T; rf_rng : G }.
(** __init__ (lines 198-261) *)
Definition arfr_init (m : mf T) : rforest := mk_rforest None 0 m seed.
(** _set_max_features (lines 390-421): a fraction must be positive and at most 1 *)
Definition rmax_features (m : mf T) (n : nat) : res Z :=
  match m with
  | MFloat f => if (f <=? n0)%num || (n1 <? f)%num then Raise ValueError else Ok (max_features rsqrt rlog2 part m n)
  | _ => Ok (max_features rsqrt rlog2 part m n)
  end.
(** _init_ensemble (lines 355-388), [n] features *)
Definition init_rensemble (n : nat) (s : rforest) : res (list rmember * rforest) :=
  match rf_members s with
  | Some ms => Ok (ms, s)
  | None =>
      v <- rmax_features (rf_maxf s) n ;;
      let (sds, g) := seeds (rf_rng s) n_estimators in
      let ms := map (new_rmember v (rf_seen s)) sds in
      Ok (ms, mk_rforest (Some ms) (rf_seen s) (MInt v) g)
  end.
Fixpoint rmembers_row (x : X) (y : T) (seen : nat) (ms : list rmember) (g : G) : res (list rmember * G) :=
  match ms with
  | [] => Ok ([], g)
  | m :: r => let (k, g1) := poisson g in m' <- rmember_row x y k seen m ;; ' (r', g2) <- rmembers_row x y seen r g1 ;; Ok (m' :: r', g2)
  end.
(** partial_fit (lines 263-300), the loop over the rows *)
Fixpoint arfr_rows (rows : list (X * T)) (ms : list rmember) (s : rforest) : res rforest :=
  match rows with
  | [] => Ok s
  | (x, y) :: rows =>
      ' (ms', g) <- rmembers_row x y (S (rf_seen s)) ms (rf_rng s) ;;
      arfr_rows rows ms' (mk_rforest (Some ms') (S (rf_seen s)) (rf_maxf s) g)
  end.
(** ... of instances with [n] features *)
Definition arfr_fit (n : nat) (rows : list (X * T)) (s : rforest) : res rforest := ' (ms, s1) <- init_rensemble n s ;; arfr_rows rows ms s1.
(** reset (lines 345-353) *)
Definition arfr_reset (s : rforest) : rforest := mk_rforest None 0 (MInt 0) seed.
(** predict (lines 302-339), one instance *)
Definition aggregate (ps : list T) (errors : res (list T)) : res (fval T) :=
  match agg with
  | ByMean => if by_error then es <- errors ;; Ok (weighted ps es) else Ok (Val (mean ps))
  | ByMedian => Ok (Val (median ps))
  end.
Definition arfr_predict_row (s : rforest) (x : X) : res (fval T * rforest) :=
  ' (ms, s1) <- init_rensemble (width x) s ;;
  ps <- mapM (fun m => t_predict (rm_tree m) x) ms ;;
  v <- aggregate ps (mapM (fun m => e_error (rm_eval m)) ms) ;; Ok (v, s1).

Inductive arfr_op := RFit (n : nat) (rows : list (X * T)) | RAsk (x : X) | RAgain.
Definition arfr_step (s : rforest) (o : arfr_op) : res rforest :=
  match o with
  | RFit n rows => arfr_fit n rows s
  | RAsk x => ' (_, s') <- arfr_predict_row s x ;; Ok s'
  | RAgain => Ok (arfr_reset s)
  end.
Fixpoint arfr_run (s : rforest) (os : list arfr_op) : res rforest := match os with [] => Ok s | o :: os => s' <- arfr_step s o ;; arfr_run s' os end.
End ARFR.
Arguments rbackground : clear implicits. Arguments rmember : clear implicits. Arguments rforest : clear implicits. Arguments arfr_op : clear implicits.
