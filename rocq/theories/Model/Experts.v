(** Models of DynamicWeightedMajorityClassifier (meta/dynamic_weighted_majority.py) and AdditiveExpertEnsembleClassifier
    (meta/additive_expert_ensemble.py).

    Simplifications: labels are integers; a copy.deepcopy of the base estimator is the value [base]; weights are Python
    numbers (dividing by zero raises).  When a call raises, the model forgets the state. *)
From Coq Require Import List ZArith Bool.
From Verif Require Import Base.Py Base.Num Model.Adwin Model.Knn Model.TreeSkeleton Model.Learner.
Import ListNotations.

Section Experts.
Context {X T B : Type} {N : Num T} (L : learner X T B) (base : B).

(** WeightedExpert, dynamic_weighted_majority.py 84-98 *)
Record expert := mk_ex { ex_est : B; ex_weight : T }.
(** sum(exp.weight for exp in self.experts) *)
Definition total_weight (l : list expert) : T := fold_left nadd (map ex_weight l) n0.

(** [predictions[y_hat] += w] *)
Definition vote (preds : list T) (c : Z) (w : T) : res (list T) := v <- py_get preds c ;; py_set preds c (v + w)%num.
(** num_classes, dynamic_weighted_majority.py 211-213, additive_expert_ensemble.py 191-193 *)
Definition class_count (classes : option (list Z)) (y known : Z) : Z :=
  Z.max (Z.max (match classes with Some c => Z.of_nat (length c) | None => 0%Z end) (y + 1)) known.
(** exp.estimator.partial_fit(X, y, classes, sample_weight) with X, y one row, sample_weight as given to the ensemble *)
Definition train (x : X) (y : Z) (classes : option (list Z)) (sw : option (list T)) (e : expert) : res expert :=
  b <- lr_fit L (ex_est e) [(x, y)] classes sw ;; Ok (mk_ex b (ex_weight e)).

(** predict (the same in both), dynamic_weighted_majority.py 172-176: the labels are averaged with the weights and rounded.
    [trunc] is astype(int).  With no expert numpy returns the number 0 rather than an array; the model returns the empty list. *)
Fixpoint zip_add (a b : list T) : list T :=
  match a, b with x :: a', y :: b' => (x + y)%num :: zip_add a' b' | _, _ => [] end.
Fixpoint ask (l : list expert) (xs : list X) : res (list (list Z) * list expert) :=
  match l with
  | [] => Ok ([], [])
  | e :: r => ' (p, b) <- lr_predict L (ex_est e) xs ;; ' (ps, es) <- ask r xs ;; Ok (p :: ps, mk_ex b (ex_weight e) :: es)
  end.
Definition experts_predict (trunc : T -> Z) (l : list expert) (xs : list X) : res (list Z * list expert) :=
  ' (ps, l') <- ask l xs ;;
  match l with
  | [] => Ok ([], [])
  | _ =>
      let preds := map (fun pe => map (fun c => (nofZ c * ex_weight (snd pe))%num) (fst pe)) (combine ps l) in
      let aggregate := fold_left zip_add (map (map (fun v => (v / total_weight l)%num)) preds) (repeat n0 (length xs)) in
      Ok (map (fun a => trunc (a + n1 / nofZ 2)%num) aggregate, l')
  end.

(** ** DynamicWeightedMajorityClassifier *)
Section DWM.
Variables (n_estimators period : Z) (beta theta : T).
Record dwm := mk_dwm { dw_epochs : Z; dw_classes : Z; dw_experts : list expert }.
(** reset, also called by the constructor, 251-259 *)
Definition dwm_new : dwm := mk_dwm 0 2 [mk_ex base n1].

(** The loop over the experts, 219-229 *)
Record tally := mk_tally { ta_preds : list T; ta_max : T; ta_weak : T; ta_idx : option nat }.
Fixpoint dwm_vote (hit : bool) (x : X) (y : Z) (i : nat) (l : list expert) (v : tally) : res (list expert * tally) :=
  match l with
  | [] => Ok ([], v)
  | e :: r =>
      ' (c, b) <- predict_one L (ex_est e) x ;;
      let w := if negb (c =? y)%Z && hit then (ex_weight e * beta)%num else ex_weight e in
      preds <- vote (ta_preds v) c w ;;
      let weaker := (w <? ta_weak v)%num in
      ' (r', v') <- dwm_vote hit x y (S i) r
                      (mk_tally preds (py_max (ta_max v) w) (if weaker then w else ta_weak v) (if weaker then Some i else ta_idx v)) ;;
      Ok (mk_ex b w :: r', v')
  end.
(** self.experts.pop(i): None is not an index *)
Definition pop (l : list expert) (i : option nat) : res (list expert) :=
  match i with
  | None => Raise TypeError
  | Some i => if Nat.ltb i (length l) then Ok (firstn i l ++ skipn (S i) l) else Raise IndexError
  end.
(** fit_single_sample, 210-242, with _scale_weights and _remove_experts, 261-273.  [self.epochs % self.period == 0] is computed once, before the loop. *)
Definition dwm_one (s : dwm) (x : X) (y : Z) (classes : option (list Z)) (sw : option (list T)) : res dwm :=
  let ep := (dw_epochs s + 1)%Z in
  let nc := class_count classes y (dw_classes s) in
  hit <- (if (period =? 0)%Z then Raise ZeroDivisionError else Ok (ep mod period =? 0)%Z) ;;
  ' (exps, v) <- dwm_vote hit x y 0 (dw_experts s) (mk_tally (repeat n0 (Z.to_nat nc)) n0 n1 None) ;;
  y_hat <- np_argmax (ta_preds v) ;;
  exps <- (if hit : bool then
             f <- pydiv n1 (ta_max v) ;;
             let exps := filter (fun e => theta <=? ex_weight e)%num (map (fun e => mk_ex (ex_est e) (ex_weight e * f)%num) exps) in
             if (Z.of_nat y_hat =? y)%Z then Ok exps
             else exps <- (if (Z.of_nat (length exps) =? n_estimators)%Z then pop exps (ta_idx v) else Ok exps) ;;
                  Ok (exps ++ [mk_ex base n1])
           else Ok exps) ;;
  exps <- mapM (train x y classes sw) exps ;;
  Ok (mk_dwm ep nc exps).
(** partial_fit, 149-152 *)
Definition dwm_fit (s : dwm) (rows : list (X * Z)) (classes : option (list Z)) (sw : option (list T)) : res dwm :=
  foldM (fun s r => dwm_one s (fst r) (snd r) classes sw) rows s.
(** predict, 155-176 *)
Definition dwm_predict (trunc : T -> Z) (s : dwm) (xs : list X) : res (list Z * dwm) :=
  ' (p, l) <- experts_predict trunc (dw_experts s) xs ;; Ok (p, mk_dwm (dw_epochs s) (dw_classes s) l).
End DWM.

(** ** AdditiveExpertEnsembleClassifier *)
Inductive pruning := Weakest | Oldest.
Section AddExp.
Variables (n_estimators : Z) (beta gamma : T) (prune : pruning).
Record addexp := mk_ae { ae_epochs : Z; ae_classes : Z; ae_experts : list expert }.
(** reset, also called by the constructor, 257-260 *)
Definition ae_new : addexp := mk_ae 0 2 [mk_ex base n1].

(** The loop over the experts, 197-201: the vote counts before the weight is lowered *)
Fixpoint ae_vote (x : X) (y : Z) (l : list expert) (preds : list T) : res (list expert * list T) :=
  match l with
  | [] => Ok ([], preds)
  | e :: r =>
      ' (c, b) <- predict_one L (ex_est e) x ;;
      preds <- vote preds c (ex_weight e) ;;
      ' (r', preds) <- ae_vote x y r preds ;;
      Ok (mk_ex b (if (c =? y)%Z then ex_weight e else ex_weight e * beta)%num :: r', preds)
  end.
(** _add_expert with pruning 'weakest', 230-249: inserted before the first expert with a smaller weight *)
Fixpoint add_weakest (l : list expert) (new : expert) : list expert :=
  match l with
  | [] => [new]
  | e :: r => if (ex_weight e <? ex_weight new)%num then new :: l else e :: add_weakest r new
  end.
Definition add_expert (l : list expert) (new : expert) : list expert :=
  match prune with Oldest => l ++ [new] | Weakest => add_weakest l new end.
(** fit_single_sample, 180-228 *)
Definition ae_one (s : addexp) (x : X) (y : Z) (classes : option (list Z)) (sw : option (list T)) : res addexp :=
  let ep := (ae_epochs s + 1)%Z in
  let nc := class_count classes y (ae_classes s) in
  ' (exps, preds) <- ae_vote x y (ae_experts s) (repeat n0 (Z.to_nat nc)) ;;
  y_hat <- np_argmax preds ;;
  let exps := match prune with
              | Weakest => sort_stable (fun a b => negb (ex_weight b <? ex_weight a)%num) exps
              | Oldest => exps
              end in
  let exps := if (Z.of_nat y_hat =? y)%Z then exps else add_expert exps (mk_ex base (total_weight exps * gamma)%num) in
  let exps := if (n_estimators <? Z.of_nat (length exps))%Z then tl exps else exps in
  exps <- mapM (train x y classes sw) exps ;;
  exps <- (if (ep mod 1000 =? 0)%Z then Ok exps
           else mapM (fun e => w <- pydiv (ex_weight e) (total_weight exps) ;; Ok (mk_ex (ex_est e) w)) exps) ;;
  Ok (mk_ae ep nc exps).
(** partial_fit, 131-155 *)
Definition ae_fit (s : addexp) (rows : list (X * Z)) (classes : option (list Z)) (sw : option (list T)) : res addexp :=
  foldM (fun s r => ae_one s (fst r) (snd r) classes sw) rows s.
(** predict, 157-178 *)
Definition ae_predict (trunc : T -> Z) (s : addexp) (xs : list X) : res (list Z * addexp) :=
  ' (p, l) <- experts_predict trunc (ae_experts s) xs ;; Ok (p, mk_ae (ae_epochs s) (ae_classes s) l).
End AddExp.
End Experts.
Arguments expert : clear implicits.
Arguments mk_ex {T B}. Arguments ex_est {T B}. Arguments ex_weight {T B}.
Arguments dwm : clear implicits.
Arguments mk_dwm {T B}. Arguments dw_epochs {T B}. Arguments dw_classes {T B}. Arguments dw_experts {T B}.
Arguments addexp : clear implicits.
Arguments mk_ae {T B}. Arguments ae_epochs {T B}. Arguments ae_classes {T B}. Arguments ae_experts {T B}.
Arguments tally : clear implicits.
