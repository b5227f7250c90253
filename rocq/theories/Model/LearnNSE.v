(** Model of LearnPPNSEClassifier (meta/learn_nse.py).

    Simplifications: labels are integers; copy.deepcopy of the base estimator is the value itself; an estimator's predict and
    predict_proba leave it as it is, and so does a call of fit that raises TypeError or NotImplementedError; a member's
    probabilities for one row are one row.  The lists ensemble, bkts, wkts and ensemble_weights, which grow and shrink together,
    are one list of members ([m_weight] is None while ensemble_weights has not reached the member).  numpy's division is [ndiv]
    and its sums are taken from the left.  The attributes buffer and instance_weights are not kept: nothing reads them later. *)
From Coq Require Import List ZArith Bool.
From Verif Require Import Base.Py Base.Num Model.Adwin Model.Knn Model.LearnPP.
Import ListNotations.

(** A base estimator: fit(X, y, classes=), fit(X, y), partial_fit(X, y, classes=), predict, predict_proba and the attribute classes_ or classes *)
Record nlearner (X T B : Type) := mk_nlearner {
  nl_fit3 : B -> list (X * Z) -> list Z -> res B;
  nl_fit : B -> list (X * Z) -> res B;
  nl_pfit : B -> list (X * Z) -> list Z -> res B;
  nl_predict : B -> list X -> res (list Z);
  nl_proba : B -> list X -> res (list (list T));
  nl_seen : B -> option (list Z) }.
Arguments mk_nlearner {X T B}. Arguments nl_fit3 {X T B}. Arguments nl_fit {X T B}. Arguments nl_pfit {X T B}.
Arguments nl_predict {X T B}. Arguments nl_proba {X T B}. Arguments nl_seen {X T B}.
Inductive pruning := NoPruning | ByAge | ByError.

Section NSE.
Context {X T B : Type} {N : Num T} (L : nlearner X T B) (base : B) (w : nat) (slope crossing : T) (n_estimators : nat) (prune : pruning).

Record member := mk_member { m_est : B; m_bkts : list T; m_wkts : list T; m_weight : option T }.
(** [ns_classes]: the classes and whether they were given as an array (not as a list); [ns_frozen]: X_batch and y_batch are arrays *)
Record nse := mk_nse { ns_classes : option (list Z * bool); ns_members : list member; ns_win : list (X * Z); ns_frozen : bool }.
(** learn_nse.py 90-112 *)
Definition nse_init : nse := mk_nse None [] [] false.
(** lines 347-353: self.classes stays *)
Definition nse_reset (s : nse) : nse := mk_nse (ns_classes s) [] [] false.

(** _train_model, lines 114-122 *)
Definition train (b : B) (rows : list (X * Z)) (classes : list Z) : res B :=
  match nl_fit3 L b rows classes with
  | Raise TypeError => match nl_fit L b rows with Raise NotImplementedError => nl_pfit L b rows classes | r => r end
  | r => r
  end.

(** *** Votes *)
(** sorted_classes[np.searchsorted(all_classes, c, sorter=sorted_classes)]: the position of the least class not below [c] (lines 300-303) *)
Fixpoint place (classes : list Z) (i : nat) (c : Z) : option (nat * Z) :=
  match classes with
  | [] => None
  | k :: r =>
      match place r (S i) c with
      | Some (j, m) => if (c <=? k)%Z && (k <=? m)%Z then Some (i, k) else Some (j, m)
      | None => if (c <=? k)%Z then Some (i, k) else None
      end
  end.
(** _fill_missing_probs, lines 296-305: all_classes.size needs an array *)
Definition fill_missing (p : list T) (obs classes : list Z) (array : bool) : res (list T) :=
  if array then
    idx <- mapM (fun c => match place classes 0 c with Some (i, _) => Ok i | None => Raise IndexError end) obs ;;
    if Nat.eqb (length idx) (length p) then Ok (fold_left (fun q iv => set_nth q (fst iv) (snd iv)) (combine idx p) (repeat n0 (length classes)))
    else Raise ValueError
  else Raise AttributeError.
Definition nabs (v : T) : T := if (v <? n0)%num then (n0 - v)%num else v.
(** y_predicts /= norm(y_predicts, ord=1) (line 273) *)
Definition normalized (p : list T) : list T := let s := fold_left nadd (map nabs p) n0 in map (fun v => (v / s)%num) p.
Definition add_votes (wt : T) (votes q : list T) : list T := map (fun ab => (fst ab + wt * snd ab)%num) (combine votes q).
(** One member's votes for one row, lines 269-291 *)
Definition vote_one (classes : list Z) (array : bool) (x : X) (votes : list T) (m : member) : res (list T) :=
  match m_weight m with
  | None => Raise IndexError
  | Some wt =>
      if (n0 <? wt)%num then
        P <- nl_proba L (m_est m) [x] ;;
        match P with
        | [p] =>
            let p := normalized p in
            if Nat.eqb (length p) (length classes) then Ok (add_votes wt votes p)
            else match p with
                 | [v] => Ok (map (fun a => (a + wt * v)%num) votes)
                 | _ => match nl_seen L (m_est m) with
                        | None => Raise AttributeError
                        | Some obs => q <- fill_missing p obs classes array ;; Ok (add_votes wt votes q)
                        end
                 end
        | _ => Raise ValueError
        end
      else Ok votes
  end.
(** predict_proba, lines 307-328 *)
Definition nse_proba (s : nse) (xs : list X) : res (list (list T)) :=
  match ns_members s with
  | [] => Ok (map (fun _ => [n0]) xs)
  | ms => match ns_classes s with
          | None => Raise TypeError
          | Some (classes, array) => mapM (fun x => foldM (vote_one classes array x) ms (repeat n0 (length classes))) xs
          end
  end.
(** predict, lines 330-345 *)
Definition nse_predict (s : nse) (xs : list X) : res (list nat) := v <- nse_proba s xs ;; mapM np_argmax v.

(** *** A full window *)
(** instance_weights, lines 175-195: [right] tells which rows the ensemble predicts right *)
Definition instance_weights (right : list bool) : list T :=
  let mt := nofZ (Z.of_nat (length right)) in
  let et := (nofZ (Z.of_nat (length (filter negb right))) / mt)%num in
  let iw := map (fun r : bool => if r then (et / mt)%num else (n1 / mt)%num) right in
  let s := fold_left nadd iw n0 in
  if (n0 <? s)%num then map (fun v => (v / s)%num) iw else iw.
Definition uniform_weights (rows : list (X * Z)) : list T := map (fun _ => (n1 / nofZ (Z.of_nat (length rows)))%num) rows.
(** np.sum(instance_weights[pred != y]) (line 211) *)
Definition wrong_weight (iw : list T) (ps ys : list Z) : T :=
  fold_left nadd (map (fun ipy => if (fst (snd ipy) =? snd (snd ipy))%Z then n0 else fst ipy) (combine iw (combine ps ys))) n0.
(** 1.0 / (1.0 + exp(-slope * (t - k - crossing_point))) (line 236) *)
Definition sigmoid (t k : nat) : T := (n1 / (n1 + nexp ((n0 - slope) * (nofZ (Z.of_nat t - Z.of_nat k) - crossing))))%num.
(** The k-th member of t on the new window, lines 209-243: the member and its error *)
Definition judge (t k : nat) (win : list (X * Z)) (classes : list Z) (iw : list T) (m : member) : res (member * T) :=
  ps <- nl_predict L (m_est m) (map fst win) ;;
  if negb (Nat.eqb (length ps) (length win)) then Raise ValueError else
  let ekt := wrong_weight iw ps (map snd win) in
  ' (est, ekt) <- (if (n1 / nofZ 2 <? ekt)%num then
                     if Nat.eqb k t then b <- train base win classes ;; Ok (b, ekt)
                     else Ok (m_est m, n1 / nofZ 2)%num
                   else Ok (m_est m, ekt)) ;;
  let bkts := m_bkts m ++ [ekt / (n1 - ekt)]%num in
  let wkt := sigmoid t k in
  let wkts := m_wkts m ++ [wkt / (fold_left nadd (m_wkts m) n0 + wkt)]%num in
  let sbkt := (fold_left nadd (map (fun bw => fst bw * snd bw) (combine bkts wkts)) n0 + tiny)%num in
  Ok (mk_member est bkts wkts (Some (nln (n1 / sbkt)%num)), ekt).
(** The loop, lines 209-243: the members, the position of the first with the greatest error so far and that error, and the exception if any *)
Fixpoint judge_all (t k : nat) (win : list (X * Z)) (classes : list Z) (iw : list T) (worst : option (nat * T)) (ms : list member)
  : list member * option nat * option exc :=
  match ms with
  | [] => ([], option_map fst worst, None)
  | m :: r =>
      match judge t k win classes iw m with
      | Raise e => (m :: r, None, Some e)
      | Ok (m', ekt) =>
          let worst := match worst with Some (_, e) => if (e <? ekt)%num then Some (k - 1, ekt) else worst | None => Some (k - 1, ekt) end in
          let '(r', i, x) := judge_all t (S k) win classes iw worst r in
          (m' :: r', i, x)
      end
  end.
Definition remove_at {A} (i : nat) (l : list A) : list A := firstn i l ++ skipn (S i) l.
(** Pruning, lines 247-258 *)
Definition pruned (worst : option nat) (ms : list member) : list member :=
  if Nat.ltb n_estimators (length ms) then
    match prune, worst with ByAge, _ => tl ms | ByError, Some i => remove_at i ms | _, _ => ms end
  else ms.
Definition unweighed (m : member) : member := mk_member (m_est m) (m_bkts m) (m_wkts m) None.
(** Lines 169-262: the members after the window, and the exception if any *)
Definition absorb (s : nse) (classes : list Z) (win : list (X * Z)) : list member * option exc :=
  match (iw <- (match ns_members s with
                | [] => Ok (uniform_weights win)
                | _ => votes <- nse_predict s (map fst win) ;; Ok (instance_weights (map (fun vy => (Z.of_nat (fst vy) =? snd vy)%Z) (combine votes (map snd win))))
                end) ;;
         b <- train base win classes ;; Ok (iw, b)) with
  | Raise e => (ns_members s, Some e)
  | Ok (iw, b) =>
      let ms := map unweighed (ns_members s) ++ [mk_member b [] [] None] in
      match judge_all (length ms) 1 win classes iw None ms with
      | (ms', _, Some e) => (ms', Some e)
      | (ms', worst, None) => (pruned worst ms', None)
      end
  end.
(** The loop over the rows, lines 164-262: the append of a frozen window raises *)
Fixpoint nse_rows (rows : list (X * Z)) (classes : list Z) (s : nse) : nse * option exc :=
  match rows with
  | [] => (s, None)
  | row :: rows =>
      if ns_frozen s then (s, Some AttributeError)
      else
        let win := ns_win s ++ [row] in
        if Nat.eqb (length win) w then
          match absorb s classes win with
          | (ms, Some e) => (mk_nse (ns_classes s) ms win true, Some e)
          | (ms, None) => nse_rows rows classes (mk_nse (ns_classes s) ms [] false)
          end
        else nse_rows rows classes (mk_nse (ns_classes s) (ns_members s) win false)
  end.
(** partial_fit, lines 124-263 *)
Definition nse_partial_fit (rows : list (X * Z)) (classes : option (list Z * bool)) (s : nse) : nse * option exc :=
  match ns_classes s, classes with
  | None, None => (s, Some RuntimeError)
  | None, Some c => nse_rows rows (fst c) (mk_nse (Some c) (ns_members s) (ns_win s) (ns_frozen s))
  | Some c, _ => nse_rows rows (fst c) s
  end.

Inductive nop := NFit (rows : list (X * Z)) (classes : option (list Z * bool)) | NReset.
Definition nse_step (s : nse) (o : nop) : nse * option exc :=
  match o with NFit rows classes => nse_partial_fit rows classes s | NReset => (nse_reset s, None) end.
(** A history of calls, going on after exceptions *)
Fixpoint nse_run (s : nse) (os : list nop) : nse * list (option exc) :=
  match os with
  | [] => (s, [])
  | o :: os => let '(s1, e) := nse_step s o in let '(s2, es) := nse_run s1 os in (s2, e :: es)
  end.
End NSE.
Arguments member : clear implicits. Arguments nse : clear implicits. Arguments nop : clear implicits.
