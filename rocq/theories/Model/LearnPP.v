(** Model of LearnPPClassifier (meta/learn_pp.py).

    Simplifications: labels are integers; copy.deepcopy of the base estimator is the value itself; an estimator's predict leaves
    it as it is; the lists ensembles[i] and ensemble_weights[i], which grow and shrink together, are one list of pairs.
    random_state is an integer: [seed] is the generator it gives.  [choose p n g] is random.choice(arange(len(p)), n, p=p) (the
    items are linspace(0, m-1, m), converted to integers).  numpy's division is [ndiv].  The [while] loops run with fuel: an
    endless loop is one that uses up any fuel.  After an exception or an endless call the generator is not tracked. *)
From Coq Require Import List ZArith Bool.
From Verif Require Import Base.Py Base.Num Model.Adwin Model.Knn Model.Generators Model.Bagging Model.Windowed.
Import ListNotations.

Section LearnPP.
Context {X T B G : Type} {N : Num T} (L : wlearner X T B) (base : B) (threshold : T) (n_estimators n_ensembles w : nat)
  (seed : G) (choose : list T -> nat -> G -> res (list nat * G)).

(** An ensemble: each member with its normalized error *)
Record lpp := mk_lpp { lp_classes : option (list Z); lp_ens : list (list (B * T)); lp_win : list (X * Z); lp_rng : G }.
(** learn_pp.py 107-126 *)
Definition lpp_init : lpp := mk_lpp None [] [] seed.
(** lines 128-133: self.classes stays *)
Definition lpp_reset (s : lpp) : lpp := mk_lpp (lp_classes s) [] [] seed.

(** 1e-50 *)
Definition tiny : T := (n1 / nofZ (10 ^ 50))%num.
(** __vote_proba for one row, lines 284-296: votes[int(h.predict(x)[0])] += log(1 / (norm_error + 1e-50)) *)
Definition lp_votes (members : list (B * T)) (x : X) (votes : list T) : res (list T) :=
  foldM (fun votes be =>
    p <- labels_of L (fst be) [x] ;;
    match p with
    | c :: _ => v <- py_get votes c ;; py_set votes c (v + nln (n1 / (snd be + tiny)))%num
    | [] => Raise IndexError
    end) members votes.
Definition no_votes (K : nat) : list T := repeat n0 K.
(** __majority_vote, lines 298-300 *)
Definition majority (K : nat) (members : list (B * T)) (xs : list X) : res (list Z) :=
  mapM (fun x => v <- lp_votes members x (no_votes K) ;; c <- np_argmax v ;; Ok (Z.of_nat c)) xs.
(** __compute_error, lines 279-282 *)
Definition compute_error (D : list T) (ys ps : list Z) : T :=
  (fold_left nadd (map (fun dyp => if (fst (snd dyp) =? snd (snd dyp))%Z then n0 else fst dyp) (combine D (combine ys ps))) n0 / fold_left nadd D n0)%num.
(** X[index] *)
Definition at_index {A} (l : list A) (idx : list nat) : res (list A) :=
  mapM (fun i => match nth_error l i with Some v => Ok v | None => Raise IndexError end) idx.

(** One round of the inner loop, lines 218-257, for member [cur] after the members [done]:
    the trained member with its normalized error, the distribution, total_error and the generator. *)
Definition attempt (K : nat) (rows : list (X * Z)) (last : bool) (done : list (B * T)) (cur : B * T) (D : list T) (g : G)
  : res ((B * T) * list T * T * G) :=
  let size := Nat.div (length rows) 2 in
  ' (train, g) <- choose D size g ;;
  ' (test, g) <- choose D size g ;;
  train <- at_index rows train ;;
  test_rows <- at_index rows test ;;
  b <- wl_fit L (fst cur) train None ;;
  p <- labels_of L b (map fst test_rows) ;;
  Dt <- at_index D test ;;
  let total := compute_error Dt (map snd test_rows) p in
  if (total <? threshold)%num then
    let cur := (b, total / (n1 - total))%num in
    c <- majority K (done ++ [cur]) (map fst rows) ;;
    let total := compute_error D (map snd rows) c in
    if (total <? threshold)%num then
      Ok (cur, (if last then D else map (fun dyp => if (fst (snd dyp) =? snd (snd dyp))%Z then (fst dyp * (total / (n1 - total)))%num else fst dyp)
                                      (combine D (combine (map snd rows) c))), total, g)
    else Ok (cur, D, total, g)
  else Ok ((b, snd cur), D, total, g).
(** The inner loop, lines 216-262: [while total_error >= self.error_threshold] *)
Fixpoint attempts (fuel : nat) (K : nat) (rows : list (X * Z)) (last : bool) (done : list (B * T)) (cur : B * T) (D : list T) (g : G) (patience : nat)
  : out ((B * T) * list T * G) :=
  match fuel with
  | O => Loop
  | S fuel =>
      match attempt K rows last done cur D g with
      | Raise e => Exc e
      | Ok (cur, D, total, g) =>
          let patience := if (threshold <? total)%num then S patience else O in
          if Nat.ltb 1000 patience then Exc RuntimeError
          else if (threshold <=? total)%num then attempts fuel K rows last done cur D g patience
          else Ret (cur, D, g)
      end
  end.
(** The outer loop, lines 206-263: [todo] members are still to come.  If 1 is below the threshold no member is trained. *)
Fixpoint members_loop (fuel : nat) (K : nat) (rows : list (X * Z)) (todo : nat) (done : list (B * T)) (D : list T) (g : G) : out (list (B * T) * G) :=
  match todo with
  | O => Ret (done, g)
  | S todo =>
      let s := fold_left nadd D n0 in
      if (s =? n0)%num then Ret (done, g)
      else
        let D := map (fun d => (d / s)%num) D in
        if (threshold <=? n1)%num then
          match attempts fuel K rows (Nat.eqb todo 0) done (base, n1) D g 0 with
          | Ret (cur, D, g) => members_loop fuel K rows todo (done ++ [cur]) D g
          | Exc e => Exc e
          | Loop => Loop
          end
        else members_loop fuel K rows todo done D g
  end.
(** __fit_batch, lines 193-277 *)
Definition fit_batch (fuel : nat) (K : nat) (rows : list (X * Z)) (g : G) : out (list (B * T) * G) :=
  members_loop fuel K rows n_estimators [] (map (fun _ => (n1 / nofZ (Z.of_nat (length rows)))%num) rows) g.

Inductive fate := Done | Failed (e : exc) | Endless.
(** The loop over the rows, lines 182-189 *)
Fixpoint lpp_rows (fuel : nat) (K : nat) (rows : list (X * Z)) (s : lpp) : lpp * fate :=
  match rows with
  | [] => (s, Done)
  | row :: rows =>
      let win := lp_win s ++ [row] in
      if Nat.eqb (length win) w then
        match fit_batch fuel K win (lp_rng s) with
        | Ret (ens, g) =>
            let l := lp_ens s ++ [ens] in
            lpp_rows fuel K rows (mk_lpp (lp_classes s) (if Nat.ltb n_ensembles (length l) then tl l else l) [] g)
        | Exc e => (mk_lpp (lp_classes s) (lp_ens s) win (lp_rng s), Failed e)
        | Loop => (mk_lpp (lp_classes s) (lp_ens s) win (lp_rng s), Endless)
        end
      else lpp_rows fuel K rows (mk_lpp (lp_classes s) (lp_ens s) win (lp_rng s))
  end.
(** partial_fit, lines 135-191 *)
Definition lpp_partial_fit (fuel : nat) (rows : list (X * Z)) (classes : option (list Z)) (s : lpp) : lpp * fate :=
  match lp_classes s, classes with
  | None, None => (s, Failed RuntimeError)
  | None, Some c => lpp_rows fuel (length c) rows (mk_lpp (Some c) (lp_ens s) (lp_win s) (lp_rng s))
  | Some c, None => lpp_rows fuel (length c) rows s
  | Some c, Some c' => if same_set c' c then lpp_rows fuel (length c) rows s else (s, Failed RuntimeError)
  end.
(** predict_proba, lines 302-325 *)
Definition lpp_proba (s : lpp) (xs : list X) : res (list (list T)) :=
  match lp_classes s with
  | None => Raise TypeError
  | Some c =>
      mapM (fun x => foldM (fun votes ens => v <- lp_votes ens x (no_votes (length c)) ;; Ok (map (fun ab => (fst ab + snd ab)%num) (combine votes v)))
                           (lp_ens s) (no_votes (length c))) xs
  end.
(** predict, lines 327-346 *)
Definition lpp_predict (s : lpp) (xs : list X) : res (list nat) := v <- lpp_proba s xs ;; mapM np_argmax v.

Inductive lop := LFit (rows : list (X * Z)) (classes : option (list Z)) | LReset.
Definition lpp_step (fuel : nat) (s : lpp) (o : lop) : lpp * fate :=
  match o with LFit rows classes => lpp_partial_fit fuel rows classes s | LReset => (lpp_reset s, Done) end.
(** A history of calls; a caller may go on after an exception, not after an endless call *)
Fixpoint lpp_run (fuel : nat) (s : lpp) (os : list lop) : lpp * list fate :=
  match os with
  | [] => (s, [])
  | o :: os =>
      let '(s1, f) := lpp_step fuel s o in
      match f with Endless => (s1, [Endless]) | _ => let '(s2, fs) := lpp_run fuel s1 os in (s2, f :: fs) end
  end.
End LearnPP.
Arguments lpp : clear implicits. Arguments lop : clear implicits.
