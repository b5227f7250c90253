(** Models of MultiOutputLearner (meta/multi_output_learner.py), RegressorChain (meta/regressor_chains.py), ClassifierChain,
    ProbabilisticClassifierChain and MonteCarloClassifierChain (meta/classifier_chains.py).

    Simplifications: X and y of a call have the same number of rows and y has at least one column; a matrix is the list of
    its rows, and [k], the number of columns of y, is given with it; targets are numbers of type [T], since the code stores
    predictions in arrays of floats; copy.deepcopy of the base estimator is the value itself; predict and predict_proba leave
    a base estimator as it is; a vector assigned to a column has one entry per row (numpy also accepts a single entry).
    A RandomState is an arbitrary state machine of type [G] whose methods are arguments.

    A failed call leaves its changes behind, so each training method returns the object and the exception, if any. *)
From Coq Require Import List ZArith Bool.
From Verif Require Import Base.Py Base.Num Model.Adwin Model.Knn.
Import ListNotations.

(** A base estimator with one output.  fit and partial_fit return the object and the exception raised, if any.  The last four
    fields tell whether the signatures of fit and of partial_fit have parameters named classes and sample_weight. *)
Record tlearner (X T B : Type) := mk_tlearner {
  tl_fit : B -> list (X * T) -> option (list Z) -> option (list T) -> B * option exc;
  tl_pfit : B -> list (X * T) -> option (list Z) -> option (list T) -> B * option exc;
  tl_predict : B -> list X -> res (list T);
  tl_proba : B -> list X -> res (list (list T));
  tl_fit_classes : bool; tl_fit_weight : bool; tl_pfit_classes : bool; tl_pfit_weight : bool }.
Arguments mk_tlearner {X T B}. Arguments tl_fit {X T B}. Arguments tl_pfit {X T B}. Arguments tl_predict {X T B}. Arguments tl_proba {X T B}.
Arguments tl_fit_classes {X T B}. Arguments tl_fit_weight {X T B}. Arguments tl_pfit_classes {X T B}. Arguments tl_pfit_weight {X T B}.

(** [for j in range(k): self.ensemble[j].m(...)] where [f j] is the call on member [j] *)
Fixpoint each {B} (k j : nat) (f : nat -> B -> B * option exc) (l : list B) : list B * option exc :=
  match k with
  | O => (l, None)
  | S k =>
      match l with
      | [] => ([], Some IndexError)
      | b :: l' =>
          let '(b', e) := f j b in
          match e with
          | Some e => (b' :: l', Some e)
          | None => let '(l'', e) := each k (S j) f l' in (b' :: l'', e)
          end
      end
  end.
(** A column: [v] is assigned to [Y[:, j]] when it has one entry per row *)
Definition column {A} (n : nat) (v : list A) : res (list A) := if Nat.eqb (length v) n then Ok v else Raise ValueError.
(** m[:, 1] *)
Definition second {T} (m : list (list T)) : res (list T) :=
  mapM (fun r => match r with _ :: b :: _ => Ok b | _ => Raise IndexError end) m.
(** The rows of a matrix given by its columns *)
Definition rows_of {T} `{Num T} (n : nat) (cols : list (list T)) : list (list T) := map (fun i => map (fun c => nth i c n0) cols) (seq 0 n).

(** *** MultiOutputLearner *)
Section Multi.
Context {X T B : Type} {N : Num T} (L : tlearner X T B) (base : B).

Record multi := mk_multi { mo_n : option nat; mo_ens : option (list B) }.
(** multi_output_learner.py 70-75; _check_estimator_type (77-86) has no effect on learning *)
Definition mo_init : multi := mk_multi None None.
(** lines 121-128 and 169-178: 'sample_weight' and 'classes' in p is 'classes' in p; Python rejects an argument the method
    does not have with a TypeError *)
Definition passing (takes_classes takes_weight : bool) (m : B -> list (X * T) -> option (list Z) -> option (list T) -> B * option exc)
    (b : B) (rows : list (X * T)) (classes : option (list Z)) (sw : option (list T)) : B * option exc :=
  if takes_classes then if takes_weight then m b rows classes sw else (b, Some TypeError)
  else if takes_weight then m b rows None sw
  else m b rows None None.
(** (X, y[:, j]) *)
Definition target (j : nat) (rows : list (X * list T)) : list (X * T) := map (fun r => (fst r, nth j (snd r) n0)) rows.
(** lines 88-129 *)
Definition mo_fit (k : nat) (rows : list (X * list T)) (classes : option (list Z)) (sw : option (list T)) (s : multi) : multi * option exc :=
  let '(l, e) := each k 0 (fun j b => passing (tl_fit_classes L) (tl_fit_weight L) (tl_fit L) b (target j rows) classes sw) (repeat base k) in
  (mk_multi (Some k) (Some l), e).
(** lines 131-179 *)
Definition mo_partial_fit (k : nat) (rows : list (X * list T)) (classes : option (list Z)) (sw : option (list T)) (s : multi) : multi * option exc :=
  match mo_n s with
  | None => mo_fit k rows classes sw s
  | Some _ =>
      let ens := match mo_ens s with None => repeat base k | Some l => l end in
      let '(l, e) := each k 0 (fun j b => passing (tl_pfit_classes L) (tl_pfit_weight L) (tl_pfit L) b (target j rows) classes sw) ens in
      (mk_multi (Some k) (Some l), e)
  end.
(** The columns of the answer: [for j in range(self.n_targets)], lines 199-203, 227-235 *)
Fixpoint mo_cols (ask : B -> res (list T)) (n k : nat) (l : list B) : res (list (list T)) :=
  match k with
  | O => Ok []
  | S k =>
      match l with
      | [] => Raise IndexError
      | b :: l => v <- ask b ;; c <- column n v ;; cs <- mo_cols ask n k l ;; Ok (c :: cs)
      end
  end.
(** lines 181-203; np.zeros((N, None)) raises a TypeError *)
Definition mo_predict (s : multi) (xs : list X) : res (list (list T)) :=
  match mo_n s with
  | None => Raise TypeError
  | Some k =>
      cs <- mo_cols (fun b => tl_predict L b xs) (length xs) k (match mo_ens s with Some l => l | None => [] end) ;;
      Ok (rows_of (length xs) cs)
  end.
(** lines 205-235: the probability of the second class of each output *)
Definition mo_proba (s : multi) (xs : list X) : res (list (list T)) :=
  match mo_n s with
  | None => Raise TypeError
  | Some k =>
      cs <- mo_cols (fun b => m <- tl_proba L b xs ;; second m) (length xs) k (match mo_ens s with Some l => l | None => [] end) ;;
      Ok (rows_of (length xs) cs)
  end.
(** lines 237-239 *)
Definition mo_reset (s : multi) : multi := mk_multi None None.

Inductive mop := MFit (k : nat) (rows : list (X * list T)) (classes : option (list Z)) (sw : option (list T))
  | MPartial (k : nat) (rows : list (X * list T)) (classes : option (list Z)) (sw : option (list T)) | MReset.
Definition mo_step (s : multi) (o : mop) : multi * option exc :=
  match o with
  | MFit k rows c w => mo_fit k rows c w s
  | MPartial k rows c w => mo_partial_fit k rows c w s
  | MReset => (mo_reset s, None)
  end.
(** A history of calls; a caller may go on after an exception *)
Fixpoint mo_run (s : multi) (os : list mop) : multi * list (option exc) :=
  match os with
  | [] => (s, [])
  | o :: os => let '(s1, e) := mo_step s o in let '(s2, es) := mo_run s1 os in (s2, e :: es)
  end.
End Multi.
Arguments multi : clear implicits. Arguments mop : clear implicits.

(** *** RegressorChain and ClassifierChain *)
Section Chain.
Context {T B G : Type} {N : Num T} (L : tlearner (list T) T B) (base : B)
  (random : bool) (* order == 'random' *) (seed : G) (* check_random_state(self.random_state) *)
  (shuffle : list nat -> G -> list nat * G).

(** [ch_order]: self.chain; [ch_k]: self.L, which is -1 before the first call *)
Record chain := mk_chain { ch_order : option (list nat); ch_ens : option (list B); ch_k : option nat; ch_rng : G }.
(** classifier_chains.py 88-102, regressor_chains.py 62-76 *)
Definition ch_init : chain := mk_chain None None None seed.
(** y[:, self.chain] for one row *)
Definition reorder (order : list nat) (y : list T) : res (list T) :=
  mapM (fun i => match nth_error y i with Some v => Ok v | None => Raise IndexError end) order.
(** The rows given to member [j]: XY[:, 0:D + j] and y[:, j] *)
Definition link (j : nat) (rows : list (list T * list T)) : list (list T * T) :=
  map (fun r => (fst r ++ firstn j (snd r), nth j (snd r) n0)) rows.
(** classifier_chains.py 104-142, regressor_chains.py 78-114 *)
Definition ch_fit (k : nat) (rows : list (list T * list T)) (s : chain) : chain * option exc :=
  let '(order, g) := if random then shuffle (seq 0 k) (ch_rng s) else (seq 0 k, ch_rng s) in
  match mapM (fun r => y <- reorder order (snd r) ;; Ok (fst r, y)) rows with
  | Raise e => (mk_chain (Some order) (ch_ens s) (Some k) g, Some e)
  | Ok rows =>
      let '(l, e) := each k 0 (fun j b => tl_fit L b (link j rows) None None) (repeat base k) in
      (mk_chain (Some order) (Some l) (Some k) g, e)
  end.
(** classifier_chains.py 144-182, regressor_chains.py 116-152.  The column y[:, j] is evaluated after self.ensemble[j].  The
    assignment of y[:, 0:L-1] to the L-1 last columns of XY raises when y has fewer columns, except when it has one. *)
Definition ch_partial_fit (k : nat) (rows : list (list T * list T)) (s : chain) : chain * option exc :=
  match ch_ens s with
  | None => ch_fit k rows s
  | Some l =>
      let order := match ch_order s with Some o => o | None => [] end in
      let s := mk_chain (ch_order s) (Some l) (Some k) (ch_rng s) in
      if existsb (fun i => Nat.leb k i) order then (s, Some IndexError)
      else if Nat.ltb (length order) (k - 1) && negb (Nat.eqb (length order) 1) then (s, Some ValueError)
      else match mapM (fun r => y <- reorder order (snd r) ;; Ok (fst r, y)) rows with
        | Raise e => (s, Some e)
        | Ok rows =>
            let '(l, e) := each k 0 (fun j b => tl_pfit L b (link j rows) None None) l in
            (mk_chain (ch_order s) (Some l) (ch_k s) (ch_rng s), e)
        end
  end.
(** np.column_stack([X, Y[:, j - 1]]) *)
Definition stack (xs : list (list T)) (c : list T) : list (list T) := map (fun p => fst p ++ [snd p]) (combine xs c).
(** The columns of Y: classifier_chains.py 197-202 and 230-236, regressor_chains.py 167-172 *)
Fixpoint ch_cols (ask : B -> list (list T) -> res (list T)) (k : nat) (l : list B) (xs : list (list T)) : res (list (list T)) :=
  match k with
  | O => Ok []
  | S k =>
      match l with
      | [] => Raise IndexError
      | b :: l => v <- ask b xs ;; c <- column (length xs) v ;; cs <- ch_cols ask k l (stack xs c) ;; Ok (c :: cs)
      end
  end.
(** np.argsort of distinct numbers *)
Fixpoint insert_by (v : nat * nat) (l : list (nat * nat)) : list (nat * nat) :=
  match l with [] => [v] | w :: r => if Nat.leb (fst v) (fst w) then v :: l else w :: insert_by v r end.
Definition argsort (c : list nat) : list nat := map snd (fold_right insert_by [] (combine c (seq 0 (length c)))).
(** classifier_chains.py 184-205, regressor_chains.py 154-175; np.zeros((N, -1)) raises a ValueError *)
Definition ch_predict (s : chain) (xs : list (list T)) : res (list (list T)) :=
  match ch_k s with
  | None => Raise ValueError
  | Some k =>
      cs <- ch_cols (tl_predict L) k (match ch_ens s with Some l => l | None => [] end) xs ;;
      cs <- mapM (fun i => match nth_error cs i with Some c => Ok c | None => Raise IndexError end)
                 (argsort (match ch_order s with Some o => o | None => [] end)) ;;
      Ok (rows_of (length xs) cs)
  end.
(** classifier_chains.py 207-237 *)
Definition ch_proba (s : chain) (xs : list (list T)) : res (list (list T)) :=
  match ch_k s with
  | None => Raise ValueError
  | Some k =>
      cs <- ch_cols (fun b xs => m <- tl_proba L b xs ;; second m) k (match ch_ens s with Some l => l | None => [] end) xs ;;
      Ok (rows_of (length xs) cs)
  end.
(** classifier_chains.py 239-241 *)
Definition ch_reset (s : chain) : chain := mk_chain (ch_order s) None None seed.

Inductive cop := CFit (k : nat) (rows : list (list T * list T)) | CPartial (k : nat) (rows : list (list T * list T)) | CReset.
Definition ch_step (s : chain) (o : cop) : chain * option exc :=
  match o with
  | CFit k rows => ch_fit k rows s
  | CPartial k rows => ch_partial_fit k rows s
  | CReset => (ch_reset s, None)
  end.
Fixpoint ch_run (s : chain) (os : list cop) : chain * list (option exc) :=
  match os with
  | [] => (s, [])
  | o :: os => let '(s1, e) := ch_step s o in let '(s2, es) := ch_run s1 os in (s2, e :: es)
  end.

(** *** P (classifier_chains.py 248-275) with the payoff np.prod: [l] are the members still to be asked, [xy] the row so far *)
Fixpoint payoffs (l : list B) (y : list Z) (xy : list T) {struct y} : res (list T) :=
  match y with
  | [] => Ok []
  | v :: y =>
      match l with
      | [] => Raise IndexError
      | b :: l =>
          m <- tl_proba L b [xy] ;;
          match m with
          | [] => Raise IndexError
          | r :: _ => p <- py_get r v ;; ps <- payoffs l y (xy ++ [nofZ v]) ;; Ok (p :: ps)
          end
      end
  end.
Definition payoff (l : list B) (y : list Z) (x : list T) : res T := ps <- payoffs l y x ;; Ok (fold_left nmul ps n1).

(** *** ProbabilisticClassifierChain.predict: classifier_chains.py 327-361 *)
(** np.binary_repr(b, width=k) *)
Definition bits (k b : nat) : list Z := map (fun i => Z.b2z (Nat.testbit b (k - 1 - i))) (seq 0 k).
(** [if w_ > w_max: Yp[n, :] = y_; w_max = w_] *)
Definition keep_best (acc : list Z * T) (y : list Z) (w : T) : list Z * T := if (snd acc <? w)%num then (y, w) else acc.
Definition pcc_row (l : list B) (k : nat) (x : list T) : res (list Z) :=
  ' (y, _) <- foldM (fun acc b => w <- payoff l (bits k b) x ;; Ok (keep_best acc (bits k b) w)) (seq 0 (2 ^ k)) (repeat 0%Z k, n0) ;;
  Ok y.
Definition pcc_predict (s : chain) (xs : list (list T)) : res (list (list T)) :=
  match ch_k s with
  | None => Raise ValueError
  | Some k => ys <- mapM (pcc_row (match ch_ens s with Some l => l | None => [] end) k) xs ;; Ok (map (map nofZ) ys)
  end.

(** *** MonteCarloClassifierChain: classifier_chains.py 431-500.  [choice p g]: choice(2, 1, p=p); [trunc]: astype(int) *)
Context (choice : list T -> G -> res (Z * G)) (trunc : T -> Z).
Fixpoint mcc_sample (k : nat) (l : list B) (xy : list T) (g : G) : res (list Z * G) :=
  match k with
  | O => Ok ([], g)
  | S k =>
      match l with
      | [] => Raise IndexError
      | b :: l =>
          m <- tl_proba L b [xy] ;;
          match m with
          | [] => Raise IndexError
          | r :: _ =>
              ' (v, g) <- choice r g ;;
              _ <- py_get r v ;;
              ' (y, g) <- mcc_sample k l (xy ++ [nofZ v]) g ;;
              Ok (v :: y, g)
          end
      end
  end.
(** [for m in range(M)] *)
Fixpoint mcc_tries (M : nat) (l : list B) (k : nat) (x : list T) (acc : list Z * T) (g : G) : res (list Z * T * G) :=
  match M with
  | O => Ok (acc, g)
  | S M =>
      ' (y, g) <- mcc_sample k l x g ;;
      w <- payoff l y x ;;
      mcc_tries M l k x (keep_best acc y w) g
  end.
(** One instance.  The row stored is that of ClassifierChain.predict, with its numbers truncated when it is the answer: the
    model returns it as the labels given to P. *)
Definition mcc_row (M : nat) (s : chain) (x : list T) (g : G) : res (list Z * G) :=
  ys <- ch_predict s [x] ;;
  match ys with
  | [y] =>
      let l := match ch_ens s with Some l => l | None => [] end in
      let k := match ch_k s with Some k => k | None => O end in
      w <- payoff l (map trunc y) x ;;
      ' (yb, _, g) <- mcc_tries M l k x (map trunc y, w) g ;;
      Ok (yb, g)
  | _ => Raise ValueError
  end.
End Chain.
Arguments chain : clear implicits. Arguments cop : clear implicits.
