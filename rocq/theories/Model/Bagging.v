(** Models of OzaBaggingClassifier (meta/oza_bagging.py), OzaBaggingADWINClassifier (meta/oza_bagging_adwin.py) and
    LeveragingBaggingClassifier (meta/leverage_bagging.py).

    Simplifications: labels are integers; a RandomState is an arbitrary state machine of type [G] whose methods are
    arguments ([pois lam g]: poisson(lam), [rand g]: rand(), [coin g]: randint(2) == 1); copy.deepcopy of the base estimator is
    the value itself; the length of the ensemble stands for actual_n_estimators, which the code keeps equal to it.  When a
    call raises, the model forgets the state. *)
From Coq Require Import List ZArith Bool.
From Verif Require Import Base.Py Base.Num Model.Adwin Model.Knn Model.Learner Model.Generators.
Import ListNotations.

(** What the ensembles use of ADWIN: add_element(1) or add_element(0), detected_change(), estimation, and ADWIN(delta). *)
Record edet (T D : Type) := mk_edet {
  e_add : D -> bool -> res D; e_change : D -> res (D * bool); e_est : D -> T; e_new : D }.
Arguments mk_edet {T D}. Arguments e_add {T D}. Arguments e_change {T D}. Arguments e_est {T D}. Arguments e_new {T D}.
(** ADWIN(delta), Model/Adwin.v; the loop of detected_change stops (adwin_never_raises) *)
Definition adwin_edet {T} `{Num T} (delta : T) : edet T (adwin T) :=
  mk_edet
    (fun s (b : bool) => match adwin_step s (AAdd (if b then n1 else n0)) with Ok (Some s') => Ok s' | Ok None => Raise ValueError | Raise e => Raise e end)
    (fun s => match adwin_detect s with Ok (Some r) => Ok r | Ok None => Raise ValueError | Raise e => Raise e end)
    adwin_estimation (adwin_init delta).

(** set(a) == set(b) *)
Definition same_set (a b : list Z) : bool :=
  forallb (fun x => existsb (Z.eqb x) b) a && forallb (fun x => existsb (Z.eqb x) a) b.
(** The check of the classes argument: oza_bagging.py 152-164, oza_bagging_adwin.py 143-155, leverage_bagging.py 206-219 *)
Definition check_classes (known given : option (list Z)) : res (list Z) :=
  match known, given with
  | None, None => Raise ValueError
  | None, Some c => Ok c
  | Some c, None => Ok c
  | Some c, Some c' => if same_set c c' then Ok c else Raise ValueError
  end.
(** [for b in range(k)] *)
Fixpoint times {A} (k : nat) (f : A -> res A) (a : A) : res A :=
  match k with O => Ok a | S k => a' <- f a ;; times k f a' end.

Section Bag.
Context {X T B G : Type} {N : Num T} (L : learner X T B).

(** *** Combination of the probabilities: oza_bagging.py 242-278, leverage_bagging.py 385-412, 449-461 *)
(** proba[n][k] += p[k], appending when the list is too short *)
Fixpoint add_row (acc p : list T) : list T :=
  match acc, p with
  | a :: acc', x :: p' => (a + x)%num :: add_row acc' p'
  | [], p => p
  | acc, [] => acc
  end.
Fixpoint add_rows (acc p : list (list T)) : list (list T) :=
  match acc, p with a :: acc', x :: p' => add_row a x :: add_rows acc' p' | _, _ => acc end.
Definition normalize (row : list T) : list T :=
  let s := fold_left nadd row n0 in if (n0 <? s)%num then map (fun x => (x / s)%num) row else row.
(** The loop over the members.  [None]: a ValueError or a TypeError was caught.  The member that failed stays as it is. *)
Fixpoint sum_probas (classes : option (list Z)) (r : nat) (xs : list X) (l : list B) (acc : list (list T))
  : res (option (list (list T)) * list B) :=
  match l with
  | [] => Ok (Some acc, [])
  | b :: rest =>
      match lr_proba L b xs with
      | Raise ValueError | Raise TypeError => Ok (None, l)
      | Raise e => Raise e
      | Ok (p, b') =>
          match p with
          | [] => Raise IndexError
          | row0 :: _ =>
              match classes with
              | None | Some [] => Ok (None, b' :: rest)
              | Some (c :: cs) =>
                  if (fold_left Z.max cs c + 1 <? Z.of_nat (length row0))%Z then Ok (None, b' :: rest)
                  else if Nat.ltb (length p) r then Raise IndexError
                  else
                    let p := firstn r p in
                    let acc := match acc with [] => map (fun row => repeat n0 (length row)) p | _ => acc end in
                    ' (o, rest') <- sum_probas classes r xs rest (add_rows acc p) ;; Ok (o, b' :: rest')
              end
          end
      end
  end.
Definition bag_proba (classes : option (list Z)) (l : list B) (xs : list X) : res (list (list T) * list B) :=
  ' (o, l') <- sum_probas classes (length xs) xs l [] ;;
  match o with
  | None => Ok (map (fun _ => [n0]) xs, l')
  | Some acc => if Nat.ltb (length acc) (length xs) then Raise IndexError else Ok (map normalize acc, l')
  end.
(** predict: oza_bagging.py 202-209, leverage_bagging.py 348-356 *)
Definition bag_predict (classes : option (list Z)) (l : list B) (xs : list X) : res (list nat * list B) :=
  ' (p, l') <- bag_proba classes l xs ;; q <- mapM np_argmax p ;; Ok (q, l').

(** *** OzaBaggingClassifier *)
Section Oza.
Variables (pois : T -> G -> nat * G) (base : B) (n_estimators : nat).
Record oza := mk_oza { oz_ens : list B; oz_classes : option (list Z); oz_rng : G }.
(** __configure, 108-113: the object given by the user is reset, then copied *)
Definition fresh : B := lr_reset L base.
Definition oza_new (g : G) : oza := mk_oza (repeat fresh n_estimators) None g.
(** reset, 115-117; [g]: the random state that check_random_state gives *)
Definition oza_reset (s : oza) (g : G) : oza := mk_oza (repeat fresh n_estimators) (oz_classes s) g.
(** __adjust_ensemble_size, 178-183 *)
Definition adjust (classes : list Z) (l : list B) : list B := l ++ repeat fresh (length classes - length l).
(** One row of the loop, 169-175 *)
Fixpoint train_members (f : B -> res B) (l : list B) (g : G) : res (list B * G) :=
  match l with
  | [] => Ok ([], g)
  | b :: r => let '(k, g) := pois n1 g in b' <- times k f b ;; ' (r', g) <- train_members f r g ;; Ok (b' :: r', g)
  end.
(** partial_fit, 119-176: the classes and weights of this call are handed on as they are *)
Definition oza_fit (s : oza) (rows : list (X * Z)) (classes : option (list Z)) (sw : option (list T)) : res oza :=
  cl <- check_classes (oz_classes s) classes ;;
  ' (l, g) <- foldM (fun lg row => train_members (fun b => lr_fit L b [row] classes sw) (fst lg) (snd lg))
                    rows (adjust cl (oz_ens s), oz_rng s) ;;
  Ok (mk_oza l (Some cl) g).
Definition oza_proba (s : oza) (xs : list X) : res (list (list T) * oza) :=
  ' (p, l) <- bag_proba (oz_classes s) (oz_ens s) xs ;; Ok (p, mk_oza l (oz_classes s) (oz_rng s)).
Definition oza_predict (s : oza) (xs : list X) : res (list nat * oza) :=
  ' (p, l) <- bag_predict (oz_classes s) (oz_ens s) xs ;; Ok (p, mk_oza l (oz_classes s) (oz_rng s)).

(** *** OzaBaggingADWINClassifier.  A member is an estimator and its ADWIN. *)
Context {D : Type} (P : edet T D).
Record ozad := mk_ozad { od_ens : list (B * D); od_classes : option (list Z); od_rng : G }.
Definition ozad_new (g : G) : ozad := mk_ozad (repeat (fresh, e_new P) n_estimators) None g.
(** reset, 100-102: only the change detectors are new *)
Definition ozad_reset (s : ozad) : ozad := mk_ozad (map (fun m => (fst m, e_new P)) (od_ens s)) (od_classes s) (od_rng s).
Fixpoint add_all (d : D) (hits : list bool) : res D := match hits with [] => Ok d | h :: r => d' <- e_add P d h ;; add_all d' r end.
(** The body of the loop, 159-184: K times the whole batch, then the ADWIN gets 1 for each row predicted right and 0 for each
    wrong one.  [change] is change_detected.  A ValueError of predict is caught and clears it; what it leaves of the member is
    the state before the prediction.  (add_element and detected_change of ADWIN do not raise, so an exception of theirs is
    left to propagate.)  pred[j] for j < r: an answer that is too short raises IndexError. *)
Definition ozad_member (rows : list (X * Z)) classes sw (m : B * D) (change : bool) (g : G) : res ((B * D) * bool * G) :=
  let '(k, g) := pois n1 g in
  b <- times k (fun b => lr_fit L b rows classes sw) (fst m) ;;
  match lr_predict L b (map fst rows) with
  | Raise ValueError => Ok ((b, snd m), false, g)
  | Raise e => Raise e
  | Ok (p, b') =>
      if Nat.ltb (length p) (length rows) then Raise IndexError
      else
        let before := e_est P (snd m) in
        d <- add_all (snd m) (map (fun pr => (fst pr =? snd (snd pr))%Z) (combine p rows)) ;;
        ' (d, c) <- e_change P d ;;
        Ok ((b', d), (if c && (before <? e_est P d)%num then true else change), g)
  end.
Fixpoint ozad_members rows classes sw (l : list (B * D)) (change : bool) (g : G) : res (list (B * D) * bool * G) :=
  match l with
  | [] => Ok ([], change, g)
  | m :: r => ' (m', change, g) <- ozad_member rows classes sw m change g ;;
              ' (r', change, g) <- ozad_members rows classes sw r change g ;; Ok (m' :: r', change, g)
  end.
(** The search of the greatest estimation, 187-193; also leverage_bagging.py 303-308 *)
Fixpoint find_max (i : nat) (l : list (B * D)) (mx : T) (im : option nat) : option nat :=
  match l with
  | [] => im
  | m :: r => if (mx <? e_est P (snd m))%num then find_max (S i) r (e_est P (snd m)) (Some i) else find_max (S i) r mx im
  end.
Definition reset_max (l : list (B * D)) : list (B * D) :=
  match find_max 0 l n0 None with
  | None => l
  | Some i => match nth_error l i with Some m => set_nth l i (lr_reset L (fst m), e_new P) | None => l end
  end.
(** partial_fit, 104-198 *)
Definition ozad_fit (s : ozad) (rows : list (X * Z)) (classes : option (list Z)) (sw : option (list T)) : res ozad :=
  cl <- check_classes (od_classes s) classes ;;
  let l := od_ens s ++ repeat (fresh, e_new P) (length cl - length (od_ens s)) in
  ' (l, change, g) <- ozad_members rows classes sw l false (od_rng s) ;;
  Ok (mk_ozad (if change : bool then reset_max l else l) (Some cl) g).
Definition ozad_predict (s : ozad) (xs : list X) : res (list nat * ozad) :=
  ' (p, l) <- bag_predict (od_classes s) (map fst (od_ens s)) xs ;;
  Ok (p, mk_ozad (combine l (map snd (od_ens s))) (od_classes s) (od_rng s)).
End Oza.

(** *** LeveragingBaggingClassifier *)
Inductive leverage := LBag | LMe | LHalf | LWt | LSub.
Section Lev.
Variables (pois : T -> G -> nat * G) (rand : G -> T * G) (coin : G -> bool * G) (base : B) (n_estimators : nat) (w : T) (alg : leverage) (codes : bool).
Context {D : Type} (P : edet T D).
(** [lv_codes]: the code matrix, None while init_matrix_codes *)
Record lev := mk_lev { lv_ens : list (B * D); lv_rng : G; lv_changes : Z; lv_classes : option (list Z); lv_codes : option (list (list Z)) }.
(** __configure, 168-178, also reset, 463-471 *)
Definition lev_new (g : G) : lev := mk_lev (repeat (lr_reset L base, e_new P) n_estimators) g 0 None None.

(** __init_output_codes, 313-334: one pass of the inner loop over the classes [j]; [first]: the code of class 0.  A row is the list of the codes *)
Fixpoint code_row (k j : nat) (n : nat) (first : Z) (g : G) : list Z * G :=
  match k with
  | O => ([], g)
  | S k =>
      let '(c, g) := if Nat.eqb j 1 && Nat.eqb n 2 then ((1 - first)%Z, g) else let '(b, g) := coin g in ((if b : bool then 1 else 0)%Z, g) in
      let '(r, g) := code_row k (S j) n (if Nat.eqb j 0 then c else first) g in (c :: r, g)
  end.
Definition ones (row : list Z) : Z := Z.of_nat (length (filter (Z.eqb 1) row)).
Definition zeros (row : list Z) : Z := Z.of_nat (length (filter (fun c => negb (Z.eqb 1 c)) row)).
(** [while condition], with the fuel of Model/Generators.v: [Loop] when it has not stopped *)
Fixpoint code_loop (fuel : nat) (n_members n_classes : nat) (g : G) : out (list Z * G) :=
  match fuel with
  | O => Loop
  | S fuel =>
      let '(row, g) := code_row n_classes 0 n_classes 0%Z g in
      let d := (ones row - zeros row)%Z in
      if (Z.of_nat (Nat.modulo n_members 2) <? d * d)%Z then code_loop fuel n_members n_classes g else Ret (row, g)
  end.
Fixpoint code_matrix (fuel : nat) (k n_members n_classes : nat) (g : G) : out (list (list Z) * G) :=
  match k with
  | O => Ret ([], g)
  | S k => obind (code_loop fuel n_members n_classes g) (fun rg =>
           obind (code_matrix fuel k n_members n_classes (snd rg)) (fun mg => Ret (fst rg :: fst mg, snd mg)))
  end.

(** How many times the member learns the sample, 235-274; LMe asks the member for a prediction first.  int(k) *)
Definition draw_k (m : B * D) (x : X) (y : Z) (g : G) : res (nat * B * G) :=
  match alg with
  | LBag => let '(k, g) := pois w g in Ok (k, fst m, g)
  | LMe => ' (c, b) <- predict_one L (fst m) x ;;
           let error := e_est P (snd m) in
           if negb (c =? y)%Z then Ok (1%nat, b, g)
           else if (error =? n1)%num then Ok (0%nat, b, g)
           else let '(u, g) := rand g in Ok (if (u <? error / (n1 - error))%num then 1%nat else 0%nat, b, g)
  | LHalf => let '(c, g) := coin g in Ok (if c then 0%nat else 1%nat, fst m, g)
  | LWt => let '(k, g) := pois n1 g in Ok (S k, fst m, g)
  | LSub => let '(k, g) := pois n1 g in Ok (if Nat.ltb 0 k then 1%nat else 0%nat, fst m, g)
  end.
(** The body of the loop over the members, 232-297.  [code]: the row of the code matrix, when it is used.  With k = 0 the
    ADWIN compares the prediction with y itself *)
Definition lev_member (x : X) (y : Z) (classes : list Z) (code : option (list Z)) (m : B * D) (change : bool) (g : G) : res ((B * D) * bool * G) :=
  ' (k, b, g) <- draw_k m x y g ;;
  ' (yc, cl) <- (match code with
                 | Some row => if Nat.ltb 0 k then c <- py_get row y ;; Ok (c, [0; 1]%Z) else Ok (y, classes)
                 | None => Ok (y, classes) end) ;;
  b <- times k (fun b => lr_fit L b [(x, yc)] (Some cl) None) b ;;
  ' (c, b) <- predict_one L b x ;;
  let before := e_est P (snd m) in
  d <- e_add P (snd m) (negb (c =? yc)%Z) ;;
  ' (d, chg) <- e_change P d ;;
  Ok ((b, d), (if chg && (before <? e_est P d)%num then true else change), g).
Fixpoint lev_members x y classes (codes : option (list (list Z))) (l : list (B * D)) (change : bool) (g : G) : res (list (B * D) * bool * G) :=
  match l with
  | [] => Ok ([], change, g)
  | m :: r => ' (m', change, g) <- lev_member x y classes (match codes with Some (row :: _) => Some row | _ => None end) m change g ;;
              ' (r', change, g) <- lev_members x y classes (option_map (@tl _) codes) r change g ;; Ok (m' :: r', change, g)
  end.
Definition lift {A} (m : res A) : out A := match m with Ok a => Ret a | Raise e => Exc e end.
(** __partial_fit, 225-311 *)
Definition lev_one (fuel : nat) (classes : list Z) (s : lev) (x : X) (y : Z) : out lev :=
  obind (match lv_codes s with
         | None => if codes then obind (code_matrix fuel (length (lv_ens s)) (length (lv_ens s)) (length classes) (lv_rng s)) (fun mg => Ret (Some (fst mg), snd mg)) else Ret (None, lv_rng s)
         | Some m => Ret (Some m, lv_rng s) end) (fun mg =>
  obind (lift (lev_members x y classes (fst mg) (lv_ens s) false (snd mg))) (fun r =>
  let '(l, change, g) := r in
  Ret (if change : bool then mk_lev (reset_max P l) g (lv_changes s + 1) (lv_classes s) (fst mg)
       else mk_lev l g (lv_changes s) (lv_classes s) (fst mg)))).
Fixpoint lev_rows (fuel : nat) (classes : list Z) (s : lev) (rows : list (X * Z)) : out lev :=
  match rows with [] => Ret s | (x, y) :: r => obind (lev_one fuel classes s x y) (fun s => lev_rows fuel classes s r) end.
(** partial_fit, 180-223; sample_weight is not used *)
Definition lev_fit (fuel : nat) (s : lev) (rows : list (X * Z)) (classes : option (list Z)) : out lev :=
  obind (lift (check_classes (lv_classes s) classes)) (fun cl =>
  lev_rows fuel cl (mk_lev (lv_ens s) (lv_rng s) (lv_changes s) (Some cl) (lv_codes s)) rows).

(** predict_binary_proba, 414-447.  The members are asked again for each row; the code asks with the whole batch, of which
    only this row is used: the model gives the row.  A ValueError is not caught here. *)
Definition code_vote (row : list T) : Z := match row with [a; b] => if (a <? b)%num then 1%Z else 0%Z | _ => 0%Z end.
Fixpoint code_votes (l : list B) (matrix : list (list Z)) (x : X) (acc : list T) : res (list T * list B) :=
  match l with
  | [] => Ok (acc, [])
  | b :: r =>
      ' (p, b') <- lr_proba L b [x] ;;
      match p, matrix with
      | row :: _, code :: matrix' =>
          let acc := map (fun ca => if (fst ca =? code_vote row)%Z then (snd ca + n1)%num else snd ca) (combine code acc) in
          ' (a, r') <- code_votes r matrix' x acc ;; Ok (a, b' :: r')
      | _, _ => Raise IndexError
      end
  end.
End Lev.
End Bag.
Arguments oza : clear implicits.
Arguments mk_oza {B G}. Arguments oz_ens {B G}. Arguments oz_classes {B G}. Arguments oz_rng {B G}.
Arguments ozad : clear implicits.
Arguments mk_ozad {B G D}. Arguments od_ens {B G D}. Arguments od_classes {B G D}. Arguments od_rng {B G D}.
Arguments lev : clear implicits.
Arguments mk_lev {B G D}. Arguments lv_ens {B G D}. Arguments lv_rng {B G D}. Arguments lv_changes {B G D}. Arguments lv_classes {B G D}. Arguments lv_codes {B G D}.
