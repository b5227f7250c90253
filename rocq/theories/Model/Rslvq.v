(** RobustSoftLearningVectorQuantization, src/skmultiflow/prototype/robust_soft_learning_vector_quantization.py.
    Labels are integers.  w_ and c_w_ (prototypes and their classes) are one list of pairs.  Features are numbers: the checks of
    validation.check_X_y for nan and infinity are not modelled.  euclidean_distances of scikit-learn is the square root of the sum of the
    squared differences.  What np.empty finds in memory and what the generator draws are arguments.  UnboundLocalError is
    written [RuntimeError]. *)
From Coq Require Import List ZArith Bool.
From Verif Require Import Base.Py Base.Num Model.Adwin Model.DataStream Model.Knn.
Import ListNotations.

Section Rslvq.
Context {T : Type} {N : Num T}.
Local Notation vec := (list T).
Local Notation proto := (list T * Z)%type.

(** ** The constructor, lines 98-128 *)
Inductive ppc_arg := PInt (k : Z) | PList (l : list Z).
(** A list of prototypes is copied at every use, an array is not: the model trains in the array of the user *)
Inductive protos_arg := NoProtos | AsList (l : list proto) | AsArray (l : list proto).
Record rs_config := mk_rsc { c_sigma : T; c_ppc : nat; c_gamma : T; c_adadelta : bool; c_eps : T }.
Record rs := mk_rs {
  r_initial : bool;            (* initial_fit *)
  r_classes : list Z;          (* classes_ *)
  r_ready : list bool;         (* protos_initialized *)
  r_w : option (list proto);   (* w_ and c_w_; None: no such attribute yet *)
  r_acc : list (vec * vec);    (* squared_mean_gradient and squared_mean_step *)
  r_protos : protos_arg }.     (* initial_prototypes *)
Definition rs_make (eps : T) (ppc : ppc_arg) (protos : protos_arg) (sigma gamma : T) (adadelta : bool) : res (rs_config * rs) :=
  lr <- pydiv n1 sigma ;;
  if (sigma <=? n0)%num then Raise ValueError else
  match ppc with
  | PList _ => Raise TypeError (* '<=' not supported between list and int *)
  | PInt k =>
      if (k <=? 0)%Z then Raise ValueError else
      if ((n1 <=? gamma)%num || (gamma <? n0)%num)%bool then Raise ValueError else
      Ok (mk_rsc sigma (Z.to_nat k) gamma adadelta eps, mk_rs true [] [] None [] protos)
  end.

Variable cfg : rs_config.
(** ** Vectors *)
Definition map2 {A B C} (f : A -> B -> C) (a : list A) (b : list B) : list C := map (fun p => f (fst p) (snd p)) (combine a b).
Definition vsub (a b : vec) : vec := map2 nsub a b.
Definition vsum (l : vec) : T := fold_left nadd l n0.
Definition sqdist (a b : vec) : T := vsum (map (fun v => (v * v)%num) (vsub a b)).
Definition edist (a b : vec) : T := nsqrt (sqdist a b).
(** _costf, lines 366-369 *)
Definition costf (x w : vec) : T := ((n0 - sqdist x w) / (nofZ 2 * c_sigma cfg))%num.
(** numpy.amax of a non-empty list *)
Definition amax (l : list T) (d : T) : T := match l with [] => d | x :: r => fold_left (fun m v => if (m <? v)%num then v else m) r x end.
(** _p, lines 371-384; [y] None: over all prototypes.  [f] is the cost of the prototype in question. *)
Definition soft (ws : list proto) (y : option Z) (e w : vec) : T :=
  let fs := map (fun p => costf e (fst p)) (match y with None => ws | Some y => filter (fun p => Z.eqb (snd p) y) ws end) in
  let m := amax fs n0 in
  let s := vsum (map (fun f => nexp (f - m)%num) fs) in
  (nexp (costf e w - m) / s)%num.

(** ** Updates.  The step of the prototype (w, c) for the sample (x, y), before the learning rate; lines 137-143 and 150-154 *)
Definition gradient (ws : list proto) (w : vec) (c : Z) (x : vec) (y : Z) : vec :=
  let d := vsub x w in
  if Z.eqb c y then map (fun v => ((soft ws (Some y) x w - soft ws None x w) * v)%num) d
  else map (fun v => ((n0 - soft ws None x w) * v)%num) d.
(** _update_prototype_vanilla, lines 130-143; learning_rate is 1 / sigma, line 107 *)
Definition vanilla (ws : list proto) (w : vec) (c : Z) (x : vec) (y : Z) : vec :=
  let lr := (n1 / c_sigma cfg)%num in
  let d := vsub x w in
  if Z.eqb c y then map2 nadd w (map (fun v => (lr * (soft ws (Some y) x w - soft ws None x w) * v)%num) d)
  else map2 nsub w (map (fun v => (lr * soft ws None x w * v)%num) d).
(** _update_prototype_adadelta, lines 145-175, for one prototype; (g, s) are squared_mean_gradient[j] and squared_mean_step[j] *)
Definition adadelta (ws : list proto) (w : vec) (c : Z) (acc : vec * vec) (x : vec) (y : Z) : vec * (vec * vec) :=
  let gr := gradient ws w c x y in
  let ga := c_gamma cfg in
  let g := map2 (fun a v => (ga * a + (n1 - ga) * v * v)%num) (fst acc) gr in
  let step := map2 (fun q v => (nsqrt q * v)%num) (map2 (fun s g => ((s + c_eps cfg) / (g + c_eps cfg))%num) (snd acc) g) gr in
  let s := map2 (fun a v => (ga * a + (n1 - ga) * v * v)%num) (snd acc) step in
  (map2 nadd w step, (g, s)).
Definition update_proto (st : list proto * list (vec * vec)) (j : nat) (x : vec) (y : Z) : res (list proto * list (vec * vec)) :=
  let '(ws, acc) := st in
  match nth_error ws j with
  | None => Raise IndexError
  | Some (w, c) =>
      if c_adadelta cfg then
        match nth_error acc j with
        | None => Raise IndexError
        | Some a => let '(w', a') := adadelta ws w c a x y in Ok (set_nth ws j (w', c), set_nth acc j a')
        end
      else Ok (set_nth ws j (vanilla ws w c x y, c), acc)
  end.

(** ** _optimize, lines 304-345.  The first prototype at the least distance among those for which [good] holds *)
Fixpoint nearest (good : Z -> bool) (x : vec) (j : nat) (ws : list proto) (best : option (T * nat)) : option (T * nat) :=
  match ws with
  | [] => best
  | (w, c) :: r =>
      let best' := if good c then
                     match best with
                     | None => Some (edist x w, j)
                     | Some (d, _) => if (edist x w <? d)%num then Some (edist x w, j) else best
                     end
                   else best in
      nearest good x (S j) r best'
  end.
(** One sample.  [vars] are corr_index and incorr_index, which keep the values of the previous sample of the call; [None] is unbound. *)
Definition rs_vars := (option nat * option nat)%type.
Definition rs_sample (st : list proto * list (vec * vec)) (vars : rs_vars) (x : vec) (y : Z) : res (list proto * list (vec * vec) * rs_vars) :=
  let bc := nearest (fun c => Z.eqb c y) x 0 (fst st) None in
  let bi := nearest (fun c => negb (Z.eqb c y)) x 0 (fst st) None in
  let ci := match bc with Some (_, j) => Some j | None => fst vars end in
  let ii := match bi with Some (_, j) => Some j | None => snd vars end in
  let wrong := match bi, bc with Some (di, _), Some (dc, _) => (di <? dc)%num | Some _, None => true | None, _ => false end in
  if wrong then
    match ci, ii with
    | Some c, Some i => st' <- update_proto st c x y ;; st'' <- update_proto st' i x y ;; Ok (st'', (ci, ii))
    | _, _ => Raise RuntimeError
    end
  else Ok (st, (ci, ii)).
Fixpoint rs_optimize (st : list proto * list (vec * vec)) (vars : rs_vars) (rows : list (vec * Z)) : res (list proto * list (vec * vec)) :=
  match rows with
  | [] => Ok st
  | (x, y) :: r => ' (st', vars') <- rs_sample st vars x y ;; rs_optimize st' vars' r
  end.

(** ** _validate_train_parms, lines 177-274 *)
Definition width (rows : list (vec * Z)) : nat := match rows with (x, _) :: _ => length x | [] => 0 end.
(** numpy.mean over the rows of the class, line 236 *)
Definition col_mean (rows : list vec) (d : nat) : vec :=
  map (fun j => (vsum (map (fun x => nth j x n0) rows) / nofZ (Z.of_nat (length rows)))%num) (seq 0 d).
(** Lines 239-245; [noise k] is row k of random_state.rand *)
Definition fresh_protos (rows : list vec) (d : nat) (noise : nat -> vec) (c : Z) : list proto :=
  let m := col_mean rows d in
  map (fun k => (if Nat.eqb (c_ppc cfg) 1 then m else map2 (fun a r => (a + (r * nofZ 2 - n1))%num) m (noise k), c)) (seq 0 (c_ppc cfg)).
(** The loop of lines 229-256, from class number [i] on *)
Fixpoint init_classes (rows : list (vec * Z)) (noise : nat -> nat -> vec) (i : nat) (classes : list Z) (ready : list bool) (w : list proto) : list bool * list proto :=
  match classes, ready with
  | c :: cs, b :: bs =>
      let here := filter (fun r => Z.eqb (snd r) c) rows in
      let go := negb b && negb (Nat.eqb (length here) 0) in
      let pos := (i * c_ppc cfg)%nat in
      let w' := if go then firstn pos w ++ fresh_protos (map fst here) (width rows) (noise i) c ++ skipn (pos + c_ppc cfg) w else w in
      let '(bs', w'') := init_classes rows noise (S i) cs bs w' in
      ((if go then true else b) :: bs', w'')
  | _, _ => (ready, w)
  end.
(** The argument classes of partial_fit: [if classes:] is ambiguous for an array of two or more elements *)
Inductive classes_arg := CNone | CList (l : list Z) | CArray (l : list Z).
Definition given_classes (a : classes_arg) : res (option (list Z)) :=
  match a with
  | CNone | CList [] | CArray [] => Ok None
  | CList l => Ok (Some l)
  | CArray [c] => Ok (if Z.eqb c 0 then None else Some [c])
  | CArray _ => Raise ValueError
  end.
Definition mem (z : Z) (l : list Z) : bool := existsb (Z.eqb z) l.
(** check_X_y: one label per row, at least one row and one feature, rows of the same length *)
Definition checked (xs : list vec) (ys : list Z) : res (list (vec * Z)) :=
  match xs with
  | [] => Raise ValueError
  | x :: _ => if (Nat.eqb (length xs) (length ys) && negb (Nat.eqb (length x) 0) && forallb (fun r => Nat.eqb (length r) (length x)) xs)%bool
              then Ok (combine xs ys) else Raise ValueError
  end.
Definition zeros (l : list proto) : list (vec * vec) := map (fun p => (map (fun _ => n0) (fst p), map (fun _ => n0) (fst p))) l.
(** Lines 183-197 *)
Definition set_classes (s : rs) (rows : list (vec * Z)) (classes : classes_arg) : res (list Z * list bool) :=
  if r_initial s then
    g <- given_classes classes ;;
    let cl := match g with Some l => l | None => np_unique (map snd rows) end in
    if forallb (fun i => mem (Z.of_nat i) cl) (seq 0 (length cl)) then Ok (cl, map (fun _ => false) cl) else Raise ValueError
  else Ok (r_classes s, r_ready s).
Definition rs_validate (s : rs) (rows : list (vec * Z)) (classes : classes_arg) (junk : nat -> proto) (noise : nat -> nat -> vec) : res rs :=
  ' (cl, ready) <- set_classes s rows classes ;;
  let d := width rows in
  let np := (length cl * c_ppc cfg)%nat in
  let accs w := if r_initial s then (if c_adadelta cfg then zeros w else []) else r_acc s in
  match r_protos s with
  | NoProtos =>
      let w := match (if r_initial s then None else r_w s) with Some w => w | None => map junk (seq 0 np) end in
      (* the prototypes are an array of width d; with rows of another width the assignment of line 240 or the reshape of line 308 fails *)
      if forallb (fun p => Nat.eqb (length (fst p)) d) w then
        let '(ready', w') := init_classes rows noise 0 cl ready w in
        Ok (mk_rs false cl ready' (Some w') (accs w') NoProtos)
      else Raise ValueError
  | AsList x | AsArray x =>
      if (Nat.eqb (length x) np && forallb (fun p => Nat.eqb (length (fst p)) d) x)%bool then
        if (forallb (fun p => mem (snd p) cl) x && forallb (fun c => mem c (map snd x)) cl)%bool then
          Ok (mk_rs false cl ready (Some x) (accs x) (r_protos s))
        else Raise ValueError
      else Raise ValueError
  end.
(** partial_fit, lines 276-302.  The array of the user is trained in place. *)
Definition rs_fit (s : rs) (xs : list vec) (ys : list Z) (classes : classes_arg) (junk : nat -> proto) (noise : nat -> nat -> vec) : res rs :=
  if (forallb (fun y => mem y (r_classes s)) ys || r_initial s)%bool then
    rows <- checked xs ys ;;
    s1 <- rs_validate s rows classes junk noise ;;
    match r_w s1 with
    | None => Raise AttributeError
    | Some w =>
        (* reshape(nb_prototypes, n_dim), line 308 *)
        if forallb (fun p => Nat.eqb (length (fst p)) (width rows)) w then
          ' (w', acc') <- rs_optimize (w, r_acc s1) (None, None) rows ;;
          Ok (mk_rs false (r_classes s1) (r_ready s1) (Some w') acc' (match r_protos s1 with AsArray _ => AsArray w' | p => p end))
        else Raise ValueError
    end
  else Raise ValueError.
(** predict, lines 347-364 *)
Definition rs_predict (s : rs) (xs : list vec) : res (list Z) :=
  mapM (fun x => match r_w s with
                 | None => Raise AttributeError
                 | Some ws =>
                     if forallb (fun p => Nat.eqb (length (fst p)) (length x)) ws then
                       j <- np_argmax (map (fun p => costf x (fst p)) ws) ;;
                       match nth_error ws j with Some p => Ok (snd p) | None => Raise IndexError end
                     else Raise ValueError
                 end) xs.
End Rslvq.
Arguments rs_config : clear implicits.
Arguments rs : clear implicits.
Arguments protos_arg : clear implicits.
