(** Models of the class observers held by a leaf or by a Naive Bayes classifier, of [do_naive_bayes_prediction]
    (bayes/utils.py 4-42) and of [NaiveBayes] (bayes/naive_bayes.py).

    Simplifications: an instance is a list of numbers, a label an integer; [key] gives the dictionary key of a nominal
    value; [k] is math.sqrt(2 * math.pi).  When a call raises, the model forgets the state. *)
From Coq Require Import List ZArith Bool.
From Verif Require Import Base.Py Base.Num Base.Dict Model.Suggestion Model.Adwin Model.GaussianObs Model.NominalObs Model.SplitCriteria
  Model.Knn.
Import ListNotations.

(** A [classes] argument: a Python list or a numpy array. *)
Inductive labels := PyList (l : list Z) | NdArray (l : list Z).
Definition labels_of (c : labels) : list Z := match c with PyList l | NdArray l => l end.
(** bool(classes): numpy refuses an array with more than one element *)
Definition truth (c : labels) : res bool :=
  match c with
  | PyList [] => Ok false
  | PyList _ => Ok true
  | NdArray [] => Ok false
  | NdArray [x] => Ok (negb (Z.eqb x 0))
  | NdArray _ => Raise ValueError
  end.

Section NB.
Context {T : Type} {N : Num T} (k : T) (key : T -> Z).

(** NumericAttributeClassObserverGaussian, NominalAttributeClassObserver or AttributeObserverNull
    (trees/_attribute_observer/attribute_observer_null.py) *)
Inductive cobs := CNum (o : gobs T) | CNom (o : nobs (T := T)) | CNull.
Definition co_new (nominal : bool) : cobs := if nominal then CNom no_new else CNum go_new.
Definition co_update (o : cobs) (x : T) (c : Z) (w : T) : res cobs :=
  match o with
  | CNum g => g' <- go_update g (Some x) c w ;; Ok (CNum g')
  | CNom m => Ok (CNom (no_update m (Some (key x)) c w))
  | CNull => Ok CNull
  end.
(** probability_of_attribute_value_given_class *)
Definition co_prob (o : cobs) (x : T) (c : Z) : res T :=
  match o with
  | CNum g => go_probability k g x c
  | CNom m => no_probability m (key x) c
  | CNull => Ok n0
  end.

(** The loop over the attributes of an instance that updates (and creates) the observers: naive_bayes.py 109-118 and
    trees/_nodes/base.py 451-461 *)
Fixpoint update_observers (nominal : Z -> bool) (obs : list (Z * cobs)) (i : Z) (X : list T) (y : Z) (w : T)
  : res (list (Z * cobs)) :=
  match X with
  | [] => Ok obs
  | x :: r =>
      let o := match dget obs i with Some o => o | None => co_new (nominal i) end in
      o' <- co_update o x y w ;;
      update_observers nominal (dset obs i o') (i + 1) r y w
  end.

(** [for att_idx in range(len(X)): if att_idx in attribute_observers: votes *= probability], bayes/utils.py 34-41;
    math.isnan(tmp) is tmp != tmp *)
Fixpoint nb_attributes (obs : list (Z * cobs)) (i : Z) (X : list T) (c : Z) (v : T) : res T :=
  match X with
  | [] => Ok v
  | x :: r =>
      match dget obs i with
      | Some o => p <- co_prob o x c ;; let tmp := (v * p)%num in nb_attributes obs (i + 1) r c (if (tmp =? tmp)%num then tmp else n0)
      | None => nb_attributes obs (i + 1) r c v
      end
  end.
(** bayes/utils.py 27-42 *)
Definition nb_votes (X : list T) (dist : list (Z * T)) (obs : list (Z * cobs)) : res (list (Z * T)) :=
  let s := vsum dist in
  if (match dist with [] => true | _ => false end) || (s =? n0)%num then Ok [(0%Z, n0)]
  else mapM (fun cw => v <- nb_attributes obs 0 X (fst cw) (snd cw / s)%num ;; Ok (fst cw, v)) dist.

(** *** NaiveBayes, naive_bayes.py 63-72.  [nb_nominal i] is [i in self._nominal_attributes]. *)
Record nb := mk_nb { nb_dist : list (Z * T); nb_obs : list (Z * cobs); nb_classes : option labels; nb_nominal : Z -> bool }.
(** The constructor: [if not self.nominal_attributes] *)
Definition nb_new (nominal : option labels) : res nb :=
  b <- match nominal with None => Ok false | Some l => truth l end ;;
  Ok (mk_nb [] [] None (fun i => if b then match nominal with Some l => existsb (Z.eqb i) (labels_of l) | None => false end else false)).

(** _partial_fit, naive_bayes.py 104-118 *)
Definition nb_learn (s : nb) (X : list T) (y : Z) (w : T) : res nb :=
  let d := match dget (nb_dist s) y with Some v => dset (nb_dist s) y (v + w)%num | None => dset (nb_dist s) y w end in
  obs <- update_observers (nb_nominal s) (nb_obs s) 0 X y w ;;
  Ok (mk_nb d obs (nb_classes s) (nb_nominal s)).
Fixpoint nb_rows (s : nb) (rows : list (list T * Z)) (ws : list T) : res nb :=
  match rows, ws with
  | (X, y) :: r, w :: wr => s' <- (if (w =? n0)%num then Ok s else nb_learn s X y w) ;; nb_rows s' r wr
  | _, _ => Ok s
  end.
(** partial_fit, naive_bayes.py 74-102 *)
Definition nb_fit (s : nb) (rows : list (list T * Z)) (classes : option labels) (weights : option (list T)) : res nb :=
  b <- match nb_classes s with None => Ok false | Some c => truth c end ;;
  let s := match classes with
           | Some c => if b then s else mk_nb (nb_dist s) (nb_obs s) (Some c) (nb_nominal s)
           | None => s end in
  let ws := match weights with Some ws => ws | None => repeat n1 (length rows) end in
  if Nat.eqb (length rows) (length ws) then nb_rows s rows ws else Raise ValueError.

(** One row of predict_proba, naive_bayes.py 174-183 *)
Definition proba_row (classes : option labels) (votes : list (Z * T)) : res (list T) :=
  let s := vsum votes in
  m <- zmax (match classes with Some c => labels_of c | None => dkeys votes end) ;;
  foldM (fun row kv => py_set row (fst kv) (if (s =? n0)%num then n0 else (snd kv / s)%num)) votes (repeat n0 (Z.to_nat (m + 1))).
(** predict_proba, naive_bayes.py 142-184 *)
Definition nb_proba (s : nb) (Xs : list (list T)) : res (list (list T)) :=
  match nb_dist s with
  | [] => Ok (map (fun _ => [n0]) Xs)
  | _ => mapM (fun X => v <- nb_votes X (nb_dist s) (nb_obs s) ;; proba_row (nb_classes s) v) Xs
  end.
(** predict, naive_bayes.py 120-140 *)
Definition nb_predict (s : nb) (Xs : list (list T)) : res (list nat) :=
  p <- nb_proba s Xs ;; mapM np_argmax p.
End NB.
Arguments cobs : clear implicits.
Arguments nb : clear implicits.
