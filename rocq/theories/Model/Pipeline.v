(** Model of Pipeline (core/pipeline.py).

    Simplifications: names are integers; an object's fit and partial_fit return the object itself; a method that raises leaves its
    object as it was; a step object is its methods, those it lacks being None, and its state, of one type for all the steps.
    "classes" in partial_fit.__code__.co_varnames is the flag [o_pfit_classes]. *)
From Coq Require Import List ZArith Bool.
From Verif Require Import Base.Py.
Import ListNotations.

Section Pipe.
Context {S D Y C P : Type}.
(** [o_pfit_classes], [o_pft_classes]: the method has a parameter named classes *)
Record obj := mk_obj {
  o_transform : option (S -> D -> res (D * S));
  o_fit : option (S -> D -> Y -> res S);
  o_fit_transform : option (S -> D -> Y -> res (D * S));
  o_pfit : option (S -> D -> Y -> option C -> res S);
  o_pfit_classes : bool;
  o_pft : option (S -> D -> Y -> option C -> res (D * S));
  o_pft_classes : bool;
  o_predict : option (S -> D -> res P);
  o_pfp : option (S -> D -> Y -> res (P * S)) }.
(** A step: an object and its state, or None *)
Definition step := option (obj * S).
Definition has {A} (m : option A) : bool := match m with Some _ => true | None => false end.
(** Calling a method that may be missing *)
Definition call {A} (m : option A) : res A := match m with Some f => Ok f | None => Raise AttributeError end.

(** _validate_steps, pipeline.py 239-276, called by __init__: the value of active *)
Definition bad_transform (s : step) : bool :=
  match s with None => false | Some (o, _) => negb (has (o_fit o) || has (o_fit_transform o)) || negb (has (o_transform o)) end.
Definition validate (steps : list (Z * step)) : res bool :=
  match steps with
  | [] => Raise ValueError
  | _ => if existsb bad_transform (map snd (removelast steps)) then Raise TypeError
         else Ok match snd (last steps (0%Z, None)) with Some (o, _) => has (o_pfit o) | None => true end
  end.

(** A loop over the transforms, going on with what each of them returns: the steps after it and the data, or the exception *)
Fixpoint through (skip : bool) (f : obj -> S -> D -> res (D * S)) (ts : list (Z * step)) (x : D) : list (Z * step) * res D :=
  match ts with
  | [] => ([], Ok x)
  | (n, None) :: r => if skip then let '(r', y) := through skip f r x in ((n, None) :: r', y) else (ts, Raise AttributeError)
  | (n, Some (o, s)) :: r =>
      match f o s x with
      | Raise e => (ts, Raise e)
      | Ok (x', s') => let '(r', y) := through skip f r x' in ((n, Some (o, s')) :: r', y)
      end
  end.
(** A loop over the transforms and then [g] on the last step *)
Definition sweep {A} (skip : bool) (f : obj -> S -> D -> res (D * S)) (g : step -> D -> res (A * step)) (steps : list (Z * step)) (x : D) : list (Z * step) * res A :=
  match steps with
  | [] => (steps, Raise IndexError)
  | _ =>
      let (n, final) := last steps (0%Z, None) in
      let '(ts, y) := through skip f (removelast steps) x in
      match y with
      | Raise e => (ts ++ [(n, final)], Raise e)
      | Ok x' => match g final x' with Raise e => (ts ++ [(n, final)], Raise e) | Ok (a, final') => (ts ++ [(n, final')], Ok a) end
      end
  end.
(** transform.transform(Xt) (lines 102-104) *)
Definition do_transform (o : obj) (s : S) (x : D) : res (D * S) := f <- call (o_transform o) ;; f s x.
(** predict, lines 86-105 *)
Definition do_predict (s : step) (x : D) : res (P * step) :=
  match s with None => Raise AttributeError | Some (o, t) => f <- call (o_predict o) ;; p <- f t x ;; Ok (p, Some (o, t)) end.
Definition predict (steps : list (Z * step)) (x : D) : list (Z * step) * res P := sweep true do_transform do_predict steps x.

(** Lines 128-135 of fit *)
Definition fit_one (y : Y) (o : obj) (s : S) (x : D) : res (D * S) :=
  match o_fit_transform o with
  | Some f => f s x y
  | None => f <- call (o_fit o) ;; s' <- f s x y ;; do_transform o s' x
  end.
Definition fit_final (y : Y) (s : step) (x : D) : res (unit * step) :=
  match s with None => Ok (tt, None) | Some (o, t) => f <- call (o_fit o) ;; t' <- f t x y ;; Ok (tt, Some (o, t')) end.
(** fit, lines 107-140 *)
Definition fit (steps : list (Z * step)) (x : D) (y : Y) : list (Z * step) * res unit := sweep false (fit_one y) (fit_final y) steps x.

(** A call with the keyword argument classes *)
Definition with_classes {A} (takes : bool) (m : option (S -> D -> Y -> option C -> res A)) (s : S) (x : D) (y : Y) (c : option C) : res A :=
  f <- call m ;; if takes then f s x y c else Raise TypeError.
(** Lines 164-171 of partial_fit: fit_transform is looked up, and partial_fit_transform called *)
Definition pfit_one (y : Y) (c : option C) (o : obj) (s : S) (x : D) : res (D * S) :=
  if has (o_fit_transform o) then with_classes (o_pft_classes o) (o_pft o) s x y c
  else s' <- with_classes (o_pfit_classes o) (o_pfit o) s x y c ;; do_transform o s' x.
Definition pfit_final (y : Y) (c : option C) (s : step) (x : D) : res (unit * step) :=
  match s with
  | None => Ok (tt, None)
  | Some (o, t) => f <- call (o_pfit o) ;; t' <- f t x y (if o_pfit_classes o then c else None) ;; Ok (tt, Some (o, t'))
  end.
(** partial_fit, lines 142-178 *)
Definition partial_fit (steps : list (Z * step)) (x : D) (y : Y) (c : option C) : list (Z * step) * res unit := sweep false (pfit_one y c) (pfit_final y c) steps x.

(** partial_fit_predict, lines 180-214: no classes are passed *)
Definition pfp_one (y : Y) (o : obj) (s : S) (x : D) : res (D * S) :=
  match o_pft o with
  | Some f => f s x y None
  | None => f <- call (o_pfit o) ;; s' <- f s x y None ;; do_transform o s' x
  end.
Definition pfp_final (y : Y) (s : step) (x : D) : res (P * step) :=
  match s with
  | None => Raise AttributeError
  | Some (o, t) =>
      match o_pfp o with
      | Some f => ' (p, t') <- f t x y ;; Ok (p, Some (o, t'))
      | None => f <- call (o_pfit o) ;; t' <- f t x y None ;; g <- call (o_predict o) ;; p <- g t' x ;; Ok (p, Some (o, t'))
      end
  end.
Definition partial_fit_predict (steps : list (Z * step)) (x : D) (y : Y) : list (Z * step) * res P := sweep false (pfp_one y) (pfp_final y) steps x.

(** named_steps, lines 278-288: dict(steps)[name] *)
Definition named (steps : list (Z * step)) (name : Z) : res step :=
  match find (fun ns => (fst ns =? name)%Z) (rev steps) with Some (_, s) => Ok s | None => Raise KeyError end.

(** A history of partial_fit calls, until the first exception *)
Fixpoint pipe_run (steps : list (Z * step)) (batches : list (D * Y * option C)) : list (Z * step) * res unit :=
  match batches with
  | [] => (steps, Ok tt)
  | (x, y, c) :: r => match partial_fit steps x y c with (steps', Ok _) => pipe_run steps' r | (steps', Raise e) => (steps', Raise e) end
  end.
End Pipe.
Arguments obj : clear implicits. Arguments step : clear implicits.
