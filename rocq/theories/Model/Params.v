(** Model of the parameters of estimators: BaseEstimator.get_params and set_params, and clone (core/base.py).

    Objects live in a heap.  A value is an immutable value (None, a number, a string, ...; such values are the same object when they are equal) or a reference.
    [P]: immutable values; [C]: classes of estimators; [D]: contents of other objects (arrays, dictionaries, ...), which contain no references.
    Python's limit on the depth of calls is the fuel; beyond it there is a RecursionError (a RuntimeError). *)
From Coq Require Import List Bool String Ascii.
From Coq Require Import List.
From Verif Require Import Base.Py.
Import ListNotations.

(** str.partition('__') (line 224): the text before the first occurrence, and what follows it *)
Fixpoint partition (s : string) : string * option string :=
  match s with
  | EmptyString => (EmptyString, None)
  | String a r =>
      match r with
      | String b r' => if Ascii.eqb a "_" && Ascii.eqb b "_" then (EmptyString, Some r') else let (k, o) := partition r in (String a k, o)
      | EmptyString => (String a EmptyString, None)
      end
  end.
(** Dictionaries with strings as keys *)
Section SDict.
Context {A : Type}.
Fixpoint sget (d : list (string * A)) (k : string) : option A := match d with [] => None | (k', v) :: r => if String.eqb k' k then Some v else sget r k end.
Fixpoint sset (d : list (string * A)) (k : string) (v : A) : list (string * A) := match d with [] => [(k, v)] | (k', x) :: r => if String.eqb k' k then (k, v) :: r else (k', x) :: sset r k v end.
Definition supdate (d e : list (string * A)) : list (string * A) := fold_left (fun d kv => sset d (fst kv) (snd kv)) e d.
End SDict.

Section Params.
Context {P C D : Type}.
Inductive val := Prim (p : P) | Ref (a : nat).
Inductive cell := Est (c : C) (attrs : list (string * val)) | Seq (l : list val) | Data (d : D).
Definition heap := list cell.
(** _get_param_names (lines 164-185): [names c]; a constructor: [init c params h] gives the attributes and the heap afterwards; [is] on values *)
Variables (none : P) (names : C -> list string) (init : C -> list (string * val) -> heap -> res (list (string * val) * heap)) (same : P -> P -> bool).
Definition is_same (v w : val) : bool := match v, w with Prim p, Prim q => same p q | Ref a, Ref b => Nat.eqb a b | _, _ => false end.

(** getattr(self, key, None) *)
Definition getattr (attrs : list (string * val)) (k : string) : val := match sget attrs k with Some v => v | None => Prim none end.
(** get_params(deep=False) (lines 187-208) *)
Definition shallow (c : C) (attrs : list (string * val)) : list (string * val) := map (fun k => (k, getattr attrs k)) (names c).
(** get_params (lines 187-208) of the estimator [a].  The names of a class are different. *)
Fixpoint get_params (fuel : nat) (h : heap) (a : nat) : res (list (string * val)) :=
  match fuel with
  | O => Raise RuntimeError
  | S fuel =>
      match nth_error h a with
      | Some (Est c attrs) =>
          (fix go (ks : list string) (out : list (string * val)) :=
             match ks with
             | [] => Ok out
             | k :: ks =>
                 let v := getattr attrs k in
                 out1 <- match v with
                         | Ref b => match nth_error h b with
                                    | Some (Est _ _) => sub <- get_params fuel h b ;; Ok (supdate out (map (fun kv => ((k ++ "__" ++ fst kv)%string, snd kv)) sub))
                                    | _ => Ok out
                                    end
                         | Prim _ => Ok out
                         end ;;
                 go ks (sset out1 k v)
             end) (names c) []
      | _ => Raise AttributeError
      end
  end.

Fixpoint upd (h : heap) (a : nat) (c : cell) : heap := match h, a with [], _ => [] | _ :: r, O => c :: r | x :: r, S a => x :: upd r a c end.
Definition setattr (h : heap) (a : nat) (k : string) (v : val) : heap := match nth_error h a with Some (Est c attrs) => upd h a (Est c (sset attrs k v)) | _ => h end.
(** set_params (lines 210-242): the heap afterwards, also if it raises.  The keys of [ps] are different.  First the loop over the arguments (lines 226-238) ... *)
Fixpoint assign (a : nat) (ps : list (string * val)) (h : heap) (valid : list (string * val)) (nested : list (string * list (string * val)))
  : heap * res (list (string * val) * list (string * list (string * val))) :=
  match ps with
  | [] => (h, Ok (valid, nested))
  | (key, v) :: ps =>
      let (k, sub) := partition key in
      match sget valid k with
      | None => (h, Raise ValueError)
      | Some _ =>
          match sub with
          | Some s => assign a ps h valid (sset nested k (sset (match sget nested k with Some d => d | None => [] end) s v))
          | None => assign a ps (setattr h a k v) (sset valid k v) nested
          end
      end
  end.
(** ... then the loop over the nested ones (lines 240-241) *)
Fixpoint set_params (fuel : nat) (h : heap) (a : nat) (ps : list (string * val)) : heap * res unit :=
  match ps with
  | [] => (h, Ok tt)
  | _ =>
      match fuel with
      | O => (h, Raise RuntimeError)
      | S fuel =>
          match get_params (S fuel) h a with
          | Raise e => (h, Raise e)
          | Ok valid =>
              match assign a ps h valid [] with
              | (h1, Raise e) => (h1, Raise e)
              | (h1, Ok (valid1, nested)) =>
                  (fix go (h : heap) (nested : list (string * list (string * val))) :=
                     match nested with
                     | [] => (h, Ok tt)
                     | (k, sub) :: nested =>
                         match sget valid1 k with
                         | Some (Ref b) =>
                             match nth_error h b with
                             | Some (Est _ _) => match set_params fuel h b sub with (h', Ok _) => go h' nested | (h', Raise e) => (h', Raise e) end
                             | _ => (h, Raise AttributeError)
                             end
                         | _ => (h, Raise AttributeError)
                         end
                     end) h1 nested
              end
          end
      end
  end.

(** clone (lines 34-80) *)
Fixpoint clone (fuel : nat) (safe : bool) (h : heap) (v : val) : res (val * heap) :=
  match fuel with
  | O => Raise RuntimeError
  | S fuel =>
      match v with
      | Prim p => if safe then Raise TypeError else Ok (Prim p, h)
      | Ref a =>
          match nth_error h a with
          | None => Raise RuntimeError (* not a reference *)
          | Some (Data d) => if safe then Raise TypeError else Ok (Ref (length h), h ++ [Data d])
          | Some (Seq l) =>
              ' (l', h') <- (fix go (l : list val) (h : heap) : res (list val * heap) :=
                               match l with [] => Ok ([], h) | v :: l => ' (v', h1) <- clone fuel safe h v ;; ' (l', h2) <- go l h1 ;; Ok (v' :: l', h2) end) l h ;;
              Ok (Ref (length h'), h' ++ [Seq l'])
          | Some (Est c attrs) =>
              ' (ps, h1) <- (fix go (ps : list (string * val)) (h : heap) : res (list (string * val) * heap) :=
                               match ps with [] => Ok ([], h) | (k, v) :: ps => ' (v', h1) <- clone fuel false h v ;; ' (r, h2) <- go ps h1 ;; Ok ((k, v') :: r, h2) end) (shallow c attrs) h ;;
              ' (attrs', h2) <- init c ps h1 ;;
              if forallb (fun kv => is_same (snd kv) (getattr attrs' (fst kv))) ps then Ok (Ref (length h2), h2 ++ [Est c attrs']) else Raise RuntimeError
          end
      end
  end.
End Params.
Arguments val : clear implicits. Arguments cell : clear implicits. Arguments heap : clear implicits.

(** ** Three kinds of constructors *)
From Coq Require Import ZArith QArith.
From Verif Require Import Base.Num Model.Ddm.
Inductive prim := PNone | PInt (z : Z) | PNum (q : Q) | PStr (s : string).
(** [is] on these: numbers are compared as they are written *)
Definition same_prim (p q : prim) : bool :=
  match p, q with
  | PNone, PNone => true
  | PInt a, PInt b => Z.eqb a b
  | PNum a, PNum b => Z.eqb (Qnum a) (Qnum b) && Pos.eqb (Qden a) (Qden b)
  | PStr a, PStr b => String.eqb a b
  | _, _ => false
  end.
(** DDM (drift_detection/ddm.py), StreamingRandomPatchesClassifier (meta/streaming_random_patches.py), and any class that stores its parameters *)
Inductive klass := KDdm | KSrp | KStore (ks : list string).
(** sorted names of the parameters (ddm.py:80; streaming_random_patches.py:129-142) *)
Definition knames (c : klass) : list string :=
  match c with
  | KDdm => ["min_num_instances"; "out_control_level"; "warning_level"]
  | KSrp => ["base_estimator"; "disable_background_learner"; "disable_drift_detection"; "disable_weighted_vote"; "drift_detection_method"; "lam"; "n_estimators"; "nominal_attributes"; "random_state"; "subspace_mode"; "subspace_size"; "training_method"; "warning_detection_method"]
  | KStore ks => ks
  end%string.
Section Ctor.
Context {D : Type}.
(** truth of a value: None, 0 and an empty list are false; every other object is true (the numbers 0.0 and '' do not occur here) *)
Definition truthy (h : heap prim klass D) (v : val prim) : bool :=
  match v with
  | Prim PNone => false
  | Prim (PInt 0) => false
  | Prim _ => true
  | Ref a => match nth_error h a with Some (Seq []) => false | _ => true end
  end.
(** the constructors: DDM.__init__ (ddm.py:80-91), which keeps min_num_instances as min_instances; StreamingRandomPatchesClassifier.__init__ (streaming_random_patches.py:129-180; the checks of subspace_mode and training_method are left out), which replaces false nominal_attributes by a new list *)
Definition kinit (c : klass) (ps : list (string * val prim)) (h : heap prim klass D) : res (list (string * val prim) * heap prim klass D) :=
  match c with
  | KDdm => Ok ([("min_instances", getattr PNone ps "min_num_instances"); ("warning_level", getattr PNone ps "warning_level"); ("out_control_level", getattr PNone ps "out_control_level")]%string, h)
  | KSrp => if truthy h (getattr PNone ps "nominal_attributes"%string) then Ok (ps, h)
            else Ok (sset ps "nominal_attributes"%string (Ref (List.length h)), h ++ [Seq []])
  | KStore _ => Ok (ps, h)
  end.
End Ctor.
(** DDM.add_element (ddm.py:107-158) on an object with these attributes: comparing a number with None is a TypeError *)
Definition ddm_use (attrs : list (string * val prim)) (s : ddm Q) (x : Q) : res (ddm Q) :=
  match getattr PNone attrs "min_instances"%string, getattr PNone attrs "warning_level"%string, getattr PNone attrs "out_control_level"%string with
  | Prim (PInt m), Prim (PNum w), Prim (PNum o) => ddm_add (mkDdmPar m w o) s x
  | _, _, _ => Raise TypeError
  end.
