(** Model of the default [reset] of scikit-multiflow's objects (core/base.py 344-356), which executes the text that [__repr__] shows
    (core/base.py 245-291, utils/_pprint.py) after taking out its blanks and renaming the class.

    Text is a list of ASCII characters.  Simplifications: parameters are words (numbers, None, True, False, names such as inf), strings
    whose representation needs no escapes, lists and objects with parameters; texts with more than 700 characters, which __repr__
    cuts in the middle, are left out; Python's grammar is cut down to what such texts need. *)
From Coq Require Import List Bool String Ascii Arith.
Import ListNotations.

Definition text := list ascii.
Definition txt (s : string) : text := list_ascii_of_string s.
(** Values as they are printed; parameters of an object in the order of their names (utils/_pprint.py 173-174) *)
Inductive pv := PWord (w : text) | PStr (s : text) | PList (l : list pv) | PObj (cls : text) (kvs : list (text * pv)).

(** White space of str.split *)
Definition blank (c : ascii) : bool := let n := nat_of_ascii c in (9 <=? n) && (n <=? 13) || (28 <=? n) && (n <=? 32).
Definition squeeze (t : text) : text := filter (fun c => negb (blank c)) t.
Fixpoint join (sep : text) (l : list text) : text := match l with [] => [] | [x] => x | x :: r => x ++ sep ++ join sep r end.
(** n_max_elements_to_show, core/base.py 252-257 and utils/_pprint.py 210-212, 263-265: items after the thirtieth are shown as "..." *)
Definition cut (l : list text) : list text := if (30 <? List.length l) then firstn 30 l ++ [txt "..."] else l.
(** pformat, up to the line breaks *)
Fixpoint repr (v : pv) : text :=
  match v with
  | PWord w => w
  | PStr s => txt "'" ++ s ++ txt "'"
  | PList l => txt "[" ++ join (txt ", ") (cut (map repr l)) ++ txt "]"
  | PObj c kvs => c ++ txt "(" ++ join (txt ", ") (cut (map (fun kv => fst kv ++ txt "=" ++ repr (snd kv)) kvs)) ++ txt ")"
  end.

(** str.replace: every occurrence from the left, without overlaps *)
Fixpoint strip (p t : text) : option text :=
  match p, t with [], _ => Some t | a :: p, b :: t => if Ascii.eqb a b then strip p t else None | _, [] => None end.
Fixpoint replace (fuel : nat) (p q t : text) : text :=
  match fuel with
  | O => t
  | S f => match strip p t with
           | Some r => q ++ replace f p q r
           | None => match t with [] => [] | c :: r => c :: replace f p q r end
           end
  end.

(** The statement that [exec] reads *)
Definition special (c : ascii) : bool := existsb (Ascii.eqb c) (txt "()[],='").
Fixpoint word (t : text) : text * text := match t with c :: r => if special c then ([], t) else let (w, s) := word r in (c :: w, s) | [] => ([], []) end.
Fixpoint quoted (t : text) : option (text * text) :=
  match t with
  | c :: r => if Ascii.eqb c "'" then Some ([], r) else match quoted r with Some (s, r') => Some (c :: s, r') | None => None end
  | [] => None
  end.
Fixpoint parse (fuel : nat) (t : text) : option (pv * text) :=
  match fuel with
  | O => None
  | S f =>
      match t with
      | [] => None
      | c :: r =>
          if Ascii.eqb c "'" then match quoted r with Some (s, r') => Some (PStr s, r') | None => None end
          else if Ascii.eqb c "[" then
            match strip (txt "]") r with
            | Some r' => Some (PList [], r')
            | None => match parse_items f r with Some (l, r') => Some (PList l, r') | None => None end
            end
          else
            match word t with
            | ([], _) => None
            | (w, r1) =>
                match strip (txt "(") r1 with
                | None => Some (PWord w, r1)
                | Some r2 =>
                    match strip (txt ")") r2 with
                    | Some r3 => Some (PObj w [], r3)
                    | None => match parse_args f r2 with Some (l, r3) => Some (PObj w l, r3) | None => None end
                    end
                end
            end
      end
  end
with parse_items (fuel : nat) (t : text) : option (list pv * text) :=
  match fuel with
  | O => None
  | S f =>
      match parse f t with
      | None => None
      | Some (v, r) =>
          match strip (txt ",") r, strip (txt "]") r with
          | Some r', _ => match parse_items f r' with Some (l, r2) => Some (v :: l, r2) | None => None end
          | None, Some r' => Some ([v], r')
          | None, None => None
          end
      end
  end
with parse_args (fuel : nat) (t : text) : option (list (text * pv) * text) :=
  match fuel with
  | O => None
  | S f =>
      let (k, r0) := word t in
      match strip (txt "=") r0 with
      | None => None
      | Some r1 =>
          match parse f r1 with
          | None => None
          | Some (v, r) =>
              match strip (txt ",") r, strip (txt ")") r with
              | Some r', _ => match parse_args f r' with Some (l, r2) => Some ((k, v) :: l, r2) | None => None end
              | None, Some r' => Some ([(k, v)], r')
              | None, None => None
              end
          end
      end
  end.

(** Words with a meaning in exec: numbers, None, True, False, Ellipsis.  No class of the package is a name there: core/base.py
    defines only base classes *)
Definition digit (c : ascii) : bool := let n := nat_of_ascii c in (48 <=? n) && (n <=? 57).
Definition number (w : text) : bool :=
  match w with c :: r => digit c || Ascii.eqb c "-" && match r with d :: _ => digit d | [] => false end | [] => false end.
Definition text_eqb (a b : text) : bool := if list_eq_dec ascii_dec a b then true else false.
Definition known (w : text) : bool := number w || existsb (text_eqb w) [txt "None"; txt "True"; txt "False"; txt "..."].
(** A call of the constructor gives None; [calls]: the calls of self.__init__ with their arguments, in order *)
Definition self_init : text := txt "self.__init__".
Definition kwargs := list (text * pv).
Fixpoint eval (v : pv) : list kwargs * option pv :=
  match v with
  | PWord w => ([], if known w then Some (PWord w) else None)
  | PStr s => ([], Some (PStr s))
  | PList l =>
      let fix go l := match l with
                      | [] => ([], Some [])
                      | x :: r => match eval x with
                                  | (cs, None) => (cs, None)
                                  | (cs, Some u) => let (ds, o) := go r in (cs ++ ds, match o with Some us => Some (u :: us) | None => None end)
                                  end
                      end in
      let (cs, o) := go l in (cs, match o with Some us => Some (PList us) | None => None end)
  | PObj c kvs =>
      if text_eqb c self_init then
        let fix go l := match l with
                        | [] => ([], Some [])
                        | (k, x) :: r => match eval x with
                                         | (cs, None) => (cs, None)
                                         | (cs, Some u) => let (ds, o) := go r in (cs ++ ds, match o with Some us => Some ((k, u) :: us) | None => None end)
                                         end
                        end in
        match go kvs with
        | (cs, Some args) => (cs ++ [args], Some (PWord (txt "None")))
        | (cs, None) => (cs, None)
        end
      else ([], None)
  end.
Inductive ending := Done | NameError | SyntaxError.
(** reset, core/base.py 354-356, of an object of class [cls] shown as [t]: the constructor calls made, and how it ends *)
Definition command (cls t : text) : text := let t := squeeze t in replace (List.length t) cls self_init t.
Definition reset (cls t : text) : list kwargs * ending :=
  let c := command cls t in
  match parse (S (List.length c)) c with
  | Some (v, []) => match eval v with (cs, Some _) => (cs, Done) | (cs, None) => (cs, NameError) end
  | _ => ([], SyntaxError)
  end.
