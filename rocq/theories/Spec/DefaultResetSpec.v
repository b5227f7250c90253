(** Vocabulary for the default reset. *)
From Coq Require Import List Bool String Ascii Arith.
From Verif Require Import Model.DefaultReset.
Import ListNotations.

(** Numbers, constants and names as they are printed; names of classes have no dot *)
Definition is_word (w : text) : Prop := w <> [] /\ Forall (fun c => special c = false /\ blank c = false) w.
Definition is_name (c : text) : Prop := is_word c /\ ~ In "."%char c.
(** Strings that Python shows as they are, between single quotes *)
Definition plain (s : text) : Prop := Forall (fun c => c <> "'"%char /\ c <> "\"%char /\ 32 <= nat_of_ascii c <= 126) s.
(** Values whose text is described by the model *)
Fixpoint printable (v : pv) : Prop :=
  match v with
  | PWord w => is_word w /\ w <> txt "..."
  | PStr s => plain s
  | PList l => fold_right and True (map printable l)
  | PObj c kvs => is_name c /\ List.length kvs <= 30 /\ fold_right and True (map (fun kv => is_word (fst kv) /\ printable (snd kv)) kvs)
  end.
Definition parameters (kvs : kwargs) : Prop := List.length kvs <= 30 /\ Forall (fun kv => is_word (fst kv) /\ printable (snd kv)) kvs.
(** [t] is the text of an object of class [cls], broken into lines in some way *)
Definition shown (cls : text) (kvs : kwargs) (t : text) : Prop :=
  squeeze t = squeeze (repr (PObj cls kvs)) /\ List.length (squeeze t) <= 700.
Definition occurs (p t : text) : Prop := exists a b, t = a ++ p ++ b.
(** Words that mean a value by themselves: None, True, False and what begins like a number *)
Definition literal (w : text) : bool :=
  existsb (fun u => if list_eq_dec ascii_dec w u then true else false) [txt "None"; txt "True"; txt "False"] ||
  match w with
  | c :: r => existsb (Ascii.eqb c) (txt "0123456789") || Ascii.eqb c "-" && existsb (fun d => match r with e :: _ => Ascii.eqb e d | [] => false end) (txt "0123456789")
  | [] => false
  end.
(** No object, no inf or nan, among what is shown of a value *)
Fixpoint usable (v : pv) : bool :=
  match v with
  | PWord w => literal w
  | PStr _ => true
  | PList l => forallb (fun b => b) (firstn 30 (map usable l))
  | PObj _ _ => false
  end.
(** What is left of a value: strings lose their blanks, lists what follows the thirtieth element, in place of which there is an Ellipsis *)
Fixpoint kept (v : pv) : pv :=
  match v with
  | PWord w => PWord w
  | PStr s => PStr (squeeze s)
  | PList l => PList (if 30 <? List.length l then firstn 30 (map kept l) ++ [PWord (txt "...")] else map kept l)
  | PObj c kvs => PObj c (map (fun kv => (fst kv, kept (snd kv))) kvs)
  end.
(** Values that nothing is lost of *)
Fixpoint intact (v : pv) : Prop :=
  match v with
  | PWord w => literal w = true
  | PStr s => Forall (fun c => blank c = false) s
  | PList l => List.length l <= 30 /\ fold_right and True (map intact l)
  | PObj _ _ => False
  end.
