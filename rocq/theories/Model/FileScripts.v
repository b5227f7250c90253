(** Model of utils/file_scripts.py: clean_header and RemoveHeader.

    A file system is a function from paths to contents.  Simplifications: two paths are the same file only if they are equal (no links, no './'); a path can
    always be opened for writing; the text is a list of 8-bit characters.  A file is read after the output file was opened, which empties it. *)
From Coq Require Import Ascii String List Bool.
From Verif Require Import Base.Py.
Import ListNotations.

Definition text := list ascii.
Definition txt (s : string) : text := list_ascii_of_string s.
Definition files := text -> option text.
Definition LF : ascii := "010"%char.
Definition CR : ascii := "013"%char.
Definition same (a b : text) : bool := if list_eq_dec ascii_dec a b then true else false.
Definition write (fs : files) (p t : text) : files := fun q => if same p q then Some t else fs q.
(** str.split('.') *)
Fixpoint split_dot (s : text) : text * list text :=
  match s with
  | [] => ([], [])
  | c :: s => let '(w, ws) := split_dot s in if Ascii.eqb c "."%char then ([], w :: ws) else (c :: w, ws)
  end.
(** The name of the new file, lines 25-35 and 85-95 *)
Definition new_name (base : text) (new : option text) : text :=
  match new with
  | Some n => n
  | None => let '(stem, rest) := split_dot base in
            match rest with [] => stem ++ txt "_no_header" | ext :: _ => (stem ++ txt "_no_header") ++ txt "." ++ ext end
  end.
(** Reading in text mode: CR LF and CR become LF *)
Fixpoint universal (s : text) : text :=
  match s with
  | [] => []
  | c :: r => if Ascii.eqb c CR then LF :: match r with d :: r' => if Ascii.eqb d LF then universal r' else universal r | [] => [] end else c :: universal r
  end.
(** for line in in_file: every line with its LF *)
Fixpoint lines (s : text) : list text :=
  match s with
  | [] => []
  | c :: r => if Ascii.eqb c LF then [c] :: lines r else match lines r with [] => [[c]] | l :: ls => (c :: l) :: ls end
  end.
(** line[0] == ignore_char *)
Definition ignored (ignore : text) (line : text) : bool := match line with c :: _ => same [c] ignore | [] => false end.
(** clean_header, lines 24-44; clean_file, 107-114; [None]: the base file does not exist *)
Definition clean_header (fs : files) (base : text) (new : option text) (ignore : text) : option files :=
  let nf := new_name base new in
  match fs base with
  | None => None
  | Some _ =>
      let fs := write fs nf [] in
      match fs base with
      | None => None
      | Some t => Some (write fs nf (concat (filter (fun l => negb (ignored ignore l)) (lines (universal t)))))
      end
  end.
