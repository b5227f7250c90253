(** Specification: a text in lines. *)
From Coq Require Import Ascii String List.
From Verif Require Import Model.FileScripts.
Import ListNotations.

(** A line without its end: no end of line inside *)
Definition plain (l : text) : Prop := ~ In LF l /\ ~ In CR l.
(** Lines each followed by the end of line [e], and what follows the last one *)
Definition text_of (e : text) (ls : list text) (last : text) : text := concat (map (fun l => l ++ e) ls) ++ last.
Definition begins (l ignore : text) : bool := match l, ignore with c :: _, [d] => Ascii.eqb c d | _, _ => false end.
