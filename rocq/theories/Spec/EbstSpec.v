(** Vocabulary for regression attribute observers. *)
From Coq Require Import List Reals.
From Verif Require Import Spec.Lists Model.TargetStats.
Import ListNotations.
Local Open Scope R_scope.

(** An observation: attribute value, targets, weight. *)
Notation eobs I := (R * (I -> R) * R)%type.

Section Spec.
Context {I : Type}.
Definition e_val (o : (eobs I)) : R := fst (fst o).

(** Weight, sum of targets and sum of squared targets of a list of observations. *)
Definition stats {V : Type} (l : list (V * (I -> R) * R)) : stat R I :=
  mkS (Rsum (map snd l)) (fun i => Rsum (map (fun o => snd o * snd (fst o) i) l))
      (fun i => Rsum (map (fun o => snd o * snd (fst o) i * snd (fst o) i) l)).

(** The observations with attribute value at most [v] *)
Definition upto (v : R) (l : list (eobs I)) : list (eobs I) := filter (fun o => if Rle_dec (e_val o) v then true else false) l.

(** The observations whose attribute value is present *)
Definition present (h : list (option R * (I -> R) * R)) : list (eobs I) :=
  flat_map (fun o => match o with (Some v, y, w) => [(v, y, w)] | _ => [] end) h.

(** What remains of [pre] *)
Definition minus (pre a : stat R I) : stat R I :=
  mkS (st_w pre - st_w a) (fun i => st_s pre i - st_s a i) (fun i => st_q pre i - st_q a i).
End Spec.
