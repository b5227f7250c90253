(** Vocabulary for the ADWIN properties. *)
From Coq Require Import List ZArith Reals.
From Verif Require Import Base.Py Base.Num Spec.Lists Model.Adwin.
Import ListNotations.
Local Open Scope Z_scope.

Section Spec.
Context {T : Type} {N : Num T}.

(** The stream elements added since construction or the last reset, oldest first. *)
Definition seen (ops : list (adwin_op T)) : list T :=
  fold_left (fun acc o => match o with AAdd v => acc ++ [v] | AReset => [] | _ => acc end) ops [].

(** Calls a user may make: anything, except asking a window of fewer than two elements to drop its oldest bucket
    (see adwin_delete_last_refuted) and setting a zero clock period. *)
Definition allowed (s : adwin T) (o : adwin_op T) : Prop :=
  match o with
  | ADelete => 2 <= ad_width s
  | ASetClock c => c <> 0
  | _ => True
  end.

(** [reached delta ops s]: a detector built with confidence [delta] is in state [s] after the calls [ops]. *)
Inductive reached (delta : T) : list (adwin_op T) -> adwin T -> Prop :=
| reached_new : reached delta [] (adwin_init delta)
| reached_call ops s o s' :
    reached delta ops s -> allowed s o -> adwin_step s o = Ok (Some s') -> reached delta (ops ++ [o]) s'.

(** Executable form of [allowed], for examples. *)
Definition allowedb (s : adwin T) (o : adwin_op T) : bool :=
  match o with
  | ADelete => 2 <=? ad_width s
  | ASetClock c => negb (c =? 0)
  | _ => true
  end.

Fixpoint run_allowed (s : adwin T) (ops : list (adwin_op T)) : option (adwin T) :=
  match ops with
  | [] => Some s
  | o :: r => if allowedb s o then
                match adwin_step s o with Ok (Some s') => run_allowed s' r | _ => None end
              else None
  end.

(** Sums of the buckets of one row, oldest first. *)
Definition row_sums (r : item T) : list T := firstn (Z.to_nat (it_size r)) (it_tot r).

(** All stored buckets, oldest first, as (number of elements, sum); row [i] holds buckets of 2^i elements. *)
Fixpoint buckets_from (i : nat) (rows : list (item T)) : list (nat * T) :=
  match rows with
  | [] => []
  | r :: rest => buckets_from (S i) rest ++ map (fun t => ((2 ^ i)%nat, t)) (row_sums r)
  end.
Definition stored_buckets (s : adwin T) : list (nat * T) := buckets_from 0 (ad_rows s).

(** What a comparison of all elements before a boundary with all elements after it looks at: the number of elements
    on each side and the sum of the older side. *)
Definition boundary_comparison (old new : list (nat * T)) (c : @comparison T) : Prop :=
  let '(c0, c1, u0, _) := c in
  c0 = Z.of_nat (nsum (map fst old)) /\ c1 = Z.of_nat (nsum (map fst new))
  /\ u0 = fold_left nadd (map snd old) n0.

End Spec.

(** The buckets the scan moves, one after the other, to the older side, oldest first: in every row all buckets except
    the newest one. *)
Fixpoint moved_from {T : Type} (i : nat) (rows : list (item T)) : list (nat * T) :=
  match rows with
  | [] => []
  | r :: rest => moved_from (S i) rest ++ map (fun t => ((2 ^ i)%nat, t)) (removelast (row_sums r))
  end.
Definition moved_buckets {T : Type} (s : adwin T) : list (nat * T) := moved_from 0 (ad_rows s).

(** The cut threshold of the ADWIN paper as the library sets it, for a window of [w] elements with variance [var] split
    into [n0] and [n1] elements (each side is counted as four elements shorter). *)
Definition adwin_threshold (delta var : R) (w n0 n1 : R) : R :=
  let m := (1 / (n0 - 4) + 1 / (n1 - 4))%R in
  let dd := ln (2 * ln w / delta) in
  (R_sqrt.sqrt (2 * m * var * dd) + 2 / 3 * dd * m)%R.

(** Moving the buckets [old] to one side separates the window: both sides have at least five elements and their means
    differ by more than the threshold. *)
Definition separates (delta : R) (s : adwin R) (old : list (nat * R)) : Prop :=
  let n := nsum (map fst old) in
  let w := Z.to_nat (ad_width s) in
  let sum := Rsum (map snd old) in
  (5 <= n)%nat /\ (n + 5 <= w)%nat
  /\ (adwin_threshold delta (adwin_variance s) (INR w) (INR n) (INR (w - n))
      < Rabs (sum / INR n - (ad_total s - sum) / INR (w - n)))%R.
