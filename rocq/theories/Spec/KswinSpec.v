(** Histories of a KSWIN detector. *)
From Coq Require Import List ZArith.
From Verif Require Import Base.Py Base.Num Spec.Lists Model.Kswin.
Import ListNotations.

Section Kswin.
Context {T : Type} {N : Num T}.

(** What numpy's random choice guarantees: as many values as asked for, all from the population. *)
Definition legal_choice (choice : list T -> Z -> list T) : Prop :=
  forall a n, (0 <= n)%Z -> a <> [] -> Z.of_nat (length (choice a n)) = n /\ incl (choice a n) a.

(** [khist alpha w st data h s]: a detector built with these arguments is in state [s]; [h] is the initial data (if no
    reset happened) followed by the values added since construction or since the last reset.  Each call may see its own
    random sample and its own test result. *)
Inductive khist (alpha : T) (w st : Z) (data : option (list T)) : list T -> kswin T -> Prop :=
| kh_new s : kswin_init alpha w st data = Ok s -> khist alpha w st data (match data with Some l => l | None => [] end) s
| kh_add h s x choice ks s' :
    khist alpha w st data h s -> legal_choice choice -> kswin_add choice ks s x = Ok s' ->
    khist alpha w st data (h ++ [x]) s'
| kh_reset h s : khist alpha w st data h s -> khist alpha w st data [] (kswin_reset s).

(** Values fed with one fixed random generator and test, for examples and for the raising runs. *)
Fixpoint kfeed choice ks (s : kswin T) (l : list T) : res (kswin T) :=
  match l with [] => Ok s | x :: r => s' <- kswin_add choice ks s x ;; kfeed choice ks s' r end.
End Kswin.
