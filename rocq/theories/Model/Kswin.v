(** Model of KSWIN, drift_detection/kswin.py.

    The random sample drawn by numpy and the Kolmogorov-Smirnov test are arguments of the model: [choice] may return
    any list of the requested size, [ks] any (statistic, p-value). *)
From Coq Require Import List ZArith Bool.
From Verif Require Import Base.Py Base.Num.
Import ListNotations.
Local Open Scope Z_scope.

(** numpy/Python slices l[:e] and l[b:] with possibly negative bounds *)
Definition slice_bound (len e : Z) : nat :=
  if e <? 0 then Z.to_nat (e + len) else Z.to_nat e.
Definition slice_to {A} (l : list A) (e : Z) : list A := firstn (slice_bound (Z.of_nat (length l)) e) l.
Definition slice_from {A} (l : list A) (b : Z) : list A := skipn (slice_bound (Z.of_nat (length l)) b) l.

Section Kswin.
Context {T : Type} {N : Num T}.

Record kswin : Type := mkKswin {
  ks_alpha : T; ks_window_size : Z; ks_stat_size : Z;
  ks_window : list T; ks_change : bool; ks_p_value : T; ks_n : Z
}.

(** __init__, kswin.py:77-98; [data] is the optional initial ndarray *)
Definition kswin_init (alpha : T) (window_size stat_size : Z) (data : option (list T)) : res kswin :=
  if nltb alpha n0 || nltb n1 alpha then Raise ValueError
  else if window_size <? 0 then Raise ValueError
  else if window_size <? stat_size then Raise ValueError
  else Ok (mkKswin alpha window_size stat_size (match data with Some l => l | None => [] end) false n0 0).

(** np.random.choice(a, size): ValueError for a negative size or an empty population *)
Definition np_choice (choice : list T -> Z -> list T) (a : list T) (size : Z) : res (list T) :=
  if size <? 0 then Raise ValueError
  else match a with [] => if size =? 0 then Ok [] else Raise ValueError | _ => Ok (choice a size) end.

(** scipy.stats.ks_2samp: ValueError when a sample is empty *)
Definition ks_2samp (ks : list T -> list T -> T * T) (a b : list T) : res (T * T) :=
  match a, b with [], _ | _, [] => Raise ValueError | _, _ => Ok (ks a b) end.

(** add_element, kswin.py:100-130 *)
Definition kswin_add (choice : list T -> Z -> list T) (ks : list T -> list T -> T * T)
    (s : kswin) (x : T) : res kswin :=
  if ks_window_size s <=? Z.of_nat (length (ks_window s)) then
    match ks_window s with
    | [] => Raise IndexError                        (* np.delete of index 0 of an empty array *)
    | _ :: w =>
        rnd <- np_choice choice (slice_to w (- ks_stat_size s)) (ks_stat_size s) ;;
        '(st, p) <- ks_2samp ks rnd (slice_from w (- ks_stat_size s)) ;;
        let change := nleb p (ks_alpha s) && nltb (n1 / nofZ 10)%num st in
        let w' := if change then slice_from w (- ks_stat_size s) else w in
        Ok (mkKswin (ks_alpha s) (ks_window_size s) (ks_stat_size s) (w' ++ [x]) change p (ks_n s + 1))
    end
  else Ok (mkKswin (ks_alpha s) (ks_window_size s) (ks_stat_size s) (ks_window s ++ [x]) false (ks_p_value s)
             (ks_n s + 1)).

(** reset, kswin.py:143-148 *)
Definition kswin_reset (s : kswin) : kswin :=
  mkKswin (ks_alpha s) (ks_window_size s) (ks_stat_size s) [] false n0 (ks_n s).

End Kswin.
Arguments kswin : clear implicits.
