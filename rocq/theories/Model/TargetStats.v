(** The statistics {0: weight, 1: sum of targets, 2: sum of squared targets} that regression trees keep.

    [I] indexes the targets ([unit] for a single-target tree, where the entries are numbers; otherwise they are numpy arrays and
    the operations are componentwise). *)
From Coq Require Import List ZArith.
From Verif Require Import Base.Py Base.Num.
Import ListNotations.

Section Stats.
Context {T : Type} {N : Num T} {I : Type}.
Record stat := mkS { st_w : T; st_s : I -> T; st_q : I -> T }.
(** {0: weight, 1: weight * target, 2: weight * target * target}; numeric_attribute_regression_observer.py:29-31,
    nominal_attribute_regression_observer.py:26-30 *)
Definition s_one (y : I -> T) (w : T) : stat := mkS w (fun i => w * y i)%num (fun i => w * y i * y i)%num.
Definition s_zero : stat := mkS n0 (fun _ => n0) (fun _ => n0).
Definition s_add (a b : stat) : stat := mkS (st_w a + st_w b)%num (fun i => st_s a i + st_s b i)%num (fun i => st_q a i + st_q b i)%num.
Definition s_sub (a b : stat) : stat := mkS (st_w a - st_w b)%num (fun i => st_s a i - st_s b i)%num (fun i => st_q a i - st_q b i)%num.
End Stats.
Arguments stat : clear implicits.
