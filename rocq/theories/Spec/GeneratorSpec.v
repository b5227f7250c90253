(** What the documentation of the stream generators promises, independent of how they are modelled. *)
From Coq Require Import ZArith List Bool Reals.
From Verif Require Import Base.Py Base.Num Model.Generators.
Import ListNotations.

(** numpy's documented ranges: rand() in [0, 1), randint(n) in [0, n). *)
Definition rng_ok {G} (S : Rng G R) : Prop :=
  (forall g, (0 <= fst (rng_rand S g) < 1)%R) /\
  (forall n g, (0 < n)%Z -> (0 <= fst (rng_int S n g) < n)%Z).

(** Successive next_sample calls of the given sizes: all rows, all labels and the object at the end. *)
Fixpoint take_batches {G X T} (one : G -> X -> out (list T * Z * (G * X))) (bs : list nat) (s : gst G X T)
  : out (list (list T) * list Z * gst G X T) :=
  match bs with
  | [] => Ret ([], [], s)
  | n :: r =>
      match next_sample one n s with
      | Ret (rows, ys, s') =>
          match take_batches one r s' with
          | Ret (rows', ys', s'') => Ret (rows ++ rows', ys ++ ys', s'')
          | Exc e => Exc e
          | Loop => Loop
          end
      | Exc e => Exc e
      | Loop => Loop
      end
  end.

(** 1, 0, 1, 0, ... *)
Fixpoint alternating (first : Z) (n : nat) : list Z :=
  match n with O => [] | S k => first :: alternating (1 - first)%Z k end.

(** Two objects that answer every later call alike, except last_sample before the next call. *)
Definition same_but_last {G X T} (a b : gst G X T) : Prop :=
  s_rng a = s_rng b /\ s_ext a = s_ext b /\ s_idx a = s_idx b.

(** *** Concepts *)
Local Open Scope R_scope.

(** SEA: label 0 if att1 + att2 <= theta, else 1. *)
Definition sea_theta (fn : Z) : R :=
  match fn with 0%Z => 8 | 1%Z => 9 | 2%Z => 7 | _ => 95 / 10 end.
Definition sea_sample (fn : Z) (row : list R) (y : Z) : Prop :=
  exists a b c, row = [a; b; c] /\ 0 <= a < 10 /\ 0 <= b < 10 /\ 0 <= c < 10 /\
    (a + b <= sea_theta fn -> y = 0%Z) /\ (sea_theta fn < a + b -> y = 1%Z).

(** The same sample with the wrong label. *)
Definition sea_flipped (fn : Z) (row : list R) (y : Z) : Prop :=
  exists a b c, row = [a; b; c] /\ 0 <= a < 10 /\ 0 <= b < 10 /\ 0 <= c < 10 /\
    (a + b <= sea_theta fn -> y = 1%Z) /\ (sea_theta fn < a + b -> y = 0%Z).

(** STAGGER: size (0 small, 1 medium, 2 large), color (0 red, 1 blue, 2 green), shape (0 circle, 1 square, 2
    triangle). *)
Definition stagger_positive (fn size color shape : Z) : Prop :=
  match fn with
  | 0%Z => size = 0 /\ color = 0
  | 1%Z => color = 2 \/ shape = 0
  | _ => size = 1 \/ size = 2
  end%Z.
Definition stagger_sample (fn : Z) (row : list R) (y : Z) : Prop :=
  exists size color shape, row = [IZR size; IZR color; IZR shape] /\
    (0 <= size < 3)%Z /\ (0 <= color < 3)%Z /\ (0 <= shape < 3)%Z /\
    (stagger_positive fn size color shape -> y = 1%Z) /\ (~ stagger_positive fn size color shape -> y = 0%Z).

(** Sine: functions 0 and 1 use x1 - sin(x2), functions 2 and 3 use x1 - (0.5 + 0.3 sin(3 pi x2)); 1 and 3 are the
    reversed ones. *)
Definition sine_above (fn : Z) (x1 x2 : R) : Prop :=
  match fn with
  | 0%Z | 1%Z => sin x2 <= x1
  | _ => 5 / 10 + 3 / 10 * sin (3 * PI * x2) <= x1
  end.
Definition sine_reversed (fn : Z) : bool := (fn =? 1)%Z || (fn =? 3)%Z.
Definition sine_sample (has_noise : bool) (fn : Z) (row : list R) (y : Z) : Prop :=
  exists x1 x2 rest, row = x1 :: x2 :: rest /\ length rest = (if has_noise then 2 else 0)%nat /\
    Forall (fun x => 0 <= x < 1) row /\
    (sine_above fn x1 x2 -> y = if sine_reversed fn then 1%Z else 0%Z) /\
    (~ sine_above fn x1 x2 -> y = if sine_reversed fn then 0%Z else 1%Z).

(** Mixed: at least two of v, w and z = (y < 0.5 + 0.3 sin(3 pi x)). *)
Definition mixed_positive (v w : Z) (x y : R) : Prop :=
  let z := y < 5 / 10 + 3 / 10 * sin (3 * PI * x) in
  (v = 1%Z /\ w = 1%Z) \/ (v = 1%Z /\ z) \/ (w = 1%Z /\ z).
Definition mixed_sample (fn : Z) (row : list R) (lab : Z) : Prop :=
  exists v w x y, row = [IZR v; IZR w; x; y] /\ (v = 0 \/ v = 1)%Z /\ (w = 0 \/ w = 1)%Z /\
    0 <= x < 1 /\ 0 <= y < 1 /\
    (mixed_positive v w x y -> lab = fn) /\ (~ mixed_positive v w x y -> lab = (1 - fn)%Z).

(** AGRAWAL: the group A (label 0) of each function.  [k] is a thousand.  Function 4 is the one of the paper ("if the
    salary is in the band of the age group then the loan ... else the loan ..."). *)
Definition band (lo hi x : R) : Prop := lo * 1000 <= x <= hi * 1000.
Definition ite (c p q : Prop) : Prop := (c /\ p) \/ (~ c /\ q).
Definition by_age (age : Z) (young middle old : Prop) : Prop :=
  ((age < 40)%Z /\ young) \/ ((40 <= age < 60)%Z /\ middle) \/ ((60 <= age)%Z /\ old).
Definition agrawal_groupA (fn : Z) (salary commission : R) (age elevel : Z) (hvalue : R) (hyears : Z) (loan : R)
  : Prop :=
  match fn with
  | 0%Z => (age < 40 \/ 60 <= age)%Z
  | 1%Z => by_age age (band 50 100 salary) (band 75 125 salary) (band 25 75 salary)
  | 2%Z => by_age age (0 <= elevel <= 1)%Z (1 <= elevel <= 3)%Z (2 <= elevel <= 4)%Z
  | 3%Z => by_age age (ite (0 <= elevel <= 1)%Z (band 25 75 salary) (band 50 100 salary))
           (ite (1 <= elevel <= 3)%Z (band 50 100 salary) (band 75 125 salary))
           (ite (2 <= elevel <= 4)%Z (band 50 100 salary) (band 25 75 salary))
  | 4%Z => by_age age (ite (band 50 100 salary) (band 100 300 loan) (band 200 400 loan))
           (ite (band 75 125 salary) (band 200 400 loan) (band 300 500 loan))
           (ite (band 25 75 salary) (band 300 500 loan) (band 100 300 loan))
  | 5%Z => by_age age (band 50 100 (salary + commission)) (band 75 125 (salary + commission))
           (band 25 75 (salary + commission))
  | 6%Z => 1 < 2 / 3 * (salary + commission) - loan / 5 - 20000
  | 7%Z => 1 < 2 / 3 * (salary + commission) - 5000 * IZR elevel - 20000
  | 8%Z => 1 < 2 / 3 * (salary + commission) - 5000 * IZR elevel - loan / 5 - 10000
  | _ => 1 < 2 / 3 * (salary + commission) - 5000 * IZR elevel
             + (if (20 <=? hyears)%Z then hvalue / 10 * (IZR hyears - 20) else 0) / 5 - 10000
  end.
(** The nine features, in the ranges the code draws them from. *)
Definition agrawal_features (row : list R) (salary commission : R) (age elevel car zip : Z) (hvalue : R) (hyears : Z)
  (loan : R) : Prop :=
  row = [salary; commission; IZR age; IZR elevel; IZR car; IZR zip; hvalue; IZR hyears; loan] /\
  20000 <= salary < 150000 /\
  (75000 <= salary -> commission = 0) /\ (salary < 75000 -> 10000 <= commission < 85000) /\
  (20 <= age <= 80)%Z /\ (0 <= elevel <= 4)%Z /\ (0 <= car <= 19)%Z /\ (0 <= zip <= 8)%Z /\
  (9 - IZR zip) * 50000 <= hvalue < (9 - IZR zip) * 150000 /\ (1 <= hyears <= 30)%Z /\ 0 <= loan < 500000.
Definition agrawal_sample (fn : Z) (row : list R) (y : Z) : Prop :=
  exists salary commission age elevel car zip hvalue hyears loan,
    agrawal_features row salary commission age elevel car zip hvalue hyears loan /\
    (agrawal_groupA fn salary commission age elevel hvalue hyears loan -> y = 0%Z) /\
    (~ agrawal_groupA fn salary commission age elevel hvalue hyears loan -> y = 1%Z).

(** Seven segment display: top, upper left, upper right, middle, lower left, lower right, bottom. *)
Definition segments (digit : Z) : list Z :=
  match digit with
  | 0%Z => [1; 1; 1; 0; 1; 1; 1] | 1%Z => [0; 0; 1; 0; 0; 1; 0] | 2%Z => [1; 0; 1; 1; 1; 0; 1]
  | 3%Z => [1; 0; 1; 1; 0; 1; 1] | 4%Z => [0; 1; 1; 1; 0; 1; 0] | 5%Z => [1; 1; 0; 1; 0; 1; 1]
  | 6%Z => [1; 1; 0; 1; 1; 1; 1] | 7%Z => [1; 0; 1; 0; 0; 1; 0] | 8%Z => [1; 1; 1; 1; 1; 1; 1]
  | _ => [1; 1; 1; 1; 0; 1; 1]
  end%Z.
Definition led_sample (has_noise : bool) (row : list R) (y : Z) : Prop :=
  (0 <= y <= 9)%Z /\
  exists extra, row = map IZR (segments y ++ extra) /\
    length extra = (if has_noise then 17 else 0)%nat /\ Forall (fun v => v = 0%Z \/ v = 1%Z) extra.

(** Hyperplane: class 1 on or above the hyperplane sum w_i x_i = (sum w_i) / 2. *)
Fixpoint Rdot (ws xs : list R) : R :=
  match ws, xs with w :: wr, x :: xr => w * x + Rdot wr xr | _, _ => 0 end.
Definition hyper_label (ws xs : list R) (y : Z) : Prop :=
  (fold_right Rplus 0 ws / 2 <= Rdot ws xs -> y = 1%Z) /\ (Rdot ws xs < fold_right Rplus 0 ws / 2 -> y = 0%Z).

(** Waveform: the three triangular base waves, each class mixes two of them. *)
Definition base_wave (k i : Z) : R :=
  let peak := match k with 0%Z => 6 | 1%Z => 14 | _ => 10 end%Z in IZR (Z.max 0 (6 - Z.abs (i - peak))).
Definition waves_of (label : Z) : Z * Z := match label with 0%Z => (0, 1) | 1%Z => (0, 2) | _ => (1, 2) end%Z.

(** The same ranges for exact rationals, used by executable counterexamples. *)
Definition rng_okQ {G} (S : Rng G QArith_base.Q) : Prop :=
  (forall g, QArith_base.Qle (QArith_base.inject_Z 0) (fst (rng_rand S g)) /\ QArith_base.Qlt (fst (rng_rand S g)) (QArith_base.inject_Z 1)) /\
  (forall n g, (0 < n)%Z -> (0 <= fst (rng_int S n g) < n)%Z).

(** Calls a user makes on a stream without changing its concept. *)
Inductive call := Next (batch_size : nat) | Restart.
Fixpoint run_calls {G X T} (one : G -> X -> out (list T * Z * (G * X))) (restart : gst G X T -> gst G X T)
  (cs : list call) (s : gst G X T) : out (gst G X T) :=
  match cs with
  | [] => Ret s
  | Next n :: r => match next_sample one n s with Ret (_, _, s') => run_calls one restart r s' | Exc e => Exc e | Loop => Loop end
  | Restart :: r => run_calls one restart r (restart s)
  end.
