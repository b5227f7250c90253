(** The synthetic stream generators: SEA, STAGGER, Sine, Mixed, AGRAWAL, LED, LED with drift, Hyperplane and Waveform.

    A numpy RandomState is an arbitrary deterministic state machine: [rng_rand], [rng_int] and [rng_normal] return a
    value and the next state, nothing else is assumed (theorems that need the documented ranges say so).  numpy
    matrices of samples are lists of rows; the label column is kept apart, as the returned pair does.  The [while not
    desired_class_found] loops need not stop for every random source: they take a fuel and answer [Loop] when it
    runs out, so [Ret] means the Python call returned. *)
From Coq Require Import ZArith List Bool.
From Verif Require Import Base.Py Base.Num.
Import ListNotations.

Record Rng (G T : Type) := mk_rng_ops {
  rng_rand : G -> T * G;          (* RandomState.rand() *)
  rng_int : Z -> G -> Z * G;      (* RandomState.randint(n), also randint(0, n) *)
  rng_normal : G -> T * G         (* RandomState.normal() *)
}.
Arguments rng_rand {G T} r g.
Arguments rng_int {G T} r n g.
Arguments rng_normal {G T} r g.

(** The random_state argument.  utils/validation.py 7-30 (check_random_state): an int gives a new RandomState, a
    RandomState instance or None gives the object itself, whose state goes on from where it is. *)
Inductive seed := SeedInt (z : Z) | SeedShared.
Definition check_random_state {G} (mk : Z -> G) (s : seed) (current : G) : G :=
  match s with SeedInt z => mk z | SeedShared => current end.

(** The outcome of a call: a value, an exception, or still running when the fuel is spent. *)
Inductive out (A : Type) : Type := Ret (a : A) | Exc (e : exc) | Loop.
Arguments Ret {A} a.
Arguments Exc {A} e.
Arguments Loop {A}.
Definition obind {A B} (m : out A) (f : A -> out B) : out B :=
  match m with Ret a => f a | Exc e => Exc e | Loop => Loop end.

(** The generator object: the RandomState, generator specific attributes [s_ext], sample_idx and
    (current_sample_x, current_sample_y).  data/base_stream.py 19-34 *)
Record gst (G X T : Type) := mk_gst {
  s_rng : G; s_ext : X; s_idx : Z; s_cur : option (list (list T) * list Z)
}.
Arguments mk_gst {G X T} _ _ _ _.
Arguments s_rng {G X T} _.
Arguments s_ext {G X T} _.
Arguments s_idx {G X T} _.
Arguments s_cur {G X T} _.

(** The sample loop every next_sample below shares, [one] being its body after [self.sample_idx += 1].
    data/sea_generator.py 227-229, stagger_generator.py 188-189, sine_generator.py 228-229, mixed_generator.py
    180-181, agrawal_generator.py 228-229, led_generator.py 201-202, led_generator_drift.py 120-121,
    hyper_plane_generator.py 213-215, waveform_generator.py 170-171 *)
Fixpoint gen_rows {G X T} (one : G -> X -> out (list T * Z * (G * X))) (n : nat) (g : G) (x : X) (idx : Z)
  : out (list (list T) * list Z * (G * X * Z)) :=
  match n with
  | O => Ret ([], [], (g, x, idx))
  | S k =>
      obind (one g x) (fun '(row, y, (g', x')) =>
      obind (gen_rows one k g' x' (idx + 1)%Z) (fun '(rows, ys, fin) => Ret (row :: rows, y :: ys, fin)))
  end.

(** next_sample(batch_size): the loop, then current_sample_x / current_sample_y are set and returned. *)
Definition next_sample {G X T} (one : G -> X -> out (list T * Z * (G * X))) (n : nat) (s : gst G X T)
  : out (list (list T) * list Z * gst G X T) :=
  obind (gen_rows one n (s_rng s) (s_ext s) (s_idx s)) (fun '(rows, ys, (g, x, idx)) =>
  Ret (rows, ys, mk_gst g x idx (Some (rows, ys)))).

(** last_sample.  data/base_stream.py 218-228 *)
Definition last_sample {G X T} (s : gst G X T) := s_cur s.

(** *** Generators with a balanced class loop (SEA, STAGGER, Sine, Mixed, AGRAWAL) *)

(** Generator specific attributes: next_class_should_be_zero and the index of the classification function. *)
Record bext := mk_bext { b_zero : bool; b_fn : Z }.

(** [while not desired_class_found]: data/sea_generator.py 233-247, stagger_generator.py 193-207, sine_generator.py
    233-244, mixed_generator.py 185-200, agrawal_generator.py 232-257 (the same loop around different draws). *)
Fixpoint draw_class {G A} (draw : G -> A * G) (label : A -> Z) (balance : bool) (fuel : nat) (zero : bool) (g : G)
  : out (A * Z * (bool * G)) :=
  match fuel with
  | O => Loop
  | S k =>
      let '(a, g') := draw g in
      let group := label a in
      if negb balance then Ret (a, group, (zero, g'))
      else if (zero && (group =? 0)%Z) || (negb zero && (group =? 1)%Z)
           then Ret (a, group, (negb zero, g'))
           else draw_class draw label balance k zero g'
  end.

(** What differs between these generators: the draw of the attributes, the list of classification functions, and what
    happens between the end of the loop and the row being stored (label noise, noise features, perturbation). *)
Record bgen (G T A : Type) := mk_bgen {
  bg_draw : G -> A * G;
  bg_funs : list (A -> Z);
  bg_finish : A -> Z -> G -> list T * Z * G
}.
Arguments bg_draw {G T A} _ _.
Arguments bg_funs {G T A} _.
Arguments bg_finish {G T A} _ _ _ _.

(** self._classification_functions[self.classification_function] (the index has been validated to be in range) *)
Definition bg_label {G T A} (b : bgen G T A) (fn : Z) (a : A) : Z := nth (Z.to_nat fn) (bg_funs b) (fun _ => 0%Z) a.

Definition bg_one {G T A} (b : bgen G T A) (balance : bool) (fuel : nat) (g : G) (x : bext)
  : out (list T * Z * (G * bext)) :=
  obind (draw_class (bg_draw b) (bg_label b (b_fn x)) balance fuel (b_zero x) g) (fun '(a, group, (z', g1)) =>
  let '(row, y, g2) := bg_finish b a group g1 in
  Ret (row, y, (g2, mk_bext z' (b_fn x)))).

(** The setter of classification_function: [in range(n)] or ValueError.  data/sea_generator.py 134-146 and alike *)
Definition check_fn (n fn : Z) : res Z := if (0 <=? fn)%Z && (fn <? n)%Z then Ok fn else Raise ValueError.

(** The setters of noise_percentage and perturbation.  data/sea_generator.py 186-199, agrawal_generator.py 181-195 *)
Definition check_pct {T} `{Num T} (p : T) : res T := if (n0 <=? p)%num && (p <=? n1)%num then Ok p else Raise ValueError.

(** __init__ (up to the setters) and _prepare_for_use.  data/sea_generator.py 95-121, 201-203 and alike *)
Definition bg_new {G T} (mk : Z -> G) (s : seed) (ambient : G) (fn : Z) : gst G bext T :=
  mk_gst (check_random_state mk s ambient) (mk_bext false fn) 0%Z None.

(** Stream.restart.  data/base_stream.py 242-247 with the _prepare_for_use of the generators *)
Definition bg_restart {G T} (mk : Z -> G) (s : seed) (st : gst G bext T) : gst G bext T :=
  mk_gst (check_random_state mk s (s_rng st)) (mk_bext false (b_fn (s_ext st))) 0%Z None.

(** generate_drift: another function is drawn until it differs.  data/sea_generator.py 265-273, stagger_generator.py
    219-227, sine_generator.py 261-269, agrawal_generator.py 307-315 *)
Fixpoint draw_other {G T} (R : Rng G T) (n : Z) (fuel : nat) (fn : Z) (g : G) : out (Z * G) :=
  match fuel with
  | O => Loop
  | S k => let '(f, g') := rng_int R n g in if (f =? fn)%Z then draw_other R n k fn g' else Ret (f, g')
  end.
Definition bg_drift {G T} (R : Rng G T) (n : Z) (fuel : nat) (st : gst G bext T) : out (gst G bext T) :=
  obind (draw_other R n fuel (b_fn (s_ext st)) (s_rng st)) (fun '(f, g) =>
  Ret (mk_gst g (mk_bext (b_zero (s_ext st)) f) (s_idx st) (s_cur st))).

(** Mixed: the other of the two functions.  data/mixed_generator.py 280-285 *)
Definition mixed_drift {G T} (st : gst G bext T) : gst G bext T :=
  mk_gst (s_rng st) (mk_bext (b_zero (s_ext st)) (1 - b_fn (s_ext st))%Z) (s_idx st) (s_cur st).

Section Gens.
Context {G T : Type} `{NT : Num T}.
Variable R : Rng G T.

Definition half : T := (nofZ 1 / nofZ 2)%num.
Definition cent : T := (nofZ 1 / nofZ 100)%num.

(** [0.01 + rand() <= p], used for label noise, LED segments and the direction of the hyperplane drift. *)
Definition noise_hit (p : T) (g : G) : bool * G :=
  let '(u, g') := rng_rand R g in ((cent + u <=? p)%num, g').

(** SEA.  data/sea_generator.py 234-236 *)
Definition sea_draw (g : G) : (T * T * T) * G :=
  let '(u1, g1) := rng_rand R g in let '(u2, g2) := rng_rand R g1 in let '(u3, g3) := rng_rand R g2 in
  ((nofZ 10 * u1, nofZ 10 * u2, nofZ 10 * u3)%num, g3).
(** data/sea_generator.py 275-379 (four functions) *)
Definition sea_fun (theta : T) (a : T * T * T) : Z :=
  let '(att1, att2, _) := a in if (att1 + att2 <=? theta)%num then 0%Z else 1%Z.
Definition sea_funs : list (T * T * T -> Z) :=
  [sea_fun (nofZ 8); sea_fun (nofZ 9); sea_fun (nofZ 7); sea_fun (nofZ 19 / nofZ 2)%num].
(** data/sea_generator.py 249-255 *)
Definition sea_finish (noise : T) (a : T * T * T) (group : Z) (g : G) : list T * Z * G :=
  let '(a1, a2, a3) := a in
  let '(hit, g') := noise_hit noise g in
  ([a1; a2; a3], (if hit then if (group =? 0)%Z then 1%Z else 0%Z else group), g').
Definition sea (noise : T) : bgen G T (T * T * T) := mk_bgen _ _ _ sea_draw sea_funs (sea_finish noise).

(** STAGGER.  data/stagger_generator.py 194-196 *)
Definition stagger_draw (g : G) : (Z * Z * Z) * G :=
  let '(u1, g1) := rng_int R 3 g in let '(u2, g2) := rng_int R 3 g1 in let '(u3, g3) := rng_int R 3 g2 in
  ((u1, u2, u3), g3).
(** data/stagger_generator.py 229-305 *)
Definition stagger_funs : list (Z * Z * Z -> Z) :=
  [ (fun '(size, color, shape) => if (size =? 0)%Z && (color =? 0)%Z then 1%Z else 0%Z);
    (fun '(size, color, shape) => if (color =? 2)%Z || (shape =? 0)%Z then 1%Z else 0%Z);
    (fun '(size, color, shape) => if (size =? 1)%Z || (size =? 2)%Z then 1%Z else 0%Z) ].
(** data/stagger_generator.py 209-212 *)
Definition stagger_finish (a : Z * Z * Z) (group : Z) (g : G) : list T * Z * G :=
  let '(size, color, shape) := a in ([nofZ size; nofZ color; nofZ shape], group, g).
Definition stagger : bgen G T (Z * Z * Z) := mk_bgen _ _ _ stagger_draw stagger_funs stagger_finish.

(** np.sin and np.pi are arguments. *)
Variable nsin : T -> T.
Variable npi : T.

(** Sine.  data/sine_generator.py 234-235 *)
Definition sine_draw (g : G) : (T * T) * G :=
  let '(u1, g1) := rng_rand R g in let '(u2, g2) := rng_rand R g1 in ((u1, u2), g2).
Definition wave (x : T) : T := (half + (nofZ 3 / nofZ 10) * nsin (nofZ 3 * npi * x))%num.
(** data/sine_generator.py 271-358.  [att1 >= t] is [t <= att1]. *)
Definition sine_funs : list (T * T -> Z) :=
  [ (fun '(att1, att2) => if (nsin att2 <=? att1)%num then 0%Z else 1%Z);
    (fun '(att1, att2) => if (att1 <? nsin att2)%num then 0%Z else 1%Z);
    (fun '(att1, att2) => if (wave att2 <=? att1)%num then 0%Z else 1%Z);
    (fun '(att1, att2) => if (att1 <? wave att2)%num then 0%Z else 1%Z) ].
(** data/sine_generator.py 246-254 *)
Definition sine_finish (has_noise : bool) (a : T * T) (group : Z) (g : G) : list T * Z * G :=
  let '(a1, a2) := a in
  if has_noise then
    let '(u1, g1) := rng_rand R g in let '(u2, g2) := rng_rand R g1 in ([a1; a2; u1; u2], group, g2)
  else ([a1; a2], group, g).
Definition sine (has_noise : bool) : bgen G T (T * T) := mk_bgen _ _ _ sine_draw sine_funs (sine_finish has_noise).

(** Mixed.  data/mixed_generator.py 186-189 *)
Definition mixed_draw (g : G) : (Z * Z * T * T) * G :=
  let '(u1, g1) := rng_rand R g in let '(u2, g2) := rng_rand R g1 in
  let '(u3, g3) := rng_rand R g2 in let '(u4, g4) := rng_rand R g3 in
  ((if (u1 <? half)%num then 0%Z else 1%Z, if (u2 <? half)%num then 0%Z else 1%Z, u3, u4), g4).
(** data/mixed_generator.py 220-278 *)
Definition mixed_test (a : Z * Z * T * T) : bool :=
  let '(v, w, x, y) := a in
  let z := (y <? wave x)%num in
  ((v =? 1)%Z && (w =? 1)%Z) || ((v =? 1)%Z && z) || ((w =? 1)%Z && z).
Definition mixed_funs : list (Z * Z * T * T -> Z) :=
  [ (fun a => if mixed_test a then 0%Z else 1%Z); (fun a => if mixed_test a then 1%Z else 0%Z) ].
(** data/mixed_generator.py 202-206 *)
Definition mixed_finish (a : Z * Z * T * T) (group : Z) (g : G) : list T * Z * G :=
  let '(v, w, x, y) := a in ([nofZ v; nofZ w; x; y], group, g).
Definition mixed : bgen G T (Z * Z * T * T) := mk_bgen _ _ _ mixed_draw mixed_funs mixed_finish.

(** AGRAWAL: the nine attributes. *)
Record loaner := mk_loaner {
  l_salary : T; l_commission : T; l_age : Z; l_elevel : Z; l_car : Z; l_zip : Z;
  l_hvalue : T; l_hyears : Z; l_loan : T
}.
(** data/agrawal_generator.py 233-242 *)
Definition agrawal_draw (g : G) : loaner * G :=
  let '(u1, g1) := rng_rand R g in
  let salary := (nofZ 20000 + nofZ 130000 * u1)%num in
  let '(commission, g2) :=
    if (nofZ 75000 <=? salary)%num then (nofZ 0, g1)
    else let '(u2, g2) := rng_rand R g1 in ((nofZ 10000 + nofZ 75000 * u2)%num, g2) in
  let '(a, g3) := rng_int R 61 g2 in
  let '(elevel, g4) := rng_int R 5 g3 in
  let '(car, g5) := rng_int R 20 g4 in
  let '(zip, g6) := rng_int R 9 g5 in
  let '(u7, g7) := rng_rand R g6 in
  let '(h, g8) := rng_int R 30 g7 in
  let '(u9, g9) := rng_rand R g8 in
  (mk_loaner salary commission (20 + a) elevel car zip (nofZ ((9 - zip) * 100000) * (half + u7))%num (1 + h)
     (u9 * nofZ 500000)%num, g9).

Definition zero_if (b : bool) : Z := if b then 0%Z else 1%Z.
Definition inr (lo hi : Z) (v : T) : bool := ((nofZ lo <=? v) && (v <=? nofZ hi))%num.
(** data/agrawal_generator.py 317-358 *)
Definition agrawal_f0 (l : loaner) : Z := zero_if ((l_age l <? 40)%Z || (60 <=? l_age l)%Z).
(** 401-406 (and 611-618 with the total salary) *)
Definition agrawal_bands (l : loaner) (s : T) : Z :=
  if (l_age l <? 40)%Z then zero_if (inr 50000 100000 s)
  else if (l_age l <? 60)%Z then zero_if (inr 75000 125000 s)
  else zero_if (inr 25000 75000 s).
Definition agrawal_f1 (l : loaner) : Z := agrawal_bands l (l_salary l).
(** 449-454 *)
Definition agrawal_f2 (l : loaner) : Z :=
  let e := l_elevel l in
  if (l_age l <? 40)%Z then zero_if ((e =? 0)%Z || (e =? 1)%Z)
  else if (l_age l <? 60)%Z then zero_if ((e =? 1)%Z || (e =? 2)%Z || (e =? 3)%Z)
  else zero_if ((e =? 2)%Z || (e =? 3)%Z || (e =? 4)%Z).
(** 497-511 *)
Definition agrawal_f3 (l : loaner) : Z :=
  let e := l_elevel l in let s := l_salary l in
  if (l_age l <? 40)%Z then
    if (e =? 0)%Z || (e =? 1)%Z then zero_if (inr 25000 75000 s) else zero_if (inr 50000 100000 s)
  else if (l_age l <? 60)%Z then
    if (e =? 1)%Z || (e =? 2)%Z || (e =? 3)%Z then zero_if (inr 50000 100000 s) else zero_if (inr 75000 125000 s)
  else
    if (e =? 2)%Z || (e =? 3)%Z || (e =? 4)%Z then zero_if (inr 50000 100000 s) else zero_if (inr 25000 75000 s).
(** 554-568, the tests on salary where the paper tests the loan included *)
Definition agrawal_f4 (l : loaner) : Z :=
  let s := l_salary l in let n := l_loan l in
  if (l_age l <? 40)%Z then
    if inr 50000 100000 s then zero_if (inr 100000 300000 n) else zero_if (inr 200000 400000 s)
  else if (l_age l <? 60)%Z then
    if inr 75000 125000 s then zero_if ((nofZ 200000 <=? s)%num && (n <=? nofZ 400000)%num)
    else zero_if (inr 300000 500000 s)
  else
    if inr 25000 75000 s then zero_if (inr 300000 500000 n) else zero_if (inr 75000 300000 n).
(** 611-618 *)
Definition agrawal_f5 (l : loaner) : Z := agrawal_bands l (l_salary l + l_commission l)%num.
(** [0 if disposable > 1 else 1] *)
Definition if_disposable (d : T) : Z := zero_if (nofZ 1 <? d)%num.
Definition two_thirds (l : loaner) : T := (nofZ 2 * (l_salary l + l_commission l) / nofZ 3)%num.
(** 660-661 *)
Definition agrawal_f6 (l : loaner) : Z := if_disposable (two_thirds l - l_loan l / nofZ 5 - nofZ 20000)%num.
(** 703-704 *)
Definition agrawal_f7 (l : loaner) : Z := if_disposable (two_thirds l - nofZ (5000 * l_elevel l) - nofZ 20000)%num.
(** 746-747 *)
Definition agrawal_f8 (l : loaner) : Z :=
  if_disposable (two_thirds l - nofZ (5000 * l_elevel l) - l_loan l / nofZ 5 - nofZ 10000)%num.
(** 789-793 *)
Definition agrawal_f9 (l : loaner) : Z :=
  let equity := if (20 <=? l_hyears l)%Z then (l_hvalue l * nofZ (l_hyears l - 20) / nofZ 10)%num else nofZ 0 in
  if_disposable (two_thirds l - nofZ (5000 * l_elevel l) + equity / nofZ 5 - nofZ 10000)%num.
Definition agrawal_funs : list (loaner -> Z) :=
  [agrawal_f0; agrawal_f1; agrawal_f2; agrawal_f3; agrawal_f4;
   agrawal_f5; agrawal_f6; agrawal_f7; agrawal_f8; agrawal_f9].

(** _perturb_value.  data/agrawal_generator.py 298-305 *)
Definition perturb_value (pert val vmin vmax range : T) (g : G) : T * G :=
  let '(u, g') := rng_rand R g in
  let v := (val + range * (nofZ 2 * (u - half)) * pert)%num in
  ((if (v <? vmin)%num then vmin else if (vmax <? v)%num then vmax else v), g').

(** np.round *)
Variable nround : T -> T.

(** data/agrawal_generator.py 259-269.  eval(self.feature_names[i]) reads the local variable of that name. *)
Definition agrawal_finish (pert : T) (l : loaner) (group : Z) (g : G) : list T * Z * G :=
  let row salary commission age hvalue hyears loan :=
    [salary; commission; age; nofZ (l_elevel l); nofZ (l_car l); nofZ (l_zip l); hvalue; hyears; loan] in
  if (nofZ 0 <? pert)%num then
    let '(salary, g1) := perturb_value pert (l_salary l) (nofZ 20000) (nofZ 150000) (nofZ 150000 - nofZ 20000)%num g in
    let '(commission, g2) :=
      if (nofZ 0 <? l_commission l)%num
      then perturb_value pert (l_commission l) (nofZ 10000) (nofZ 75000) (nofZ 75000 - nofZ 10000)%num g1
      else (l_commission l, g1) in
    let '(age, g3) := perturb_value pert (nofZ (l_age l)) (nofZ 20) (nofZ 80) (nofZ 80 - nofZ 20)%num g2 in
    let '(hvalue, g4) :=
      perturb_value pert (l_hvalue l) (nofZ ((9 - l_zip l) * 100000)) (nofZ 0) (nofZ 135000) g3 in
    let '(hyears, g5) := perturb_value pert (nofZ (l_hyears l)) (nofZ 1) (nofZ 30) (nofZ 30 - nofZ 1)%num g4 in
    let '(loan, g6) := perturb_value pert (l_loan l) (nofZ 0) (nofZ 500000) (nofZ 500000 - nofZ 0)%num g5 in
    (row salary commission (nround age) hvalue (nround hyears) loan, group, g6)
  else
    (row (l_salary l) (l_commission l) (nofZ (l_age l)) (l_hvalue l) (nofZ (l_hyears l)) (l_loan l), group, g).
Definition agrawal (pert : T) : bgen G T loaner := mk_bgen _ _ _ agrawal_draw agrawal_funs (agrawal_finish pert).

(** *** LED *)

(** data/led_generator.py 90-99 *)
Definition led_digits : list (list Z) :=
  [[1; 1; 1; 0; 1; 1; 1]; [0; 0; 1; 0; 0; 1; 0]; [1; 0; 1; 1; 1; 0; 1]; [1; 0; 1; 1; 0; 1; 1]; [0; 1; 1; 1; 0; 1; 0];
   [1; 1; 0; 1; 0; 1; 1]; [1; 1; 0; 1; 1; 1; 1]; [1; 0; 1; 0; 0; 1; 0]; [1; 1; 1; 1; 1; 1; 1]; [1; 1; 1; 1; 0; 1; 1]]%Z.

(** One segment, flipped by the noise.  data/led_generator.py 206-210 *)
Definition led_segment (noise : T) (v : Z) (g : G) : Z * G :=
  let '(hit, g') := noise_hit noise g in ((if hit then if (v =? 0)%Z then 1%Z else 0%Z else v), g').
Fixpoint led_segments (noise : T) (vs : list Z) (g : G) : list Z * G :=
  match vs with
  | [] => ([], g)
  | v :: r => let '(w, g1) := led_segment noise v g in let '(ws, g2) := led_segments noise r g1 in (w :: ws, g2)
  end.
(** [n] draws of randint(2).  data/led_generator.py 212-214 *)
Fixpoint led_extra (n : nat) (g : G) : list Z * G :=
  match n with
  | O => ([], g)
  | S k => let '(w, g1) := rng_int R 2 g in let '(ws, g2) := led_extra k g1 in (w :: ws, g2)
  end.
(** The 7 or 24 values of a sample, before they are placed in columns, and the digit.  data/led_generator.py 203-214 *)
Definition led_values (noise : T) (has_noise : bool) (g : G) : list Z * Z * G :=
  let '(selected, g1) := rng_int R 10 g in
  let '(segs, g2) := led_segments noise (nth (Z.to_nat selected) led_digits []) g1 in
  let '(extra, g3) := if has_noise then led_extra 17 g2 else ([], g2) in
  (segs ++ extra, selected, g3).
(** The loop body of LEDGenerator.next_sample: value i goes to column i. *)
Definition led_one (noise : T) (has_noise : bool) (g : G) (x : unit) : out (list T * Z * (G * unit)) :=
  let '(vs, y, g') := led_values noise has_noise g in Ret (map nofZ vs, y, (g', tt)).
Definition led_new (mk : Z -> G) (s : seed) (ambient : G) : gst G unit T :=
  mk_gst (check_random_state mk s ambient) tt 0%Z None.

(** *** LED with drift *)

(** [a[i] = v] on a list; None: IndexError. *)
Fixpoint put {A} (l : list A) (i : nat) (v : A) : option (list A) :=
  match l, i with
  | [], _ => None
  | _ :: r, O => Some (v :: r)
  | x :: r, S j => match put r j v with Some r' => Some (x :: r') | None => None end
  end.

(** __init__ after the super().__init__: fills the class attribute _numberAttribute (one array shared by every
    instance of the class: the incoming array is overwritten) and swaps the columns of the drifting attributes, then
    seeds again.  data/led_generator_drift.py 84-96 *)
Definition swap_columns (random_int offset : Z) (attr : list nat) (i : nat) : list nat :=
  let value1 := Z.to_nat ((Z.of_nat i + random_int) mod 7) in
  let value2 := Z.to_nat (7 + (Z.of_nat i + offset) mod 17) in
  match put attr value1 value2 with
  | Some a => match put a value2 value1 with Some b => b | None => a end
  | None => attr
  end.
Definition ledd_new (mk : Z -> G) (s : seed) (ambient : G) (has_noise : bool) (n_drift : nat)
  : list nat * gst G unit T :=
  let g0 := check_random_state mk s ambient in
  if has_noise && (0 <? Z.of_nat n_drift)%Z then
    let '(random_int, g1) := rng_int R 7 g0 in
    let '(offset, g2) := rng_int R 17 g1 in
    (fold_left (swap_columns random_int offset) (seq 0 n_drift) (seq 0 24),
     mk_gst (check_random_state mk s g2) tt 0%Z None)
  else (seq 0 24, mk_gst (check_random_state mk s g0) tt 0%Z None).

(** data[j, self._numberAttribute[i]] = value, for the values in order; [data] starts as n_features + 1 zeros. *)
Fixpoint place (vs : list Z) (cols : list nat) (row : list Z) : res (list Z) :=
  match vs, cols with
  | v :: vr, c :: cr => match put row c v with Some row' => place vr cr row' | None => Raise IndexError end
  | _, _ => Ok row
  end.
(** data/led_generator_drift.py 117-134 (the values are drawn in the same order as in LEDGenerator; when a write
    raises, the model raises for the whole sample).  [attr] is the class attribute at the time of the call. *)
Definition ledd_one (attr : list nat) (noise : T) (has_noise : bool) (g : G) (x : unit)
  : out (list T * Z * (G * unit)) :=
  let '(vs, y, g') := led_values noise has_noise g in
  let nf := if has_noise then 24%nat else 7%nat in
  match place vs attr (repeat 0%Z (S nf)) with
  | Ok row => Ret (map nofZ (firstn nf row), y, (g', tt))
  | Raise e => Exc e
  end.

(** *** Hyperplane *)
Record hext := mk_hext { h_weights : list T; h_sigma : list T }.

Fixpoint rands (n : nat) (g : G) : list T * G :=
  match n with
  | O => ([], g)
  | S k => let '(u, g1) := rng_rand R g in let '(us, g2) := rands k g1 in (u :: us, g2)
  end.
(** _prepare_for_use.  data/hyper_plane_generator.py 182-187 *)
Definition hyper_prepare (mk : Z -> G) (s : seed) (current : G) (n_features n_drift : nat) : gst G hext T :=
  let '(w, g) := rands n_features (check_random_state mk s current) in
  mk_gst g (mk_hext w (map (fun i => if (i <? n_drift)%nat then nofZ 1 else nofZ 0) (seq 0 n_features))) 0%Z None.

(** _generate_drift, for i in range(n_drift_features).  data/hyper_plane_generator.py 240-243 *)
Fixpoint hyper_drift (n_drift : nat) (mag sigp : T) (ws ss : list T) (g : G) : res (list T * list T * G) :=
  match n_drift with
  | O => Ok (ws, ss, g)
  | S k =>
      match ws, ss with
      | w :: wr, s :: sr =>
          let '(hit, g1) := noise_hit sigp g in
          '(wr', sr', g2) <- hyper_drift k mag sigp wr sr g1 ;;
          Ok ((w + s * mag)%num :: wr', (if hit then (s * nofZ (-1))%num else s) :: sr', g2)
      | _, _ => Raise IndexError
      end
  end.
Fixpoint dot (ws xs : list T) (acc : T) : T :=
  match ws, xs with w :: wr, x :: xr => dot wr xr (acc + w * x)%num | _, _ => acc end.
(** The loop body.  data/hyper_plane_generator.py 214-228 *)
Definition hyper_one (n_features n_drift : nat) (mag noise sigp : T) (g : G) (x : hext)
  : out (list T * Z * (G * hext)) :=
  let sum_weights := fold_left nadd (h_weights x) (nofZ 0) in
  let '(xs, g1) := rands n_features g in
  let group := if (sum_weights * half <=? dot (h_weights x) xs (nofZ 0))%num then 1%Z else 0%Z in
  let '(hit, g2) := noise_hit noise g1 in
  let y := if hit then if (group =? 0)%Z then 1%Z else 0%Z else group in
  match hyper_drift n_drift mag sigp (h_weights x) (h_sigma x) g2 with
  | Ok (ws, ss, g3) => Ret (xs, y, (g3, mk_hext ws ss))
  | Raise e => Exc e
  end.
Definition hyper_restart (mk : Z -> G) (s : seed) (n_features n_drift : nat) (st : gst G hext T) : gst G hext T :=
  hyper_prepare mk s (s_rng st) n_features n_drift.

(** *** Waveform *)
Definition wave_forms : list (list Z) :=
  [[0; 1; 2; 3; 4; 5; 6; 5; 4; 3; 2; 1; 0; 0; 0; 0; 0; 0; 0; 0; 0];
   [0; 0; 0; 0; 0; 0; 0; 0; 0; 1; 2; 3; 4; 5; 6; 5; 4; 3; 2; 1; 0];
   [0; 0; 0; 0; 0; 1; 2; 3; 4; 5; 6; 5; 4; 3; 2; 1; 0; 0; 0; 0; 0]]%Z.
Fixpoint wave_points (ma mb : T) (ha hb : list Z) (g : G) : list T * G :=
  match ha, hb with
  | a :: ar, b :: br =>
      let '(e, g1) := rng_normal R g in
      let '(ps, g2) := wave_points ma mb ar br g1 in
      ((ma * nofZ a + mb * nofZ b + e)%num :: ps, g2)
  | _, _ => ([], g)
  end.
Fixpoint normals (n : nat) (g : G) : list T * G :=
  match n with
  | O => ([], g)
  | S k => let '(u, g1) := rng_normal R g in let '(us, g2) := normals k g1 in (u :: us, g2)
  end.
(** data/waveform_generator.py 172-186 *)
Definition waveform_one (has_noise : bool) (g : G) (x : unit) : out (list T * Z * (G * unit)) :=
  let '(group, g1) := rng_int R 3 g in
  let choice_a := if (group =? 2)%Z then 1%nat else 0%nat in
  let choice_b := if (group =? 0)%Z then 1%nat else 2%nat in
  let '(ma, g2) := rng_rand R g1 in
  let mb := (nofZ 1 - ma)%num in
  let '(ps, g3) := wave_points ma mb (nth choice_a wave_forms []) (nth choice_b wave_forms []) g2 in
  let '(extra, g4) := if has_noise then normals 19 g3 else ([], g3) in
  Ret (ps ++ extra, group, (g4, tt)).

End Gens.
