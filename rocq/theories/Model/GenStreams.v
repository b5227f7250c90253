(** Streams built from others or from stored data: ConceptDriftStream, RegressionGenerator, MultilabelGenerator,
    AnomalySineGenerator, RandomRBFGenerator (with and without drift) and RandomTreeGenerator.  Random sources as in
    Model/Generators.v. *)
From Coq Require Import ZArith List Bool.
From Verif Require Import Base.Py Base.Num Model.DataStream Model.Generators.
Import ListNotations.

(** *** ConceptDriftStream.  data/concept_drift_stream.py *)

(** A child stream: what ConceptDriftStream uses of the Stream interface, for an object in state [S].  next_sample()
    returns one row and one label (n_targets = 1). *)
Record child (S T : Type) := mk_child {
  ch_next : S -> res (list T * Z * S);   (* next_sample() *)
  ch_remaining : S -> Z;                 (* n_remaining_samples() *)
  ch_more : S -> bool;                   (* has_more_samples() *)
  ch_restart : S -> S                    (* restart() *)
}.
Arguments ch_next {S T} _ _.
Arguments ch_remaining {S T} _ _.
Arguments ch_more {S T} _ _.
Arguments ch_restart {S T} _ _.

(** The object: the RandomState, sample_idx, the two streams and the current sample.  concept_drift_stream.py 61-104 *)
Record cds (G A B T : Type) := mk_cds {
  cd_rng : G; cd_idx : Z; cd_a : A; cd_b : B; cd_cur : option (list (list T) * list Z)
}.
Arguments mk_cds {G A B T} _ _ _ _ _.
Arguments cd_rng {G A B T} _.
Arguments cd_idx {G A B T} _.
Arguments cd_a {G A B T} _.
Arguments cd_b {G A B T} _.
Arguments cd_cur {G A B T} _.

Definition cds_new {G A B T} (mk : Z -> G) (sd : seed) (ambient : G) (a : A) (b : B) : cds G A B T :=
  mk_cds (check_random_state mk sd ambient) 0%Z a b None.

(** The alpha parameter: [int(1 / tan(alpha * pi / 180))], at least 1; [trunc] is int(), [ntan] is np.tan.
    concept_drift_stream.py 79-101 *)
Definition cds_width {T} `{Num T} (ntan : T -> T) (npi : T) (trunc : T -> Z) (alpha : option T) (width : Z) : res Z :=
  match alpha with
  | None => Ok width
  | Some a =>
      if neqb a n0 then Ok width
      else if (n0 <? a)%num && (a <=? nofZ 90)%num then
        let w := trunc (nofZ 1 / ntan (a * npi / nofZ 180))%num in
        Ok (if (0 <? w)%Z then w else 1%Z)
      else Raise ValueError
  end.

(** [1.0 / (1.0 + np.exp(-4.0 * float(sample_idx - position) / float(width)))]; Python's float division raises on a zero
    width.  concept_drift_stream.py 158-160 *)
Definition drift_prob {T} `{Num T} (position width idx : Z) : res T :=
  if (width =? 0)%Z then Raise ZeroDivisionError
  else Ok (nofZ 1 / (nofZ 1 + nexp (nofZ (-4) * nofZ (idx - position) / nofZ width)))%num.

(** [self.current_sample_x[j, :] = X]: numpy stretches one column over the row and raises on other lengths. *)
Definition fit_row {T} (nf : nat) (row : list T) : res (list T) :=
  if (length row =? nf)%nat then Ok row
  else match row with [v] => Ok (repeat v nf) | _ => Raise ValueError end.

(** The loop of next_sample.  concept_drift_stream.py 157-167 *)
Fixpoint cds_loop {G A B T} `{Num T} (R : Rng G T) (sa : child A T) (sb : child B T) (nf : nat) (position width : Z)
    (n : nat) (g : G) (idx : Z) (a : A) (b : B) : res (list (list T) * list Z * (G * Z * A * B)) :=
  match n with
  | O => Ok ([], [], (g, idx, a, b))
  | S k =>
      let idx' := (idx + 1)%Z in
      p <- drift_prob position width idx' ;;
      let '(u, g') := rng_rand R g in
      ' (row, y, a', b') <-
        (if (p <? u)%num
         then ' (row, y, a') <- ch_next sa a ;; Ok (row, y, a', b)
         else ' (row, y, b') <- ch_next sb b ;; Ok (row, y, a, b')) ;;
      row' <- fit_row nf row ;;
      ' (rows, ys, fin) <- cds_loop R sa sb nf position width k g' idx' a' b' ;;
      Ok (row' :: rows, y :: ys, fin)
  end.

(** next_sample.  concept_drift_stream.py 139-168 (a raising call leaves a half-filled batch, not modelled) *)
Definition cds_next {G A B T} `{Num T} (R : Rng G T) sa sb nf position width (n : nat) (s : cds G A B T)
  : res (list (list T) * list Z * cds G A B T) :=
  ' (rows, ys, (g, idx, a, b)) <- cds_loop R sa sb nf position width n (cd_rng s) (cd_idx s) (cd_a s) (cd_b s) ;;
  Ok (rows, ys, mk_cds g idx a b (Some (rows, ys))).

(** n_remaining_samples, has_more_samples, restart.  concept_drift_stream.py 106-127, 170-174 (restart leaves
    current_sample_x and current_sample_y alone) *)
Definition cds_remaining {G A B T} (sa : child A T) (sb : child B T) (s : cds G A B T) : Z :=
  let n := (ch_remaining sa (cd_a s) + ch_remaining sb (cd_b s))%Z in if (n <? 0)%Z then (-1)%Z else n.
Definition cds_more {G A B T} (sa : child A T) (sb : child B T) (s : cds G A B T) : bool :=
  ch_more sa (cd_a s) && ch_more sb (cd_b s).
Definition cds_restart {G A B T} (mk : Z -> G) (sd : seed) (sa : child A T) (sb : child B T) (s : cds G A B T)
  : cds G A B T :=
  mk_cds (check_random_state mk sd (cd_rng s)) 0%Z (ch_restart sa (cd_a s)) (ch_restart sb (cd_b s)) (cd_cur s).
Definition cds_last {G A B T} (s : cds G A B T) := cd_cur s.

(** Two objects built with the default arguments hold the very same two streams (the defaults of __init__ are evaluated
    once, concept_drift_stream.py 61-65): a call on one leaves its streams in the other. *)
Definition cds_share {G A B T} (from to : cds G A B T) : cds G A B T :=
  mk_cds (cd_rng to) (cd_idx to) (cd_a from) (cd_b from) (cd_cur to).

(** *** Generators that store their data: RegressionGenerator, MultilabelGenerator *)

(** X and y as built by _prepare_for_use, n_samples, sample_idx, the current sample. *)
Record stored (V : Type) := mk_stored {
  st_X : list (list V); st_y : list (list V); st_n : Z; st_idx : Z; st_cur : option (list (list V) * list (list V))
}.
Arguments mk_stored {V} _ _ _ _ _.
Arguments st_X {V} _.
Arguments st_y {V} _.
Arguments st_n {V} _.
Arguments st_idx {V} _.
Arguments st_cur {V} _.

(** np.resize(a, (r, c)): the flattened array repeated as often as needed. *)
Definition np_resize {V} (d : V) (flat : list V) (r c : nat) : list (list V) :=
  map (fun i => map (fun j => nth ((i * c + j) mod length flat) flat d) (seq 0 c)) (seq 0 r).

(** _prepare_for_use; [X], [y] is what sklearn's make_regression / make_multilabel_classification returned, n rows of
    n_features and n_targets values.  regression_generator.py 131-142, multilabel_generator.py 104-114 *)
Definition reg_prepare {V} (d : V) (X y : list (list V)) (n_targets : nat) : stored V :=
  mk_stored X (np_resize d (concat y) (length (concat y)) n_targets) (Z.of_nat (length X)) 0%Z None.
Definition ml_prepare {V} (X y : list (list V)) : stored V := mk_stored X y (Z.of_nat (length X)) 0%Z None.

(** next_sample: the slices never raise, so the except branch is dead.  For n_targets = 1 the returned y is the
    flattened slice, here kept as rows of one.  regression_generator.py 162-198, multilabel_generator.py 116-159 *)
Definition st_next {V} (b : nat) (s : stored V) : list (list V) * list (list V) * stored V :=
  let i := (st_idx s + Z.of_nat b)%Z in
  let x := pyslice (st_X s) (i - Z.of_nat b) i in
  let y := pyslice (st_y s) (i - Z.of_nat b) i in
  (x, y, mk_stored (st_X s) (st_y s) (st_n s) i (Some (x, y))).
Definition st_remaining {V} (s : stored V) : Z := (st_n s - st_idx s)%Z.
(** RegressionGenerator overrides has_more_samples, MultilabelGenerator inherits the constant of Stream.
    regression_generator.py 144-160, base_stream.py 230-240 *)
Definition reg_more {V} (s : stored V) : bool := (0 <? st_n s - st_idx s)%Z.
Definition ml_more {V} (s : stored V) : bool := true.
Definition st_restart {V} (s : stored V) : stored V := mk_stored (st_X s) (st_y s) (st_n s) 0%Z None.

(** *** AnomalySineGenerator.  data/anomaly_sine_generator.py *)

(** [a[idx] = vals] for a list of indices, the last write to a place winning. *)
Definition set_at {V} (l : list V) (i : nat) (v : V) : list V :=
  if (i <? length l)%nat then firstn i l ++ v :: skipn (S i) l else l.
Fixpoint fancy_set {V} (l : list V) (idx : list nat) (vals : list V) : list V :=
  match idx, vals with
  | i :: idx', v :: vals' => fancy_set (set_at l i v) idx' vals'
  | _, _ => l
  end.

(** RandomState.choice(a, k, replace): numpy's argument checks around [raw], the drawn indices. *)
Definition np_choice {G} (raw : Z -> nat -> bool -> G -> list nat * G) (a : Z) (k : nat) (replace : bool) (g : G)
  : res (list nat * G) :=
  if (a <? 0)%Z then Raise ValueError
  else if (a =? 0)%Z && negb (k =? 0)%nat then Raise ValueError
  else if negb replace && (a <? Z.of_nat k)%Z then Raise ValueError
  else Ok (raw a k replace g).

(** RandomState.randn(n) scaled by the noise: [n] values. *)
Fixpoint randn {G T} (R : Rng G T) (n : nat) (g : G) : list T * G :=
  match n with O => ([], g) | S k => let '(v, g1) := rng_normal R g in let '(vs, g2) := randn R k g1 in (v :: vs, g2) end.
Definition plus_noise {T} `{Num T} (noise : T) (base zs : list T) : list T :=
  map (fun p => (fst p + snd p * noise)%num) (combine base zs).

(** _prepare_for_use: the two columns and the labels; [nsin], [ncos] are np.sin, np.cos.
    anomaly_sine_generator.py 77-104; the check of __init__ 46-75 first.  [choice] with size None draws one index. *)
Definition sine_prepare {G T} `{Num T} (R : Rng G T) raw (nsin ncos : T -> T) (n : nat) (n_anom : nat) (contextual : bool)
    (n_ctx : nat) (shift : Z) (noise : T) (replace : bool) (g : G) : res (list T * list T * list Z * G) :=
  if (n <? n_anom)%nat then Raise ValueError
  else if contextual && (n <? n_ctx)%nat then Raise ValueError
  else
    let shift := Z.abs shift in
    let t := map (fun i => (nofZ (Z.of_nat i) / nofZ 4)%num) (seq 0 n) in
    let '(z0, g) := randn R n g in
    let '(z1, g) := randn R n g in
    let c0 := plus_noise noise (map nsin t) z0 in
    let c1 := plus_noise noise (map ncos t) z1 in
    ' (c1, g) <-
      (if contextual then
         ' (ctx, g) <- np_choice raw (Z.of_nat n - shift) n_ctx replace g ;;
         let at_ := map (fun i => let j := (Z.of_nat i + shift)%Z in
                                  Z.to_nat (if (Z.of_nat n <=? j)%Z then j - Z.of_nat n else j)%Z) ctx in
         Ok (fancy_set c1 at_ (map (fun i => nth i c0 n0) ctx), g)
       else Ok (c1, g)) ;;
    ' (an, g) <- np_choice raw (Z.of_nat n) n_anom replace g ;;
    ' (one, g) <- np_choice raw (Z.of_nat n_anom) 1 replace g ;;
    let '(z2, g) := randn R n_anom g in
    let v0 := nsin (nofZ (Z.of_nat (nth 0 one 0%nat))) in
    let c1 := fancy_set c1 an (map (fun z => (v0 + z * noise + nofZ 2)%num) z2) in
    let y := fancy_set (repeat 0%Z n) an (repeat 1%Z n_anom) in
    Ok (c0, c1, y, g).

(** next_sample: the batch is cut to what remains; None once nothing remains.  anomaly_sine_generator.py 106-142, 159-167 *)
Record asine (V : Type) := mk_asine { as_X : list V; as_y : list Z; as_n : Z; as_idx : Z; as_cur : option (list V * list Z) }.
Arguments mk_asine {V} _ _ _ _ _.
Arguments as_X {V} _.
Arguments as_y {V} _.
Arguments as_n {V} _.
Arguments as_idx {V} _.
Arguments as_cur {V} _.
Definition as_remaining {V} (s : asine V) : Z := (as_n s - as_idx s)%Z.
Definition as_next {V} (b : nat) (s : asine V) : option (list V * list Z) * asine V :=
  let b := if (as_remaining s <? Z.of_nat b)%Z then as_remaining s else Z.of_nat b in
  if (0 <? b)%Z then
    let i := (as_idx s + b)%Z in
    let r := (pyslice (as_X s) (i - b) i, pyslice (as_y s) (i - b) i) in
    (Some r, mk_asine (as_X s) (as_y s) (as_n s) i (Some r))
  else (None, mk_asine (as_X s) (as_y s) (as_n s) (as_idx s) None).
(** inherited from Stream.  base_stream.py 230-240 *)
Definition as_more {V} (s : asine V) : bool := true.
Definition as_restart {V} (s : asine V) : asine V := mk_asine (as_X s) (as_y s) (as_n s) 0%Z None.

(** *** RandomRBFGenerator.  data/random_rbf_generator.py, data/pseudo_random_processes.py *)

(** next_sample of these two generators does not touch sample_idx. *)
Definition next_sample0 {G X T} (one : G -> X -> out (list T * Z * (G * X))) (n : nat) (s : gst G X T)
  : out (list (list T) * list Z * gst G X T) :=
  obind (next_sample one n s) (fun '(rows, ys, s') => Ret (rows, ys, mk_gst (s_rng s') (s_ext s') (s_idx s) (s_cur s'))).

Record centroid (T : Type) := mk_centroid { ce_centre : list T; ce_label : Z; ce_std : T }.
Arguments mk_centroid {T} _ _ _.
Arguments ce_centre {T} _.
Arguments ce_label {T} _.
Arguments ce_std {T} _.

(** The while loop: the number of weights passed.  pseudo_random_processes.py 27-31 *)
Fixpoint weight_loop {T} `{Num T} (ws : list T) (sum val : T) : Z :=
  match ws with
  | [] => 0%Z
  | w :: r => if (sum <=? val)%num then (1 + weight_loop r (sum + w)%num val)%Z else 0%Z
  end.
(** random_index_based_on_weights.  pseudo_random_processes.py 4-32 *)
Definition random_index {G T} `{Num T} (R : Rng G T) (ws : list T) (g : G) : Z * G :=
  let '(u, g') := rng_rand R g in
  let val := (u * fold_left nadd ws (nofZ 0))%num in
  ((weight_loop ws (nofZ 0) val - 1)%Z, g').

(** l[i] with a Python index. *)
Definition pyget {A} (l : list A) (i : Z) : res A :=
  let j := if (i <? 0)%Z then (i + Z.of_nat (length l))%Z else i in
  if (j <? 0)%Z then Raise IndexError
  else match nth_error l (Z.to_nat j) with Some v => Ok v | None => Raise IndexError end.

(** [n_features] values [rand() * 2.0 - 1.0].  random_rbf_generator.py 138-140 *)
Fixpoint offsets {G T} `{Num T} (R : Rng G T) (n : nat) (g : G) : list T * G :=
  match n with
  | O => ([], g)
  | S k => let '(u, g1) := rng_rand R g in let '(us, g2) := offsets R k g1 in ((u * nofZ 2 - nofZ 1)%num :: us, g2)
  end.

(** centroids, centroid_weights and, with drift, centroid_speed *)
Record rbf (T : Type) := mk_rbf { r_cents : list (centroid T); r_weights : list T; r_speed : list (list T) }.
Arguments mk_rbf {T} _ _ _.
Arguments r_cents {T} _.
Arguments r_weights {T} _.
Arguments r_speed {T} _.

(** The body of the sample loop.  random_rbf_generator.py 133-147 (a zero magnitude gives nan in numpy; the model's
    division then returns what [ndiv] returns) *)
Definition rbf_one {G T} `{Num T} (R : Rng G T) (nf : nat) (g : G) (x : rbf T) : out (list T * Z * (G * rbf T)) :=
  let '(i, g1) := random_index R (r_weights x) g in
  match pyget (r_cents x) i with
  | Raise e => Exc e
  | Ok c =>
      let '(vs, g2) := offsets R nf g1 in
      let magnitude := nsqrt (fold_left nadd (map (fun v => (v * v)%num) vs) (nofZ 0)) in
      let '(z, g3) := rng_normal R g2 in
      let scale := (z * ce_std c / magnitude)%num in
      Ret (map (fun p => (fst p + snd p * scale)%num) (combine (ce_centre c) vs), ce_label c, (g3, x))
  end.

(** _generate_centroids.  random_rbf_generator.py 155-175 *)
Fixpoint gen_centroids {G T} (R : Rng G T) (n nf : nat) (n_classes : Z) (g : G) : list (centroid T) * list T * G :=
  match n with
  | O => ([], [], g)
  | S k =>
      let '(c, g1) := rands R nf g in
      let '(l, g2) := rng_int R n_classes g1 in
      let '(sd, g3) := rng_rand R g2 in
      let '(w, g4) := rng_rand R g3 in
      let '(cs, ws, g5) := gen_centroids R k nf n_classes g4 in
      (mk_centroid c l sd :: cs, w :: ws, g5)
  end.

(** _prepare_for_use with int seeds for both random states.  random_rbf_generator.py 151-153 *)
Definition rbf_new {G T} (R : Rng G T) (mk : Z -> G) (model_seed sample_seed : Z) (n_classes : Z) (nf n_centroids : nat)
  : gst G (rbf T) T :=
  let '(cs, ws, _) := gen_centroids R n_centroids nf n_classes (mk model_seed) in
  mk_gst (mk sample_seed) (mk_rbf cs ws []) 0%Z None.

(** RandomRBFGeneratorDrift._generate_centroids: normalised speeds drawn from a second RandomState with the same seed.
    random_rbf_generator_drift.py 143-175 *)
Fixpoint gen_speeds {G T} `{Num T} (R : Rng G T) (n nf : nat) (g : G) : list (list T) * G :=
  match n with
  | O => ([], g)
  | S k =>
      let '(v, g1) := rands R nf g in
      let norm := nsqrt (fold_left nadd (map (fun x => (x * x)%num) v) (nofZ 0)) in
      let '(vs, g2) := gen_speeds R k nf g1 in
      (map (fun x => (x / norm)%num) v :: vs, g2)
  end.
Definition rbfd_new {G T} `{Num T} (R : Rng G T) (mk : Z -> G) (model_seed sample_seed : Z) (n_classes : Z)
    (nf n_centroids n_drift : nat) : gst G (rbf T) T :=
  let '(cs, ws, _) := gen_centroids R n_centroids nf n_classes (mk model_seed) in
  let '(sp, _) := gen_speeds R (Nat.min n_drift n_centroids) nf (mk model_seed) in
  mk_gst (mk sample_seed) (mk_rbf cs ws sp) 0%Z None.

(** One coordinate of one drifting centroid.  random_rbf_generator_drift.py 130-139 *)
Definition move_coord {T} `{Num T} (change_speed : T) (c s : T) : T * T :=
  let c' := (c + s * change_speed)%num in
  if (nofZ 1 <? c')%num || (c' <? nofZ 0)%num
  then (if (nofZ 1 <? c')%num then nofZ 1 else nofZ 0, (nofZ 0 - s)%num)
  else (c', s).
Definition move_centre {T} `{Num T} (change_speed : T) (c s : list T) : list T * list T :=
  split (map (fun p => move_coord change_speed (fst p) (snd p)) (combine c s)).
(** The first [length speeds] centroids move.  random_rbf_generator_drift.py 124-141 *)
Fixpoint move_all {T} `{Num T} (change_speed : T) (cs : list (centroid T)) (sp : list (list T))
  : list (centroid T) * list (list T) :=
  match cs, sp with
  | c :: cs', s :: sp' =>
      let '(ctr, s') := move_centre change_speed (ce_centre c) s in
      let '(cs2, sp2) := move_all change_speed cs' sp' in
      (mk_centroid ctr (ce_label c) (ce_std c) :: cs2, s' :: sp2)
  | _, _ => (cs, sp)
  end.
Definition rbfd_one {G T} `{Num T} (R : Rng G T) (nf : nat) (change_speed : T) (g : G) (x : rbf T)
  : out (list T * Z * (G * rbf T)) :=
  let '(cs, sp) := move_all change_speed (r_cents x) (r_speed x) in
  rbf_one R nf g (mk_rbf cs (r_weights x) sp).

(** *** RandomTreeGenerator.  data/random_tree_generator.py *)
Inductive rtree (T : Type) :=
| RLeaf (label : Z)
| RNum (att : nat) (value : T) (l r : rtree T)
| RNom (att : nat) (children : list (rtree T)).
Arguments RLeaf {T} _.
Arguments RNum {T} _ _ _ _.
Arguments RNom {T} _ _.

(** [for i in range(n)]: node.children.append(...)  random_tree_generator.py 241-249 *)
Fixpoint grow {G T} (f : G -> res (rtree T * G)) (n : nat) (g : G) : res (list (rtree T) * G) :=
  match n with
  | O => Ok ([], g)
  | S k => ' (c, g1) <- f g ;; ' (cs, g2) <- grow f k g1 ;; Ok (c :: cs, g2)
  end.

(** _generate_random_tree_node; [rem] is max_tree_depth - current_depth (0 when the depth is reached).
    random_tree_generator.py 165-250 *)
Fixpoint gen_tree {G T} `{Num T} (R : Rng G T) (n_classes : Z) (n_num n_cats min_leaf : nat) (frac : T)
    (rem depth : nat) (cands : list nat) (mins maxs : list T) (g : G) : res (rtree T * G) :=
  let leaf g := let '(l, g') := rng_int R n_classes g in Ok (RLeaf l, g') in
  match rem with
  | O => leaf g
  | S r =>
      let '(stop, g) :=
        if (min_leaf <=? depth)%nat
        then let '(u, g') := rng_rand R g in ((nofZ 1 - u <=? frac)%num, g')
        else (false, g) in
      if stop then leaf g
      else if (length cands =? 0)%nat then Raise ValueError
      else
        let '(k, g) := rng_int R (Z.of_nat (length cands)) g in
        let k := Z.to_nat k in
        if (k <? n_num)%nat then
          let lo := nth k mins (nofZ 0) in
          let hi := nth k maxs (nofZ 0) in
          let '(u, g) := rng_rand R g in
          let v := ((hi - lo) * u + lo)%num in
          ' (l, g) <- gen_tree R n_classes n_num n_cats min_leaf frac r (S depth) cands mins (set_at maxs k v) g ;;
          ' (rt, g) <- gen_tree R n_classes n_num n_cats min_leaf frac r (S depth) cands (set_at mins k v) maxs g ;;
          Ok (RNum k v l rt, g)
        else
          let att := nth k cands 0%nat in
          let cands' := remove Nat.eq_dec att cands in
          ' (cs, g) <- grow (gen_tree R n_classes n_num n_cats min_leaf frac r (S depth) cands' mins maxs) n_cats g ;;
          Ok (RNom att cs, g)
  end.

(** _generate_random_tree.  random_tree_generator.py 139-163 *)
Definition new_tree {G T} `{Num T} (R : Rng G T) (n_classes : Z) (n_num n_cat n_cats max_depth min_leaf : nat) (frac : T)
    (g : G) : res (rtree T * G) :=
  gen_tree R n_classes n_num n_cats min_leaf frac max_depth 0 (seq 0 (n_num + n_cat)) (repeat (nofZ 0) n_num)
    (repeat (nofZ 1) n_num) g.

(** __get_integer_nominal_attribute_representation.  random_tree_generator.py 286-316 *)
Fixpoint active {T} `{Num T} (row : list T) (i n : nat) : option nat :=
  match n with
  | O => None
  | S k => if neqb (nth i row (nofZ 0)) (nofZ 1) then Some 0%nat
           else match active row (S i) k with Some j => Some (S j) | None => None end
  end.

(** _classify_instance: [children[None]] is a TypeError.  random_tree_generator.py 252-284 *)
Fixpoint classify {T} `{Num T} (n_num n_cats : nat) (t : rtree T) (row : list T) : res Z :=
  match t with
  | RLeaf l => Ok l
  | RNum k v l r => if (nth k row (nofZ 0) <? v)%num then classify n_num n_cats l row else classify n_num n_cats r row
  | RNom att cs =>
      match active row (n_num + (att - n_num) * n_cats) n_cats with
      | None => Raise TypeError
      | Some j =>
          (fix pick (cs : list (rtree T)) (j : nat) :=
             match cs, j with
             | [], _ => Raise IndexError
             | c :: _, O => classify n_num n_cats c row
             | _ :: cs', S j' => pick cs' j'
             end) cs j
      end
  end.

(** The feature values of one sample: n_num rand(), then a one-hot block per categorical feature.
    random_tree_generator.py 338-360 *)
Definition one_hot {T} `{Num T} (n : nat) (k : Z) : list T :=
  map (fun i => if (k =? Z.of_nat i)%Z then nofZ 1 else nofZ 0) (seq 0 n).
Fixpoint hot_blocks {G T} `{Num T} (R : Rng G T) (n n_cats : nat) (g : G) : list T * G :=
  match n with
  | O => ([], g)
  | S k =>
      let '(v, g1) := rng_int R (Z.of_nat n_cats) g in
      let '(bs, g2) := hot_blocks R k n_cats g1 in
      (one_hot n_cats v ++ bs, g2)
  end.
Definition rt_one {G T} `{Num T} (R : Rng G T) (n_num n_cat n_cats : nat) (g : G) (t : rtree T)
  : out (list T * Z * (G * rtree T)) :=
  let '(us, g1) := rands R n_num g in
  if (n_cats =? 0)%nat then Exc ValueError (* range(.., .., 0) *)
  else
    let '(hs, g2) := hot_blocks R n_cat n_cats g1 in
    let row := us ++ hs in
    match classify n_num n_cats t row with
    | Ok y => Ret (row, y, (g2, t))
    | Raise e => Exc e
    end.
(** __init__ / restart with int seeds.  random_tree_generator.py 106-137 *)
Definition rt_new {G T} `{Num T} (R : Rng G T) (mk : Z -> G) (tree_seed sample_seed : Z) (n_classes : Z)
    (n_num n_cat n_cats max_depth min_leaf : nat) (frac : T) : res (gst G (rtree T) T) :=
  ' (t, _) <- new_tree R n_classes n_num n_cat n_cats max_depth min_leaf frac (mk tree_seed) ;;
  Ok (mk_gst (mk sample_seed) t 0%Z None).
