(** What the composite and stored streams promise, independent of how they are modelled. *)
From Coq Require Import ZArith List Bool Reals.
From Verif Require Import Base.Py Base.Num Model.Generators Model.GenStreams.
Import ListNotations.

(** [zs] is [xs] and [ys] interleaved: each [false] takes the next of [xs], each [true] the next of [ys]. *)
Inductive merged {A} : list bool -> list A -> list A -> list A -> Prop :=
| merged_nil : merged [] [] [] []
| merged_l cs x xs ys zs : merged cs xs ys zs -> merged (false :: cs) (x :: xs) ys (x :: zs)
| merged_r cs y xs ys zs : merged cs xs ys zs -> merged (true :: cs) xs (y :: ys) (y :: zs).

(** The next [n] samples a stream emits when used alone, and its state afterwards. *)
Fixpoint emits {S T} (c : child S T) (n : nat) (s : S) : res (list (list T * Z) * S) :=
  match n with
  | O => Ok ([], s)
  | Datatypes.S k =>
      match ch_next c s with
      | Raise e => Raise e
      | Ok (row, y, s') => match emits c k s' with Ok (l, s'') => Ok ((row, y) :: l, s'') | Raise e => Raise e end
      end
  end.

(** The probability, at sample [idx], that the sample comes from the drift stream: a sigmoid centred at [position]. *)
Definition sigmoid (position width idx : Z) : R := (/ (1 + exp (- (4 * (IZR idx - IZR position) / IZR width))))%R.

(** Successive next_sample calls of a stored stream. *)
Fixpoint read_all {V} (bs : list nat) (s : stored V) : list (list V) * list (list V) * stored V :=
  match bs with
  | [] => ([], [], s)
  | b :: r => let '(x, y, s1) := st_next b s in let '(xs, ys, s2) := read_all r s1 in (x ++ xs, y ++ ys, s2)
  end.
Fixpoint read_sine {V} (bs : list nat) (s : asine V) : list V * list Z * asine V :=
  match bs with
  | [] => ([], [], s)
  | b :: r =>
      let '(o, s1) := as_next b s in
      let '(xs, ys, s2) := read_sine r s1 in
      match o with Some (x, y) => (x ++ xs, y ++ ys, s2) | None => (xs, ys, s2) end
  end.

(** numpy's promise for choice(a, k, replace): k indices below a, all different without replacement. *)
Definition choice_ok {G} (raw : Z -> nat -> bool -> G -> list nat * G) : Prop :=
  forall a k replace g, (0 <= a)%Z -> (0 < a)%Z \/ k = 0%nat -> (replace = false -> (Z.of_nat k <= a)%Z) ->
    length (fst (raw a k replace g)) = k /\
    Forall (fun i => (Z.of_nat i < a)%Z) (fst (raw a k replace g)) /\
    (replace = false -> NoDup (fst (raw a k replace g))).

(** Sum and Euclidean norm of a list of reals. *)
Fixpoint Rtotal (l : list R) : R := match l with [] => 0%R | x :: r => (x + Rtotal r)%R end.
Definition norm2 (l : list R) : R := sqrt (Rtotal (map (fun x => x * x)%R l)).
Definition vsub (a b : list R) : list R := map (fun p => (fst p - snd p)%R) (combine a b).

(** A one-hot block: one 1, the rest 0. *)
Definition is_one_hot (n : nat) (l : list R) : Prop :=
  exists k, (k < n)%nat /\ length l = n /\ forall i, (i < n)%nat -> nth i l 0%R = (if Nat.eqb i k then 1 else 0)%R.
(** A RandomTree row: [n_num] numbers in [0, 1), then [n_cat] one-hot blocks of [n_cats] columns. *)
Definition tree_row (n_num n_cat n_cats : nat) (row : list R) : Prop :=
  exists us blocks, row = us ++ concat blocks /\ length us = n_num /\ Forall (fun u => 0 <= u < 1)%R us /\
    length blocks = n_cat /\ Forall (is_one_hot n_cats) blocks.

(** Every path of the tree from a node at depth [d], within the box [lo, hi] of numeric values and with the nominal
    attributes [free] still unused: leaves hold a class below [n_classes] at a depth between [dmin] and [dmax], numeric
    nodes cut their attribute within the box, nominal nodes test an unused attribute and have one child per category. *)
Inductive tree_ok (n_classes : Z) (n_num n_cats dmin dmax : nat) : nat -> list R -> list R -> list nat -> rtree R -> Prop :=
| ok_leaf d lo hi free l : (0 <= l < n_classes)%Z -> (dmin <= d <= dmax)%nat ->
    tree_ok n_classes n_num n_cats dmin dmax d lo hi free (RLeaf l)
| ok_num d lo hi free k v t1 t2 : (k < n_num)%nat -> (nth k lo 0 <= v <= nth k hi 0)%R ->
    tree_ok n_classes n_num n_cats dmin dmax (S d) lo (set_at hi k v) free t1 ->
    tree_ok n_classes n_num n_cats dmin dmax (S d) (set_at lo k v) hi free t2 ->
    tree_ok n_classes n_num n_cats dmin dmax d lo hi free (RNum k v t1 t2)
| ok_nom d lo hi free att cs : In att free -> (n_num <= att)%nat -> length cs = n_cats ->
    (forall c, In c cs -> tree_ok n_classes n_num n_cats dmin dmax (S d) lo hi (remove Nat.eq_dec att free) c) ->
    tree_ok n_classes n_num n_cats dmin dmax d lo hi free (RNom att cs).

(** The class the tree gives to a row: values strictly below the cut go left and the others right; a nominal node leads to
    the child of the category whose column is 1. *)
Inductive tree_label (n_num n_cats : nat) (row : list R) : rtree R -> Z -> Prop :=
| tl_leaf l : tree_label n_num n_cats row (RLeaf l) l
| tl_left k v t1 t2 l : (nth k row 0 < v)%R -> tree_label n_num n_cats row t1 l -> tree_label n_num n_cats row (RNum k v t1 t2) l
| tl_right k v t1 t2 l : (v <= nth k row 0)%R -> tree_label n_num n_cats row t2 l -> tree_label n_num n_cats row (RNum k v t1 t2) l
| tl_nom att cs j c l : (j < n_cats)%nat -> nth (n_num + (att - n_num) * n_cats + j) row 0%R = 1%R -> nth_error cs j = Some c ->
    tree_label n_num n_cats row c l -> tree_label n_num n_cats row (RNom att cs) l.

(** Successive next_sample calls of the generators that keep no sample index. *)
Fixpoint take0 {G X T} (one : G -> X -> out (list T * Z * (G * X))) (bs : list nat) (s : gst G X T)
  : out (list (list T) * list Z * gst G X T) :=
  match bs with
  | [] => Ret ([], [], s)
  | n :: r =>
      match next_sample0 one n s with
      | Ret (rows, ys, s') =>
          match take0 one r s' with
          | Ret (rows', ys', s'') => Ret (rows ++ rows', ys ++ ys', s'')
          | Exc e => Exc e
          | Loop => Loop
          end
      | Exc e => Exc e
      | Loop => Loop
      end
  end.
