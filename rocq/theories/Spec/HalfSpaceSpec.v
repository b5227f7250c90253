(** What half-space trees should count and answer. *)
From Coq Require Import List ZArith Reals Bool.
From Verif Require Import Base.Py Base.Num Model.HalfSpaceTrees Spec.Lists.
Import ListNotations.

(** The node at the end of a path: true is the way to the right *)
Fixpoint at_path {T} (t : tree T) (p : list bool) {struct p} : option (tree T) :=
  match p with
  | [] => Some t
  | b :: p => match t with Leaf _ _ => None | Node _ _ _ _ l r => at_path (if b then r else l) p end
  end.
(** The instance takes this path: it goes right where its value is greater than the split value. *)
Fixpoint goes {T} {N : Num T} (t : tree T) (p : list bool) (x : list T) {struct p} : bool :=
  match p with
  | [] => true
  | b :: p => match t with Leaf _ _ => false | Node a v _ _ l r => eqb b (v <? nth a x n0)%num && goes (if b then r else l) p x end
  end.
Definition count {A} (f : A -> bool) (l : list A) : nat := length (filter f l).
(** The instances since the masses were last renewed, and those counted in the reference masses: masses are renewed after the
    instances 0, w, 2w, ... (counted from 0). *)
Definition latest {A} (w : nat) (xs : list A) : list A := match Nat.div (length xs - 1) w with O => [] | S q => skipn (S q * w + 1) xs end.
Definition reference {A} (w : nat) (xs : list A) : list A :=
  match Nat.div (length xs - 1) w with
  | O => tl xs
  | S O => firstn 1 (skipn w xs)
  | S (S q) => firstn w (skipn (S q * w + 1) xs)
  end.
(** A full tree with d levels below the root *)
Fixpoint full {T} (d : nat) (t : tree T) : Prop :=
  match d, t with O, Leaf _ _ => True | S d, Node _ _ _ _ l r => full d l /\ full d r | _, _ => False end.
(** Every split is on one of the first k attributes. *)
Fixpoint splits_below {T} (k : nat) (t : tree T) : Prop := match t with Leaf _ _ => True | Node a _ _ _ l r => a < k /\ splits_below k l /\ splits_below k r end.
Definition set_at {T} (f : nat -> T) (a : nat) (v : T) : nat -> T := fun i => if Nat.eqb i a then v else f i.
Local Open Scope R_scope.
(** Every split cuts the region of its node, which is bounded by [lo] and [hi], in two; or in two halves. *)
Fixpoint cuts (lo hi : nat -> R) (t : tree R) : Prop :=
  match t with Leaf _ _ => True | Node a v _ _ l r => lo a < v < hi a /\ cuts lo (set_at hi a v) l /\ cuts (set_at lo a v) hi r end.
Fixpoint halves (lo hi : nat -> R) (t : tree R) : Prop :=
  match t with Leaf _ _ => True | Node a v _ _ l r => v = (lo a + hi a) / 2 /\ halves lo (set_at hi a v) l /\ halves (set_at lo a v) hi r end.
(** The work range of a feature: around a point [u] of the unit interval, twice as far to both sides as the far end of the interval *)
Definition work_range (lo hi : R) : Prop := exists u, 0 <= u < 1 /\ lo = u - 2 * Rmax u (1 - u) /\ hi = u + 2 * Rmax u (1 - u).
(** The score: the reference mass of the first node on the instance's way that is a leaf or has a mass within the limit, times two to
    the depth of this node (the root has depth 1) *)
Definition is_leaf {T} (t : tree T) : Prop := match t with Leaf _ _ => True | _ => False end.
Definition scored (limit : nat) (t : tree R) (x : list R) (s : R) : Prop :=
  exists p node, goes t p x = true /\ at_path t p = Some node /\ (is_leaf node \/ (ref_of node <= limit)%nat) /\
    (forall q r n, p = q ++ r -> r <> [] -> at_path t q = Some n -> (limit < ref_of n)%nat) /\
    s = INR (ref_of node) * 2 ^ S (length p).
