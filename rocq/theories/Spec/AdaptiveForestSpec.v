(** What users expect of an adaptive random forest: which rows each tree has learnt from, and how the votes are weighed. *)
From Coq Require Import List ZArith Reals Bool.
From Verif Require Import Base.Py Base.Num Base.Dict Spec.Lists.
Import ListNotations.

(** A row as one member of the forest sees it: its number (the first is 1), the instance, the label, the sample weight, the classes
    announced so far and the random number of times the member is to learn it. *)
Record fed (X T : Type) := mk_fed { r_n : nat; r_x : X; r_y : Z; r_w : T; r_cl : option (list Z); r_k : Z }.
Arguments mk_fed {X T}. Arguments r_n {X T}. Arguments r_x {X T}. Arguments r_y {X T}. Arguments r_w {X T}. Arguments r_cl {X T}. Arguments r_k {X T}.

(** The rows after row number [c]. *)
Definition since {X T} (c : nat) (fs : list (fed X T)) : list (fed X T) := filter (fun f => Nat.ltb c (r_n f)) fs.
Definition numbered {X T} (fs : list (fed X T)) : Prop := map r_n fs = seq 1 (length fs).

Section Spec.
Context {X T B R E : Type} (t_fit : B -> R -> X -> Z -> option (list Z) -> Z -> res (B * R)) (e_add : E -> Z -> Z -> T -> res E).

(** [grown b fs b']: [b'] is [b] after learning the rows of [fs] with a positive number, in order, each with that number as weight, and nothing else. *)
Inductive grown (b : B) : list (fed X T) -> B -> Prop :=
| grown_none : grown b [] b
| grown_skip fs b' f : grown b fs b' -> (r_k f <= 0)%Z -> grown b (fs ++ [f]) b'
| grown_row fs b' f r b'' r' : grown b fs b' -> (0 < r_k f)%Z -> t_fit b' r (r_x f) (r_y f) (r_cl f) (r_k f) = Ok (b'', r') -> grown b (fs ++ [f]) b''.

(** [judged e l e']: the evaluator [e'] is [e] after the results of [l], each an answer and a row. *)
Inductive judged (e : E) : list (Z * fed X T) -> E -> Prop :=
| judged_none : judged e [] e
| judged_row l e' p f e'' : judged e l e' -> e_add e' p (r_y f) (r_w f) = Ok e'' -> judged e (l ++ [(p, f)]) e''.
End Spec.

(** [n] draws from [poisson] and the generator after them *)
Fixpoint draws {G} (poisson : G -> Z * G) (n : nat) (g : G) : list Z :=
  match n with O => [] | S n => fst (poisson g) :: draws poisson n (snd (poisson g)) end.
Fixpoint after {G} (poisson : G -> Z * G) (n : nat) (g : G) : G := match n with O => g | S n => after poisson n (snd (poisson g)) end.
(** The numbers of the [i]-th of [n] members when the draws are taken row by row, member by member *)
Definition column (n i len : nat) (ks : list Z) : list Z := map (fun j => nth (j * n + i) ks 0%Z) (seq 0 len).
Fixpoint feed {X T} (n : nat) (rows : list (X * Z * T * option (list Z))) (ks : list Z) : list (fed X T) :=
  match rows with
  | [] => []
  | (x, y, w, cl) :: rows => mk_fed n x y w cl (hd 0%Z ks) :: feed (S n) rows (tl ks)
  end.

(** *** Votes over the reals *)
Local Open Scope R_scope.
Definition votes_for (d : list (Z * R)) (c : Z) : R := match dget d c with Some v => v | None => 0 end.
Definition total (d : list (Z * R)) : R := Rsum (map snd d).
(** A ballot is a tree's vote dictionary and the performance of the tree.  It counts when the votes have a positive sum; the share of class [c]. *)
Definition counts (d : list (Z * R)) : Prop := d <> [] /\ 0 < total d.
Definition share (d : list (Z * R)) (c : Z) : R := if Rlt_dec 0 (total d) then votes_for d c / total d else 0.
(** The voting power of a tree with performance [p]: the performance, unless it is 0. *)
Definition power (unweighted : bool) (p : R) : R := if unweighted then 1 else if Req_EM_T p 0 then 1 else p.
