(** What the self adjusting memory should do: neighbours, votes, interleaved test-train results; calls. *)
From Coq Require Import List ZArith Bool Reals Sorting.Sorted.
From Verif Require Import Base.Py Base.Num Spec.Lists Spec.ExpertSpec Model.Adwin Model.SamKnn.
Import ListNotations.

Section Neighbours.
Local Open Scope R_scope.
(** Squared Euclidean distance *)
Definition sq_dist (a b : list R) : R := Rsum (map (fun p => (fst p - snd p) * (fst p - snd p)) (combine a b)).
(** Position [i] comes before [j]: a smaller value, or the same value and a smaller position *)
Definition before (ds : list R) (i j : nat) : Prop := nth i ds 0 < nth j ds 0 \/ (nth i ds 0 = nth j ds 0 /\ (i < j)%nat).
(** [idx] are the positions of the [n] least values, in order *)
Definition n_least (n : nat) (ds : list R) (idx : list nat) : Prop :=
  length idx = n /\ NoDup idx /\ (forall i, In i idx -> (i < length ds)%nat)
  /\ (forall i j, In i idx -> (j < length ds)%nat -> ~ In j idx -> before ds i j)
  /\ (forall a b i j, (a < b)%nat -> nth_error idx a = Some i -> nth_error idx b = Some j -> before ds i j).
(** [l] has the greatest score of the labels, and is the least of those with that score *)
Definition wins (score : Z -> R) (labels : list Z) (l : Z) : Prop :=
  In l labels /\ forall l', In l' labels -> score l' <= score l /\ (score l' = score l -> (l <= l')%Z).
Definition votes_for (l : Z) (neighbours : list (R * Z)) : R := INR (length (filter (fun p => Z.eqb (snd p) l) neighbours)).
(** Every neighbour weighs the inverse of its distance (at least 10^-9) *)
Definition weight_for (l : Z) (neighbours : list (R * Z)) : R :=
  Rsum (map (fun p => 1 / Rmax (sqrt (fst p)) (1 / 1000000000)) (filter (fun p => Z.eqb (snd p) l) neighbours)).
(** The answer of a memory: the [n] samples nearest to [x] vote, with their labels cut to eight bits *)
Definition elects (by_distance : bool) (n : nat) (memory : list (list R * Z)) (x : list R) (l : Z) : Prop :=
  exists idx, n_least n (map (fun s => sq_dist x (fst s)) memory) idx
    /\ let neighbours := map (fun i => (sq_dist x (fst (nth i memory ([], 0%Z))), int8 (snd (nth i memory ([], 0%Z))))) idx in
       wins (fun l => if by_distance then weight_for l neighbours else votes_for l neighbours) (map snd neighbours) l.
(** Sample [j] of [cl] contradicts the sample [x] with label [y], whose companions are [others]: it is one of the n nearest of [cl], has
    another label, and is no further than one of the n nearest companions with the label [y] *)
Definition contradicts (n : nat) (others cl : list (list R * Z)) (x : list R) (y : Z) (j : nat) : Prop :=
  exists near near_cl, n_least n (map (fun s => sq_dist x (fst s)) others) near
    /\ n_least (Nat.min (length cl) n) (map (fun s => sq_dist x (fst s)) cl) near_cl
    /\ In j near_cl /\ snd (nth j cl ([], 0%Z)) <> y
    /\ exists i, In i near /\ snd (nth i others ([], 0%Z)) = y /\ sq_dist x (fst (nth j cl ([], 0%Z))) <= sq_dist x (fst (nth i others ([], 0%Z))).
End Neighbours.
(** [l'] are the elements of [l], in order, without those at a position in [P] *)
Definition leaves {A} (P : nat -> Prop) (l l' : list A) : Prop :=
  exists idx, StronglySorted lt idx /\ (forall i, In i idx <-> (i < length l)%nat /\ ~ P i) /\ map (fun i => nth_error l i) idx = map Some l'.

Section Tests.
Context {T : Type} {N : Num T}.
(** Interleaved test-train: every sample of the window after the first k is predicted from those before it *)
Definition tested (by_distance : bool) (k : nat) (win : list (list T * Z)) : list (res bool) :=
  map (fun i => let s := nth i win ([], 0%Z) in
         p <- get_label by_distance (distances (fst s) (firstn i win)) (map snd (firstn i win)) k ;; Ok (Z.eqb p (snd s))) (seq k (length win - k)).
(** [h] are the results of the first tests of the window, in order, [h] are all of them *)
Definition first_tests (by_distance : bool) (k : nat) (win : list (list T * Z)) (h : list bool) : Prop := exists rest, tested by_distance k win = map Ok h ++ rest.
Definition all_tests (by_distance : bool) (k : nat) (win : list (list T * Z)) (h : list bool) : Prop := tested by_distance k win = map Ok h.
End Tests.

(** The share of right tests, nothing without tests *)
Definition share_right (h : list bool) : option R := match h with [] => None | _ => Some (INR (length (filter (fun b => b) h)) / INR (length h))%R end.
(** Position [c] has the best value: the first of the greatest; a missing value is better than any other *)
Definition best_at (l : list (option R)) (c : nat) : Prop :=
  (nth_error l c = Some None /\ forall i, (i < c)%nat -> exists v, nth_error l i = Some (Some v))
  \/ (exists vs, l = map Some vs /\ (c < length vs)%nat /\ (forall i, (i < length vs)%nat -> (nth i vs 0 <= nth c vs 0)%R) /\ (forall i, (i < c)%nat -> (nth i vs 0 < nth c vs 0)%R)).
Section Records.
Context {T : Type} {N : Num T}.
(** Whether the memory [which] predicted sample number [i] of the stream [rows] right when it arrived *)
Definition right_at (cfg : sam_config T) (rows : list (list T * Z)) (which : votes -> Z) (i : nat) : option bool :=
  match nth_error rows i, sam_fit cfg sam_init (firstn i rows) with
  | Some (x, y), Ok s => match all_memories cfg s x with Ok v => Some (Z.eqb (which v) y) | Raise _ => None end
  | _, _ => None
  end.
End Records.
(** The sizes: ltm_size is a share, int() truncates, KMeans returns the number of centres asked for *)
Definition standard (cfg : sam_config R) : Prop := (0 <= m_ltm cfg <= 1)%R /\ m_trunc cfg = Rtrunc /\ forall X n, (1 <= n <= length X)%nat -> length (m_kmeans cfg X n) = n.
(** The number of different labels is at most the size of the long-term memory *)
Definition few (cfg : sam_config R) (L : list Z) : Prop := (INR (length (nodup Z.eq_dec L)) <= m_ltm cfg * INR (m_max cfg))%R.
(** The matrix has, below the diagonal, the distances of the samples of the memory *)
Definition measured {T : Type} {N : Num T} (d : nat -> nat -> T) (stm : list (list T * Z)) : Prop :=
  forall i j, j < i < length stm -> d i j = get_distance (fst (nth i stm ([], 0%Z))) (fst (nth j stm ([], 0%Z))).
