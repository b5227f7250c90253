(** Model of StreamingRandomPatchesClassifier and its base learners (meta/streaming_random_patches.py).

    [V]: feature values; [B]: base estimators; [D]: drift detectors; [E]: performance evaluators; [G]: the random generator of the ensemble, which its members
    share.  Their methods are arguments; clone and reset of an estimator are one argument [b_new], clone of a detector is [d_clone].  The outcome of a call is
    [Ret], [Exc] or, when the fuel given to the loop in _init_ensemble is spent, [Loop].  Simplifications: random_state is an integer; n_estimators is not 0; when a
    method raises, the history ends. *)
From Coq Require Import List ZArith Bool.
From Verif Require Import Base.Py Base.Num Model.Knn Model.Generators.
Import ListNotations.

(** get_all_k_combinations and its recursion (lines 605-637): the rows of the array, [k] indices each, from [offset] on.  (The Python functions collect them in a deque.) *)
Fixpoint combs (k : nat) (offset n : nat) : list (list nat) :=
  match k with
  | O => [[]]
  | S k' => flat_map (fun i => map (cons i) (combs k' (S i) n)) (seq offset (n + 1 - S k' - offset))
  end.
(** The loop that is to repeat subspaces until there is one for each member (lines 360-364): np.vstack returns a new array, and it is not kept. *)
Fixpoint widen (fuel : nat) (i : nat) (subs : list (list nat)) (n : nat) : out (list (list nat)) :=
  match fuel with
  | O => Loop
  | S fuel => if Nat.ltb (length subs) n then widen fuel (S (if Nat.eqb i (length subs) then 0 else i)) subs n else Ret subs
  end.

Inductive smode := ModeM | ModeSqrt | ModeSqrtInv | ModePercent.
Inductive smethod := Subspaces | Resampling | Patches.

Section SRP.
Context {V T B D E G : Type} {N : Num T}.
Variables (b_fit : B -> list V -> Z -> option (list Z) -> Z -> res B) (b_predict : B -> list V -> res Z) (b_proba : B -> list V -> res (list T))
  (b_reset b_new : B -> B) (b_nominal : B -> option (list nat) -> B)
  (d_add : D -> bool -> D) (d_change : D -> bool) (d_clone : D -> D)
  (e_new : E) (e_add : E -> Z -> Z -> T -> res E) (e_accuracy : E -> res T)
  (poisson : G -> Z * G) (shuffled : G -> nat -> list nat * G) (choice : G -> nat -> nat -> list nat * G) (seed : G)
  (rsqrt : nat -> Z) (percent : Z -> nat -> Z)
  (base : B) (n_estimators : nat) (mode : smode) (size : Z) (drift warning : D) (unweighted no_drift no_background : bool) (nominal : list nat).
(** [rsqrt n] is int(np.round(np.sqrt(n))); [percent k n] is int(np.round(n * p)), where p is k / 100, or (100 + k) / 100 if k is negative *)

(** *** The base learner *)
Record sbackground := mk_sbg { sb_base : B; sb_created : nat; sb_feats : option (list nat); sb_drift : D; sb_warn : D; sb_tell : bool }.
Record smember := mk_sm {
  sm_base : B; sm_eval : E; sm_created : nat; sm_feats : option (list nat); sm_drift : D; sm_warn : D; sm_bg : option sbackground;
  sm_tell : bool; (* _set_nominal_attributes *)
  sm_drifts : nat; sm_warns : nat
}.
(** _can_set_nominal_attributes (lines 600-602) *)
Definition can_tell : bool := Nat.ltb 0 (length nominal).
(** __init__ (lines 430-478): the detectors are cloned *)
Definition new_smember (seen : nat) (feats : option (list nat)) : smember := mk_sm (b_new base) e_new seen feats (d_clone drift) (d_clone warning) None can_tell 0 0.
(** _remap_nominal_attributes (lines 592-598) *)
Definition remap (feats : list nat) : option (list nat) :=
  match filter (fun i => existsb (Nat.eqb (nth i feats 0)) nominal) (seq 0 (length feats)) with [] => None | l => Some l end.
(** X[0][self.feature_indexes] (lines 483-493 and 529-537) *)
Fixpoint pick (l : list nat) (x : list V) : res (list V) :=
  match l with [] => Ok [] | i :: l => match nth_error x i with None => Raise IndexError | Some v => vs <- pick l x ;; Ok (v :: vs) end end.
Definition subset (feats : option (list nat)) (x : list V) : res (list V) := match feats with None => Ok x | Some l => pick l x end.
(** The training of an estimator (lines 480-497); an estimator that has no nominal_attributes ignores [b_nominal]; the second result is the new value of _set_nominal_attributes *)
Definition base_fit (b : B) (feats : option (list nat)) (tell : bool) (x : list V) (y : Z) (cl : option (list Z)) (k : Z) : res (B * bool) :=
  xs <- subset feats x ;;
  let b1 := match feats with Some l => if tell then b_nominal b (remap l) else b | None => b end in
  b2 <- b_fit b1 xs y cl k ;; Ok (b2, match feats with Some _ => false | None => tell end).
(** _reset_subset (lines 567-572) *)
Definition reset_subset (feats : option (list nat)) (n : nat) (g : G) : res (option (list nat) * G) :=
  match feats with
  | None => Ok (None, g)
  | Some l => if Nat.ltb n (length l) then Raise ValueError else let (l', g') := choice g n (length l) in Ok (Some l', g')
  end.
(** The check for a warning with _trigger_warning (lines 508-517 and 539-565) and for a drift with reset (lines 519-527 and 574-590); [n] features *)
Definition check_swarning (wrong : bool) (n seen : nat) (m : smember) (g : G) : res (smember * G) :=
  if no_background then Ok (m, g) else
  let w1 := d_add (sm_warn m) wrong in
  if d_change w1 then
    ' (fe, g') <- reset_subset (sm_feats m) n g ;;
    Ok (mk_sm (sm_base m) (sm_eval m) (sm_created m) (sm_feats m) (sm_drift m) (d_clone w1) (Some (mk_sbg (b_new (sm_base m)) seen fe (d_clone (sm_drift m)) (d_clone w1) can_tell)) (sm_tell m) (sm_drifts m) (S (sm_warns m)), g')
  else Ok (mk_sm (sm_base m) (sm_eval m) (sm_created m) (sm_feats m) (sm_drift m) w1 (sm_bg m) (sm_tell m) (sm_drifts m) (sm_warns m), g).
Definition check_sdrift (wrong : bool) (n seen : nat) (m : smember) (g : G) : res (smember * G) :=
  let d1 := d_add (sm_drift m) wrong in
  if d_change d1 then
    match sm_bg m with
    | Some b => if no_background then Raise RuntimeError (* not reached: there is no background learner then *)
                else Ok (mk_sm (sb_base b) e_new (sb_created b) (sb_feats b) (sb_drift b) (sb_warn b) None (sm_tell m) (S (sm_drifts m)) (sm_warns m), g)
    | None => ' (fe, g') <- reset_subset (sm_feats m) n g ;;
              Ok (mk_sm (b_reset (sm_base m)) e_new seen fe (d_clone d1) (sm_warn m) None can_tell (S (sm_drifts m)) (sm_warns m), g')
    end
  else Ok (mk_sm (sm_base m) (sm_eval m) (sm_created m) (sm_feats m) d1 (sm_warn m) (sm_bg m) (sm_tell m) (sm_drifts m) (sm_warns m), g).
(** partial_fit (lines 480-527).  The background learner is trained by the same method, and then stops since it is one. *)
Definition smember_fit (x : list V) (y : Z) (cl : option (list Z)) (k : Z) (seen : nat) (m : smember) (g : G) : res (smember * G) :=
  ' (b, tell) <- base_fit (sm_base m) (sm_feats m) (sm_tell m) x y cl k ;;
  xs <- subset (sm_feats m) x ;; p <- b_predict b xs ;;
  bg <- match sm_bg m with
        | None => Ok None
        | Some b => ' (b', t') <- base_fit (sb_base b) (sb_feats b) (sb_tell b) x y cl k ;; bxs <- subset (sb_feats b) x ;; _ <- b_predict b' bxs ;;
                    Ok (Some (mk_sbg b' (sb_created b) (sb_feats b) (sb_drift b) (sb_warn b) t'))
        end ;;
  let m1 := mk_sm b (sm_eval m) (sm_created m) (sm_feats m) (sm_drift m) (sm_warn m) bg tell (sm_drifts m) (sm_warns m) in
  if no_drift then Ok (m1, g)
  else let wrong := negb (p =? y)%Z in ' (m2, g2) <- check_swarning wrong (length x) seen m1 g ;; check_sdrift wrong (length x) seen m2 g2.

(** *** The ensemble *)
Record srp := mk_srp { sr_members : option (list smember); sr_seen : nat; sr_method : smethod; sr_rng : G }.
(** __init__ (lines 129-181) *)
Definition srp_new (mt : smethod) : srp := mk_srp None 0 mt seed.
(** One member in _partial_fit (lines 225-247); [w] is the sample weight *)
Definition smember_row (mt : smethod) (x : list V) (y : Z) (w : T) (cl : option (list Z)) (seen : nat) (m : smember) (g : G) : res (smember * G) :=
  xs <- subset (sm_feats m) x ;; ps <- b_proba (sm_base m) xs ;; p <- np_argmax ps ;;
  e <- e_add (sm_eval m) y (Z.of_nat p) w ;;
  let m1 := mk_sm (sm_base m) e (sm_created m) (sm_feats m) (sm_drift m) (sm_warn m) (sm_bg m) (sm_tell m) (sm_drifts m) (sm_warns m) in
  match mt with
  | Subspaces => smember_fit x y cl 1 seen m1 g
  | _ => let (k, g1) := poisson g in if (0 <? k)%Z then smember_fit x y cl k seen m1 g1 else Ok (m1, g1)
  end.
Fixpoint smembers_row (mt : smethod) (x : list V) (y : Z) (w : T) (cl : option (list Z)) (seen : nat) (ms : list smember) (g : G) : res (list smember * G) :=
  match ms with
  | [] => Ok ([], g)
  | m :: r => ' (m', g1) <- smember_row mt x y w cl seen m g ;; ' (r', g2) <- smembers_row mt x y w cl seen r g1 ;; Ok (m' :: r', g2)
  end.

(** _init_ensemble (lines 320-383): the size of the subspaces ... *)
Definition subspace_k (n : nat) : Z :=
  let k := match mode with
           | ModeM => size
           | ModeSqrt => (rsqrt n + 1)%Z
           | ModeSqrtInv => (Z.of_nat n - (rsqrt n + 1))%Z
           | ModePercent => let k := percent size n in if (k <? 2)%Z then (k + 1)%Z else k
           end in
  if (k <? 0)%Z then (Z.of_nat n + k)%Z else k.
(** ... and the subspaces; None: every member uses all features.  get_random_k_combinations (lines 640-665). *)
Fixpoint random_combs (k n c : nat) (g : G) : list (list nat) * G :=
  match c with O => ([], g) | S c => let (l, g1) := choice g n k in let (r, g2) := random_combs k n c g1 in (l :: r, g2) end.
Definition make_subspaces (fuel : nat) (n : nat) (g : G) : out (option (list (list nat)) * G) :=
  let k := subspace_k n in
  if negb (k =? 0)%Z && (k <? Z.of_nat n)%Z then
    if Nat.leb n 20 || (k <? 2)%Z then
      if (k <? 0)%Z then Exc RuntimeError (* RecursionError: the recursion counts a negative k down *)
      else let k := if (k =? 1)%Z && Nat.ltb 2 n then 2%Z else k in
           match widen fuel 0 (combs (Z.to_nat k) 0 n) n_estimators with Ret subs => Ret (Some subs, g) | Exc e => Exc e | Loop => Loop end
    else let (subs, g') := random_combs (Z.to_nat k) n n_estimators g in Ret (Some subs, g')
  else Ret (None, g).
(** _init_ensemble_members (lines 385-417) *)
Definition init_members (fuel : nat) (n : nat) (s : srp) : out (list smember * srp) :=
  match sr_method s with
  | Resampling => let ms := repeat (new_smember (sr_seen s) None) n_estimators in Ret (ms, mk_srp (Some ms) (sr_seen s) Resampling (sr_rng s))
  | mt =>
      match make_subspaces fuel n (sr_rng s) with
      | Ret (Some subs, g) =>
          let (perm, g') := shuffled g n_estimators in
          let ms := map (fun i => new_smember (sr_seen s) (Some (nth i subs []))) perm in Ret (ms, mk_srp (Some ms) (sr_seen s) mt g')
      | Ret (None, g) => let ms := repeat (new_smember (sr_seen s) None) n_estimators in Ret (ms, mk_srp (Some ms) (sr_seen s) Resampling g)
      | Exc e => Exc e
      | Loop => Loop
      end
  end.
Definition srp_init (fuel : nat) (n : nat) (s : srp) : out (list smember * srp) :=
  match sr_members s with Some ms => Ret (ms, s) | None => init_members fuel n s end.
(** _partial_fit (lines 218-247) for one row, and partial_fit (lines 183-216) *)
Definition srp_row (fuel : nat) (row : list V * Z * T) (cl : option (list Z)) (s : srp) : out srp :=
  let '(x, y, w) := row in
  match srp_init fuel (length x) (mk_srp (sr_members s) (S (sr_seen s)) (sr_method s) (sr_rng s)) with
  | Ret (ms, s1) => match smembers_row (sr_method s1) x y w cl (sr_seen s1) ms (sr_rng s1) with
                    | Ok (ms', g) => Ret (mk_srp (Some ms') (sr_seen s1) (sr_method s1) g)
                    | Raise e => Exc e
                    end
  | Exc e => Exc e
  | Loop => Loop
  end.
Fixpoint srp_fit (fuel : nat) (rows : list (list V * Z * T)) (cl : option (list Z)) (s : srp) : out srp :=
  match rows with [] => Ret s | r :: rows => match srp_row fuel r cl s with Ret s1 => srp_fit fuel rows cl s1 | Exc e => Exc e | Loop => Loop end end.
(** reset (lines 419-422) *)
Definition srp_reset (s : srp) : srp := mk_srp None 0 (sr_method s) seed.

(** *** Votes.  _predict_proba (lines 300-318); [l1] is sklearn's normalize with norm l1 *)
Definition l1 (ps : list T) : T := fold_left (fun a p => (a + (if (p <? n0)%num then n0 - p else p))%num) ps n0.
Fixpoint padd (a b : list T) : list T := match a, b with [], b => b | a, [] => a | x :: a, y :: b => (x + y)%num :: padd a b end.
Fixpoint svotes (x : list V) (ms : list smember) (acc : list T) : res (list T) :=
  match ms with
  | [] => Ok acc
  | m :: ms =>
      xs <- subset (sm_feats m) x ;; ps <- b_proba (sm_base m) xs ;;
      if (n0 <? fold_left nadd ps n0)%num then
        let q := map (fun p => (p / l1 ps)%num) ps in
        a <- e_accuracy (sm_eval m) ;;
        let q := if negb unweighted && (n0 <? a)%num then map (fun p => (p * a)%num) q else q in
        svotes x ms (padd acc q)
      else svotes x ms acc
  end.
(** predict_proba (lines 272-298) and predict (lines 249-270) of an ensemble that has been made; of rows of different lengths numpy makes an array of objects *)
Definition srp_proba (s : srp) (ms : list smember) (xs : list (list V)) : res (list (list T)) := mapM (fun x => svotes x ms [n0]) xs.
Definition srp_classes (rows : list (list T)) : res (list nat) :=
  match rows with
  | [] => Raise AxisError
  | r :: rest => if forallb (fun r' => Nat.eqb (length r') (length r)) rest then mapM np_argmax rows else Raise AxisError
  end.
(** predict: the first call makes the ensemble and returns zeros *)
Definition srp_predict (fuel : nat) (n : nat) (xs : list (list V)) (s : srp) : out (list nat * srp) :=
  match sr_members s with
  | None => match srp_init fuel n s with Ret (_, s1) => Ret (repeat 0 (length xs), s1) | Exc e => Exc e | Loop => Loop end
  | Some ms => match bind (srp_proba s ms xs) srp_classes with Ok l => Ret (l, s) | Raise e => Exc e end
  end.

Inductive srp_op := SFit (rows : list (list V * Z * T)) (cl : option (list Z)) | SAsk (n : nat) (xs : list (list V)) | SAgain.
Definition srp_step (fuel : nat) (s : srp) (o : srp_op) : out srp :=
  match o with
  | SFit rows cl => srp_fit fuel rows cl s
  | SAsk n xs => match srp_predict fuel n xs s with Ret (_, s1) => Ret s1 | Exc e => Exc e | Loop => Loop end
  | SAgain => Ret (srp_reset s)
  end.
Fixpoint srp_run (fuel : nat) (s : srp) (os : list srp_op) : out srp :=
  match os with [] => Ret s | o :: os => match srp_step fuel s o with Ret s1 => srp_run fuel s1 os | Exc e => Exc e | Loop => Loop end end.
End SRP.
Arguments sbackground : clear implicits. Arguments smember : clear implicits. Arguments srp : clear implicits. Arguments srp_op : clear implicits.
