(** Vocabulary for the bagging ensembles. *)
From Coq Require Import List ZArith Reals.
From Verif Require Import Base.Py Base.Num Model.Adwin Model.Learner Model.Bagging Spec.Lists.
Import ListNotations.

(** [n] numbers drawn one after the other. *)
Fixpoint draws {G} (draw : G -> nat * G) (n : nat) (g : G) : list nat * G :=
  match n with O => ([], g) | S n => let '(k, g) := draw g in let '(ks, g) := draws draw n g in (k :: ks, g) end.
(** Each row as many times as its number says, in order. *)
Definition repeated {A} (rows : list A) (ks : list nat) : list A := flat_map (fun rk => repeat (fst rk) (snd rk)) (combine rows ks).
(** The numbers of member [i] of [m], when the members draw in turn for each of [n] rows. *)
Definition turns (m n i : nat) (ks : list nat) : list nat := map (fun j => nth (j * m + i) ks 0%nat) (seq 0 n).

Local Open Scope R_scope.
(** The probabilities the members give for label [c] in row [n], added up; and all of them. *)
Definition vote_sum (ps : list (list (list R))) (n c : nat) : R := Rsum (map (fun p => nth c (nth n p []) 0) ps).
Definition vote_total (ps : list (list (list R))) (n : nat) : R := Rsum (map (fun p => Rsum (nth n p [])) ps).

(** The probabilities [ps] that the members [l] give for the batch; [l']: the members afterwards. *)
Definition answers {X B} (L : learner X R B) (xs : list X) (l : list B) (ps : list (list (list R))) (l' : list B) : Prop :=
  Forall2 (fun b pb => lr_proba L b xs = Ok pb) l (combine ps l') /\ length ps = length l'.
(** An answer has one row per sample, and its first row has no place for labels above the greatest one of [classes]. *)
Definition fits {X} (classes : list Z) (xs : list X) (p : list (list R)) : Prop :=
  length p = length xs /\ exists row, hd_error p = Some row /\ exists c, In c classes /\ (Z.of_nat (length row) <= c + 1)%Z.

(** Two lists of labels with the same elements. *)
Definition same_labels (a b : list Z) : Prop := forall c, In c a <-> In c b.

Section Calls.
Context {X T B G : Type} {N : Num T} (L : learner X T B) (pois : T -> G -> nat * G) (base : B) (n : nat).
(** The calls of a user of the bagging ensembles. *)
Inductive bop := BFit (rows : list (X * Z)) (classes : option (list Z)) (sw : option (list T)) | BPredict (xs : list X) | BProba (xs : list X) | BReset (g : G).
Definition oza_op (s : oza B G) (o : bop) : res (oza B G) :=
  match o with
  | BFit rows classes sw => oza_fit L pois base s rows classes sw
  | BPredict xs => ' (_, s') <- oza_predict L s xs ;; Ok s'
  | BProba xs => ' (_, s') <- oza_proba L s xs ;; Ok s'
  | BReset g => Ok (oza_reset L base n s g)
  end.
Definition oza_reached (s : oza B G) : Prop := exists g ops, foldM oza_op ops (oza_new L base n g) = Ok s.
End Calls.
Arguments bop : clear implicits.

Section Drift.
Context {X T B D : Type} {N : Num T} (L : learner X T B) (P : edet T D).
(** A member (estimator, change detector) learns the batch [rows] [k] times, is asked for its labels [p], and the detector gets
    one mark for each row: [true] when [mark label true_label].  [rose]: the detector announces a change and its estimate rose. *)
Definition watched (mark : Z -> Z -> bool) (k : nat) (b0 : B) rows classes sw (m m' : B * D) (rose : bool) : Prop :=
  exists b p b' d d' change,
    times k (fun b => lr_fit L b rows classes sw) b0 = Ok b /\ lr_predict L b (map fst rows) = Ok (p, b') /\ (length rows <= length p)%nat /\
    foldM (e_add P) (map (fun pr => mark (fst pr) (snd (snd pr))) (combine p rows)) (snd m) = Ok d /\ e_change P d = Ok (d', change) /\
    m' = (b', d') /\ rose = (change && (e_est P (snd m) <? e_est P d')%num)%bool.
(** [l'] is [l] with a reset estimator and a new detector in the place [i]. *)
Definition replaced (i : nat) (l l' : list (B * D)) : Prop :=
  length l' = length l /\ (exists m, nth_error l i = Some m /\ nth_error l' i = Some (lr_reset L (fst m), e_new P)) /\
  forall j, j <> i -> nth_error l' j = nth_error l j.
End Drift.

Section Leverage.
Context {X T B D G : Type} {N : Num T} (L : learner X T B) (P : edet T D) (pois : T -> G -> nat * G) (rand : G -> T * G) (coin : G -> bool * G) (w : T) (alg : leverage).
(** What the algorithm says about the number of times a member learns a sample. [b0]: the
    estimator after it was asked (misclassification algorithm), the estimator itself for the others. *)
Definition allowed (m : B * D) (x : X) (y : Z) (k : nat) (b0 : B) (g : G) : Prop :=
  match alg with
  | LBag => b0 = fst m /\ k = fst (pois w g)
  | LMe => exists c, predict_one L (fst m) x = Ok (c, b0) /\ (k <= 1)%nat /\ (c <> y -> k = 1%nat) /\ (c = y -> (e_est P (snd m) =? n1)%num = true -> k = 0%nat)
           /\ (c = y -> (e_est P (snd m) =? n1)%num = false -> (k = 1%nat <-> (fst (rand g) <? e_est P (snd m) / (n1 - e_est P (snd m)))%num = true))
  | LHalf => b0 = fst m /\ k = (if fst (coin g) then 0%nat else 1%nat)
  | LWt => b0 = fst m /\ k = S (fst (pois n1 g))
  | LSub => b0 = fst m /\ k = Nat.min 1 (fst (pois n1 g))
  end.
End Leverage.
(** The label and the classes with which a member learns. *)
Definition coded (code : option (list Z)) (classes : list Z) (y : Z) (k : nat) (yc : Z) (cl : list Z) : Prop :=
  match code with
  | Some row => if Nat.eqb k 0 then yc = y /\ cl = classes else py_get row y = Ok yc /\ cl = [0; 1]%Z
  | None => yc = y /\ cl = classes
  end.
Definition code_of (codes : option (list (list Z))) (i : nat) : option (list Z) := match codes with Some m => nth_error m i | None => None end.
