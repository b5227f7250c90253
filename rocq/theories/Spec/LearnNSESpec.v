(** What Learn++.NSE keeps and how it votes. *)
From Coq Require Import List ZArith Reals.
From Verif Require Import Base.Py Base.Num Model.LearnNSE Spec.Lists Spec.NaiveBayesSpec Spec.WindowedSpec.
Import ListNotations.

(** The rows given since the object was new or reset *)
Fixpoint nse_given {X} (acc : list (X * Z)) (os : list (nop X)) : list (X * Z) :=
  match os with [] => acc | NFit rows _ :: os => nse_given (acc ++ rows) os | NReset :: os => nse_given [] os end.
(** [b'] is [b] trained on a window: by fit with the classes; by fit without them if that is not possible; by partial_fit if it has no fit *)
Inductive window_trained {X T B} (L : nlearner X T B) (b : B) (rows : list (X * Z)) (cl : list Z) : B -> Prop :=
| by_fit_classes b' : nl_fit3 L b rows cl = Ok b' -> window_trained L b rows cl b'
| by_fit b' : nl_fit3 L b rows cl = Raise TypeError -> nl_fit L b rows = Ok b' -> window_trained L b rows cl b'
| by_partial_fit b' : nl_fit3 L b rows cl = Raise TypeError -> nl_fit L b rows = Raise NotImplementedError -> nl_pfit L b rows cl = Ok b' -> window_trained L b rows cl b'.
(** [a] is what remains of [b] when some items are left out. *)
Inductive subseq {A} : list A -> list A -> Prop :=
| sub_nil : subseq [] []
| sub_keep x a b : subseq a b -> subseq (x :: a) (x :: b)
| sub_skip x a b : subseq a b -> subseq a (x :: b).
(** Which windows the members stand for: all of them, the last n, or n of them *)
Definition kept {A} (prune : pruning) (n : nat) (ws kept : list A) : Prop :=
  match prune with
  | NoPruning => kept = ws
  | ByAge => kept = lastn n ws
  | ByError => subseq kept ws /\ length kept = Nat.min n (length ws)
  end.
(** The non-empty ends of a list, the longest first *)
Fixpoint ends {A} (l : list A) : list (list A) := match l with [] => [] | _ :: r => l :: ends r end.

Local Open Scope R_scope.
(** The weight of the wrong answers *)
Definition wrong (D : list R) (ps ys : list Z) : R := Rsum (map (fun dpy => if Z.eq_dec (fst (snd dpy)) (snd (snd dpy)) then 0 else fst dpy) (combine D (combine ps ys))).
(** The weights of the rows of a window: equal for the first window; then, if the ensemble is wrong on a share E of the rows, those it is right about weigh E times the others. *)
Definition penalized (right : list bool) (D : list R) : Prop :=
  let E := INR (count_occ Bool.bool_dec right false) / INR (length right) in
  length D = length right /\
  if Req_EM_T E 0 then Forall (fun d => d = 0) D
  else Rsum D = 1 /\ exists c, 0 < c /\ forall i, (i < length right)%nat -> nth i D 0 = if nth i right false then c * E else c.
(** The influence of a window on a member of age [a], and the weights as they are recorded for ages 0, 1, ..., each divided by the sum of those recorded before and itself *)
Definition influence (slope crossing : R) (a : nat) : R := 1 / (1 + exp (- slope * (INR a - crossing))).
Fixpoint records (slope crossing : R) (acc : list R) (ages : list nat) : list R :=
  match ages with [] => acc | a :: r => records slope crossing (acc ++ [influence slope crossing a / (Rsum acc + influence slope crossing a)]) r end.
(** e / (1 - e) of the error on the member's own window, and on a later window, where the error counts as 1/2 at most *)
Definition own_error {X B} (L : nlearner X R B) (h : B) (WD : list (X * Z) * list R) (b : R) : Prop :=
  exists ps, nl_predict L h (map fst (fst WD)) = Ok ps /\ length ps = length (fst WD) /\ let E := wrong (snd WD) ps (map snd (fst WD)) in b = E / (1 - E).
Definition later_error {X B} (L : nlearner X R B) (h : B) (WD : list (X * Z) * list R) (b : R) : Prop :=
  exists ps, nl_predict L h (map fst (fst WD)) = Ok ps /\ length ps = length (fst WD) /\ let E := Rmin (wrong (snd WD) ps (map snd (fst WD))) (1 / 2) in b = E / (1 - E).
(** A member after the windows [hist], with their weights, of which the first is its own *)
Definition remembers {X B} (L : nlearner X R B) (base : B) (classes : list Z) (slope crossing : R) (hist : list (list (X * Z) * list R)) (m : member R B) : Prop :=
  match hist with
  | [] => False
  | own :: later =>
      train L base (fst own) classes = Ok (m_est m) /\
      (exists b bs, m_bkts m = b :: bs /\ own_error L (m_est m) own b /\ Forall2 (later_error L (m_est m)) later bs) /\
      m_wkts m = records slope crossing [] (seq 0 (length hist)) /\
      m_weight m = Some (ln (1 / (Rsum (map (fun bw => fst bw * snd bw) (combine (m_bkts m) (m_wkts m))) + 1 / 10 ^ 50)))
  end.
(** The shares a member gives to the classes *)
Definition shares {X B} (L : nlearner X R B) (classes : list Z) (array : bool) (h : B) (x : X) (q : list R) : Prop :=
  exists p, nl_proba L h [x] = Ok [p] /\
    let s := Rsum (map Rabs p) in
    length q = length classes /\
    ((length p = length classes /\ q = map (fun v => v / s) p) \/
     (length p <> length classes /\ length p <> 1%nat /\ array = true /\ exists obs, nl_seen L h = Some obs /\ length obs = length p /\
        forall j, (j < length classes)%nat -> nth j q 0 = prob_of obs (map (fun v => v / s) p) (nth j classes 0%Z))).
(** [c] is the first position with the greatest total vote, over the members of positive weight, for [x]. *)
Definition elected {X B} (L : nlearner X R B) (classes : list Z) (array : bool) (ms : list (member R B)) (x : X) (c : nat) : Prop :=
  exists ws Q row, Forall2 (fun m wt => m_weight m = Some wt) ms ws /\
    Forall2 (fun mw q => 0 < snd mw -> shares L classes array (m_est (fst mw)) x q) (combine ms ws) Q /\
    length row = length classes /\
    (forall j, (j < length classes)%nat -> nth j row 0 = Rsum (map (fun wq => if Rlt_dec 0 (fst wq) then fst wq * nth j (snd wq) 0 else 0) (combine ws Q))) /\
    first_greatest row c.
(** The weights of the rows of a window the members [ms] have not seen *)
Definition weighs {X B} (L : nlearner X R B) (classes : list Z * bool) (ms : list (member R B)) (WD : list (X * Z) * list R) : Prop :=
  match ms with
  | [] => snd WD = map (fun _ => 1 / INR (length (fst WD))) (fst WD)
  | _ => exists cs, nse_predict L (mk_nse (Some classes) ms [] false) (map fst (fst WD)) = Ok cs /\
           penalized (map (fun cy => Z.eqb (Z.of_nat (fst cy)) (snd cy)) (combine cs (map snd (fst WD)))) (snd WD)
  end.
(** The members after the windows [hist], when no member is left out or the oldest are *)
Definition members_after {X B} (L : nlearner X R B) (base : B) (classes : list Z) (slope crossing : R) (prune : pruning) (n : nat) (hist : list (list (X * Z) * list R)) (ms : list (member R B)) : Prop :=
  exists hs, kept prune n (ends hist) hs /\ Forall2 (remembers L base classes slope crossing) hs ms.
(** An estimator trained on a window that answers every question *)
Definition answers {X B} (L : nlearner X R B) (classes : list Z) (array : bool) (h : B) : Prop :=
  (forall xs, exists ps, nl_predict L h xs = Ok ps /\ length ps = length xs) /\
  (forall x, exists p, nl_proba L h [x] = Ok [p] /\
     (length p = length classes \/ length p = 1%nat \/ (array = true /\ exists obs, nl_seen L h = Some obs /\ length obs = length p /\ forall c, In c obs -> In c classes))).
