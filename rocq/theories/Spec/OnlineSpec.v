(** Vocabulary for the online boosting and bagging ensembles. *)
From Coq Require Import List ZArith Bool Reals.
From Verif Require Import Base.Py Base.Num Model.Adwin Model.Learner Model.Bagging Model.OnlineEnsembles Spec.Lists Spec.NaiveBayesSpec Spec.BaggingSpec.
Import ListNotations.

(** The estimator learns samples of [Q] one at a time (called with [classes] and [sw]), predicts and is reset without failing, and gives
    one label per row: there is a set [I] of states closed under these calls. *)
Definition unfailing {X T B} (L : learner X T B) (Q : X * Z -> Prop) classes sw (I : B -> Prop) : Prop :=
  (forall b row, I b -> Q row -> exists b', lr_fit L b [row] classes sw = Ok b' /\ I b') /\
  (forall b xs, I b -> exists p b', lr_predict L b xs = Ok (p, b') /\ length p = length xs /\ I b') /\
  (forall b, I b -> I (lr_reset L b)).
Definition sound_detector {T D} (P : edet T D) (J : D -> Prop) : Prop :=
  J (e_new P) /\ (forall d b, J d -> exists d', e_add P d b = Ok d' /\ J d') /\ (forall d, J d -> exists d' c, e_change P d = Ok (d', c) /\ J d').

Section Runs.
Context {X T B G D St E : Type} {N : Num T} (L : learner X T B) (P : edet T D) (A : algo X T B G St E) (base : B) (n : nat) (drift : bool) (seed : G).
Inductive oop := OFit (rows : list (X * Z)) (classes : option (list Z)) (sw : option (list T)) | OPredict (xs : list X) | OProba (xs : list X) | OReset.
Definition on_op (s : ons B G D St E) (o : oop) : res (ons B G D St E) :=
  match o with
  | OFit rows classes sw => on_fit L P A base n drift seed s rows classes sw
  | OPredict xs => ' (_, s') <- on_predict L A s xs ;; Ok s'
  | OProba xs => ' (_, s') <- on_proba L A s xs ;; Ok s'
  | OReset => Ok (on_reset L P A base n seed s)
  end.
Definition on_reached (s : ons B G D St E) : Prop := exists ops, foldM on_op ops (on_new A seed) = Ok s.
(** The state with which partial_fit begins its rows, and the states between two rows. *)
Definition fit_start (s : ons B G D St E) (cl : list Z) : ons B G D St E :=
  let s := if on_ready s then s else on_reset L P A base n seed s in on_adjust L P A base cl (mk_ons true (on_ens s) (on_stats s) (on_ext s) (Some cl) (on_rng s)).
Inductive on_seen : ons B G D St E -> Prop :=
| seen_start s classes cl : on_reached s -> check_classes (on_classes s) classes = Ok cl -> on_seen (fit_start s cl)
| seen_row rows classes sw s row s' : on_seen s -> on_row L P A drift rows classes sw s row = Ok s' -> on_seen s'.
(** One row: the members are visited in turn, the first one with the rate 1; each visit is a step of [R]: index, rate, estimator,
    statistics, shared data and random state before; estimator, statistics, shared data, rate for the next member and random
    state after.  Without drift detection nothing else happens to the estimators. *)
Definition row_pass (s s' : ons B G D St E) (R : nat -> T -> B -> St -> E -> G -> B -> St -> E -> T -> G -> Prop) : Prop :=
  exists (lams : nat -> T) (es : nat -> E) (gs : nat -> G), lams 0%nat = n1 /\ es 0%nat = on_ext s /\ gs 0%nat = on_rng s /\
    es (length (on_ens s)) = on_ext s' /\ gs (length (on_ens s)) = on_rng s' /\
    forall j bd st, nth_error (on_ens s) j = Some bd -> nth_error (on_stats s) j = Some st -> exists b' st',
      nth_error (on_stats s') j = Some st' /\ (drift = false -> nth_error (on_ens s') j = Some (b', snd bd)) /\
      R j (lams j) (fst bd) st (es j) (gs j) b' st' (es (S j)) (lams (S j)) (gs (S j)).
(** The estimator learns the row [k] times and is asked for its label. *)
Definition trained classes sw (k : nat) (row : X * Z) (b : B) (c : Z) (b' : B) : Prop :=
  exists b1, times k (fun b => lr_fit L b [row] classes sw) b = Ok b1 /\ predict_one L b1 (fst row) = Ok (c, b').
End Runs.
Arguments oop : clear implicits.
Arguments OFit {X T}. Arguments OPredict {X T}. Arguments OProba {X T}. Arguments OReset {X T}.

Local Open Scope R_scope.
(** *** Online boosting *)
(** lam_sc and lam_sw are sums of rates, epsilon is the share of the wrong ones. *)
Definition boost_ok (st : bst R) : Prop := 0 <= b_sc st /\ 0 <= b_sw st /\ b_eps st = b_sw st / (b_sc st + b_sw st).
(** What becomes of the statistics and of the rate when the member is right or wrong. *)
Definition boost_rule (right : bool) (lam : R) (st st' : bst R) (lam' : R) : Prop :=
  b_sc st' = (if right then b_sc st + lam else b_sc st) /\ b_sw st' = (if right then b_sw st else b_sw st + lam) /\
  lam' = (if right then (if Req_EM_T (b_sw st) 0 then lam else lam * ((b_sc st' + b_sw st') / (2 * b_sc st')))
          else lam * ((b_sc st' + b_sw st') / (2 * b_sw st'))).
(** The weight of the vote of a member with error share [eps]. *)
Definition vote_weight (eps : R) : R := if Req_EM_T eps 0 then 0 else if Req_EM_T eps 1 then 0 else ln ((1 - eps) / eps).
(** The weighted sum of the probabilities of label [c] in row [n]. *)
Definition weighted_sum (ws : list R) (ps : list (list (list R))) (n c : nat) : R := Rsum (map (fun wp => fst wp * nth c (nth n (snd wp) []) 0) (combine ws ps)).
Definition weighted_total (ws : list R) (ps : list (list (list R))) (n : nat) : R := Rsum (map (fun wp => fst wp * Rsum (nth n (snd wp) [])) (combine ws ps)).
(** The probabilities [P] are the weighted sums of the answers [ps], divided by their total when it is positive. *)
Definition shares (ws : list R) (ps : list (list (list R))) (r : nat) (P : list (list R)) : Prop :=
  length P = r /\ forall n c, (n < r)%nat ->
    (0 < weighted_total ws ps n -> nth c (nth n P []) 0 = weighted_sum ws ps n c / weighted_total ws ps n /\ Rsum (nth n P []) = 1) /\
    (weighted_total ws ps n <= 0 -> nth c (nth n P []) 0 = weighted_sum ws ps n c).
(** All rows of the answer have [w] entries. *)
Definition wide {X} (w : nat) (xs : list X) (p : list (list R)) : Prop := length p = length xs /\ Forall (fun row => length row = w) p.

Definition boost_visit {X B G} (L : learner X R B) (pois : R -> G -> nat * G) classes sw (row : X * Z)
    (_ : nat) (lam : R) (b : B) (st : bst R) (_ : unit) (g : G) (b' : B) (st' : bst R) (_ : unit) (lam' : R) (g' : G) : Prop :=
  let k := fst (pois lam g) in
  0 < lam /\ g' = snd (pois lam g) /\ boost_ok st' /\
  if Nat.eqb k 0 then b' = b /\ st' = st /\ lam' = lam else exists c, trained L classes sw k row b c b' /\ boost_rule (Z.eqb c (snd row)) lam st st' lam'.

(** *** AdaC2 *)
Definition ada_ok (st : ast R) : Prop := 0 <= a_tp st /\ 0 <= a_fn st /\ 0 <= a_tn st /\ 0 <= a_fp st /\ 0 <= a_sum st.
(** [c]: the label given by the member, [y]: the true one.  The costs of the right and of the wrong answers are added up; the
    rate of the next member is half of the cost of this answer over the share of answers of this kind. *)
Definition ada_rule (cp cn : R) (c y : Z) (lam : R) (st st' : ast R) (lam' : R) : Prop :=
  let cost := if Z.eqb y 1 then cp else cn in
  let add (t : bool) := if t then cost * lam else 0 in
  a_tp st' = a_tp st + add (Z.eqb c 1 && Z.eqb y 1)%bool /\ a_tn st' = a_tn st + add (Z.eqb c 0 && Z.eqb y 0)%bool /\
  a_fn st' = a_fn st + add (Z.eqb c 0 && Z.eqb y 1)%bool /\ a_fp st' = a_fp st + add (Z.eqb c 1 && Z.eqb y 0)%bool /\
  a_sum st' = a_sum st + lam /\
  lam' = cost * lam * (a_sum st' / (2 * (if Z.eqb c y then a_tp st' + a_tn st' else a_fp st' + a_fn st'))).
Definition ada_visit {X B G} (L : learner X R B) (pois : R -> G -> nat * G) (cp cn : R) classes sw (row : X * Z)
    (i : nat) (lam : R) (b : B) (st : ast R) (e : list R * list R) (g : G) (b' : B) (st' : ast R) (e' : list R * list R) (lam' : R) (g' : G) : Prop :=
  let k := fst (pois lam g) in
  0 < lam /\ g' = snd (pois lam g) /\ ada_ok st' /\
  (k = 0%nat -> b' = b /\ st' = mk_ast (a_tp st) (a_fn st) (a_tn st) (a_fp st) (a_sum st + lam) /\ lam' = lam /\ e' = e) /\
  (k <> 0%nat -> exists c, trained L classes sw k row b c b' /\
    ((c = 0 \/ c = 1)%Z -> (snd row = 0 \/ snd row = 1)%Z ->
      ada_rule cp cn c (snd row) lam st st' lam' /\ nth_error (fst e') i = Some ((a_tp st' + a_tn st') / a_sum st') /\ nth_error (snd e') i = Some ((a_fp st' + a_fn st') / a_sum st'))).

(** *** CSB2 *)
Definition csb_ok (cp : R) (st : cst R) : Prop := 0 <= c_fn st /\ 0 <= c_fp st /\ 0 <= c_sum st /\ 0 <= c_sw st <= c_sum st /\ c_fp st + c_fn st = cp * c_sw st.
Definition csb_rule (cp cn : R) (c y : Z) (lam : R) (st st' : cst R) (lam' : R) : Prop :=
  c_sum st' = c_sum st + lam /\ c_sw st' = (if Z.eqb c y then c_sw st else c_sw st + lam) /\
  c_eps st' = c_sw st' / c_sum st' /\ c_werr st' = cp * c_eps st' /\
  lam' = (if Z.eqb c y then (if Req_EM_T (c_sw st) 0 then lam else c_sum st' / ((c_sum st' - c_sw st') * (1 + cp)))
          else (if (Z.eqb c 0 && Z.eqb y 1)%bool then cp else cn) * lam * (c_sum st' / (c_sw st' * (1 + cp)))).
Definition csb_visit {X B G} (L : learner X R B) (pois : R -> G -> nat * G) (cp cn : R) classes sw (row : X * Z)
    (_ : nat) (lam : R) (b : B) (st : cst R) (_ : unit) (g : G) (b' : B) (st' : cst R) (_ : unit) (lam' : R) (g' : G) : Prop :=
  let k := fst (pois lam g) in
  0 < lam /\ g' = snd (pois lam g) /\ csb_ok cp st' /\
  if Nat.eqb k 0 then b' = b /\ st' = mk_cst (c_fn st) (c_fp st) (c_sum st + lam) (c_sw st) (c_werr st) (c_eps st) /\ lam' = lam
  else exists c, trained L classes sw k row b c b' /\ csb_rule cp cn c (snd row) lam st st' lam'.

(** *** RUSBoost *)
Definition rus_ok (st : rst R) : Prop := 0 <= r_sc st /\ 0 <= r_sw st /\ 0 <= r_pos st /\ 0 <= r_neg st /\ r_eps st = r_sw st / (r_sc st + r_sw st).
(** The rates of the three variants for a sample of the positive class and of the other one; [p], [q]: the numbers of
    positive and negative samples, [pos], [neg]: the sums of the rates of the member over them. *)
Definition rus_rate (alg : Z) (rate : R) (y : Z) (lam pos neg p q : R) : R :=
  if Z.eqb alg 1 then
    if Z.eqb y 1 then (if Req_EM_T q 0 then 1 else lam * ((pos + neg) / (pos + neg * (rate * (p / q)))) * ((rate + 1) * p / (p + q)))
    else (if Req_EM_T p 0 then 1 else lam * ((pos + neg) / (pos + neg * (q / (p * rate)))) * ((rate + 1) * p / (p + q)))
  else if Z.eqb alg 2 then
    if Z.eqb y 1 then lam * p / (p + q) / (pos / (pos + neg)) else lam * rate * p / (p + q) / (neg / (pos + neg))
  else if Z.eqb alg 3 then (if Z.eqb y 1 then lam else lam / rate) else 1.
Definition rus_visit {X B G} (L : learner X R B) (pois : R -> G -> nat * G) (alg : Z) (rate : R) classes sw (row : X * Z)
    (_ : nat) (lam : R) (b : B) (st : rst R) (e : Z * Z) (g : G) (b' : B) (st' : rst R) (e' : Z * Z) (lam' : R) (g' : G) : Prop :=
  let y := snd row in
  e' = (if Z.eqb y 1 then (fst e + 1, snd e) else (fst e, snd e + 1))%Z /\
  r_pos st' = (if Z.eqb y 1 then r_pos st + lam else r_pos st) /\ r_neg st' = (if Z.eqb y 1 then r_neg st else r_neg st + lam) /\
  let rate := rus_rate alg rate y lam (r_pos st') (r_neg st') (IZR (fst e')) (IZR (snd e')) in
  0 < lam /\ 0 <= rate /\ g' = snd (pois rate g) /\ rus_ok st' /\
  exists c, trained L classes sw (fst (pois rate g)) row b c b' /\
    r_sc st' = (if Z.eqb c y then r_sc st + lam else r_sc st) /\ r_sw st' = (if Z.eqb c y then r_sw st else r_sw st + lam) /\
    lam' = lam * ((r_sc st' + r_sw st') / (2 * (if Z.eqb c y then r_sc st' else r_sw st'))).

(** The weight of a member of AdaC2: the logarithm of its weighted accuracy over its weighted error, 0 when one of them is 0. *)
Definition odds_weight (acc err : R) : R := if Req_EM_T err 0 then 0 else if Req_EM_T acc 0 then 0 else ln (acc / err).

(** *** Under/over bagging: member [i] of [m] draws from Poisson((i + 1) / m), times the sampling rate for the positive class *)
Definition uob_visit {X B G} (L : learner X R B) (pois : R -> G -> nat * G) (rate : R) (m : nat) classes sw (row : X * Z)
    (i : nat) (_ : R) (b : B) (_ _ : unit) (g : G) (b' : B) (_ _ : unit) (_ : R) (g' : G) : Prop :=
  let r := INR (i + 1) / INR m * (if Z.eqb (snd row) 1 then rate else 1) in
  g' = snd (pois r g) /\ foldM (fun b row => lr_fit L b [row] classes sw) (repeat row (fst (pois r g))) b = Ok b'.

(** *** SMOTE bagging *)
(** The point at which the line from [p] to [x] arrives when it goes on by the share [gamma] beyond [x]. *)
Definition beyond (x p : list R) (gamma : R) : list R := map (fun ab => fst ab + gamma * (fst ab - snd ab)) (combine x p).
(** What the synthetic samples are: [stored] are the positive samples up to now, the last of them the current one. *)
Definition synthetic (stored : list (list R)) (z : list R) : Prop :=
  exists x first mid gamma, (stored = [x] /\ z = x) \/ (stored = first :: mid ++ [x] /\ z = beyond x first gamma).
Definition smote_visit {B G} (L : learner (list R) R B) (pois : R -> G -> nat * G) (rate : R) (m : nat) classes sw (row : list R * Z)
    (i : nat) (_ : R) (b : B) (_ : unit) (e : list (list R)) (g : G) (b' : B) (_ : unit) (e' : list (list R)) (_ : R) (g' : G) : Prop :=
  let fit := fun b row => lr_fit L b [row] classes sw in
  let a := INR (i + 1) / INR m in
  if Z.eqb (snd row) 1 then
    e' = e ++ [fst row] /\ exists zs, length zs = fst (pois ((1 - a) * rate) (snd (pois (a * rate) g))) /\ Forall (synthetic e') zs /\
    foldM fit (repeat row (fst (pois (a * rate) g)) ++ map (fun z => (z, snd row)) zs) b = Ok b'
  else e' = e /\ g' = snd (pois 1 g) /\ foldM fit (repeat row (fst (pois 1 g))) b = Ok b'.

(** What every call of predict_proba and predict gives when the members' answers are [ps] and their weights [ws]. *)
Definition votes {X B G D St E} (L : learner X R B) (A : algo X R B G St E) (s : ons B G D St E) (xs : list X) (ps : list (list (list R))) (l' : list B) (ws : list R) : Prop :=
  exists P q, let s' := mk_ons true (combine l' (map snd (on_ens s))) (on_stats s) (on_ext s) (on_classes s) (on_rng s) in
    on_proba L A s xs = Ok (P, s') /\ shares ws ps (length xs) P /\ on_predict L A s xs = Ok (q, s') /\ Forall2 first_greatest P q.
(** The members' answers have one row of [w] > 0 probabilities per sample, and [w] is not greater than the greatest label plus one. *)
Definition regular {X B} (L : learner X R B) (xs : list X) (classes : list Z) (l : list B) (ps : list (list (list R))) (l' : list B) : Prop :=
  xs <> [] /\ l <> [] /\ answers L xs l ps l' /\ exists w c, (0 < w)%nat /\ Forall (wide w xs) ps /\ In c classes /\ (Z.of_nat w <= c + 1)%Z.
