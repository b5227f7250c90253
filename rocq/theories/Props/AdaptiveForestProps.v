(** C212-C217: AdaptiveRandomForestClassifier. *)
From Coq Require Import List ZArith QArith Bool Lia Reals Lra.
From Verif Require Import Base.Py Base.Num Base.Dict Model.Adwin Model.Knn Model.ClassMetrics Model.AdaptiveForest
  Spec.Lists Spec.AdaptiveForestSpec Proofs.ListFacts Proofs.KnnProofs Proofs.AdaptiveForestProofs Proofs.AdaptiveForestVotes.
Import ListNotations.
Local Open Scope nat_scope.

Section Props.
Context {X T B R D E G : Type} {N : Num T}.
Variables (t_init : Z -> B * R) (t_fit : B -> R -> X -> Z -> option (list Z) -> Z -> res (B * R)) (t_predict : B -> X -> res Z)
  (t_votes : B -> X -> res (list (Z * T))) (t_reset : B -> R -> B * R) (t_new : B -> B)
  (d_add : D -> bool -> D) (d_change : D -> bool) (d_reset : D -> D)
  (e_new : E) (e_add : E -> Z -> Z -> T -> res E) (e_score : E -> res T)
  (poisson : G -> Z * G) (seed : G) (width : X -> nat) (rsqrt rlog2 : nat -> Z) (part : T -> nat -> Z)
  (n_estimators : nat) (drift warning : option D) (unweighted : bool).
Notation run := (arf_run t_init t_fit t_predict t_votes t_reset t_new d_add d_change d_reset e_new e_add e_score poisson seed width rsqrt rlog2 part n_estimators drift warning unweighted).
Notation fit := (arf_fit t_init t_fit t_predict t_reset t_new d_add d_change d_reset e_new e_add poisson width rsqrt rlog2 part n_estimators drift warning).
Notation init := (arf_init (B := B) (R := R) (D := D) (E := E) seed).
Notation life := (life t_init t_fit t_predict t_reset t_new d_add d_change d_reset e_new e_add drift warning).
Notation fresh := (fresh t_init t_reset t_new).
(** The rows as the [i]-th member sees them after the calls [os]: those with a weight other than 0 since the last reset, numbered from 1; of the
    draws made with the seed, the member gets every n_estimators-th. *)
Definition seen_by (i : nat) (os : list (arf_op X T)) : list (fed X T) :=
  let L := lessons None [] os in feed 1 L (column n_estimators i (length L) (draws poisson (length L * n_estimators) seed)).

(** *** C212: how many trees there are, how many rows were counted, and where the random numbers come from. *)
Theorem arf_rows_counted mx os s : run (init mx) os = Ok s ->
  f_seen s = length (lessons None [] os) /\ f_rng s = after poisson (length (lessons None [] os) * n_estimators) seed /\ f_classes s = classes_of None os /\
  match f_members s with None => lessons None [] os = [] | Some ms => length ms = n_estimators end.
Proof.
  intros H. destruct (arf_run_ok t_init t_fit t_predict t_votes t_reset t_new d_add d_change d_reset e_new e_add e_score poisson seed width rsqrt rlog2 part n_estimators drift warning unweighted os [] None _ _ (arf_init_ok _ _ _ _ _ _ _ _ _ _ _ _ _ _ _ _) H) as (A & B1 & C & D1).
  repeat split; auto. destruct (f_members s); tauto.
Qed.

(** The tree of each member is a tree that had learnt nothing and has learnt the rows since it was made, each as often as drawn: all
    rows of the forest, if the member has had no drift.  The tree dates from the last drift or before it. *)
Theorem arf_trees mx os s ms i m : run (init mx) os = Ok s -> f_members s = Some ms -> nth_error ms i = Some m ->
  let fs := seen_by i os in
  exists v, f_maxf s = MInt v /\
  (exists b, fresh v b /\ grown t_fit b (if Nat.eqb (m_drifts m) 0 then fs else since (m_created m) fs) (m_tree m)) /\
  (m_drifts m = 0 <-> m_last_drift m = 0) /\ (0 < m_drifts m -> m_created m <= m_last_drift m) /\ m_last_drift m <= length fs.
Proof.
  intros H Em Hi fs. destruct (arf_run_ok t_init t_fit t_predict t_votes t_reset t_new d_add d_change d_reset e_new e_add e_score poisson seed width rsqrt rlog2 part n_estimators drift warning unweighted os [] None _ _ (arf_init_ok _ _ _ _ _ _ _ _ _ _ _ _ _ _ _ _) H) as (A & B1 & C & D1).
  rewrite Em in D1. destruct D1 as (D1 & v & D2 & D3). specialize (D3 i m Hi). pose proof (life_numbered _ _ _ _ _ _ _ _ _ _ _ _ _ _ _ D3) as NU.
  destruct (life_ok _ _ _ _ _ _ _ _ _ _ _ _ _ _ _ D3) as (HT & HB & HN). exists v. split; auto. fold (seen_by i os) in *. fold fs in HT, HB, HN, NU.
  destruct HN as (N1 & N2 & N3 & N4 & _). unfold tree_ok, origin in *. destruct HT as (b & F1 & G1). split; [|split; [auto|split; [|auto]]].
  - exists b. split; auto. destruct (Nat.eqb (m_drifts m) 0); auto. rewrite since_0 in G1 by exact NU. auto.
  - destruct (Nat.eqb_spec (m_drifts m) 0); lia.
Qed.

(** A background tree exists from a warning to the next drift, and has learnt the rows since the warning. *)
Theorem arf_background mx os s ms i m : run (init mx) os = Ok s -> f_members s = Some ms -> nth_error ms i = Some m ->
  let fs := seen_by i os in
  match m_bg m with
  | None => m_last_warn m <= m_last_drift m
  | Some b => m_last_drift m < m_last_warn m /\ m_last_warn m <= length fs /\ b_created b = m_last_warn m /\ exists b', grown t_fit (t_new b') (since (m_last_warn m) fs) (b_tree b)
  end.
Proof.
  intros H Em Hi fs. destruct (arf_run_ok t_init t_fit t_predict t_votes t_reset t_new d_add d_change d_reset e_new e_add e_score poisson seed width rsqrt rlog2 part n_estimators drift warning unweighted os [] None _ _ (arf_init_ok _ _ _ _ _ _ _ _ _ _ _ _ _ _ _ _) H) as (A & B1 & C & D1).
  rewrite Em in D1. destruct D1 as (D1 & v & D2 & D3). specialize (D3 i m Hi).
  destruct (life_ok _ _ _ _ _ _ _ _ _ _ _ _ _ _ _ D3) as (HT & HB & HN). fold (seen_by i os) in *. fold fs in HB, HN.
  unfold bg_ok in HB. destruct HN as (N1 & _). destruct (m_bg m); tauto.
Qed.

(** *** C213: the performance of a member is that of the answers it gave to the rows since its last drift, each before learning the row.
    [life v (firstn j fs) mj] says that [mj] is the member as it was after the first [j] rows. *)
Theorem arf_evaluator mx os s ms i m : run (init mx) os = Ok s -> f_members s = Some ms -> nth_error ms i = Some m ->
  let fs := seen_by i os in exists v ps, f_maxf s = MInt v /\ life v fs m /\ length ps = length fs /\
  (forall j f, nth_error fs j = Some f -> exists mj, life v (firstn j fs) mj /\ t_predict (m_tree mj) (r_x f) = Ok (nth j ps 0%Z)) /\
  judged e_add e_new (filter (fun pf => Nat.ltb (m_last_drift m) (r_n (snd pf))) (combine ps fs)) (m_eval m).
Proof.
  intros H Em Hi fs. destruct (arf_run_ok t_init t_fit t_predict t_votes t_reset t_new d_add d_change d_reset e_new e_add e_score poisson seed width rsqrt rlog2 part n_estimators drift warning unweighted os [] None _ _ (arf_init_ok _ _ _ _ _ _ _ _ _ _ _ _ _ _ _ _) H) as (A & B1 & C & D1).
  rewrite Em in D1. destruct D1 as (D1 & v & D2 & D3). specialize (D3 i m Hi). fold (seen_by i os) in *. fold fs in D3.
  destruct (life_eval _ _ _ _ _ _ _ _ _ _ _ _ _ _ _ D3) as (ps & P1 & P2 & P3). exists v, ps. auto.
Qed.

(** *** C218: drifts and warnings.  The detectors of a member are told, for each row it learns, whether the tree is wrong about the row it has just learnt (and not whether its answer before was wrong).
    The member has a drift (a warning) at the rows where its drift (warning) detector then reports a change, and at no other. *)
Theorem arf_detectors v fs m f m' : life v fs m -> r_n f = S (length fs) ->
  member_row t_fit t_predict t_reset t_new d_add d_change d_reset e_new e_add drift warning (r_x f) (r_y f) (r_w f) (r_cl f) (r_k f) (r_n f) m = Ok m' ->
  match m_drift m with
  | None => drift = None
  | Some d =>
     if (0 <? r_k f)%Z then
       exists t r q, t_fit (m_tree m) (m_rng m) (r_x f) (r_y f) (r_cl f) (r_k f) = Ok (t, r) /\ t_predict t (r_x f) = Ok q /\
        let wrong := negb (q =? r_y f)%Z in
        let drifts := d_change (d_add d wrong) in
        let warned := match m_warn m with None => false | Some u => d_change (d_add u wrong) end in
        m_drifts m' = (if drifts then S (m_drifts m) else m_drifts m) /\ m_last_drift m' = (if drifts then r_n f else m_last_drift m) /\
        m_warns m' = (if warned then S (m_warns m) else m_warns m) /\ m_last_warn m' = (if warned then r_n f else m_last_warn m) /\
        (drifts = false -> m_tree m' = t /\ m_drift m' = Some (d_add d wrong) /\ m_warn m' = option_map (fun u => if warned then d_reset (d_add u wrong) else d_add u wrong) (m_warn m)) /\
        (drifts = true -> m_bg m' = None)
     else same_member m m'
  end.
Proof.
  intros HL Hn HR. assert (HL' : life v (fs ++ [f]) m') by (eapply life_row; eauto).
  destruct (life_ok _ _ _ _ _ _ _ _ _ _ _ _ _ _ _ HL) as (_ & _ & HN). destruct (life_ok _ _ _ _ _ _ _ _ _ _ _ _ _ _ _ HL') as (_ & HB' & HN').
  destruct HN as (N1 & N2 & _ & N4 & _ & N6 & _). destruct (m_drift m) as [d|] eqn:ED; [|apply N6; reflexivity].
  destruct (Z.ltb_spec 0 (r_k f)) as [HK|HK]; [|eapply row_skips; eauto].
  destruct (row_detects t_fit t_predict t_reset t_new d_add d_change d_reset e_new e_add drift warning _ _ _ _ _ _ _ _ d ED HR HK) as (t & r & q & E1 & E2 & E3). exists t, r, q. split; [exact E1|]. split; [exact E2|].
  cbv zeta in *. destruct E3 as (F1 & F2 & F3 & F4 & F5). repeat (split; [assumption|]). intros Hd. rewrite Hd in F2. unfold bg_ok in HB'. destruct (m_bg m') as [b|]; auto. exfalso.
  destruct HN' as (M1 & _). destruct HB' as (HB' & _). rewrite app_length in M1. simpl in M1. lia.
Qed.

(** *** C214: sample weights.  A number other than 0 as sample weight changes the evaluators and nothing else: neither the trees nor the detectors. *)
Theorem arf_weights_refuted rows cl w w' s r r' : (w =? n0)%num = false -> (w' =? n0)%num = false ->
  fit rows cl (Some (WNum w)) s = Ok r -> fit rows cl (Some (WNum w')) s = Ok r' -> same_forest r r'.
Proof.
  intros W W' H H'. unfold arf_fit in *. simpl in *. destruct (Nat.leb 1 (length rows)) eqn:El; [|destruct (length rows); discriminate].
  destruct (length rows) as [|k] eqn:Ek; [discriminate|]. cbn [bind] in *.
  eapply arf_rows_same; [apply same_forest_refl| | |exact H|exact H']; apply Forall_forall; intros u Hu; apply repeat_spec in Hu; subst; auto.
Qed.
(** A weight for each of two or more rows is refused, and so is a call without rows. *)
Theorem arf_weight_array_refuted rows cl ws s : 2 <= length rows -> length ws = length rows ->
  fit rows cl (Some (WArray ws)) s = Raise ValueError /\ fit rows cl (Some (WList ws)) s = Raise ValueError.
Proof.
  intros H L. unfold arf_fit. destruct ws as [|a [|b ws]]; simpl in L; try lia. simpl.
  destruct (length rows) as [|[|k]]; try lia. auto.
Qed.
Theorem arf_no_rows cl w s : fit [] cl w s = Raise ValueError.
Proof. unfold arf_fit. destruct w as [[v|l|[|v [|v' l]]]|]; reflexivity. Qed.

(** *** C215: max_features is always between 1 and the number of features of the instance the forest was made for ... *)
Theorem arf_max_features m n : 1 <= n -> (1 <= max_features rsqrt rlog2 part m n <= Z.of_nat n)%Z.
Proof. apply max_features_range. Qed.
(** ... but it is worked out once: a forest that was reset keeps the number, and its classes. *)
Theorem arf_reset_refuted s v x ms s1 : f_maxf s = MInt v -> (1 <= v <= Z.of_nat (width x))%Z ->
  init_ensemble t_init e_new width rsqrt rlog2 part n_estimators drift warning x (arf_reset seed s) = (ms, s1) ->
  f_maxf s1 = MInt v /\ f_classes s1 = f_classes s /\ ms = repeat (new_member t_init e_new drift warning v 0) n_estimators.
Proof.
  intros Ev Hv. unfold init_ensemble. simpl. rewrite Ev. unfold max_features. cbv zeta.
  destruct (Z.ltb_spec v 0); [lia|]. destruct (Z.leb_spec v 0); [lia|]. destruct (Z.ltb_spec (Z.of_nat (width x)) v); [lia|].
  intros H2. injection H2 as <- <-. auto.
Qed.

(** *** C216: a vote for a label greater than all classes announced is an IndexError. *)
Theorem arf_unknown_label_refuted (s : forest T B R D E G) (ms : list (member B R D E)) x v cl k : combined_votes t_votes e_score unweighted x ms [] = Ok v -> f_classes s = Some cl -> In k (dkeys v) -> (0 <= zmax cl < k)%Z ->
  arf_proba_row t_votes e_score unweighted s ms x = Raise IndexError.
Proof.
  intros H Ec I Hk. unfold arf_proba_row. rewrite H. cbn [bind]. destruct v as [|kv v]; [destruct I|]. rewrite Ec.
  apply put_votes_fails with (k := k).
  - destruct (negb _); [rewrite normalized_keys|]; auto.
  - unfold zeros. rewrite repeat_length. lia.
Qed.
End Props.

(** *** C217: the votes, over the reals.  Each member with votes of a positive sum has the voting power [power]: its performance, or 1 if the
    vote is unweighted or the performance is 0; it divides it among the classes as it divides its votes.  The probability of a class is its part of all votes, and
    the answer is the least class with the greatest part. *)
Theorem arf_votes {X B RG D E G} t_votes e_score unweighted (s : forest R B RG D E G) (x : X) ms bs :
  Forall2 (ballot t_votes e_score unweighted x) ms bs ->
  (forall b k, In b bs -> (0 < total (fst b))%R -> In k (dkeys (fst b)) -> (0 <= k)%Z /\ match f_classes s with None => True | Some c => (k <= zmax c)%Z end) ->
  (0 < Rsum (map (weight unweighted) bs))%R ->
  exists ps c, arf_proba_row t_votes e_score unweighted s ms x = Ok ps /\ Rsum ps = 1%R /\
    (forall c, c < length ps -> nth c ps 0%R = (voices unweighted bs (Z.of_nat c) / Rsum (map (weight unweighted) bs))%R) /\
    (forall cl, f_classes s = Some cl -> length ps = Z.to_nat (zmax cl + 1)) /\
    np_argmax ps = Ok c /\ (forall j, (voices unweighted bs (Z.of_nat j) <= voices unweighted bs (Z.of_nat c))%R) /\
    (forall j, j < c -> (voices unweighted bs (Z.of_nat j) < voices unweighted bs (Z.of_nat c))%R).
Proof.
  intros F HK HP.
  assert (EX : exists b, In b bs /\ (0 < total (fst b))%R).
  { clear F HK. induction bs as [|b bs IH]; simpl in HP; [lra|]. unfold weight in HP at 1. destruct (Rlt_dec 0 (total (fst b))).
    - exists b. simpl; auto.
    - destruct IH as (b' & I & L); [lra|]. exists b'. simpl; auto. }
  destruct (proba_ok t_votes e_score unweighted s x ms bs F EX HP HK) as (ps & P1 & P2 & P3 & P4 & P5 & P6).
  destruct (np_argmax_ok ps P2) as (c & A1 & A2 & A3 & A4). exists ps, c. repeat split; auto.
  - intros j. destruct (Nat.lt_ge_cases j (length ps)) as [Lt|Ge].
    + specialize (A3 j Lt). rewrite !P3 in A3 by auto. apply Rmult_le_reg_r with (/ Rsum (map (weight unweighted) bs))%R; [apply Rinv_0_lt_compat; auto|exact A3].
    + rewrite (P4 j Ge). assert (0 <= nth c ps 0%R)%R.
      { destruct (Rle_lt_dec 0 (nth c ps 0%R)) as [|Lt0]; auto. exfalso. assert (Rsum ps <= 0)%R; [|lra].
        rewrite (Rsum_map_nth ps). clear -A3 Lt0. assert (AA : forall l, (forall j, In j l -> j < length ps) -> (Rsum (map (fun j => nth j ps 0%R) l) <= 0)%R).
        { induction l as [|a l IH]; simpl; intros HA; [lra|]. assert (Ha : a < length ps) by auto. specialize (A3 a Ha). assert (Rsum (map (fun j => nth j ps 0%R) l) <= 0)%R by auto. lra. }
        apply AA. intros j I. apply in_seq in I. lia. }
      rewrite P3 in H by auto. unfold Rdiv in H. assert (0 < / Rsum (map (weight unweighted) bs))%R by (apply Rinv_0_lt_compat; auto). nra.
  - intros j Hj. specialize (A4 j Hj). rewrite !P3 in A4 by lia. apply Rmult_lt_reg_r with (/ Rsum (map (weight unweighted) bs))%R; [apply Rinv_0_lt_compat; auto|exact A4].
Qed.
(** A member that was always wrong has more votes than any member that was wrong once and right afterwards. *)
Theorem arf_zero_power_refuted p : (0 < p < 1)%R -> (power false p < power false 0)%R.
Proof. intros H. unfold power. destruct (Req_EM_T p 0); [lra|]. destruct (Req_EM_T 0 0); lra. Qed.

(** *** A forest for the examples: a tree answers the label it last learnt more than once (0 at first); detectors count the errors and report
    at a given count; the draws are given.  The evaluator is that of the library, over the rationals. *)
Definition tree : Type := list (Z * Z).
Definition tree_label (b : tree) : Z := match find (fun yk => (2 <=? snd yk)%Z) b with None => 0%Z | Some (y, _) => y end.
Definition draw (g : list Z) : Z * list Z := match g with [] => (1%Z, []) | k :: g => (k, g) end.
Definition toy (score : cpe Q -> res Q) n seed (drift warning : option (nat * nat)) (os : list (arf_op Z Q)) := arf_run (T := Q) (R := unit)
  (fun _ => ([], tt)) (fun b _ _ y _ k => Ok ((y, k) :: b, tt)) (fun b _ => Ok (tree_label b)) (fun b _ => Ok [(tree_label b, 1%Q)]) (fun _ _ => ([], tt)) (fun _ => [])
  (fun d (wrong : bool) => (fst d, if wrong then S (snd d) else snd d)) (fun d => Nat.leb (fst d) (snd d)) (fun d => (fst d, 0))
  (cpe_new 2) cpe_add score draw seed (fun _ => 3) (fun _ => 2%Z) (fun _ => 2%Z) (fun (_ : Q) _ => 1%Z) n drift warning false (arf_init seed MAuto) os.
Definition toy_proba (score : cpe Q -> res Q) n (s : forest Q tree unit (nat * nat) (cpe Q) (list Z)) : res (list Q) :=
  let '(ms, s1) := init_ensemble (T := Q) (fun _ => ([], tt)) (cpe_new 2) (fun _ : Z => 3) (fun _ => 2%Z) (fun _ => 2%Z) (fun (_ : Q) _ => 1%Z) n None None 0%Z s in
  arf_proba_row (fun b _ => Ok [(tree_label b, 1%Q)]) score false s1 ms 0%Z.
(** Nine rows with label 1; the first tree learns them all and is right from the second row on, the second tree learns nothing and is always wrong.
    The answer is that of the second. *)
Theorem arf_vote_refuted : exists r, toy cpe_accuracy 2 [2; 0; 2; 0; 2; 0; 2; 0; 2; 0; 2; 0; 2; 0; 2; 0; 2; 0]%Z None None [AFit (repeat (0, 1)%Z 9) (Some [0; 1]%Z) None] = Ok r /\
  toy_proba cpe_accuracy 2 r = Ok [9 # 17; 8 # 17]%Q.
Proof.
  match goal with |- exists r, ?a = Ok r /\ _ => assert (A : bind a (toy_proba cpe_accuracy 2) = Ok [9 # 17; 8 # 17]%Q) by (vm_compute; reflexivity); destruct a as [r|]; [exists r; auto|discriminate] end.
Qed.
(** With kappa as performance a tree can have negative votes.  Here the first tree, with kappa 1/5, answers 1, and the second, with kappa -3/5, answers 0:
    the forest answers 0, and its probabilities are 3/2 and -1/2. *)
Theorem arf_kappa_refuted : exists r, toy cpe_kappa 2 [0; 2; 0; 2; 2; 0; 0; 0]%Z None None [AFit [(0, 1); (0, 0); (0, 1); (0, 1)]%Z (Some [0; 1]%Z) None] = Ok r /\
  toy_proba cpe_kappa 2 r = Ok [3 # 2; -1 # 2]%Q.
Proof.
  match goal with |- exists r, ?a = Ok r /\ _ => assert (A : bind a (toy_proba cpe_kappa 2) = Ok [3 # 2; -1 # 2]%Q) by (vm_compute; reflexivity); destruct a as [r|]; [exists r; auto|discriminate] end.
Qed.
(** A tree answers 2, a label greater than the classes announced with the first call. *)
Theorem arf_unknown_label_met : exists r, toy cpe_accuracy 1 [2]%Z None None [AFit [(0, 2)]%Z (Some [0; 1]%Z) None] = Ok r /\ toy_proba cpe_accuracy 1 r = Raise IndexError.
Proof.
  match goal with |- exists r, ?a = Ok r /\ _ => assert (A : match a with Ok r => toy_proba cpe_accuracy 1 r | Raise e => Raise ValueError end = Raise IndexError) by (vm_compute; reflexivity); destruct a as [r|]; [exists r; auto|discriminate] end.
Qed.
(** A run with a drift: eleven rows with the labels 0 and 1 in turn.  The second wrong answer (row 4) is a warning and the third (row 6) a drift, after which the tree is the
    background tree, made at row 4; the second wrong answer of that tree (row 10) is a warning again, and there is a background tree. *)
Definition story (m : member tree unit (nat * nat) (cpe Q)) := (m_tree m, m_created m, m_last_drift m, m_last_warn m, (m_drifts m, m_warns m), option_map (fun b => (b_tree b, b_created b)) (m_bg m)).
Example arf_trees_applies : match toy cpe_accuracy 1 [1; 1; 2]%Z (Some (3, 0)) (Some (2, 0)) [AFit [(0, 0); (0, 1); (0, 0); (0, 1); (0, 0); (0, 1); (0, 0); (0, 1); (0, 0); (0, 1); (0, 0)]%Z (Some [0; 1]%Z) None] with
  | Ok s => option_map (map story) (f_members s) | Raise _ => None end =
  Some [([(0, 1); (1, 1); (0, 1); (1, 1); (0, 1); (1, 1); (0, 1)]%Z, 4, 6, 10, (1, 2), Some ([(0, 1)]%Z, 10))].
Proof. vm_compute. reflexivity. Qed.
Example arf_votes_applies : let bs := [([(0%Z, 1%R); (1%Z, 3%R)], (1 / 2)%R); ([(1%Z, 2%R)], 0%R)] in
  voices false bs 0 = (1 / 8)%R /\ voices false bs 1 = (11 / 8)%R /\ (Rsum (map (weight false) bs) = 3 / 2)%R.
Proof.
  cbv zeta. unfold voices, voice, weight, share, power, total, votes_for. simpl.
  repeat match goal with |- context[Rlt_dec ?a ?b] => destruct (Rlt_dec a b); try lra end.
  destruct (Req_EM_T (1 / 2) 0); [lra|]. destruct (Req_EM_T 0 0); [|lra]. repeat split; lra.
Qed.

Print Assumptions arf_rows_counted.
Print Assumptions arf_trees.
Print Assumptions arf_background.
Print Assumptions arf_evaluator.
Print Assumptions arf_detectors.
Print Assumptions arf_weights_refuted.
Print Assumptions arf_weight_array_refuted.
Print Assumptions arf_no_rows.
Print Assumptions arf_max_features.
Print Assumptions arf_reset_refuted.
Print Assumptions arf_unknown_label_refuted.
Print Assumptions arf_votes.
Print Assumptions arf_zero_power_refuted.
Print Assumptions arf_vote_refuted.
Print Assumptions arf_kappa_refuted.
Print Assumptions arf_unknown_label_met.
