(** C206 - C210: half-space trees. *)
From Coq Require Import List ZArith Reals Bool Lia Lra QArith.
From Verif Require Import Base.Py Base.Num Model.Adwin Model.HalfSpaceTrees Spec.Lists Spec.HalfSpaceSpec Proofs.HalfSpaceProofs Proofs.KnnProofs.
Import ListNotations.
Local Open Scope nat_scope.
Set Implicit Arguments.

(** C206: after every history of training calls, every reference mass is the number of instances of the reference window that pass the
    node, and every latest mass the number of instances since then. *)
Theorem hst_masses T G (N : Num T) (uniform : G -> T * G) randint seed w depth n_est nf bs s : 0 < w ->
  hst_run uniform randint seed w depth n_est nf bs hst_init = Ok s ->
  forall t p node, In t (firstn n_est (h_ens s)) -> at_path t p = Some node ->
  ref_of node = count (goes t p) (reference w (concat bs)) /\ cur_of node = count (goes t p) (latest w (concat bs)).
Proof.
  intros W H t p node Hi Hp. eapply (hst_run_inv w n_est W (fun _ => True)) in H; [|auto|intros; apply Forall_forall; auto|apply hst_init_ok]. destruct H as [(_ & F & _ & _) _]. rewrite Forall_forall in F. destruct (F t Hi) as [C _]. apply C. exact Hp.
Qed.
(** The reference window holds w consecutive instances, the last full window, once more than 2w instances have come. *)
Theorem hst_reference_window A w (xs : list A) : 0 < w -> 2 * w < length xs ->
  exists k, (length xs - 2 * w <= k) /\ k + w <= length xs /\ reference w xs = firstn w (skipn k xs) /\ latest w xs = skipn (k + w) xs /\ length (latest w xs) < w.
Proof.
  intros W L. unfold reference, latest. pose proof (Nat.div_mod (length xs - 1) w ltac:(lia)) as D. pose proof (Nat.mod_upper_bound (length xs - 1) w ltac:(lia)) as U. destruct ((length xs - 1) / w) as [|[|q]]; [lia..|].
  exists (S q * w + 1). rewrite skipn_length. replace (S q * w + 1 + w) with (S (S q) * w + 1) by (cbn; lia). repeat split; cbn in *; lia.
Qed.
(** REFUTED: the first reference window is not the first w instances: the first one is forgotten, and from w + 1 to 2w instances the
    reference masses count a single instance. *)
Theorem hst_window_refuted T G (N : Num T) (uniform : G -> T * G) randint seed w depth n_est nf bs s : 0 < w ->
  hst_run uniform randint seed w depth n_est nf bs hst_init = Ok s -> forall t, In t (firstn n_est (h_ens s)) ->
  let n := length (concat bs) in ref_of t = (if n <=? w then n - 1 else if n <=? 2 * w then 1 else w).
Proof.
  intros W H t Hi n. destruct (@hst_masses _ _ _ _ _ _ _ _ _ _ _ _ W H t [] t Hi eq_refl) as [E _]. rewrite E. unfold count. assert (Ef : forall l : list (list T), filter (fun _ => true) l = l) by (induction l as [|y l IH]; cbn; congruence).
  rewrite (filter_ext (goes t []) (fun _ => true)) by reflexivity. rewrite Ef. subst n. set (xs := concat bs). unfold reference. pose proof (Nat.div_mod (length xs - 1) w ltac:(lia)) as D. pose proof (Nat.mod_upper_bound (length xs - 1) w ltac:(lia)) as U. set (q := (length xs - 1) / w) in *.
  destruct (Nat.leb_spec (length xs) w) as [L1|L1].
  - assert (q = 0) as -> by (destruct q; [reflexivity|cbn in D; lia]). destruct xs; cbn [tl length] in *; lia.
  - destruct (Nat.leb_spec (length xs) (2 * w)) as [L2|L2].
    + assert (q = 1) as -> by (destruct q as [|[|q]]; [lia|reflexivity|cbn in D; lia]). rewrite firstn_length, skipn_length. lia.
    + destruct q as [|[|q]]; [lia..|]. rewrite firstn_length, skipn_length. cbn in *. lia.
Qed.
(** C207, REFUTED: a detector that has left its learning phase should tell instances apart.  From w + 2 to 2w instances, with a size limit
    of at least 1, every instance at all gets the same probability. *)
Local Open Scope R_scope.
Lemma run_full G (uniform : G -> R * G) randint seed w depth n_est nf bs s : (0 < w)%nat ->
  hst_run uniform randint seed w depth n_est nf bs hst_init = Ok s -> hst_ok w n_est (full (depth - 1)) (concat bs) s /\ (bs <> [] -> (n_est <= length (h_ens s))%nat).
Proof.
  intros W H. eapply (hst_run_inv w n_est W (full (depth - 1))) in H; [| | |apply hst_init_ok].
  - destruct H as [I1 I2]. split; [exact I1|auto].
  - intros x k t F. apply learn_full. exact F.
  - intros g ts g' E. pose proof (build_trees_ok w W uniform randint g depth nf n_est g ts g' E) as (_ & F & _). eapply Forall_impl; [|exact F]. intros t [Hf _]; exact Hf.
Qed.
Theorem hst_blind_refuted G (uniform : G -> R * G) randint seed w depth n_est nf limit bs s x : (0 < w)%nat -> (0 < depth)%nat -> (0 < n_est)%nat -> (1 <= limit)%nat ->
  hst_run uniform randint seed w depth n_est nf bs hst_init = Ok s -> (w + 2 <= length (concat bs) <= 2 * w)%nat ->
  let a := 1 - 2 / (INR w * 2 ^ depth) in proba_row w depth n_est limit s x = (1 - a, a).
Proof.
  intros W D Ne L H Hn a. assert (Nb : bs <> []) by (intros ->; cbn in Hn; lia). pose proof (@run_full _ _ _ _ _ _ _ _ _ _ W H) as [I Ge]. specialize (Ge Nb). destruct (proba_row_R w depth n_est limit (concat bs) s x W D Ne Ge I) as [E _]. rewrite E. destruct (Nat.leb_spec (length (concat bs)) (S w)); [lia|].
  rewrite (mean_const (fun t => 1 - score limit t 1 x / (INR w * 2 ^ depth)) a); [reflexivity| |].
  - intros Z. assert (length (firstn n_est (h_ens s)) = n_est) by (rewrite firstn_length; lia). rewrite Z in *. cbn in *. lia.
  - intros t Ht. pose proof (@hst_window_refuted _ _ _ _ _ _ _ _ _ _ _ _ W H t Ht) as Er. cbv zeta in Er. destruct (Nat.leb_spec (length (concat bs)) w); [lia|]. destruct (Nat.leb_spec (length (concat bs)) (2 * w)); [|lia]. unfold a. f_equal. f_equal.
    destruct t as [c r|at_ v c r lt rt]; cbn [ref_of score] in *; subst r; [|destruct (Nat.leb_spec 1 limit); [|lia]]; rewrite pow2_R; cbn [pow]; rewrite nat_R; cbn [INR nmul NumR]; lra.
Qed.
(** C208: the probabilities.  Before any training call both are 0; until w + 2 instances were seen both are a half; afterwards the
    probability of an anomaly is the mean over the trees of 1 - score / (w 2^depth), between 0 and 1, and the two add up to 1. *)
Theorem hst_probabilities G (uniform : G -> R * G) randint seed w depth n_est nf limit bs s x : (0 < w)%nat -> (0 < depth)%nat -> (0 < n_est)%nat ->
  hst_run uniform randint seed w depth n_est nf bs hst_init = Ok s ->
  (bs = [] -> proba_row w depth n_est limit s x = (0, 0)) /\
  (bs <> [] -> exists a, proba_row w depth n_est limit s x = (1 - a, a) /\ 0 <= a <= 1 /\
    ((length (concat bs) <= w + 1)%nat -> a = 1 / 2) /\
    ((w + 1 < length (concat bs))%nat -> exists scores, length scores = n_est /\ Forall2 (fun t v => scored limit t x v) (firstn n_est (h_ens s)) scores /\
      a = Rmean (map (fun v => 1 - v / (INR w * 2 ^ depth)) scores))).
Proof.
  intros W D Ne H. split.
  - intros ->. cbn in H. injection H as <-. unfold proba_row. cbn [h_ens hst_init]. rewrite firstn_nil. reflexivity.
  - intros Nb. pose proof (@run_full _ _ _ _ _ _ _ _ _ _ W H) as [I Ge]. specialize (Ge Nb). destruct (proba_row_R w depth n_est limit (concat bs) s x W D Ne Ge I) as [E Ra]. cbv zeta in E, Ra. eexists; split; [exact E|]. split; [exact Ra|]. split.
    + intros Hl. destruct (Nat.leb_spec (length (concat bs)) (S w)); [reflexivity|lia].
    + intros Hl. destruct (Nat.leb_spec (length (concat bs)) (S w)); [lia|]. exists (map (fun t => score limit t 1 x) (firstn n_est (h_ens s))). split; [rewrite map_length, firstn_length; lia|]. split; [|rewrite map_map; reflexivity].
      generalize (firstn n_est (h_ens s)). intros l. induction l as [|t l IH]; cbn [map]; constructor; [|exact IH]. destruct (score_scored limit t x 1) as (p & n & G1 & G2 & G3 & G4 & G5). exists p, n. repeat split; assumption.
Qed.
(** C209: predict.  One instance is called an anomaly just when its probability exceeds the threshold. *)
Theorem hst_predict_one T (N : Num T) w depth n_est limit threshold s x :
  hst_predict (T := T) w depth n_est limit threshold s [x] = [if (threshold <? snd (proba_row w depth n_est limit s x))%num then 1%Z else 0%Z].
Proof. reflexivity. Qed.
(** REFUTED for batches: all instances get the answer for the first. *)
Theorem hst_predict_refuted T (N : Num T) w depth n_est limit threshold s x xs :
  hst_predict (T := T) w depth n_est limit threshold s (x :: xs) = repeat (hd 0%Z (hst_predict w depth n_est limit threshold s [x])) (S (length xs)).
Proof.
  unfold hst_predict, hst_proba. cbn [map hd]. set (v := if _ : bool then 1%Z else 0%Z). cbn [repeat]. f_equal. induction xs as [|y xs IH]; cbn [map repeat length]; [reflexivity|]. f_equal. exact IH.
Qed.
(** C210: the trees.  After every history the trees are full, with depth - 1 levels of splits, each split cuts the region of its node
    in two, and the work range of every feature contains [0, 1]. *)
Theorem hst_trees G (uniform : G -> R * G) randint seed w depth n_est nf bs s : (0 < w)%nat ->
  (forall g, 0 <= fst (uniform g) < 1) -> (forall k g, (0 < k)%nat -> (fst (randint k g) < k)%nat) ->
  hst_run uniform randint seed w depth n_est nf bs hst_init = Ok s ->
  (bs <> [] -> length (firstn n_est (h_ens s)) = n_est) /\
  forall t, In t (firstn n_est (h_ens s)) -> full (depth - 1) t /\ splits_below nf t /\ exists lo hi : nat -> R, (forall i, (i < nf)%nat -> work_range (lo i) (hi i) /\ lo i <= 0 /\ 1 <= hi i) /\ cuts lo hi t.
Proof.
  intros W U B H. split; [intros Nb; rewrite firstn_length; pose proof (@run_full _ _ _ _ _ _ _ _ _ _ W H) as [_ Ge]; specialize (Ge Nb); lia|]. intros t Ht. eapply (hst_run_inv w n_est W (shaped depth nf)) in H; [|apply shaped_learn|intros; eapply build_trees_shaped; eauto|apply hst_init_ok].
  destruct H as [(_ & F & _) _]. rewrite Forall_forall in F. destruct (F t Ht) as [_ (F1 & F2 & F3)]. split; [exact F1|]. split; [|destruct F3 as (lo & hi & B1 & B2); exists lo, hi; split; [|exact B2]; intros i Hi; split; [apply B1; exact Hi|apply work_range_unit; apply B1; exact Hi]].
  clear -F2. revert F2. induction t as [c r|a v c r lt IHl rt IHr]; cbn [splits_below]; [auto|]. intros (A1 & A2 & A3). split; [lia|auto].
Qed.
(** REFUTED: the last feature is never looked at, whatever the random draws: instances that differ in it alone get the same answer. *)
Theorem hst_last_feature_refuted G (uniform : G -> R * G) randint seed w depth n_est nf limit bs s x y : (0 < w)%nat ->
  (forall g, 0 <= fst (uniform g) < 1) -> (forall k g, (0 < k)%nat -> (fst (randint k g) < k)%nat) ->
  hst_run uniform randint seed w depth n_est nf bs hst_init = Ok s -> (forall i, (i < nf - 1)%nat -> nth i x 0 = nth i y 0) ->
  proba_row w depth n_est limit s x = proba_row w depth n_est limit s y.
Proof.
  intros W U B H E. eapply (hst_run_inv w n_est W (shaped depth nf)) in H; [|apply shaped_learn|intros; eapply build_trees_shaped; eauto|apply hst_init_ok]. destruct H as [(_ & F & _) _]. unfold proba_row.
  assert (Em : forall l : bool, map (tree_proba limit l (nofZ (Z.of_nat w) * pow2 depth)%num x) (firstn n_est (h_ens s)) = map (tree_proba limit l (nofZ (Z.of_nat w) * pow2 depth)%num y) (firstn n_est (h_ens s))).
  { intros l. apply map_ext_in. intros t Ht. rewrite Forall_forall in F. destruct (F t Ht) as [_ (_ & S1 & _)]. unfold tree_proba. rewrite (@score_ext R NumR limit (nf - 1) t 1 x y S1 E). reflexivity. }
  rewrite Em. reflexivity.
Qed.
(** REFUTED: the splits do not halve the region of their node: the lower bounds set in the left subtree are still there in the right one. *)
Theorem hst_halves_refuted : exists (randint : nat -> nat -> nat * nat), (forall k g, (0 < k)%nat -> (fst (randint k g) < k)%nat) /\
  forall uniform : nat -> R * nat, (forall g, 0 <= fst (uniform g) < 1 /\ snd (uniform g) = g) ->
  exists s t, hst_run uniform randint 0%nat 250 3 1 3 [[]] hst_init = Ok s /\ h_ens s = [t] /\ ~ exists lo hi, halves lo hi t.
Proof.
  exists (fun k g => (Nat.min (k - 1) (Nat.min g 1), S g)). split; [intros; cbn; lia|]. intros uniform U. cbn [hst_run]. unfold hst_partial_fit. cbn [h_seen hst_init Nat.eqb build_trees fit_rows].
  destruct (work_space uniform 3 0%nat) as [[mins maxs] g1] eqn:Ew. assert (Eg : g1 = 0%nat).
  { revert Ew. cbn [work_space]. pose proof (U 0%nat) as [_ E1]. destruct (uniform 0%nat) as [u g] eqn:Eu. cbn [snd] in E1. subst g. rewrite Eu, Eu. intros E. injection E as _ _ <-. reflexivity. }
  subst g1. apply work_space_R in Ew; [|apply U]. destruct Ew as (L1 & L2 & B). destruct mins as [|a0 [|a1 [|a2 [|]]]]; try discriminate. destruct maxs as [|b0 [|b1 [|b2 [|]]]]; try discriminate.
  cbn [build_tree build bind Nat.leb Nat.sub Nat.min set_nth nth fst]. do 2 eexists. split; [reflexivity|]. split; [reflexivity|]. intros (lo & hi & Hh). destruct (work_range_unit _ _ (B 1%nat ltac:(lia))) as [B1 B2]. cbn [nth] in B1, B2. cbn [halves] in Hh. unfold set_at in Hh. cbn [Nat.eqb] in Hh. destruct Hh as (_ & (E1 & _) & (E2 & _)). rewrite <- E1 in E2. cbn [nadd ndiv nofZ NumR] in E2. lra.
Qed.
(** C211: when training works.  It never fails with a positive window, a positive depth, and two features or depth 1. *)
Theorem hst_never_fails T G (N : Num T) (uniform : G -> T * G) randint seed w depth n_est nf bs : (0 < w)%nat -> (0 < depth)%nat -> (2 <= nf \/ depth = 1)%nat ->
  exists s, hst_run uniform randint seed w depth n_est nf bs hst_init = Ok s.
Proof. intros. apply hst_run_total; assumption. Qed.
(** REFUTED: it fails with a single feature. *)
Theorem hst_one_feature_refuted T G (N : Num T) (uniform : G -> T * G) randint seed w depth n_est b bs : (2 <= depth)%nat -> (0 < n_est)%nat ->
  hst_run uniform randint seed w depth n_est 1 (b :: bs) hst_init = Raise ValueError.
Proof.
  intros D Ne. cbn [hst_run]. unfold hst_partial_fit. cbn [h_seen hst_init Nat.eqb]. destruct n_est as [|k]; [lia|]. cbn [build_trees]. destruct (work_space uniform 1 seed) as [[mins maxs] g]. unfold build_tree. destruct depth as [|[|d]]; [lia..|]. reflexivity.
Qed.

(** *** Non-vacuity *)
Definition ex_uniform (g : nat) : Q * nat := (1#2, g)%Q.
Definition ex_randint (k g : nat) : nat * nat := (Nat.modulo g k, S g).
Definition ex_rows : list (list Q) := [[0;0;0];[1;0;1];[0;1;0];[1;1;1];[1;0;0];[0;0;1];[1;1;0];[0;1;1]]%Q.
Example ex_run : exists s, hst_run ex_uniform ex_randint 0%nat 3 3 2 3 [firstn 5 ex_rows; skipn 5 ex_rows] hst_init = Ok s /\ length (h_ens s) = 2%nat /\ map ref_of (h_ens s) = [3;3]%nat.
Proof. eexists. split; [vm_compute; reflexivity|]. split; reflexivity. Qed.
Example ex_two_rows : exists s, hst_run ex_uniform ex_randint 0%nat 3 3 2 3 [ex_rows] hst_init = Ok s /\
  hst_predict 3 3 2 0 (1#2) s [[0;0;0]; [1;1;1]]%Q <> hst_predict 3 3 2 0 (1#2) s [[0;0;0]]%Q ++ hst_predict 3 3 2 0 (1#2) s [[1;1;1]]%Q.
Proof. eexists. split; [vm_compute; reflexivity|]. vm_compute. discriminate. Qed.
Print Assumptions hst_masses. Print Assumptions hst_window_refuted. Print Assumptions hst_blind_refuted. Print Assumptions hst_probabilities. Print Assumptions hst_trees. Print Assumptions hst_last_feature_refuted. Print Assumptions hst_halves_refuted. Print Assumptions hst_never_fails.
