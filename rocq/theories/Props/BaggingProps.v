(** Bagging ensembles: OzaBaggingClassifier, OzaBaggingADWINClassifier and LeveragingBaggingClassifier.  [L] is any base
    estimator, [base] the object given by the user, [pois], [rand], [coin] any source of random numbers. *)
From Coq Require Import List ZArith QArith Bool Reals Lra Lia.
From Verif Require Import Base.Py Base.Num Spec.Lists Spec.NaiveBayesSpec Spec.BaggingSpec Model.Adwin Model.Knn Model.NaiveBayes
  Model.Learner Model.LearnerInstances Model.Generators Model.Bagging Proofs.ListFacts Proofs.KnnProofs Proofs.NaiveBayesProofs Proofs.BaggingProofs.
Import ListNotations.
Local Open Scope R_scope.

(** ** OzaBaggingClassifier *)
(** C144: the first partial_fit must name the classes, later ones may name the same set only (order and repetitions do not
    matter); otherwise ValueError, whatever the samples.  After a fit the ensemble has max(n_estimators, number of classes)
    members, after any sequence of calls. *)
Theorem oza_classes_contract : forall {X T B G} {N : Num T} (L : learner X T B) pois base n (s : oza B G) rows classes sw,
  oza_reached L pois base n s ->
  let contract := match oz_classes s, classes with None, None => False | Some c, Some c' => same_labels c c' | _, _ => True end in
  (~ contract -> oza_fit L pois base s rows classes sw = Raise ValueError) /\
  (forall s', oza_fit L pois base s rows classes sw = Ok s' -> contract /\ exists cl, oz_classes s' = Some cl /\
     cl = match oz_classes s, classes with Some c, _ => c | None, Some c => c | None, None => [] end /\ length (oz_ens s') = Nat.max n (length cl)) /\
  (contract -> rows = [] -> exists s', oza_fit L pois base s rows classes sw = Ok s').
Proof.
  intros X T B G N L pois base n s rows classes sw R contract. subst contract. split; [|split].
  - intros C. unfold oza_fit, check_classes. destruct (oz_classes s) as [c|], classes as [c'|]; try (exfalso; tauto); [|reflexivity].
    destruct (same_set c c') eqn:E; [apply same_set_ok in E; contradiction|reflexivity].
  - intros s' H. destruct (oza_fit_size L pois base n s rows classes sw s' (reached_sized L pois base n s R) H) as (cl & E1 & E2 & E3).
    apply check_classes_ok in E2. destruct (oz_classes s) as [c|], classes as [c'|]; try discriminate.
    + destruct E2 as [-> E2]. eauto 6.
    + destruct E2 as [-> _]. eauto 6.
    + injection E2 as ->. eauto 6.
  - intros C ->. unfold oza_fit. assert (exists cl, check_classes (oz_classes s) classes = Ok cl) as (cl & Ec).
    { destruct (oz_classes s) as [c|], classes as [c'|]; cbn [check_classes]; try (exfalso; tauto); eauto. apply same_set_ok in C. rewrite C. eauto. }
    rewrite Ec. cbn. eauto.
Qed.
Print Assumptions oza_classes_contract.

(** C145: a partial_fit on a batch trains every member on the rows of the batch in order, one row at a time, each repeated as
    many times as the Poisson(1) number drawn for this row and this member; for each row the members draw in turn.  Members
    that the number of classes adds start from the reset base estimator. *)
Theorem oza_training : forall {X T B G} {N : Num T} (L : learner X T B) pois base (s : oza B G) rows classes sw s',
  oza_fit L pois base s rows classes sw = Ok s' ->
  exists cl ks, oz_classes s' = Some cl /\
    let before := oz_ens s ++ repeat (lr_reset L base) (length cl - length (oz_ens s)) in
    draws (pois n1) (length rows * length before) (oz_rng s) = (ks, oz_rng s') /\ length (oz_ens s') = length before /\
    forall i b, nth_error before i = Some b -> exists b', nth_error (oz_ens s') i = Some b' /\
      foldM (fun b row => lr_fit L b [row] classes sw) (repeated rows (turns (length before) (length rows) i ks)) b = Ok b'.
Proof.
  intros X T B G N L pois base s rows classes sw s' H. unfold oza_fit in H. apply bind_Ok in H as (cl & Ec & H). apply bind_Ok in H as ([l g] & E & H). injection H as <-.
  apply (train_rows pois (fun b row => lr_fit L b [row] classes sw)) in E as (ks & D & Ln & Q). exists cl, ks. cbn [oz_classes oz_ens oz_rng]. auto.
Qed.
Print Assumptions oza_training.

(** C146: the probability of a label is its share in the sum of the answers of all members; a row with a positive sum adds up
    to 1, a row without is the sum itself.  predict gives the first label of greatest probability. *)
Theorem oza_probabilities : forall {X B G} (L : learner X R B) (s : oza B G) classes xs ps l',
  oz_classes s = Some classes -> classes <> [] -> xs <> [] -> oz_ens s <> [] -> answers L xs (oz_ens s) ps l' -> Forall (fits classes xs) ps ->
  exists P, oza_proba L s xs = Ok (P, mk_oza l' (Some classes) (oz_rng s)) /\ length P = length xs /\
  (forall n c, (n < length xs)%nat ->
     (0 < vote_total ps n -> nth c (nth n P []) 0 = vote_sum ps n c / vote_total ps n /\ Rsum (nth n P []) = 1) /\
     (vote_total ps n <= 0 -> nth c (nth n P []) 0 = vote_sum ps n c)) /\
  ((forall n, (n < length xs)%nat -> 0 < vote_total ps n) ->
     exists q, oza_predict L s xs = Ok (q, mk_oza l' (Some classes) (oz_rng s)) /\ Forall2 first_greatest P q).
Proof.
  intros X B G L s classes xs ps l' Ec NC NX NL A F. destruct (bag_sums L classes xs (oz_ens s) ps l' NC NX NL A F) as (acc & E & Ln & Q1 & Q2).
  exists (map normalize acc). unfold oza_predict, bag_predict, oza_proba, bag_proba. rewrite Ec, E. cbn [bind]. rewrite Ln, Nat.ltb_irrefl. cbn [bind].
  assert (Nn : forall n, (n < length xs)%nat -> nth n (map normalize acc) [] = normalize (nth n acc [])).
  { intros n Hn. rewrite (nth_indep _ [] (normalize [])) by now rewrite map_length, Ln. apply map_nth. }
  split; [reflexivity|]. split; [now rewrite map_length|]. split.
  - intros n c Hn. rewrite Nn by auto. rewrite normalize_nth, Q1, Q2. split; intros Ht.
    + destruct (Rlt_dec 0 (vote_total ps n)); [|lra]. split; auto. apply normalize_sum. now rewrite Q2.
    + destruct (Rlt_dec 0 (vote_total ps n)); [lra|auto].
  - intros Ht. destruct (argmax_rows (map normalize acc)) as (q & Eq & Fq).
    { rewrite Forall_forall. intros r Hr. destruct (In_nth _ _ [] Hr) as (n & Hn & <-). rewrite map_length, Ln in Hn. rewrite Nn by auto. specialize (Ht n Hn). rewrite <- Q2 in Ht. intros C.
      apply (f_equal (@length _)) in C. rewrite normalize_len in C. destruct (nth n acc []); [cbn in Ht; lra|discriminate]. }
    rewrite Eq. cbn [bind]. eauto.
Qed.
Print Assumptions oza_probabilities.

(** C146, a member that fails: when one member raises ValueError or TypeError, the answers of the others are dropped; every
    row is [0.0] and every predicted label is 0. *)
Theorem oza_failed_member_silences : forall {X B G} (L : learner X R B) (s : oza B G) classes xs pre b post ps pre' e,
  oz_classes s = Some classes -> classes <> [] -> xs <> [] -> oz_ens s = pre ++ b :: post -> answers L xs pre ps pre' -> Forall (fits classes xs) ps ->
  lr_proba L b xs = Raise e -> e = ValueError \/ e = TypeError ->
  oza_proba L s xs = Ok (map (fun _ => [0]) xs, mk_oza (pre' ++ b :: post) (Some classes) (oz_rng s)) /\
  oza_predict L s xs = Ok (map (fun _ => 0%nat) xs, mk_oza (pre' ++ b :: post) (Some classes) (oz_rng s)).
Proof.
  intros X B G L s classes xs pre b post ps pre' e Ec NC NX Es A F Hb He.
  assert (Q : sum_probas L (Some classes) (length xs) xs (oz_ens s) [] = Ok (None, pre' ++ b :: post)).
  { rewrite Es. clear Es. generalize (@nil (list R)) as acc. revert ps pre' A F. induction pre as [|b0 pre IH]; intros ps pre' [A1 A2] F acc.
    - inversion A1 as [E1 E2|]. destruct ps as [|p ps], pre' as [|b' pre']; try discriminate. cbn [app sum_probas]. rewrite Hb. destruct He as [-> | ->]; reflexivity.
    - destruct ps as [|p ps], pre' as [|b' pre']; try discriminate; [inversion A1|]. cbn [combine] in A1. inversion A1 as [|? ? ? ? P1 A1']; subst. injection A2 as A2. inversion F as [|? ? Fp0 F']; subst. apply fits_hd in Fp0 as [Lp Fp].
      cbn [app sum_probas]. rewrite P1. destruct p as [|row0 p0]; [contradiction|]. destruct classes as [|c cs]; [congruence|]. specialize (Fp c cs eq_refl).
      destruct (Z.ltb_spec (fold_left Z.max cs c + 1) (Z.of_nat (length row0))) as [|_]; [lia|]. rewrite Lp, Nat.ltb_irrefl. rewrite (IH ps pre' (conj A1' A2) F'). reflexivity. }
  unfold oza_predict, bag_predict, oza_proba, bag_proba. rewrite Ec, Q. cbn [bind]. split; [reflexivity|].
  assert (M : mapM np_argmax (map (fun _ : X => [@n0 R NumR]) xs) = Ok (map (fun _ => 0%nat) xs)) by (clear; induction xs as [|x xs IH]; cbn [map mapM]; auto; rewrite IH; reflexivity). rewrite M. reflexivity.
Qed.
Print Assumptions oza_failed_member_silences.

(** C147, refuted: reset does not give a new object.  OzaBagging keeps the classes, so that after a reset the classes of
    another problem are refused which a new object takes; OzaBaggingADWIN keeps its trained estimators and its classes too. *)
Theorem oza_reset_refuted : forall {X T B G D} {N : Num T} (L : learner X T B) pois base n (P : edet T D) (s : oza B G) (sd : ozad B G D) g c c' rows sw,
  oz_classes s = Some c -> ~ same_labels c c' ->
  oza_fit L pois base (oza_reset L base n s g) rows (Some c') sw = Raise ValueError /\
  (exists s', oza_fit L pois base (oza_new L base n g) [] (Some c') sw = Ok s') /\
  map fst (od_ens (ozad_reset P sd)) = map fst (od_ens sd) /\ od_classes (ozad_reset P sd) = od_classes sd.
Proof.
  intros X T B G D N L pois base n P s sd g c c' rows sw Ec NS. split; [|split; [|split]].
  - unfold oza_fit, oza_reset. cbn [oz_classes]. rewrite Ec. cbn [check_classes]. destruct (same_set c c') eqn:E; [apply same_set_ok in E; contradiction|reflexivity].
  - unfold oza_fit. cbn. eauto.
  - unfold ozad_reset. cbn [od_ens]. rewrite map_map. reflexivity.
  - reflexivity.
Qed.
Print Assumptions oza_reset_refuted.

(** ** OzaBaggingADWINClassifier *)
(** C148: a partial_fit on a batch trains every member on the whole batch, K times, K drawn from Poisson(1) once per member and
    call; then its ADWIN gets 1 for every row that the member predicts right and 0 for every wrong one.  Then either nothing
    else happens, or a member whose ADWIN estimate (so: of accuracy) is the greatest is reset - refuting "the worst classifier
    is reset" of the documentation. *)
Theorem ozad_worst_reset_refuted : forall {X B G D} (L : learner X R B) pois base (P : edet R D) (s : ozad B G D) rows classes sw s',
  ozad_fit L pois base P s rows classes sw = Ok s' ->
  exists cl ks after, od_classes s' = Some cl /\
    let before := od_ens s ++ repeat (lr_reset L base, e_new P) (length cl - length (od_ens s)) in
    draws (pois 1) (length before) (od_rng s) = (ks, od_rng s') /\ length after = length before /\
    (forall i m, nth_error before i = Some m -> exists m', nth_error after i = Some m' /\
       ((exists rose, watched L P Z.eqb (nth i ks 0%nat) (fst m) rows classes sw m m' rose)
        \/ (snd m' = snd m /\ times (nth i ks 0%nat) (fun b => lr_fit L b rows classes sw) (fst m) = Ok (fst m') /\ lr_predict L (fst m') (map fst rows) = Raise ValueError))) /\
    (od_ens s' = after \/
     exists i m, nth_error after i = Some m /\ (forall m', In m' after -> e_est P (snd m') <= e_est P (snd m)) /\ replaced L P i after (od_ens s')).
Proof.
  intros X B G D L pois base P s rows classes sw s' H. unfold ozad_fit in H. apply bind_Ok in H as (cl & Ec & H). cbv zeta in H. apply bind_Ok in H as ([[l change] g] & E & H). injection H as <-.
  apply (ozad_members_ok L P pois) in E as (ks & Dr & Ln & Q). exists cl, ks, l. cbn [od_classes od_ens od_rng]. split; auto. split; [exact Dr|]. split; [exact Ln|]. split; [exact Q|].
  destruct change; auto. destruct (Forall_Exists_dec (fun m : B * D => e_est P (snd m) <= 0) (fun m => match Rle_dec (e_est P (snd m)) 0 with left h => left h | right h => right h end) l) as [F|F].
  - left. apply reset_max_none. now apply Forall_forall.
  - right. apply reset_max_ok. apply Exists_exists in F as (m & Hm & Hn). exists m. split; auto. lra.
Qed.
Print Assumptions ozad_worst_reset_refuted.

(** ** LeveragingBaggingClassifier *)
(** C149, C150: one sample.  Every member learns it as many times as its algorithm says, with the label of its code when codes
    are used, and its ADWIN gets 1 for a wrong prediction, 0 for a right one.  If no ADWIN announces a change with a greater
    estimate than before, nothing else happens.  Otherwise n_detected_changes grows by one, and exactly one member is reset: one
    whose error estimate is the greatest. *)
Theorem lev_sample : forall {X B G D} (L : learner X R B) pois rand coin w alg codes (P : edet R D) fuel classes (s : lev B G D) x y s',
  lev_one L pois rand coin w alg codes P fuel classes s x y = Ret s' ->
  exists after flags, length after = length (lv_ens s) /\ length flags = length (lv_ens s) /\
    (forall i m, nth_error (lv_ens s) i = Some m -> exists m' rose k b0 g yc cl, nth_error after i = Some m' /\ nth_error flags i = Some rose /\
       allowed L P pois rand coin w alg m x y k b0 g /\ coded (code_of (lv_codes s') i) classes y k yc cl /\
       watched L P (fun c t => negb (Z.eqb c t)) k b0 [(x, yc)] (Some cl) None m m' rose) /\
    ((forall f, In f flags -> f = false) -> lv_ens s' = after /\ lv_changes s' = lv_changes s) /\
    (In true flags -> lv_changes s' = (lv_changes s + 1)%Z /\
       ((exists m, In m after /\ 0 < e_est P (snd m)) ->
        exists i m, nth_error after i = Some m /\ (forall m', In m' after -> e_est P (snd m') <= e_est P (snd m)) /\ replaced L P i after (lv_ens s'))) /\
    lv_classes s' = lv_classes s.
Proof.
  intros X B G D L pois rand coin w alg codes P fuel classes s x y s' H. unfold lev_one in H.
  match type of H with obind ?m _ = _ => destruct m as [[mt g0]| |] eqn:Em; try discriminate end. cbn [obind fst snd] in H.
  destruct (lev_members L pois rand coin w alg P x y classes mt (lv_ens s) false g0) as [[[l change] g]|e] eqn:E; [|discriminate]. cbn [lift obind] in H.
  apply (lev_members_ok L P pois rand coin w alg) in E as (Ln & flags & Lf & Ec & Q). cbn [orb] in Ec. exists l, flags. split; auto. split; auto.
  assert (Ecodes : lv_codes s' = mt) by (destruct change; injection H as <-; reflexivity). rewrite Ecodes. split; [exact Q|]. split; [|split].
  - intros Hf. assert (change = false) as ->. { rewrite Ec. clear - Hf. induction flags as [|f flags IH]; cbn; auto. rewrite (Hf f) by (left; auto). cbn. apply IH. intros; apply Hf; right; auto. } injection H as <-. auto.
  - intros Hf. assert (change = true) as -> by (rewrite Ec; apply existsb_exists; eauto). injection H as <-. cbn [lv_changes lv_ens]. split; auto. intros Hp. now apply reset_max_ok.
  - destruct change; injection H as <-; reflexivity.
Qed.
Print Assumptions lev_sample.

(** C151, refuted: "partial_fit returns" is false with enable_code_matrix.  With an odd number of classes and an even number of
    estimators no row of codes is ever accepted, so the first partial_fit on a sample runs for ever, whatever the random
    numbers. *)
Theorem lev_codes_forever_refuted : forall {X T B G D} {N : Num T} (L : learner X T B) pois rand coin base n w alg (P : edet T D) fuel (g : G) classes x y rows,
  (0 < n)%nat -> Nat.Even n -> Nat.Odd (length classes) ->
  lev_fit L pois rand coin w alg true P fuel (lev_new L base n P g) ((x, y) :: rows) (Some classes) = Loop.
Proof.
  intros X T B G D N L pois rand coin base n w alg P fuel g classes x y rows Hn He Ho. unfold lev_fit, lev_new. cbn [lv_classes check_classes lift obind lev_rows lv_ens lv_rng lv_changes lv_codes].
  unfold lev_one. cbn [lv_codes lv_ens lv_rng]. rewrite repeat_length. destruct n as [|n]; [lia|]. cbn [code_matrix]. rewrite (code_loop_forever coin fuel (S n) (length classes) Ho He). reflexivity.
Qed.
Print Assumptions lev_codes_forever_refuted.
(** C151, what holds: the codes that are accepted have one row per member and one code per class, the numbers of ones and zeros
    of a row differ by at most one; and for two classes the first try is accepted. *)
Theorem lev_codes_balanced : forall {G} (coin : G -> bool * G) fuel n nc g mt g',
  code_matrix coin fuel n n nc g = Ret (mt, g') ->
  length mt = n /\ (forall row, In row mt -> length row = nc /\ (Z.abs (ones row - zeros row) <= Z.of_nat (n mod 2))%Z).
Proof.
  intros G coin fuel n nc g mt g' H. apply (code_matrix_ok coin) in H as [H1 H2]. split; auto. intros row Hr. apply H2 in Hr as [H3 H4]. split; auto.
  assert (Hm : (Z.of_nat (n mod 2) <= 1)%Z) by (pose proof (Nat.mod_upper_bound n 2); lia). nia.
Qed.
Print Assumptions lev_codes_balanced.
Theorem lev_codes_two_classes : forall {G} (coin : G -> bool * G) fuel n g,
  exists mt g', code_matrix coin (S fuel) n n 2 g = Ret (mt, g') /\ forall row, In row mt -> exists c, row = [c; (1 - c)%Z].
Proof.
  intros G coin fuel n. generalize n at 2 as nm. induction n as [|n IH]; intros nm g; cbn [code_matrix]; [exists [], g; split; auto; intros row []|].
  destruct (code_loop_two coin fuel nm g) as (c & g1 & E). rewrite E. cbn [obind fst snd]. destruct (IH nm g1) as (mt & g2 & E2 & Q). rewrite E2. cbn [obind fst snd]. exists ([c; (1 - c)%Z] :: mt), g2. split; auto. intros row [<-|Hr]; eauto.
Qed.
Print Assumptions lev_codes_two_classes.

(** ** Concrete cases *)
(** A base estimator that remembers the labels it learned, predicts the last one (0 at first), and a random source that is a list of numbers. *)
Definition memo {T} (a b : T) : learner unit T (list Z) :=
  mk_learner _ _ _ (fun s rows _ _ => Ok (s ++ map snd rows)) (fun s xs => Ok (map (fun _ => last s 0%Z) xs, s))
    (fun s xs => Ok (map (fun _ => [a; b]) xs, s)) (fun _ => []).
Definition pop {T} (_ : T) (g : list nat) : nat * list nat := match g with [] => (0%nat, []) | k :: g => (k, g) end.
(** Two estimators, three classes, two rows: three members, six numbers. *)
Example oza_training_case :
  oza_fit (memo 1%Q 3%Q) pop [] (oza_new (memo 1%Q 3%Q) [] 2 [1; 0; 2; 0; 3; 1]%nat) [(tt, 7%Z); (tt, 8%Z)] (Some [0; 1; 2]%Z) None
  = Ok (mk_oza [[7]; [8; 8; 8]; [7; 7; 8]]%Z (Some [0; 1; 2]%Z) []).
Proof. reflexivity. Qed.
Example oza_training_spec : repeated [(tt, 7%Z); (tt, 8%Z)] (turns 3 2 2 [1; 0; 2; 0; 3; 1]%nat) = [(tt, 7%Z); (tt, 7%Z); (tt, 8%Z)].
Proof. reflexivity. Qed.
Example oza_contract_case : exists s, oza_reached (memo 1%Q 3%Q) pop [] 2 s /\ oz_classes s = Some [0; 1; 2]%Z /\ length (oz_ens s) = 3%nat /\
  (exists s', oza_fit (memo 1%Q 3%Q) pop [] s [(tt, 1%Z)] (Some [2; 0; 1; 1]%Z) None = Ok s') /\
  oza_fit (memo 1%Q 3%Q) pop [] s [(tt, 1%Z)] (Some [0; 1]%Z) None = Raise ValueError /\ ~ same_labels [0; 1; 2]%Z [0; 1]%Z.
Proof.
  eexists. split; [exists [1; 0; 2; 0; 3; 1; 1]%nat, [BFit [(tt, 7%Z); (tt, 8%Z)] (Some [0; 1; 2]%Z) None; BPredict [tt]]; reflexivity|].
  split; [reflexivity|]. split; [reflexivity|]. split; [eexists; reflexivity|]. split; [reflexivity|]. intros H. destruct (proj1 (H 2%Z)) as [|[|[]]]; try discriminate. cbn; auto.
Qed.
Example oza_probabilities_case : let s := mk_oza [[7%Z]; []] (Some [0; 1]%Z) tt in
  answers (memo 1 3) [tt; tt] (oz_ens s) [[[1; 3]; [1; 3]]; [[1; 3]; [1; 3]]] [[7%Z]; []] /\
  Forall (fits [0; 1]%Z [tt; tt]) [[[1; 3]; [1; 3]]; [[1; 3]; [1; 3]]] /\ vote_total [[[1; 3]; [1; 3]]; [[1; 3]; [1; 3]]] 1 = 8.
Proof.
  cbv zeta. split; [split; [repeat constructor|reflexivity]|]. split.
  - repeat constructor; exists [1; 3]; (split; [reflexivity|]); exists 1%Z; cbn; auto with zarith.
  - unfold vote_total. cbn. lra.
Qed.
(** A change detector that remembers the marks, announces a change after each one, and estimates by the mean. *)
Definition marks : edet Q (list bool) :=
  mk_edet (fun d b => Ok (d ++ [b])) (fun d => Ok (d, true)) (fun d => Qred (inject_Z (Z.of_nat (length (filter (fun b => b) d))) / inject_Z (Z.of_nat (Nat.max 1 (length d)))))%Q [].
(** The first member never learned and is wrong, the second is right: it is the second that is reset. *)
Example ozad_case :
  ozad_fit (memo 1%Q 3%Q) pop [] marks (ozad_new (memo 1%Q 3%Q) [] 2 marks [0; 1]%nat) [(tt, 1%Z)] (Some [0; 1]%Z) None
  = Ok (mk_ozad [([], [false]); ([], [])] (Some [0; 1]%Z) []).
Proof. vm_compute. reflexivity. Qed.
(** Leveraging bagging: the member that is wrong is reset, the other one stays. *)
Example lev_case :
  lev_one (memo 1%Q 3%Q) pop (fun g => (0%Q, g)) (fun g => (true, g)) 6%Q LBag false marks 1 [0; 1]%Z (lev_new (memo 1%Q 3%Q) [] 2 marks [0; 1]%nat) tt 1%Z
  = Ret (mk_lev [([], []); ([1%Z], [false])] [] 1 None None).
Proof. vm_compute. reflexivity. Qed.
Example lev_forever_case : Nat.Even 10 /\ Nat.Odd (length [0; 1; 2]%Z).
Proof. split; [exists 5%nat; reflexivity|exists 1%nat; reflexivity]. Qed.
Example lev_codes_case : exists mt, code_matrix (fun g : list bool => match g with [] => (true, []) | b :: g => (b, g) end) 5 1 1 3 [true; true; true; true; false; true] = Ret (mt, []).
Proof. eexists. vm_compute. reflexivity. Qed.
