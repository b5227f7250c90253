(** C95 - C103: the synthetic stream generators.  [S] is any random source; [mk] makes one from an int seed. *)
From Coq Require Import ZArith QArith List Bool Reals Lra Lia Arith Permutation.
From Verif Require Import Base.Py Base.Num Model.Generators Spec.GeneratorSpec Proofs.GeneratorProofs
  Proofs.GeneratorReal Proofs.AgrawalProofs Proofs.LedHyperProofs.
Import ListNotations.

(** A small random source for the examples: rand() runs through 0, 0.1, ..., 0.9 and randint(n) counts modulo n. *)
Definition clock : Rng nat Q :=
  mk_rng_ops nat Q (fun g => (Qmake (Z.of_nat (g mod 10)) 10, S g)) (fun n g => (Z.of_nat g mod n, S g)%Z)
    (fun g => (0%Q, S g)).
Lemma clock_ok : rng_okQ clock.
Proof.
  split.
  - intros g. assert (H : (g mod 10 < 10)%nat) by (apply Nat.mod_upper_bound; lia).
    unfold clock, rng_rand, fst, Qle, Qlt; cbn [Qnum Qden inject_Z]. lia.
  - intros n g H. unfold clock, rng_int, fst. apply Z.mod_pos_bound; lia.
Qed.
Definition clock_of (z : Z) : nat := Z.to_nat z.

(** *** C95: batches.  Cutting a stream into calls of any sizes gives the samples of one call of the total size, for
    every generator whose loop body is [one] (all nine). *)
Theorem generator_batches {G X T} (one : G -> X -> out (list T * Z * (G * X))) bs s rows ys s' :
  take_batches one bs s = Ret (rows, ys, s') ->
  exists s2, next_sample one (list_sum bs) s = Ret (rows, ys, s2) /\ same_but_last s' s2 /\
    (forall n, next_sample one n s' = next_sample one n s2) /\
    length rows = list_sum bs /\ length ys = list_sum bs /\ s_idx s' = (s_idx s + Z.of_nat (list_sum bs))%Z /\
    last_sample s2 = Some (rows, ys).
Proof.
  intros H. destruct (take_batches_next _ _ _ _ _ _ H) as (s2 & E & K). exists s2.
  edestruct (next_sample_spec one (fun _ => True) (fun _ _ => True)) as (_ & _ & A & B & C & D); [|exact I|exact E|].
  { auto. }
  split; [exact E|]. split; [exact K|]. split; [intros n; now apply next_sample_same|].
  split; [exact A|]. split; [exact B|]. split; [|exact D]. destruct K as (_ & _ & K). now rewrite K.
Qed.
(** The other direction: when the one big call returns, so do the small ones. *)
Theorem generator_batches_return {G X T} (one : G -> X -> out (list T * Z * (G * X))) bs s rows ys s2 :
  next_sample one (list_sum bs) s = Ret (rows, ys, s2) ->
  exists s', take_batches one bs s = Ret (rows, ys, s') /\ same_but_last s' s2.
Proof.
  intros H. pose proof (take_batches_sum one bs s) as K. rewrite H in K.
  destruct (take_batches one bs s) as [[[r y] s1]|e|]; try contradiction. destruct K as (-> & -> & K). eauto.
Qed.
(** The fuel of the class loop does not matter once the call returns. *)
Theorem generator_fuel_irrelevant {G T A} (b : bgen G T A) balance fuel fuel' n s v :
  next_sample (bg_one b balance fuel) n s = Ret v -> (fuel <= fuel')%nat ->
  next_sample (bg_one b balance fuel') n s = Ret v.
Proof. apply next_sample_fuel. Qed.

Example generator_batches_example :
  exists rows s', take_batches (bg_one (sea clock 0%Q) true 20) [2; 0; 3]%nat (bg_new clock_of (SeedInt 4) 0%nat 1) =
    Ret (rows, [1; 0; 1; 0; 1]%Z, s').
Proof. vm_compute. eauto. Qed.

(** *** C96: restart *)
Lemma run_calls_fn {G T A} (b : bgen G T A) balance fuel mk sd cs s s' :
  run_calls (bg_one b balance fuel) (bg_restart mk sd) cs s = Ret s' -> b_fn (s_ext s') = b_fn (s_ext s).
Proof.
  revert s; induction cs as [|[n|] cs IH]; intros s H; cbn [run_calls] in H.
  - now injection H as ->.
  - destruct (next_sample _ n s) as [[[r y] s1]|e|] eqn:E; try discriminate.
    rewrite (IH _ H). eapply bg_fn_kept; eauto.
  - rewrite (IH _ H). reflexivity.
Qed.
(** With an int seed, SEA, STAGGER, Sine, Mixed and AGRAWAL restart into the freshly built object, whatever was drawn
    before: every later call answers as it did the first time. *)
Theorem generator_restart_reproduces {G T A} (b : bgen G T A) balance fuel mk z ambient fn cs s :
  run_calls (bg_one b balance fuel) (bg_restart mk (SeedInt z)) cs (bg_new mk (SeedInt z) ambient fn) = Ret s ->
  bg_restart mk (SeedInt z) s = bg_new mk (SeedInt z) ambient fn.
Proof. intros H. apply run_calls_fn in H. unfold bg_restart. rewrite H. reflexivity. Qed.
(** So does the hyperplane generator, whose weights drift. *)
Theorem hyperplane_restart_reproduces {G T} `{Num T} (S : Rng G T) mk z g1 g2 nf nd s :
  hyper_restart S mk (SeedInt z) nf nd s = hyper_prepare S mk (SeedInt z) g1 nf nd /\
  hyper_prepare S mk (SeedInt z) g1 nf nd = hyper_prepare S mk (SeedInt z) g2 nf nd.
Proof. split; reflexivity. Qed.

(** Refuted in general: generate_drift is not undone by restart ... *)
Theorem restart_after_drift_refuted :
  exists rows ys s1 s2 rows' ys' s3,
    let one := bg_one (sea clock 0%Q) false 20 in
    let fresh := bg_new clock_of (SeedInt 4) 0%nat 3 in
    rng_okQ clock /\ next_sample one 3 fresh = Ret (rows, ys, s1) /\ bg_drift clock 4 20 s1 = Ret s2 /\
    next_sample one 3 (bg_restart clock_of (SeedInt 4) s2) = Ret (rows', ys', s3) /\ rows = rows' /\ ys <> ys'.
Proof.
  do 7 eexists. cbv zeta. split; [exact clock_ok|]. do 4 (split; [vm_compute; reflexivity|]). discriminate.
Qed.
(** ... and with a RandomState instance (or None) as random_state the second pass differs from the first. *)
Theorem restart_shared_state_refuted :
  exists rows ys s1 rows' ys' s2,
    let one := bg_one (sea clock 0%Q) false 20 in
    let fresh := bg_new clock_of SeedShared 0%nat 0 in
    next_sample one 2 fresh = Ret (rows, ys, s1) /\
    next_sample one 2 (bg_restart clock_of SeedShared s1) = Ret (rows', ys', s2) /\ rows <> rows'.
Proof. do 6 eexists. cbv zeta. do 2 (split; [vm_compute; reflexivity|]). discriminate. Qed.

(** generate_drift picks another valid function and touches nothing else a later restart would not reset. *)
Theorem generate_drift_changes_function {G} (S : Rng G R) n fuel st st' :
  rng_ok S -> (0 < n)%Z -> bg_drift S n fuel st = Ret st' ->
  b_fn (s_ext st') <> b_fn (s_ext st) /\ check_fn n (b_fn (s_ext st')) = Ok (b_fn (s_ext st')) /\
  b_zero (s_ext st') = b_zero (s_ext st) /\ s_idx st' = s_idx st /\ last_sample st' = last_sample st.
Proof.
  intros HS Hn H. unfold bg_drift in H.
  assert (K : forall fn fuel g f g', draw_other S n fuel fn g = Ret (f, g') -> f <> fn /\ (0 <= f < n)%Z).
  { intros fn k; induction k as [|k IH]; intros g f g' E; cbn [draw_other] in E; [discriminate|].
    destruct (rng_int S n g) as [f0 g0] eqn:E0. apply (int_ok _ _ _ _ _ HS Hn) in E0.
    destruct (Z.eqb_spec f0 fn); [eauto|]. injection E as <- <-. auto. }
  destruct (draw_other S n fuel _ _) as [[f g]|e|] eqn:E; cbn [obind] in H; try discriminate. injection H as <-. cbn.
  destruct (K _ _ _ _ _ E) as [A B]. split; [exact A|]. split; [|auto].
  unfold check_fn. replace (0 <=? f)%Z with true by lia. replace (f <? n)%Z with true by lia. reflexivity.
Qed.

(** C96.  Mixed: generate_drift always switches to the other of the two functions, and changes nothing else. *)
Theorem mixed_drift_switches_function {G T} (st : gst G bext T) :
  (0 <= b_fn (s_ext st) < 2)%Z ->
  b_fn (s_ext (mixed_drift st)) = (1 - b_fn (s_ext st))%Z /\ b_zero (s_ext (mixed_drift st)) = b_zero (s_ext st) /\
  s_rng (mixed_drift st) = s_rng st /\ s_idx (mixed_drift st) = s_idx st /\ last_sample (mixed_drift st) = last_sample st.
Proof.
  intros H. unfold mixed_drift. cbn. destruct (Z.eqb_spec (b_fn (s_ext st)) 0) as [E|E]; [rewrite E|]; repeat split; auto; lia.
Qed.

(** *** C97: the label is the documented function of the features *)
Lemma check_fn_range n fn : check_fn n fn = Ok fn -> (0 <= fn < n)%Z.
Proof. unfold check_fn. destruct ((0 <=? fn)%Z && (fn <? n)%Z) eqn:E; [lia|discriminate]. Qed.

Lemma bg_history {G A} (b : bgen G R A) balance fuel (Q : Z -> list R -> Z -> Prop) (P : Z -> Prop) :
  (forall fn g0 a g1 row y g', P fn -> bg_draw b g0 = (a, g1) -> bg_finish b a (bg_label b fn a) g1 = (row, y, g') ->
     Q fn row y) ->
  forall mk sd ambient fn cs s n rows ys s', P fn ->
    run_calls (bg_one b balance fuel) (bg_restart mk sd) cs (bg_new mk sd ambient fn) = Ret s ->
    next_sample (bg_one b balance fuel) n s = Ret (rows, ys, s') -> Forall2 (Q fn) rows ys /\ length rows = n.
Proof.
  intros HQ mk sd ambient fn cs s n rows ys s' HP HC HN. apply run_calls_fn in HC. cbn in HC.
  pose proof (bg_samples b balance fuel Q P HQ n s rows ys s') as K. rewrite HC in K. auto.
Qed.

Theorem sea_labels {G} (S : Rng G R) noise balance fuel mk sd ambient fn cs s n rows ys s' :
  rng_ok S -> check_fn 4 fn = Ok fn -> check_pct noise = Ok noise -> (noise < 1 / 100)%R ->
  run_calls (bg_one (sea S noise) balance fuel) (bg_restart mk sd) cs (bg_new mk sd ambient fn) = Ret s ->
  next_sample (bg_one (sea S noise) balance fuel) n s = Ret (rows, ys, s') ->
  Forall2 (sea_sample fn) rows ys /\ length rows = n.
Proof.
  intros HS Hf _ Hn. apply (bg_history _ _ _ sea_sample (fun f => (0 <= f < 4)%Z)); [|now apply check_fn_range].
  intros; eapply sea_one_ok; eauto.
Qed.
Theorem stagger_labels {G} (S : Rng G R) balance fuel mk sd ambient fn cs s n rows ys s' :
  rng_ok S -> check_fn 3 fn = Ok fn ->
  run_calls (bg_one (stagger S) balance fuel) (bg_restart mk sd) cs (bg_new mk sd ambient fn) = Ret s ->
  next_sample (bg_one (stagger S) balance fuel) n s = Ret (rows, ys, s') ->
  Forall2 (stagger_sample fn) rows ys /\ length rows = n.
Proof.
  intros HS Hf. apply (bg_history _ _ _ stagger_sample (fun f => (0 <= f < 3)%Z)); [|now apply check_fn_range].
  intros; eapply stagger_one_ok; eauto.
Qed.
Theorem sine_labels {G} (S : Rng G R) has_noise balance fuel mk sd ambient fn cs s n rows ys s' :
  rng_ok S -> check_fn 4 fn = Ok fn ->
  run_calls (bg_one (sine S sin PI has_noise) balance fuel) (bg_restart mk sd) cs (bg_new mk sd ambient fn) = Ret s ->
  next_sample (bg_one (sine S sin PI has_noise) balance fuel) n s = Ret (rows, ys, s') ->
  Forall2 (sine_sample has_noise fn) rows ys /\ length rows = n.
Proof.
  intros HS Hf. apply (bg_history _ _ _ (sine_sample has_noise) (fun f => (0 <= f < 4)%Z)); [|now apply check_fn_range].
  intros; eapply sine_one_ok; eauto.
Qed.
Theorem mixed_labels {G} (S : Rng G R) balance fuel mk sd ambient fn cs s n rows ys s' :
  rng_ok S -> check_fn 2 fn = Ok fn ->
  run_calls (bg_one (mixed S sin PI) balance fuel) (bg_restart mk sd) cs (bg_new mk sd ambient fn) = Ret s ->
  next_sample (bg_one (mixed S sin PI) balance fuel) n s = Ret (rows, ys, s') ->
  Forall2 (mixed_sample fn) rows ys /\ length rows = n.
Proof.
  intros HS Hf. apply (bg_history _ _ _ mixed_sample (fun f => (0 <= f < 2)%Z)); [|now apply check_fn_range].
  intros; eapply mixed_one_ok; eauto.
Qed.
(** AGRAWAL without perturbation; function 4 is excluded, see below. *)
Theorem agrawal_labels_partial {G} (S : Rng G R) rnd balance fuel mk sd ambient fn cs s n rows ys s' :
  rng_ok S -> check_fn 10 fn = Ok fn -> fn <> 4%Z ->
  run_calls (bg_one (agrawal S rnd 0%R) balance fuel) (bg_restart mk sd) cs (bg_new mk sd ambient fn) = Ret s ->
  next_sample (bg_one (agrawal S rnd 0%R) balance fuel) n s = Ret (rows, ys, s') ->
  Forall2 (agrawal_sample fn) rows ys /\ length rows = n.
Proof.
  intros HS Hf H4. apply (bg_history _ _ _ agrawal_sample (fun f => (0 <= f < 10)%Z /\ f <> 4%Z)).
  - intros; eapply agrawal_one_ok; eauto.
  - split; [now apply check_fn_range|assumption].
Qed.
(** Function 4 tests the salary where the concept tests the loan: no middle-aged applicant is ever in group A,
    although such applicants exist. *)
Theorem agrawal_function4_refuted {G} (S : Rng G R) rnd balance fuel mk sd ambient cs s n rows ys s' :
  rng_ok S ->
  run_calls (bg_one (agrawal S rnd 0%R) balance fuel) (bg_restart mk sd) cs (bg_new mk sd ambient 4) = Ret s ->
  next_sample (bg_one (agrawal S rnd 0%R) balance fuel) n s = Ret (rows, ys, s') ->
  Forall2 (fun row y => (40 <= nth 2 row 0 < 60)%R -> y = 1%Z) rows ys /\
  (exists row salary commission age elevel car zip hvalue hyears loan,
     agrawal_features row salary commission age elevel car zip hvalue hyears loan /\ (40 <= age < 60)%Z /\
     agrawal_groupA 4 salary commission age elevel hvalue hyears loan).
Proof.
  intros HS HC HN. split.
  - eapply (bg_history _ balance fuel (fun fn row y => (40 <= nth 2 row 0 < 60)%R -> y = 1%Z) (fun f => f = 4%Z));
      [|reflexivity|exact HC|exact HN].
    intros fn g0 a g1 row y g' -> D F Hage. cbn [bg_draw agrawal] in D. pose proof (agrawal_draw_ok _ _ _ _ HS D) as HL.
    cbn [bg_finish agrawal] in F. unfold agrawal_finish in F. cbv zeta in F.
    replace ((nofZ 0 <? 0%R)%num) with false in F by (symmetry; apply Rltb_false; cbn; lra).
    injection F as <- <- <-. cbn [nth nofZ NumR] in Hage. change (agrawal_f4 a = 1%Z).
    apply agrawal_f4_middle; [exact HL|]. destruct Hage as [H1 H2]. apply le_IZR in H1. apply lt_IZR in H2. lia.
  - exists [100000; 0; 50; 0; 0; 0; 500000; 1; 300000]%R, 100000%R, 0%R, 50%Z, 0%Z, 0%Z, 0%Z, 500000%R, 1%Z, 300000%R.
    split; [split; [reflexivity|]|split].
    + repeat (split; [lra || lia || (intros; lra)|]). lra.
    + lia.
    + unfold agrawal_groupA, by_age. right. left. split; [lia|]. left. unfold band. lra.
Qed.

(** *** C98: balanced classes alternate *)
Lemma take_balanced {G T A} (b : bgen G T A) fuel bs s rows ys s' :
  (forall a y g row y' g', bg_finish b a y g = (row, y', g') -> y' = y) ->
  take_batches (bg_one b true fuel) bs s = Ret (rows, ys, s') ->
  ys = alternating (if b_zero (s_ext s) then 0 else 1)%Z (list_sum bs).
Proof.
  intros Hf H. destruct (take_batches_next _ _ _ _ _ _ H) as (s2 & E & _). unfold next_sample in E.
  destruct (gen_rows _ _ _ _ _) as [[[r y] [[g x] i]]|e|] eqn:E2; cbn [obind] in E; try discriminate.
  injection E as <- <- <-. eapply balanced_alternates; eauto.
Qed.
(** STAGGER, Sine, Mixed, and AGRAWAL with any perturbation: from a new or restarted generator the labels are
    1, 0, 1, 0, ... however the stream is cut into batches. *)
Theorem balanced_labels_alternate {G T} `{Num T} (S : Rng G T) nsin npi rnd has_noise pert fuel mk sd g fn bs :
  (forall rows ys s', take_batches (bg_one (stagger S) true fuel) bs (bg_new mk sd g fn) = Ret (rows, ys, s') ->
     ys = alternating 1 (list_sum bs)) /\
  (forall rows ys s', take_batches (bg_one (sine S nsin npi has_noise) true fuel) bs (bg_new mk sd g fn) = Ret (rows, ys, s') ->
     ys = alternating 1 (list_sum bs)) /\
  (forall rows ys s', take_batches (bg_one (mixed S nsin npi) true fuel) bs (bg_new mk sd g fn) = Ret (rows, ys, s') ->
     ys = alternating 1 (list_sum bs)) /\
  (forall rows ys s', take_batches (bg_one (agrawal S rnd pert) true fuel) bs (bg_new mk sd g fn) = Ret (rows, ys, s') ->
     ys = alternating 1 (list_sum bs)).
Proof.
  repeat split; intros rows ys s' E; (apply take_balanced in E; [exact E|]).
  - intros [[? ?] ?] y g1 row y' g' F. now injection F as <- <- <-.
  - intros [? ?] y g1 row y' g' F. cbn [bg_finish sine] in F. unfold sine_finish in F. destruct has_noise.
    + destruct (rng_rand S g1) as [u q1]. destruct (rng_rand S q1) as [u' q2]. now injection F as <- <- <-.
    + now injection F as <- <- <-.
  - intros [[[? ?] ?] ?] y g1 row y' g' F. now injection F as <- <- <-.
  - intros a y g1 row y' g' F. cbn [bg_finish agrawal] in F. unfold agrawal_finish in F. cbv zeta in F.
    destruct (nofZ 0 <? pert)%num; [|now injection F as <- <- <-].
    repeat match type of F with (let '(_, _) := ?t in _) = _ => destruct t end. now injection F as <- <- <-.
Qed.
(** SEA with noise below 0.01. *)
Theorem sea_balanced_labels_alternate {G} (S : Rng G R) noise fuel mk sd g fn bs rows ys s' :
  rng_ok S -> (noise < 1 / 100)%R ->
  take_batches (bg_one (sea S noise) true fuel) bs (bg_new mk sd g fn) = Ret (rows, ys, s') ->
  ys = alternating 1 (list_sum bs).
Proof.
  intros HS Hn E. apply take_balanced in E; [exact E|].
  intros [[? ?] ?] y g1 row y' g' F. cbn [bg_finish sea sea_finish] in F.
  destruct (noise_hit S noise g1) as [h q] eqn:En. apply (no_hit _ _ _ _ _ HS Hn) in En. subst h.
  now injection F as <- <- <-.
Qed.
(** With label noise the balance is lost: the flip comes after the balancing. *)
Theorem sea_noise_balance_refuted :
  exists rows ys s', rng_okQ clock /\ check_pct (1 # 2)%Q = Ok (1 # 2)%Q /\
    take_batches (bg_one (sea clock (1 # 2)%Q) true 20) [4%nat] (bg_new clock_of (SeedInt 0) 0%nat 0) = Ret (rows, ys, s') /\
    count_occ Z.eq_dec ys 1%Z <> count_occ Z.eq_dec ys 0%Z.
Proof.
  do 3 eexists. split; [exact clock_ok|]. split; [reflexivity|]. split; [vm_compute; reflexivity|]. vm_compute. discriminate.
Qed.

(** *** C99: noise_percentage is not the probability of a label flip *)
Definition steady (u : R) : Rng unit R := mk_rng_ops unit R (fun g => (u, g)) (fun _ g => (0%Z, g)) (fun g => (0%R, g)).
Lemma steady_ok u : (0 <= u < 1)%R -> rng_ok (steady u).
Proof. intros H. split; intros; cbn; [exact H|lia]. Qed.

(** A noise_percentage below 1% never flips a label (the labels are those of the noise-free concept), ... *)
Theorem sea_small_noise_refuted {G} (S : Rng G R) balance fuel mk sd ambient fn cs s n rows ys s' :
  rng_ok S -> check_fn 4 fn = Ok fn -> check_pct (9 / 1000)%R = Ok (9 / 1000)%R ->
  run_calls (bg_one (sea S (9 / 1000)%R) balance fuel) (bg_restart mk sd) cs (bg_new mk sd ambient fn) = Ret s ->
  next_sample (bg_one (sea S (9 / 1000)%R) balance fuel) n s = Ret (rows, ys, s') ->
  Forall2 (sea_sample fn) rows ys.
Proof. intros HS Hf Hp A B. eapply sea_labels; try eassumption. lra. Qed.
(** ... when every draw is within the noise, every label of both classes is the opposite one, ... *)
Theorem sea_noise_flips {G} (S : Rng G R) noise balance fuel mk sd ambient fn cs s n rows ys s' :
  rng_ok S -> check_fn 4 fn = Ok fn -> check_pct noise = Ok noise -> (forall g, 1 / 100 + fst (rng_rand S g) <= noise)%R ->
  run_calls (bg_one (sea S noise) balance fuel) (bg_restart mk sd) cs (bg_new mk sd ambient fn) = Ret s ->
  next_sample (bg_one (sea S noise) balance fuel) n s = Ret (rows, ys, s') ->
  Forall2 (sea_flipped fn) rows ys /\ length rows = n.
Proof.
  intros HS Hf _ Hn. apply (bg_history _ _ _ sea_flipped (fun f => (0 <= f < 4)%Z)); [|now apply check_fn_range].
  intros; eapply sea_one_flipped; eauto.
Qed.
Example sea_noise_flips_case : rng_ok (steady (1 / 2)) /\ check_pct 1%R = Ok 1%R /\ (forall g, 1 / 100 + fst (rng_rand (steady (1 / 2)) g) <= 1)%R.
Proof.
  split; [apply steady_ok; lra|]. split; [|intros g; cbn; lra].
  unfold check_pct. cbn. repeat match goal with |- context [Rleb ?a ?b] => rewrite (proj2 (Rleb_true a b)) by lra end. reflexivity.
Qed.
(** ... and a noise_percentage of 100% does not always flip it: here the label is the noise-free one. *)
Theorem sea_full_noise_refuted :
  exists u, rng_ok (steady u) /\ check_pct 1%R = Ok 1%R /\
    exists row s', next_sample (bg_one (sea (steady u) 1%R) false 1) 1 (bg_new (fun _ => tt) (SeedInt 0) tt 0) =
      Ret ([row], [1%Z], s') /\ sea_sample 0 row 1.
Proof.
  exists (995 / 1000)%R. split; [apply steady_ok; lra|]. split.
  { unfold check_pct. cbn. replace (Rleb 0 1) with true by (symmetry; apply Rleb_true; lra).
    replace (Rleb 1 1) with true by (symmetry; apply Rleb_true; lra). reflexivity. }
  unfold next_sample, gen_rows, bg_one. cbn [bg_new s_rng s_ext s_idx draw_class obind].
  cbn [bg_draw sea sea_draw steady rng_rand]. cbn [negb].
  unfold bg_label. cbn [bg_funs sea b_fn sea_funs Z.to_nat nth sea_fun nadd nmul nofZ nleb NumR].
  replace (Rleb (10 * (995 / 1000) + 10 * (995 / 1000)) 8) with false by (symmetry; apply Rleb_false; lra).
  cbn [obind bg_finish sea sea_finish noise_hit steady rng_rand]. unfold cent. cbn [nadd ndiv nofZ nleb NumR].
  replace (Rleb (1 / 100 + 995 / 1000) 1) with false by (symmetry; apply Rleb_false; lra).
  cbn [obind]. do 2 eexists. split; [reflexivity|].
  exists (10 * (995 / 1000))%R, (10 * (995 / 1000))%R, (10 * (995 / 1000))%R. split; [reflexivity|].
  repeat (split; [lra|]). unfold sea_theta. split; intros; [lra|reflexivity].
Qed.

(** *** C100: AGRAWAL attributes *)
(** The label is that of the unperturbed applicant and every perturbed attribute but the house value stays in its
    range. *)
Theorem agrawal_perturbed_ranges_partial {G} (S : Rng G R) rnd pert balance fuel mk sd ambient fn cs s n rows ys s' :
  rng_ok S -> check_fn 10 fn = Ok fn -> (0 < pert <= 1)%R ->
  (forall lo hi x, (IZR lo <= x <= IZR hi)%R -> (IZR lo <= rnd x <= IZR hi)%R) ->
  run_calls (bg_one (agrawal S rnd pert) balance fuel) (bg_restart mk sd) cs (bg_new mk sd ambient fn) = Ret s ->
  next_sample (bg_one (agrawal S rnd pert) balance fuel) n s = Ret (rows, ys, s') ->
  Forall2 (fun row y => exists salary commission age elevel car zip hvalue hyears loan,
    row = [salary; commission; age; elevel; car; zip; hvalue; hyears; loan] /\
    20000 <= salary <= 150000 /\ (commission = 0 \/ 10000 <= commission <= 75000) /\ 20 <= age <= 80 /\
    0 <= elevel <= 4 /\ 0 <= car <= 19 /\ 0 <= zip <= 8 /\ 1 <= hyears <= 30 /\ 0 <= loan <= 500000)%R rows ys.
Proof.
  intros HS Hf Hp Hr A B.
  eapply (bg_history _ balance fuel (fun fn row y => exists salary commission age elevel car zip hvalue hyears loan,
    row = [salary; commission; age; elevel; car; zip; hvalue; hyears; loan] /\
    20000 <= salary <= 150000 /\ (commission = 0 \/ 10000 <= commission <= 75000) /\ 20 <= age <= 80 /\
    0 <= elevel <= 4 /\ 0 <= car <= 19 /\ 0 <= zip <= 8 /\ 1 <= hyears <= 30 /\ 0 <= loan <= 500000)%R (fun _ => True));
    [|exact I|exact A|exact B].
  intros f g0 a g1 row y g' _ D F. cbn [bg_draw agrawal] in D. pose proof (agrawal_draw_ok _ _ _ _ HS D) as HL.
  destruct (agrawal_perturbed_ok _ _ _ _ _ _ _ _ _ HS (proj1 Hp) HL Hr F)
    as (_ & sa & co & ag & el & ca & zi & hv & hy & lo & E & H1 & H2 & H3 & H4 & H5 & H6 & -> & -> & ->).
  destruct HL as (_ & _ & _ & _ & He & Hc & Hz & _).
  assert (B1 : forall k m, (0 <= k <= m)%Z -> (0 <= IZR k <= IZR m)%R).
  { intros k m [X Y]. split; [apply (IZR_le 0)|apply IZR_le]; assumption. }
  exists sa, co, ag, (IZR (l_elevel a)), (IZR (l_car a)), (IZR (l_zip a)), hv, hy, lo.
  split; [exact E|]. split; [exact H1|]. split; [exact H2|]. split; [exact H3|].
  split; [exact (B1 _ 4%Z He)|]. split; [exact (B1 _ 19%Z Hc)|]. split; [exact (B1 _ 8%Z Hz)|]. auto.
Qed.
(** Any perturbation at all replaces the house value by one of two constants: 0, or (9 - zipcode) * 100000. *)
Theorem agrawal_perturbed_hvalue_refuted {G} (S : Rng G R) rnd pert balance fuel mk sd ambient fn cs s n rows ys s' :
  rng_ok S -> check_fn 10 fn = Ok fn -> (0 < pert <= 1)%R ->
  (forall lo hi x, (IZR lo <= x <= IZR hi)%R -> (IZR lo <= rnd x <= IZR hi)%R) ->
  run_calls (bg_one (agrawal S rnd pert) balance fuel) (bg_restart mk sd) cs (bg_new mk sd ambient fn) = Ret s ->
  next_sample (bg_one (agrawal S rnd pert) balance fuel) n s = Ret (rows, ys, s') ->
  Forall2 (fun row y => nth 6 row 0 = 0 \/ nth 6 row 0 = (9 - nth 5 row 0) * 100000)%R rows ys.
Proof.
  intros HS Hf Hp Hr A B.
  eapply (bg_history _ balance fuel (fun fn row y => nth 6 row 0 = 0 \/ nth 6 row 0 = (9 - nth 5 row 0) * 100000)%R (fun _ => True));
    [|exact I|exact A|exact B].
  intros f g0 a g1 row y g' _ D F. cbn [bg_draw agrawal] in D. pose proof (agrawal_draw_ok _ _ _ _ HS D) as HL.
  destruct (agrawal_perturbed_ok _ _ _ _ _ _ _ _ _ HS (proj1 Hp) HL Hr F)
    as (_ & sa & co & ag & el & ca & zi & hv & hy & lo & -> & H1 & H2 & H3 & H4 & _). exact H4.
Qed.
(** The documented commission is 0 below 75k of salary and 10k - 75k above: the code does the opposite. *)
Theorem agrawal_commission_refuted {G} (S : Rng G R) rnd balance fuel mk sd ambient fn cs s n rows ys s' :
  rng_ok S -> check_fn 10 fn = Ok fn ->
  run_calls (bg_one (agrawal S rnd 0%R) balance fuel) (bg_restart mk sd) cs (bg_new mk sd ambient fn) = Ret s ->
  next_sample (bg_one (agrawal S rnd 0%R) balance fuel) n s = Ret (rows, ys, s') ->
  Forall2 (fun row y => (nth 0 row 0 < 75000 -> nth 1 row 0 <> 0) /\ (75000 <= nth 0 row 0 -> nth 1 row 0 = 0))%R rows ys.
Proof.
  intros HS Hf A B.
  eapply (bg_history _ balance fuel (fun fn row y =>
     (nth 0 row 0 < 75000 -> nth 1 row 0 <> 0) /\ (75000 <= nth 0 row 0 -> nth 1 row 0 = 0))%R (fun _ => True));
    [|exact I|exact A|exact B].
  intros f g0 a g1 row y g' _ D F. cbn [bg_draw agrawal] in D.
  destruct (agrawal_draw_ok _ _ _ _ HS D) as (H1 & H2 & H3 & _).
  cbn [bg_finish agrawal] in F. unfold agrawal_finish in F. cbv zeta in F.
  replace ((nofZ 0 <? 0%R)%num) with false in F by (symmetry; apply Rltb_false; cbn; lra).
  injection F as <- <- <-. cbn [nth]. split; intros K; [specialize (H3 K); lra|auto].
Qed.
Example agrawal_example :
  exists row s', next_sample (bg_one (agrawal clock (fun x => x) 0%Q) true 20) 1 (bg_new clock_of (SeedInt 1) 0%nat 6) =
    Ret ([row], [1%Z], s').
Proof. vm_compute. eauto. Qed.

(** *** C101: LED *)
Theorem led_shows_the_digit {G} (S : Rng G R) noise has_noise n s rows ys s' :
  rng_ok S -> (noise < 1 / 100)%R -> next_sample (led_one S noise has_noise) n s = Ret (rows, ys, s') ->
  Forall2 (led_sample has_noise) rows ys /\ length rows = n.
Proof.
  intros HS Hn H. edestruct (next_sample_spec (led_one S noise has_noise) (fun _ => True) (led_sample has_noise))
    as (A & _ & B & _); [|exact I|exact H|auto].
  intros; split; [|exact I]. eapply led_one_ok; eauto.
Qed.
(** The digit can be read off the seven segments. *)
Theorem led_features_determine_label hn row y hn' y' : led_sample hn row y -> led_sample hn' row y' -> y = y'.
Proof.
  intros (Hy & ex & -> & _) (Hy' & ex' & E & _).
  assert (K : map IZR (segments y) = map IZR (segments y')).
  { assert (L : forall d, (0 <= d <= 9)%Z -> length (segments d) = 7%nat).
    { intros d Hd. assert (C : (d = 0 \/ d = 1 \/ d = 2 \/ d = 3 \/ d = 4 \/ d = 5 \/ d = 6 \/ d = 7 \/ d = 8 \/ d = 9)%Z) by lia.
      repeat (destruct C as [-> | C]; [reflexivity|]). now subst d. }
    rewrite !map_app in E. apply (f_equal (firstn 7)) in E.
    rewrite !firstn_app, !map_length, !L, Nat.sub_diag, !firstn_O in E by assumption.
    rewrite !app_nil_r in E. rewrite !firstn_all2 in E by (rewrite map_length, L by assumption; lia). exact E. }
  assert (J : segments y = segments y').
  { revert K. generalize (segments y) (segments y'). induction l as [|a l IH]; intros [|b l'] E'; cbn in E'; try discriminate; [reflexivity|].
    injection E' as E1 E2. apply eq_IZR in E1. subst. f_equal. auto. }
  assert (C : (y = 0 \/ y = 1 \/ y = 2 \/ y = 3 \/ y = 4 \/ y = 5 \/ y = 6 \/ y = 7 \/ y = 8 \/ y = 9)%Z) by lia.
  assert (C' : (y' = 0 \/ y' = 1 \/ y' = 2 \/ y' = 3 \/ y' = 4 \/ y' = 5 \/ y' = 6 \/ y' = 7 \/ y' = 8 \/ y' = 9)%Z) by lia.
  clear -C C' J. repeat (destruct C as [-> | C]); try subst y; repeat (destruct C' as [-> | C']); try subst y'; try reflexivity; discriminate J.
Qed.
(** LEDGeneratorDrift, as long as no other LEDGeneratorDrift is built: with at most seven drifting attributes the 24
    columns are permuted, exactly [n_drift] segments move to the columns of irrelevant attributes, and every sample
    shows its digit through that permutation. *)
Theorem led_drift_permutes_columns {G} (S : Rng G R) noise mk sd ambient n_drift cols st n s rows ys s' :
  rng_ok S -> (noise < 1 / 100)%R -> (n_drift <= 7)%nat -> ledd_new S mk sd ambient true n_drift = (cols, st) ->
  next_sample (ledd_one S cols noise true) n s = Ret (rows, ys, s') ->
  Permutation cols (seq 0 24) /\ length (filter (fun i => (7 <=? nth i cols 0)%nat) (seq 0 7)) = n_drift /\
  Forall2 (fun row y => (0 <= y <= 9)%Z /\ length row = 24%nat /\ Forall (fun v => v = 0 \/ v = 1)%R row /\
    (forall i, (i < 7)%nat -> nth (nth i cols 0%nat) row 0%R = IZR (nth i (segments y) 0%Z))) rows ys.
Proof.
  intros HS Hn Hd HC HN.
  assert (F : Permutation cols (seq 0 24) /\ length (filter (fun i => (7 <=? nth i cols 0)%nat) (seq 0 7)) = n_drift).
  { unfold ledd_new in HC. cbv zeta in HC. cbn [andb] in HC. destruct (0 <? Z.of_nat n_drift)%Z eqn:E0.
    - rands HS. injection HC as <- <-. apply cols_facts; assumption.
    - injection HC as <- <-. assert (n_drift = 0)%nat by lia. subst n_drift. split; [apply Permutation_refl|reflexivity]. }
  destruct F as [F1 F2]. split; [exact F1|]. split; [exact F2|].
  edestruct (next_sample_spec (ledd_one S cols noise true) (fun _ => True) (fun row y => (0 <= y <= 9)%Z /\ length row = 24%nat /\ Forall (fun v => v = 0 \/ v = 1)%R row /\
    (forall i, (i < 7)%nat -> nth (nth i cols 0%nat) row 0%R = IZR (nth i (segments y) 0%Z)))) as (K & _);
    [|exact I|exact HN|exact K].
  intros; split; [|exact I]. eapply ledd_one_ok; eauto.
Qed.
(** The column table is one array shared by all instances: building a second generator makes the first one, which has
    no drift and no extra features, raise IndexError. *)
Theorem led_drift_instances_share_table_refuted :
  exists colsA stA colsB stB row y s',
    ledd_new clock clock_of (SeedInt 1) 0%nat false 0 = (colsA, stA) /\
    next_sample (ledd_one clock colsA 0%Q false) 1 stA = Ret ([row], [y], s') /\
    ledd_new clock clock_of (SeedInt 2) 0%nat true 3 = (colsB, stB) /\
    next_sample (ledd_one clock colsB 0%Q false) 1 stA = Exc IndexError.
Proof. do 7 eexists. do 3 (split; [vm_compute; reflexivity|]). vm_compute. reflexivity. Qed.
(** With eight drifting attributes some of the 24 features is constantly 0, for every seed. *)
Theorem led_drift_eight_features_refuted {G} (S : Rng G R) mk sd ambient cols st :
  rng_ok S -> ledd_new S mk sd ambient true 8 = (cols, st) ->
  exists c, (c < 24)%nat /\ forall noise n s rows ys s',
    next_sample (ledd_one S cols noise true) n s = Ret (rows, ys, s') -> Forall (fun row => nth c row 0%R = 0%R) rows.
Proof.
  intros HS HC.
  assert (F : length cols = 24%nat /\ exists c, (c < 24)%nat /\ ~ In c cols).
  { unfold ledd_new in HC. cbv zeta in HC. cbn [andb Z.of_nat Z.ltb Z.compare] in HC. rands HS.
    injection HC as <- <-.
    change (length (drift_cols 8 k k0) = 24%nat /\ exists c, (c < 24)%nat /\ ~ In c (drift_cols 8 k k0)).
    assert (CHK : forallb (fun r => forallb (fun o => let cols := drift_cols 8 (Z.of_nat r) (Z.of_nat o) in
       (length cols =? 24)%nat && existsb (fun c => negb (existsb (Nat.eqb c) cols)) (seq 0 24)) (seq 0 17)) (seq 0 7) = true)
      by (vm_compute; reflexivity).
    rewrite forallb_forall in CHK. specialize (CHK (Z.to_nat k) ltac:(apply in_seq; lia)).
    rewrite forallb_forall in CHK. specialize (CHK (Z.to_nat k0) ltac:(apply in_seq; lia)).
    rewrite !Z2Nat.id in CHK by lia. cbv zeta in CHK. apply andb_true_iff in CHK. destruct CHK as [A B].
    apply Nat.eqb_eq in A. split; [exact A|]. apply existsb_exists in B. destruct B as (c & Hc & B). apply in_seq in Hc.
    exists c. split; [lia|]. intros K. apply negb_true_iff in B.
    assert (existsb (Nat.eqb c) (drift_cols 8 k k0) = true) by (apply existsb_exists; exists c; split; [exact K|apply Nat.eqb_refl]).
    congruence. }
  destruct F as (L & c & Hc & NI). exists c. split; [exact Hc|]. intros noise n s rows ys s' HN.
  edestruct (next_sample_spec (ledd_one S cols noise true) (fun _ => True) (fun row _ => nth c row 0%R = 0%R)) as (K & _);
    [|exact I|exact HN|].
  - intros g x row y g' x' _ H. split; [|exact I]. unfold ledd_one in H.
    destruct (led_values S noise true g) as [[vs y0] g1]. cbv zeta in H.
    destruct (place vs cols (repeat 0%Z 25)) as [r'|e] eqn:E; [|discriminate].
    assert (P : forall vs cols row row', ~ In c cols -> place vs cols row = Ok row' -> nth c row' 0%Z = nth c row 0%Z).
    { clear. induction vs as [|v vs IH]; intros [|k cols] row row' NI H; cbn [place] in H; try (now injection H as ->).
      destruct (put row k v) as [row1|] eqn:E; [|discriminate].
      rewrite (IH cols row1 row'); [|intros K; apply NI; now right|exact H].
      rewrite (put_nth _ _ _ _ _ _ E). destruct (Nat.eqb_spec c k); [|reflexivity]. subst. destruct NI. now left. }
    apply (f_equal (fun o => match o with Ret v => fst (fst v) | _ => [] end)) in H. cbv beta iota in H. cbn [fst] in H.
    rewrite <- H. change 0%R with (nofZ (T := R) 0) at 1. rewrite map_nth. cbn [nofZ NumR].
    replace (nth c (firstn 24 r') 0%Z) with 0%Z; [reflexivity|].
    pose proof (P _ _ _ _ NI E) as Q. rewrite nth_repeat in Q.
    destruct (Nat.lt_ge_cases c (length (firstn 24 r'))) as [A|A].
    + rewrite <- (firstn_skipn 24 r') in Q. rewrite app_nth1 in Q by exact A. now rewrite Q.
    + rewrite nth_overflow by exact A. reflexivity.
  - clear -K. induction K; constructor; auto.
Qed.

(** *** C102: the rotating hyperplane *)
Definition hyper_ok (nf nd : nat) (x : hext (T := R)) : Prop :=
  length (h_weights x) = nf /\ length (h_sigma x) = nf /\
  (forall i, (i < nd)%nat -> nth i (h_sigma x) 0%R = 1%R \/ nth i (h_sigma x) 0%R = (-1)%R).
Lemma hyper_one_facts {G} (S : Rng G R) nf nd mag noise sigp g x row y g' x' :
  rng_ok S -> (noise < 1 / 100)%R -> (nd <= nf)%nat -> hyper_ok nf nd x ->
  hyper_one S nf nd mag noise sigp g x = Ret (row, y, (g', x')) ->
  length row = nf /\ Forall (fun u => 0 <= u < 1)%R row /\ hyper_label (h_weights x) row y /\ hyper_ok nf nd x' /\
  (forall i, (i < nd)%nat -> nth i (h_weights x') 0 = nth i (h_weights x) 0 + mag \/
                             nth i (h_weights x') 0 = nth i (h_weights x) 0 - mag)%R /\
  (forall i, (nd <= i)%nat -> nth i (h_weights x') 0 = nth i (h_weights x) 0)%R.
Proof.
  intros HS Hn Hd (L1 & L2 & Hs) H. unfold hyper_one in H. cbv zeta in H.
  destruct (rands S nf g) as [xs g1] eqn:E1. destruct (rands_ok _ _ _ _ _ HS E1) as [A B].
  pose proof (hyper_label_ok (h_weights x) xs) as HL.
  set (group := if (fold_left nadd (h_weights x) (nofZ 0) * half <=? dot (h_weights x) xs (nofZ 0))%num then 1%Z else 0%Z) in *.
  destruct (noise_hit S noise g1) as [h g2] eqn:E2. apply (no_hit _ _ _ _ _ HS Hn) in E2. subst h.
  destruct (hyper_drift S nd mag sigp (h_weights x) (h_sigma x) g2) as [[[ws ss] g3]|e] eqn:E3; [|discriminate].
  apply (f_equal (fun o => match o with Ret v => v | _ => ([], 0%Z, (g, x)) end)) in H. cbv beta iota in H.
  apply pair_equal_spec in H. destruct H as [H Hx]. apply pair_equal_spec in H. destruct H as [Hrow Hy].
  apply pair_equal_spec in Hx. destruct Hx as [_ Hx]. subst xs y x'. cbn [h_weights h_sigma].
  destruct (hyper_drift_ok _ _ _ _ _ _ _ _ _ _ E3) as (C1 & C2 & C3 & C4 & C5 & C6).
  split; [exact A|]. split; [exact B|]. split; [exact HL|]. split.
  { split; [cbn; congruence|]. split; [cbn; congruence|]. cbn [h_sigma]. intros i Hi. destruct (C5 i Hi) as [_ D].
    destruct (Hs i Hi) as [D1|D1]; rewrite D1 in D; destruct D as [-> | ->]; (left; lra) || (right; lra). }
  split.
  - intros i Hi. destruct (C5 i Hi) as [D _]. rewrite D. destruct (Hs i Hi) as [-> | ->]; [left|right]; lra.
  - intros i Hi. now destruct (C6 i Hi).
Qed.
Lemma hyper_prepare_ok {G} (S : Rng G R) mk sd cur nf nd : rng_ok S -> (nd <= nf)%nat ->
  hyper_ok nf nd (s_ext (hyper_prepare S mk sd cur nf nd)) /\
  Forall (fun w => 0 <= w < 1)%R (h_weights (s_ext (hyper_prepare S mk sd cur nf nd))).
Proof.
  intros HS Hd. unfold hyper_prepare. destruct (rands S nf _) as [w g] eqn:E. cbn [s_ext].
  destruct (rands_ok _ _ _ _ _ HS E) as [A B]. split; [|exact B]. split; [exact A|]. cbn [h_sigma].
  split; [rewrite map_length, seq_length; reflexivity|]. intros i Hi. left.
  set (f := fun i0 : nat => if (i0 <? nd)%nat then nofZ 1 else nofZ 0).
  rewrite (nth_indep _ 0%R (f 0%nat)) by (rewrite map_length, seq_length; lia).
  rewrite map_nth, seq_nth by lia. unfold f. replace (0 + i <? nd)%nat with true by (symmetry; apply Nat.ltb_lt; lia). reflexivity.
Qed.
(** With n_drift_features <= n_features every call returns; each sample lies in the unit cube, is labelled by the
    hyperplane in force, and moves each drifting weight by exactly mag_change and no other. *)
Theorem hyperplane_samples {G} (S : Rng G R) mk sd cur nf nd mag noise sigp bs rows0 ys0 s :
  rng_ok S -> (noise < 1 / 100)%R -> (nd <= nf)%nat ->
  take_batches (hyper_one S nf nd mag noise sigp) bs (hyper_prepare S mk sd cur nf nd) = Ret (rows0, ys0, s) ->
  exists row y s', next_sample (hyper_one S nf nd mag noise sigp) 1 s = Ret ([row], [y], s') /\
    length row = nf /\ Forall (fun u => 0 <= u < 1)%R row /\ hyper_label (h_weights (s_ext s)) row y /\
    (forall i, (i < nd)%nat -> Rabs (nth i (h_weights (s_ext s')) 0 - nth i (h_weights (s_ext s)) 0) = Rabs mag)%R /\
    (forall i, (nd <= i)%nat -> nth i (h_weights (s_ext s')) 0 = nth i (h_weights (s_ext s)) 0)%R.
Proof.
  intros HS Hn Hd H. destruct (take_batches_next _ _ _ _ _ _ H) as (s2 & E & (_ & K & _)).
  edestruct (next_sample_spec (hyper_one S nf nd mag noise sigp) (hyper_ok nf nd) (fun _ _ => True)) as (_ & I2 & _);
    [|exact (proj1 (hyper_prepare_ok S mk sd cur nf nd HS Hd))|exact E|].
  { intros g x row y g' x' HP H1. split; [exact I|].
    now destruct (hyper_one_facts _ _ _ _ _ _ _ _ _ _ _ _ HS Hn Hd HP H1) as (_ & _ & _ & P & _). }
  rewrite <- K in I2.
  assert (T : exists row y g' x', hyper_one S nf nd mag noise sigp (s_rng s) (s_ext s) = Ret (row, y, (g', x'))).
  { unfold hyper_one. cbv zeta. destruct (rands S nf (s_rng s)) as [xs g1]. destruct (noise_hit S noise g1) as [h g2].
    destruct I2 as (L1 & L2 & _).
    destruct (hyper_drift_total S nd mag sigp (h_weights (s_ext s)) (h_sigma (s_ext s)) g2) as [[[ws ss] g3] ->]; [lia|lia|].
    eauto. }
  destruct T as (row & y & g' & x' & T). unfold next_sample, gen_rows. rewrite T. cbn [obind].
  do 3 eexists. split; [reflexivity|].
  destruct (hyper_one_facts _ _ _ _ _ _ _ _ _ _ _ _ HS Hn Hd I2 T) as (A & B & C & _ & D & F). cbn [s_ext].
  split; [exact A|]. split; [exact B|]. split; [exact C|]. split; [|exact F].
  intros i Hi. destruct (D i Hi) as [-> | ->].
  - f_equal. ring.
  - replace (nth i (h_weights (s_ext s)) 0 - mag - nth i (h_weights (s_ext s)) 0)%R with (- mag)%R by ring. apply Rabs_Ropp.
Qed.
(** More drifting features than features are accepted by the constructor and make every sample raise. *)
Theorem hyperplane_drift_features_refuted {G T} `{Num T} (S : Rng G T) mk sd cur nf nd mag noise sigp n :
  (nf < nd)%nat ->
  next_sample (hyper_one S nf nd mag noise sigp) (Datatypes.S n) (hyper_prepare S mk sd cur nf nd) = Exc IndexError.
Proof.
  intros Hd. unfold hyper_prepare. destruct (rands S nf _) as [w g] eqn:E. pose proof (rands_length _ _ _ _ _ E) as L.
  unfold next_sample, gen_rows. cbn [s_rng s_ext s_idx]. unfold hyper_one at 1. cbv zeta.
  destruct (rands S nf g) as [xs g1]. destruct (noise_hit S noise g1) as [h g2]. cbn [h_weights h_sigma].
  rewrite hyper_drift_raises by (left; lia). reflexivity.
Qed.
Example hyperplane_example :
  exists rows s', next_sample (hyper_one clock 3 2 (1 # 10)%Q 0%Q (1 # 2)%Q) 3 (hyper_prepare clock clock_of (SeedInt 5) 0%nat 3 2) =
    Ret (rows, [1; 1; 0]%Z, s').
Proof. do 2 eexists. vm_compute. reflexivity. Qed.

(** *** C103: Waveform *)
Theorem waveform_mixes_two_waves {G} (S : Rng G R) has_noise n s rows ys s' :
  rng_ok S -> next_sample (waveform_one S has_noise) n s = Ret (rows, ys, s') ->
  Forall2 (fun row y => (0 <= y <= 2)%Z /\ length row = (if has_noise then 40 else 21)%nat /\
    exists lambda noise, (0 <= lambda < 1)%R /\ length noise = 21%nat /\
      forall i, (i < 21)%nat ->
        nth i row 0%R = (lambda * base_wave (fst (waves_of y)) (Z.of_nat i)
                         + (1 - lambda) * base_wave (snd (waves_of y)) (Z.of_nat i) + nth i noise 0)%R) rows ys.
Proof.
  intros HS H. edestruct (next_sample_spec (waveform_one S has_noise) (fun _ => True)) as (K & _); [|exact I|exact H|exact K].
  intros g x row y g' x' _ E. split; [|exact I]. unfold waveform_one in E.
  destruct (rng_int S 3 g) as [k g1] eqn:E1. apply (int_ok _ _ _ _ _ HS) in E1; [|lia].
  cbv zeta in E. destruct (rng_rand S g1) as [u g2] eqn:E2. apply (rand_ok _ _ _ _ HS) in E2.
  set (ca := if (k =? 2)%Z then 1%nat else 0%nat) in E. set (cb := if (k =? 0)%Z then 1%nat else 2%nat) in E.
  assert (CC : (Z.of_nat ca = fst (waves_of k) /\ Z.of_nat cb = snd (waves_of k)) /\ (ca < 3)%nat /\ (cb < 3)%nat).
  { assert (C : (k = 0 \/ k = 1 \/ k = 2)%Z) by lia. unfold ca, cb. destruct C as [-> | [-> | ->]]; cbn; repeat split; lia. }
  destruct CC as ((Ca & Cb) & La & Lb). clearbody ca cb.
  assert (LW : forall c, (c < 3)%nat -> length (nth c wave_forms []) = 21%nat).
  { intros c Hc. do 3 (destruct c as [|c]; [reflexivity|]). lia. }
  destruct (wave_points S u _ _ _ g2) as [ps g3] eqn:E3.
  destruct (wave_points_ok _ _ _ _ _ _ _ _ (eq_trans (LW _ La) (eq_sym (LW _ Lb))) E3) as (es & A & B & C).
  rewrite (LW _ La) in A, B, C.
  destruct (if has_noise then normals S 19 g3 else ([], g3)) as [ex g4] eqn:E4.
  assert (LE : length ex = (if has_noise then 19 else 0)%nat).
  { destruct has_noise; [now apply normals_length in E4|now injection E4 as <- <-]. }
  injection E as <- <- <- <-. split; [lia|]. split; [rewrite app_length, B, LE; destruct has_noise; reflexivity|].
  exists u, es. split; [exact E2|]. split; [exact A|]. intros i Hi. rewrite app_nth1 by lia. rewrite (C i Hi).
  rewrite !wave_form_ok by assumption. rewrite Ca, Cb. reflexivity.
Qed.

Print Assumptions generator_batches.
Print Assumptions generator_restart_reproduces.
Print Assumptions sea_labels.
Print Assumptions balanced_labels_alternate.
Print Assumptions hyperplane_samples.
Print Assumptions led_drift_permutes_columns.
