From Coq Require Import ZArith List Bool Reals Lra Lia Arith.
From Verif Require Import Base.Py Base.Num Model.Generators Spec.GeneratorSpec Proofs.GeneratorProofs Proofs.GeneratorReal.
Import ListNotations.
Local Open Scope R_scope.

Definition loaner_ok (l : loaner (T := R)) : Prop :=
  20000 <= l_salary l < 150000 /\
  (75000 <= l_salary l -> l_commission l = 0) /\ (l_salary l < 75000 -> 10000 <= l_commission l < 85000) /\
  (20 <= l_age l <= 80)%Z /\ (0 <= l_elevel l <= 4)%Z /\ (0 <= l_car l <= 19)%Z /\ (0 <= l_zip l <= 8)%Z /\
  (9 - IZR (l_zip l)) * 50000 <= l_hvalue l < (9 - IZR (l_zip l)) * 150000 /\ (1 <= l_hyears l <= 30)%Z /\
  0 <= l_loan l < 500000.

Lemma agrawal_draw_ok {G} (S : Rng G R) g l g' : rng_ok S -> agrawal_draw S g = (l, g') -> loaner_ok l.
Proof.
  intros HS D. unfold agrawal_draw in D.
  destruct (rng_rand S g) as [u g1] eqn:E1. apply (rand_ok _ _ _ _ HS) in E1.
  set (salary := (nofZ 20000 + nofZ 130000 * u)%num) in D.
  assert (Hs : 20000 <= salary < 150000) by (unfold salary; cbn; lra).
  clearbody salary.
  destruct (if (nofZ 75000 <=? salary)%num then _ else _) as [commission g2] eqn:E2.
  assert (Hc : (75000 <= salary -> commission = 0) /\ (salary < 75000 -> 10000 <= commission < 85000)).
  { change ((nofZ 75000 <=? salary)%num) with (Rleb 75000 salary) in E2. destruct (Rleb 75000 salary) eqn:El.
    - apply Rleb_true in El. injection E2 as <- <-. cbn. split; [reflexivity|intros; lra].
    - apply Rleb_false in El. rands HS. injection E2 as <- <-. cbn. split; intros; lra. }
  rands HS. apply pair_equal_spec in D. destruct D as [<- <-]. unfold loaner_ok, half; cbn [l_salary l_commission l_age l_elevel l_car l_zip l_hvalue l_hyears l_loan nofZ nadd nsub nmul ndiv NumR].
  repeat (split; [lra || lia || tauto|]).
  rewrite mult_IZR, minus_IZR.
  assert (Hz : 0 <= IZR k2 <= 8) by (split; [apply (IZR_le 0)|apply (IZR_le _ 8)]; lia).
  split; [|split; [lia|lra]].
  replace ((9 - IZR k2) * 100000 * (1 / 2 + u1)) with ((9 - IZR k2) * 50000 + (9 - IZR k2) * (100000 * u1)) by lra.
  assert (P : 0 <= (9 - IZR k2) * (100000 * u1)) by (apply Rmult_le_pos; lra).
  assert (Q : (9 - IZR k2) * (100000 * u1) < (9 - IZR k2) * 100000) by (apply Rmult_lt_compat_l; lra).
  lra.
Qed.

Lemma inr_ok lo hi v : inr lo hi v = true <-> IZR lo <= v <= IZR hi.
Proof. unfold inr. rewrite andb_true_iff. cbn. now rewrite !Rleb_true. Qed.
Lemma inr_k lo hi v : inr (lo * 1000) (hi * 1000) v = true <-> band (IZR lo) (IZR hi) v.
Proof. rewrite inr_ok, !mult_IZR. reflexivity. Qed.

Definition decides (y : Z) (P : Prop) : Prop := (P -> y = 0%Z) /\ (~ P -> y = 1%Z).

Lemma decides_iff y P Q : (P <-> Q) -> decides y P -> decides y Q.
Proof. intros H [A B]. split; intros K; [apply A|apply B]; tauto. Qed.
Lemma zero_if_decides b P : (b = true <-> P) -> decides (zero_if b) P.
Proof.
  intros H. destruct b; split; intros K; cbn; try reflexivity.
  - destruct K. now apply H.
  - apply H in K. discriminate.
Qed.
Lemma if_decides (b : bool) (P Q1 Q2 : Prop) y1 y2 :
  (b = true <-> P) -> decides y1 Q1 -> decides y2 Q2 -> decides (if b then y1 else y2) (ite P Q1 Q2).
Proof.
  intros H D1 D2. unfold ite. destruct b.
  - eapply decides_iff; [|exact D1]. assert (P) by now apply H. tauto.
  - eapply decides_iff; [|exact D2]. assert (~ P) by (intros K; apply H in K; discriminate). tauto.
Qed.
Lemma age_decides (age : Z) y1 y2 y3 (P1 P2 P3 : Prop) :
  decides y1 P1 -> decides y2 P2 -> decides y3 P3 ->
  decides (if (age <? 40)%Z then y1 else if (age <? 60)%Z then y2 else y3) (by_age age P1 P2 P3).
Proof.
  intros D1 D2 D3. unfold by_age. destruct (Z.ltb_spec age 40).
  - eapply decides_iff; [|exact D1]. split; [auto|]. intros [[_ K]|[[K _]|[K _]]]; auto; lia.
  - destruct (Z.ltb_spec age 60).
    + eapply decides_iff; [|exact D2]. split; [auto|]. intros [[K _]|[[_ K]|[K _]]]; auto; lia.
    + eapply decides_iff; [|exact D3]. split; [auto|]. intros [[K _]|[[K _]|[_ K]]]; auto; lia.
Qed.
Lemma band_decides lo hi v : decides (zero_if (inr (lo * 1000) (hi * 1000) v)) (band (IZR lo) (IZR hi) v).
Proof. apply zero_if_decides, inr_k. Qed.
Lemma disposable_decides d P : (1 < d <-> P) -> decides (if_disposable d) P.
Proof. intros H. apply zero_if_decides. change ((nofZ 1 <? d)%num) with (Rltb 1 d). now rewrite Rltb_true. Qed.

Lemma elevel2 e a b : ((e =? a)%Z || (e =? b)%Z)%bool = true <-> (e = a \/ e = b)%Z.
Proof. lia. Qed.

Lemma agrawal_label_ok (l : loaner (T := R)) fn (G : Type) (S : Rng G R) pert rnd :
  loaner_ok l -> (0 <= fn < 10)%Z -> fn <> 4%Z ->
  decides (bg_label (agrawal S rnd pert) fn l)
    (agrawal_groupA fn (l_salary l) (l_commission l) (l_age l) (l_elevel l) (l_hvalue l) (l_hyears l) (l_loan l)).
Proof.
  intros HL Hf H4. unfold bg_label; cbn [bg_funs agrawal]. unfold agrawal_funs.
  assert (C : (fn = 0 \/ fn = 1 \/ fn = 2 \/ fn = 3 \/ fn = 5 \/ fn = 6 \/ fn = 7 \/ fn = 8 \/ fn = 9)%Z) by lia.
  destruct HL as (_ & _ & _ & Ha & He & _).
  repeat (destruct C as [-> | C]); try subst fn; cbv [Z.to_nat Pos.to_nat Pos.iter_op nth Nat.add];
    unfold agrawal_groupA.
  - unfold agrawal_f0. apply zero_if_decides. lia.
  - unfold agrawal_f1, agrawal_bands. apply age_decides; apply band_decides.
  - unfold agrawal_f2. cbv zeta. apply age_decides; apply zero_if_decides; lia.
  - unfold agrawal_f3. cbv zeta. apply age_decides; apply if_decides; try apply band_decides; lia.
  - unfold agrawal_f5, agrawal_bands. apply age_decides; apply band_decides.
  - unfold agrawal_f6, two_thirds. apply disposable_decides. cbn. lra.
  - unfold agrawal_f7, two_thirds. apply disposable_decides. cbn [nofZ nadd nsub nmul ndiv NumR]. rewrite mult_IZR. lra.
  - unfold agrawal_f8, two_thirds. apply disposable_decides. cbn [nofZ nadd nsub nmul ndiv NumR]. rewrite mult_IZR. lra.
  - unfold agrawal_f9, two_thirds. cbv zeta. apply disposable_decides. cbn [nofZ nadd nsub nmul ndiv NumR].
    rewrite mult_IZR. destruct (20 <=? l_hyears l)%Z; [rewrite minus_IZR|]; lra.
Qed.

Lemma agrawal_one_ok {G} (S : Rng G R) rnd fn g0 a g1 row y g' :
  rng_ok S -> (0 <= fn < 10)%Z /\ fn <> 4%Z ->
  bg_draw (agrawal S rnd 0) g0 = (a, g1) ->
  bg_finish (agrawal S rnd 0) a (bg_label (agrawal S rnd 0) fn a) g1 = (row, y, g') ->
  agrawal_sample fn row y.
Proof.
  intros HS [Hf H4] D F. cbn [bg_draw agrawal] in D. pose proof (agrawal_draw_ok _ _ _ _ HS D) as HL.
  pose proof (agrawal_label_ok a fn G S 0 rnd HL Hf H4) as HD.
  cbn [bg_finish agrawal] in F. unfold agrawal_finish in F. cbv zeta in F.
  replace ((nofZ 0 <? 0)%num) with false in F by (symmetry; apply Rltb_false; cbn; lra).
  injection F as <- <- <-.
  exists (l_salary a), (l_commission a), (l_age a), (l_elevel a), (l_car a), (l_zip a), (l_hvalue a), (l_hyears a),
    (l_loan a).
  split; [|exact HD]. split; [reflexivity|exact HL].
Qed.

(** Perturbation *)
Lemma perturb_clips {G} (S : Rng G R) pert val lo hi range g v g' :
  lo <= hi -> perturb_value S pert val lo hi range g = (v, g') -> lo <= v <= hi.
Proof.
  intros L H. unfold perturb_value in H. destruct (rng_rand S g) as [u g1]. cbn in H.
  match type of H with (if Rltb ?x ?y then _ else _, _) = _ => destruct (Rltb x y) eqn:E1 end.
  - injection H as <- <-. lra.
  - apply Rltb_false in E1.
    match type of H with (if Rltb ?x ?y then _ else _, _) = _ => destruct (Rltb x y) eqn:E2 end.
    + injection H as <- <-. lra.
    + apply Rltb_false in E2. injection H as <- <-. lra.
Qed.
(** When the bounds are in the wrong order only the bounds come out. *)
Lemma perturb_swapped {G} (S : Rng G R) pert val lo hi range g v g' :
  hi < lo -> perturb_value S pert val lo hi range g = (v, g') -> v = lo \/ v = hi.
Proof.
  intros L H. unfold perturb_value in H. destruct (rng_rand S g) as [u g1]. cbn in H.
  match type of H with (if Rltb ?x ?y then _ else _, _) = _ => destruct (Rltb x y) eqn:E1 end.
  - injection H as <- <-. auto.
  - apply Rltb_false in E1.
    match type of H with (if Rltb ?x ?y then _ else _, _) = _ => destruct (Rltb x y) eqn:E2 end.
    + injection H as <- <-. auto.
    + apply Rltb_false in E2. lra.
Qed.

Lemma agrawal_perturbed_ok {G} (S : Rng G R) rnd pert a y g1 row y' g' :
  rng_ok S -> 0 < pert -> loaner_ok a ->
  (forall lo hi x, IZR lo <= x <= IZR hi -> IZR lo <= rnd x <= IZR hi) ->
  bg_finish (agrawal S rnd pert) a y g1 = (row, y', g') ->
  y' = y /\ exists salary commission age elevel car zip hvalue hyears loan,
    row = [salary; commission; age; elevel; car; zip; hvalue; hyears; loan] /\
    20000 <= salary <= 150000 /\ (commission = 0 \/ 10000 <= commission <= 75000) /\ 20 <= age <= 80 /\
    (hvalue = 0 \/ hvalue = (9 - zip) * 100000) /\ 1 <= hyears <= 30 /\ 0 <= loan <= 500000 /\
    elevel = IZR (l_elevel a) /\ car = IZR (l_car a) /\ zip = IZR (l_zip a).
Proof.
  intros HS Hp HL Hr F. cbn [bg_finish agrawal] in F. unfold agrawal_finish in F. cbv zeta in F.
  replace ((nofZ 0 <? pert)%num) with true in F by (symmetry; apply Rltb_true; exact Hp).
  destruct (perturb_value S pert (l_salary a) _ _ _ _) as [salary q1] eqn:E1.
  destruct (if (nofZ 0 <? l_commission a)%num then _ else _) as [commission q2] eqn:E2.
  destruct (perturb_value S pert (nofZ (l_age a)) _ _ _ _) as [age q3] eqn:E3.
  destruct (perturb_value S pert (l_hvalue a) _ _ _ _) as [hvalue q4] eqn:E4.
  destruct (perturb_value S pert (nofZ (l_hyears a)) _ _ _ _) as [hyears q5] eqn:E5.
  destruct (perturb_value S pert (l_loan a) _ _ _ _) as [loan q6] eqn:E6.
  injection F as <- <- <-. split; [reflexivity|].
  apply perturb_clips in E1; [|cbn; lra]. apply perturb_clips in E3; [|cbn; lra].
  apply perturb_clips in E5; [|cbn; lra]. apply perturb_clips in E6; [|cbn; lra].
  destruct HL as (Hs & Hc1 & Hc2 & Ha & He & Hc & Hz & Hh & Hy & Hl).
  assert (Z8 : 0 <= IZR (l_zip a) <= 8) by (split; [apply (IZR_le 0)|apply (IZR_le _ 8)]; lia).
  apply perturb_swapped in E4; [|cbn [nofZ NumR]; rewrite mult_IZR, minus_IZR; lra].
  exists salary, commission, (rnd age), (IZR (l_elevel a)), (IZR (l_car a)), (IZR (l_zip a)), hvalue, (rnd hyears), loan.
  split; [reflexivity|]. split; [exact E1|]. split.
  { change ((nofZ 0 <? l_commission a)%num) with (Rltb 0 (l_commission a)) in E2.
    destruct (Rltb 0 (l_commission a)) eqn:Ec.
    - right. apply perturb_clips in E2; [exact E2|cbn; lra].
    - apply Rltb_false in Ec. injection E2 as <- <-. left.
      destruct (Rle_lt_dec 75000 (l_salary a)); [auto|]. specialize (Hc2 r). lra. }
  split; [apply (Hr 20 80 age)%Z; exact E3|].
  split. { destruct E4 as [-> | ->]; [right|now left]. cbn [nofZ NumR]. rewrite mult_IZR, minus_IZR. reflexivity. }
  split; [apply (Hr 1 30 hyears)%Z; exact E5|]. split; [exact E6|]. repeat split.
Qed.

(** Function 4 as coded. *)
Lemma agrawal_f4_middle (l : loaner (T := R)) :
  loaner_ok l -> (40 <= l_age l < 60)%Z -> agrawal_f4 l = 1%Z.
Proof.
  intros (Hs & _) Ha. unfold agrawal_f4. cbv zeta.
  replace (l_age l <? 40)%Z with false by lia. replace (l_age l <? 60)%Z with true by lia.
  destruct (inr 75000 125000 (l_salary l)).
  - replace ((nofZ 200000 <=? l_salary l)%num) with false; [reflexivity|]. symmetry. apply Rleb_false. cbn. lra.
  - replace (inr 300000 500000 (l_salary l)) with false; [reflexivity|]. symmetry. apply not_true_is_false.
    rewrite inr_ok. lra.
Qed.
