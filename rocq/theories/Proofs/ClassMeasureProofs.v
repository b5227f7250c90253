(** Classification measurements: lemmas. *)
From Coq Require Import List ZArith Bool Lia.
From Verif Require Import Base.Py Base.Num Model.ConfMat Model.ClassMeasure Spec.ClassMeasureSpec.
Import ListNotations.

Lemma first_index_In l y : In y l -> exists n, first_index l y = Some n /\ (n < length l)%nat /\ nth_error l n = Some y.
Proof.
  induction l as [|x l IH]; intros H; [destruct H|]. cbn [first_index]. destruct (Z.eqb_spec x y) as [->|Ne]; [exists O; cbn; auto with arith|]. destruct H as [H|H]; [congruence|].
  destruct (IH H) as (n & -> & L & E). exists (S n). cbn. auto with arith.
Qed.
Lemma first_index_app l r y n : first_index l y = Some n -> first_index (l ++ r) y = Some n.
Proof.
  revert n. induction l as [|x l IH]; intros n H; [discriminate|]. cbn in *. destruct (x =? y)%Z; auto. destruct (first_index l y) as [m|]; [|discriminate]. rewrite (IH m eq_refl). exact H.
Qed.
Lemma first_index_new l t : ~ In t l -> first_index (l ++ [t]) t = Some (length l).
Proof.
  induction l as [|x l IH]; intros H; cbn; [now rewrite Z.eqb_refl|]. destruct (Z.eqb_spec x t) as [->|Ne]; [exfalso; apply H; now left|]. rewrite IH; [reflexivity|]. intros G. apply H. now right.
Qed.
Lemma first_index_nth l y n : first_index l y = Some n -> nth_error l n = Some y.
Proof.
  revert n. induction l as [|x l IH]; intros n H; [discriminate|]. cbn in H. destruct (Z.eqb_spec x y) as [->|Ne]; [injection H as <-; reflexivity|]. destruct (first_index l y) as [m|]; [|discriminate]. injection H as <-. now apply IH.
Qed.
Lemma first_index_NoDup l y n : NoDup l -> nth_error l n = Some y -> first_index l y = Some n.
Proof.
  revert n. induction l as [|x l IH]; intros [|n] ND H; try discriminate; inversion ND as [|? ? Hx ND']; subst; cbn in *.
  - injection H as ->. now rewrite Z.eqb_refl.
  - destruct (Z.eqb_spec x y) as [->|Ne]; [exfalso; apply Hx; eapply nth_error_In; eauto|]. rewrite (IH n ND' H). reflexivity.
Qed.
Definition is_ix (l : list Z) (y : Z) (a : nat) : bool := match first_index l y with Some n => Nat.eqb n a | None => false end.
Lemma is_ix_true l y n : first_index l y = Some n -> forall a, is_ix l y a = Nat.eqb n a.
Proof. intros H a. unfold is_ix. now rewrite H. Qed.

Section Count.
Context {U : Type}.
Implicit Types (h : list (Z * Z * U)).
Lemma times_app f h y p (w : U) : times f (h ++ [(y, p, w)]) = (times f h + if f y p then 1 else 0)%nat.
Proof. unfold times. rewrite filter_app, app_length. cbn [filter fst snd]. destruct (f y p); reflexivity. Qed.
Lemma times_ext f g h : (forall y p (w : U), In (y, p, w) h -> f y p = g y p) -> times f h = times g h.
Proof.
  intros H. unfold times. f_equal. induction h as [|[[y p] w] h IH]; [reflexivity|]. cbn [filter fst snd]. rewrite (H y p w) by now left. rewrite IH by (intros; eapply H; right; eauto). reflexivity.
Qed.
Lemma times_zero f h : (forall y p (w : U), In (y, p, w) h -> f y p = false) -> times f h = 0%nat.
Proof. intros H. rewrite (times_ext f (fun _ _ => false)) by exact H. unfold times. now rewrite (proj2 (forallb_filter_id _ _)) || (induction h; auto; cbn; apply IHh; intros; eapply H; right; eauto). Qed.
(** The main diagonal counts the correct results. *)
Lemma indicator_sum k : forall n st, zsum (map (fun a => if Nat.eqb k a then 1 else 0)%Z (seq st n)) = (if Nat.leb st k && Nat.ltb k (st + n) then 1 else 0)%Z.
Proof.
  induction n as [|n IH]; intros st; cbn [seq map zsum fold_right].
  - rewrite Nat.add_0_r. destruct (Nat.leb_spec st k); cbn [andb]; auto. rewrite (proj2 (Nat.ltb_ge k st)) by lia. reflexivity.
  - unfold zsum in IH. rewrite IH. destruct (Nat.eqb_spec k st), (Nat.leb_spec (S st) k), (Nat.leb_spec st k), (Nat.ltb_spec k (S st + n)), (Nat.ltb_spec k (st + S n)); cbn [andb]; lia.
Qed.
Lemma zsum_fold (f : Z -> Z) l : forall acc, fold_left (fun acc i => (acc + f i)%Z) l acc = (acc + zsum (map f l))%Z.
Proof. induction l as [|x l IH]; intros acc; cbn; [lia|]. rewrite IH. unfold zsum. lia. Qed.
Lemma zsum_add {A} (f g : A -> Z) l : zsum (map (fun a => f a + g a)%Z l) = (zsum (map f l) + zsum (map g l))%Z.
Proof. induction l as [|x l IH]; cbn; [reflexivity|]. unfold zsum in *. rewrite IH. lia. Qed.
Lemma diag_times l h : (forall y p w, In (y, p, w) h -> In y l /\ In p l) ->
  zsum (map (fun a => Z.of_nat (times (fun y p => is_ix l y a && is_ix l p a) h)) (seq 0 (length l))) = Z.of_nat (times Z.eqb h).
Proof.
  induction h as [|[[y p] w] h IH] using rev_ind; intros H.
  - cbn. induction (seq 0 (length l)); cbn; auto.
  - rewrite times_app. rewrite (map_ext _ (fun a => (Z.of_nat (times (fun y p => is_ix l y a && is_ix l p a) h) + (if is_ix l y a && is_ix l p a then 1 else 0))%Z)) by (intros a; rewrite times_app; destruct (_ && _); lia).
    rewrite zsum_add, IH by (intros y' p' w' Hin; eapply H; apply in_app_iff; left; eauto). destruct (H y p w) as [Hy Hp]; [apply in_app_iff; right; now left|].
    destruct (first_index_In _ _ Hy) as (a & Ea & La & Na). destruct (first_index_In _ _ Hp) as (b & Eb & Lb & Nb).
    rewrite (map_ext _ (fun c => if Nat.eqb a c then (if (y =? p)%Z then 1 else 0) else 0)%Z).
    + destruct (Z.eqb_spec y p) as [E|E]; [rewrite indicator_sum; cbn [Nat.leb andb]; rewrite (proj2 (Nat.ltb_lt a _)) by (cbn; lia); lia|].
      assert (Z0 : forall m, zsum (map (fun c => if Nat.eqb a c then 0 else 0)%Z m) = 0%Z) by (induction m as [|x m IHm]; cbn; auto; destruct (Nat.eqb a x); exact IHm). rewrite Z0. lia.
    + intros c. rewrite (is_ix_true _ _ _ Ea), (is_ix_true _ _ _ Eb). destruct (Nat.eqb_spec a c) as [->|]; cbn [andb]; auto. destruct (Nat.eqb_spec b c) as [->|Nbc], (Z.eqb_spec y p) as [->|Nyp]; auto; try congruence.
Qed.
End Count.

Section Inv.
Context {T : Type} {N : Num T}.
Implicit Types (s : measure T) (h : list (Z * Z * T)).
Definition last_true {U} (l : option Z) (h : list (Z * Z * U)) : option Z := fold_left (fun _ r => Some (fst (fst r))) h l.
(** What the matrix holds *)
Record mat {U} s (h : list (Z * Z * U)) : Prop := {
  i_size : cm_size (me_matrix s) = Z.of_nat (length (me_targets s));
  i_labels : forall y p w, In (y, p, w) h -> In y (me_targets s) /\ In p (me_targets s);
  i_cells : forall a b, (a < length (me_targets s))%nat -> (b < length (me_targets s))%nat ->
    cm_cell (me_matrix s) (Z.of_nat a) (Z.of_nat b) = Z.of_nat (times (fun y p => is_ix (me_targets s) y a && is_ix (me_targets s) p b) h) }.
Record inv s h : Prop := {
  i_mat :> mat s h;
  i_count : me_count s = Z.of_nat (length h);
  i_last : me_last s = last_true None h;
  i_nochange : me_nochange s = repeated None h n0 }.
Lemma mat_label {U} s (h : list (Z * Z * U)) t : mat s h -> mat (me_add_label s t) h /\ me_targets (me_add_label s t) = known (me_targets s) t /\ In t (me_targets (me_add_label s t)) /\ incl (me_targets s) (me_targets (me_add_label s t)).
Proof.
  intros I. unfold me_add_label, known. destruct (existsb (Z.eqb t) (me_targets s)) eqn:E.
  - split; auto. split; auto. split; [|apply incl_refl]. apply existsb_exists in E as (x & Hx & E). apply Z.eqb_eq in E. now subst.
  - assert (Hn : ~ In t (me_targets s)) by (intros H; assert (existsb (Z.eqb t) (me_targets s) = true) by (apply existsb_exists; exists t; split; auto; apply Z.eqb_refl); congruence).
    destruct I as [Sz Lb Ce]. cbv zeta. rewrite Sz. set (n := length (me_targets s)) in *.
    assert (Ln : length (me_targets s ++ [t]) = S n) by (rewrite app_length; cbn; fold n; lia). rewrite Ln. rewrite (proj2 (Z.ltb_lt _ _)) by lia.
    split; [|split; [reflexivity|split; [cbn; apply in_app_iff; right; now left|cbn; intros x Hx; apply in_app_iff; now left]]].
    unfold cm_reshape. rewrite Z.eqb_refl, Sz. rewrite (proj2 (Z.ltb_ge (Z.of_nat (S n)) (Z.of_nat n))) by lia. cbn [negb orb fst]. constructor; cbn [me_targets me_matrix me_last me_count me_majority me_nochange cm_size cm_cell]; auto.
    + intros y p w Hin. destruct (Lb y p w Hin). split; apply in_app_iff; now left.
    + rewrite Ln. intros a b La' Lb'.
      assert (Old : forall y p w c, In (y, p, w) h -> is_ix (me_targets s ++ [t]) y c = is_ix (me_targets s) y c /\ is_ix (me_targets s ++ [t]) p c = is_ix (me_targets s) p c).
      { intros y p w c Hin. destruct (Lb y p w Hin) as [H1 H2]. destruct (first_index_In _ _ H1) as (k & Ek & _). destruct (first_index_In _ _ H2) as (m & Em & _). unfold is_ix. now rewrite (first_index_app _ [t] _ _ Ek), (first_index_app _ [t] _ _ Em), Ek, Em. }
      rewrite (times_ext _ (fun y p => is_ix (me_targets s) y a && is_ix (me_targets s) p b)) by (intros y p w Hin; destruct (Old y p w a Hin) as [-> _]; destruct (Old y p w b Hin) as [_ ->]; reflexivity).
      rewrite !(proj2 (Z.leb_le 0 _)) by lia. cbn [andb]. destruct (Z.ltb_spec (Z.of_nat a) (Z.of_nat n)); [destruct (Z.ltb_spec (Z.of_nat b) (Z.of_nat n)); [cbn [andb]; apply Ce; lia|]|]; cbn [andb]; rewrite times_zero; auto;
        intros y p w Hin; destruct (Lb y p w Hin) as [H1 H2]; destruct (first_index_In _ _ H1) as (k & Ek & Lk & _); destruct (first_index_In _ _ H2) as (m & Em & Lm & _); rewrite (is_ix_true _ _ _ Ek), (is_ix_true _ _ _ Em); fold n in Lk, Lm.
      * rewrite (proj2 (Nat.eqb_neq m b)) by lia. apply andb_false_r.
      * rewrite (proj2 (Nat.eqb_neq k a)) by lia. reflexivity.
Qed.
Lemma label_keeps s t : me_last (me_add_label s t) = me_last s /\ me_count (me_add_label s t) = me_count s /\ me_majority (me_add_label s t) = me_majority s /\ me_nochange (me_add_label s t) = me_nochange s.
Proof. unfold me_add_label. destruct (existsb _ _); auto. Qed.
Lemma inv_label s h t : inv s h -> inv (me_add_label s t) h /\ me_targets (me_add_label s t) = known (me_targets s) t /\ In t (me_targets (me_add_label s t)) /\ incl (me_targets s) (me_targets (me_add_label s t)).
Proof. intros [M Co La No]. destruct (mat_label s h t M) as (M' & R). split; [|exact R]. destruct (label_keeps s t) as (E1 & E2 & _ & E4). constructor; congruence. Qed.
Lemma inv_index s t : In t (me_targets s) -> exists a, me_index s t = Some (Z.of_nat a) /\ (a < length (me_targets s))%nat /\ first_index (me_targets s) t = Some a.
Proof. intros H. destruct (first_index_In _ _ H) as (a & E & L & _). exists a. unfold me_index. rewrite E. auto. Qed.
Lemma repeated_app h : forall l acc y p (w : T), repeated l (h ++ [(y, p, w)]) acc =
  match last_true l h with Some c => if (c =? y)%Z then (repeated l h acc + w)%num else repeated l h acc | None => repeated l h acc end.
Proof. induction h as [|[[y0 p0] w0] h IH]; intros l acc y p w; [reflexivity|]. cbn [app repeated]. rewrite IH. reflexivity. Qed.
Lemma inv_add s h y p w : inv s h -> exists s', me_add s y p w = Ok s' /\ inv s' (h ++ [(y, p, w)]) /\ me_targets s' = known (known (me_targets s) y) p.
Proof.
  intros I. destruct (inv_label s h y I) as (I1 & K1 & Y1 & _). set (s1 := me_add_label s y) in *. destruct (inv_label s1 h p I1) as (I2 & K2 & P2 & In2). unfold me_add. fold s1. set (s2 := me_add_label s1 p) in *.
  destruct (inv_index s1 y Y1) as (a & Ea & La & Fa). destruct (inv_index s2 p P2) as (b & Eb & Lb & Fb). cbv zeta. rewrite Ea, Eb.
  assert (Fa2 : first_index (me_targets s2) y = Some a).
  { rewrite K2. unfold known. destruct (existsb _ _); auto. now apply first_index_app. }
  assert (La2 : (a < length (me_targets s2))%nat) by (apply nth_error_Some; rewrite (first_index_nth _ _ _ Fa2); discriminate).
  destruct I2 as [[Sz Lab Ce] Co Las No].
  assert (Ix : forall c, (c < length (me_targets s2))%nat -> np_index (cm_size (me_matrix s2)) (Z.of_nat c) = Ok (Z.of_nat c)).
  { intros c Hc. unfold np_index. rewrite Sz, (proj2 (Z.leb_le 0 _)), (proj2 (Z.ltb_lt _ _)) by lia. reflexivity. }
  unfold cm_update. cbv zeta. assert (B : forall c, (c < length (me_targets s2))%nat -> ((0 <=? Z.of_nat c) && (Z.of_nat c <? cm_size (me_matrix s2)))%Z = true).
  { intros c Hc. rewrite Sz, (proj2 (Z.leb_le 0 _)), (proj2 (Z.ltb_lt _ _)) by lia. reflexivity. }
  rewrite !B by auto. cbn [andb]. unfold cm_bump. rewrite !Ix by auto. cbn [bind].
  eexists. split; [reflexivity|]. split; [|cbn [me_targets]; now rewrite K2, K1]. constructor; [constructor| | |]; cbn [me_targets me_matrix me_last me_count me_majority me_nochange cm_size cm_cell].
  - exact Sz.
  - intros y' p' w' Hin. apply in_app_iff in Hin as [Hin|[[= <- <- <-]|[]]]; [eauto|]. split; auto.
  - intros a' b' La' Lb'. rewrite times_app, (is_ix_true _ _ _ Fa2), (is_ix_true _ _ _ Fb). unfold set_cell. rewrite (Ce a' b') by auto.
    destruct (Z.eqb_spec (Z.of_nat a') (Z.of_nat a)) as [Ez|Ez]; destruct (Nat.eqb_spec a a') as [En|En]; try lia; cbn [andb]; [|lia].
    destruct (Z.eqb_spec (Z.of_nat b') (Z.of_nat b)) as [Ez2|Ez2]; destruct (Nat.eqb_spec b b') as [En2|En2]; try lia. subst a' b'. rewrite Ce by auto. lia.
  - rewrite Co, app_length. cbn. lia.
  - unfold last_true. rewrite fold_left_app. reflexivity.
  - rewrite repeated_app, <- Las, <- No. reflexivity.
Qed.
Lemma inv_empty t : inv (mk_me t (mkCM (Z.of_nat (length t)) zeros2 0) None 0 n0 n0) [].
Proof. constructor; [constructor| | |]; cbn; auto. intros y p w []. Qed.
Lemma inv_reset s h : inv s h -> inv (me_reset s) [].
Proof.
  intros I. unfold me_reset, cm_restart, np_dim. cbn [targets_or_0]. rewrite (proj2 (Z.ltb_ge _ _)) by lia. cbn [fst]. apply inv_empty.
Qed.
Lemma inv_run es : forall s h, inv s h -> exists s', me_run s es = Ok s' /\ inv s' (fold_left (fun h e => match e with MAdd y p w => h ++ [(y, p, w)] | MClear => [] end) es h) /\ me_targets s' = known_after (me_targets s) es.
Proof.
  induction es as [|e es IH]; intros s h I; [exists s; auto|]. cbn [me_run fold_left]. unfold known_after in *. cbn [fold_left]. destruct e as [y p w|]; cbn [me_step].
  - destruct (inv_add s h y p w I) as (s1 & -> & I1 & K1). cbn [bind]. destruct (IH s1 _ I1) as (s' & E & I' & K). exists s'. rewrite K1 in K. auto.
  - cbn [bind]. destruct (IH (me_reset s) [] (inv_reset s h I)) as (s' & E & I' & K). exists s'. auto.
Qed.
Lemma inv_diagonal {U} s (h : list (Z * Z * U)) : mat s h -> cm_diagonal (me_matrix s) = Z.of_nat (times Z.eqb h).
Proof.
  intros I. unfold cm_diagonal. rewrite (zsum_fold (fun i => cm_cell (me_matrix s) i i)), Z.add_0_l, (i_size _ _ I). unfold zrange. rewrite Nat2Z.id, map_map. rewrite <- (diag_times (me_targets s)) by exact (i_labels _ _ I).
  f_equal. apply map_ext_in. intros a Ha. apply in_seq in Ha. apply (i_cells _ _ I); lia.
Qed.
End Inv.
