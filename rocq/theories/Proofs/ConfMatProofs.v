From Coq Require Import List ZArith Bool Lia.
From Verif Require Import Base.Py Model.ConfMat Spec.ConfMatSpec.
Import ListNotations.
Local Open Scope Z_scope.

Ltac zb :=
  repeat match goal with
  | H : (_ && _)%bool = true |- _ => apply andb_prop in H; destruct H
  | H : (_ || _)%bool = false |- _ => apply orb_false_elim in H; destruct H
  | H : (_ || _)%bool = true |- _ => apply orb_prop in H
  | H : (_ && _)%bool = false |- _ => apply andb_false_iff in H
  | H : negb _ = true |- _ => apply negb_true_iff in H
  | H : negb _ = false |- _ => apply negb_false_iff in H
  | H : (_ <? _) = true |- _ => apply Z.ltb_lt in H
  | H : (_ <? _) = false |- _ => apply Z.ltb_ge in H
  | H : (_ <=? _) = true |- _ => apply Z.leb_le in H
  | H : (_ <=? _) = false |- _ => apply Z.leb_gt in H
  | H : (_ =? _) = true |- _ => apply Z.eqb_eq in H
  | H : (_ =? _) = false |- _ => apply Z.eqb_neq in H
  end.
Ltac zcase := match goal with |- context[if ?c then _ else _] => destruct c eqn:?; zb end.

Lemma np_index_in n i : 0 <= i < n -> np_index n i = Ok i.
Proof. intros H. unfold np_index. zcase; [reflexivity|lia]. Qed.
Lemma np_index_ge n i : 0 <= n <= i -> np_index n i = Raise IndexError.
Proof. intros H. unfold np_index. zcase; [lia|]. zcase; [lia|reflexivity]. Qed.

Lemma fold_left_snoc {A B} (f : A -> B -> A) l x a : fold_left f (l ++ [x]) a = f (fold_left f l a) x.
Proof. rewrite fold_left_app. reflexivity. Qed.

Lemma cm_run_app s a : forall b,
  cm_run s (a ++ b) = let '(s1, h1) := cm_run s a in let '(s2, h2) := cm_run s1 b in (s2, h1 ++ h2).
Proof.
  revert s. induction a as [|o a IH]; intros s b; simpl.
  - destruct (cm_run s b); reflexivity.
  - destruct (cm_step s o) as [s1 x]. rewrite IH. destruct (cm_run s1 a) as [s2 h].
    destruct (cm_run s2 b). reflexivity.
Qed.

Definition CInv (s : cmat) (h : list (cm_op * res bool)) : Prop :=
  0 <= cm_size s
  /\ (forall i j, 0 <= i < cm_size s -> 0 <= j < cm_size s -> cm_cell s i j = tally h i j)
  /\ (forall i j, 0 <= i -> 0 <= j -> ~ (i < cm_size s /\ j < cm_size s) -> tally h i j = 0)
  /\ cm_count s = net_calls h.

Lemma tally_snoc h e i j : tally (h ++ [e]) i j =
    match e with
    | (CUpdate a b w, Ok true) => if is_label a i && is_label b j then tally h i j + w else tally h i j
    | (CRemove a b, Ok true) => if is_label a i && is_label b j then tally h i j - 1 else tally h i j
    | (CRestart _, Ok _) => 0
    | _ => tally h i j
    end.
Proof. unfold tally. rewrite fold_left_snoc. reflexivity. Qed.
Lemma net_snoc h e : net_calls (h ++ [e]) =
    match e with
    | (CUpdate _ _ _, Ok true) => net_calls h + 1
    | (CRemove _ _, Ok true) => net_calls h - 1
    | (CRestart _, Ok _) => 0
    | _ => net_calls h
    end.
Proof. unfold net_calls. rewrite fold_left_snoc. reflexivity. Qed.

Lemma CInv_reshape s h m : CInv s h -> cm_size s <= m ->
  CInv (fst (cm_reshape s m m)) h /\ snd (cm_reshape s m m) = true /\ cm_size (fst (cm_reshape s m m)) = m.
Proof.
  intros (H0 & H1 & H2 & H3) Hm. unfold cm_reshape.
  rewrite Z.eqb_refl. replace (m <? cm_size s) with false by (symmetry; apply Z.ltb_ge; lia). simpl.
  split; [|auto]. unfold CInv; simpl. split; [lia|]. split; [|split; auto].
  - intros i j Hi Hj. zcase; [apply H1; lia|]. symmetry. apply H2; lia.
  - intros i j Hi Hj Hn. apply H2; lia.
Qed.

Lemma CInv_bump_update s h i j w : CInv s h -> 0 <= i < cm_size s -> 0 <= j < cm_size s ->
  exists s', cm_bump s i j w 1 = (s', Ok true) /\ CInv s' (h ++ [(CUpdate (Some i) (Some j) w, Ok true)]).
Proof.
  intros (H0 & H1 & H2 & H3) Hi Hj. unfold cm_bump. rewrite !np_index_in by auto.
  eexists; split; [reflexivity|]. unfold CInv; simpl. split; [auto|]. split; [|split].
  - intros a b Ha Hb. rewrite tally_snoc. unfold set_cell, is_label.
    rewrite (Z.eqb_sym i a), (Z.eqb_sym j b).
    destruct ((a =? i) && (b =? j)) eqn:E; zb; subst; rewrite H1 by lia; reflexivity.
  - intros a b Ha Hb Hn. rewrite tally_snoc. unfold is_label.
    destruct ((i =? a) && (j =? b)) eqn:E; zb; [lia|]. auto.
  - rewrite net_snoc, H3. reflexivity.
Qed.

Lemma CInv_bump_remove s h i j : CInv s h -> 0 <= i < cm_size s -> 0 <= j < cm_size s ->
  exists s', cm_bump s i j (-1) (-1) = (s', Ok true) /\ CInv s' (h ++ [(CRemove (Some i) (Some j), Ok true)]).
Proof.
  intros (H0 & H1 & H2 & H3) Hi Hj. unfold cm_bump. rewrite !np_index_in by auto.
  eexists; split; [reflexivity|]. unfold CInv; simpl. split; [auto|]. split; [|split].
  - intros a b Ha Hb. rewrite tally_snoc. unfold set_cell, is_label.
    rewrite (Z.eqb_sym i a), (Z.eqb_sym j b).
    destruct ((a =? i) && (b =? j)) eqn:E; zb; subst; rewrite H1 by lia; lia.
  - intros a b Ha Hb Hn. rewrite tally_snoc. unfold is_label.
    destruct ((i =? a) && (j =? b)) eqn:E; zb; [lia|]. auto.
  - rewrite net_snoc, H3. lia.
Qed.

Lemma CInv_same s h o x : CInv s h ->
  match o, x with
  | CUpdate _ _ _, Ok true | CRemove _ _, Ok true | CRestart _, Ok _ => False
  | _, _ => True
  end -> CInv s (h ++ [(o, x)]).
Proof.
  intros (H0 & H1 & H2 & H3) Hx. unfold CInv. split; [auto|].
  assert (E : forall i j, tally (h ++ [(o, x)]) i j = tally h i j).
  { intros. rewrite tally_snoc. destruct o, x as [[]|]; simpl in *; tauto. }
  assert (E2 : net_calls (h ++ [(o, x)]) = net_calls h).
  { rewrite net_snoc. destruct o, x as [[]|]; simpl in *; tauto. }
  rewrite E2. split; [|split; auto]; intros; rewrite E; auto.
Qed.

Lemma cm_step_inv s h o : CInv s h -> nonneg_op o ->
  CInv (fst (cm_step s o)) (h ++ [(o, snd (cm_step s o))]).
Proof.
  intros HI Hn. pose proof HI as (H0 & _). destruct o as [i j w|i j|m n|n].
  - simpl in *. unfold cm_update. destruct i as [i|], j as [j|]; simpl in Hn; try (apply CInv_same; simpl; auto; fail).
    zcase.
    + destruct (CInv_bump_update s h i j w HI) as (s' & E & HI'); try lia. rewrite E. exact HI'.
    + unfold np_max_axis. zcase.
      * zcase; [apply CInv_same; simpl; auto|].
        assert (j = 0) by (destruct Heqb0; zb; lia). subst j.
        destruct (CInv_reshape s h (i + 1) HI) as (HI1 & _ & Hs); [lia|].
        destruct (cm_reshape s (i + 1) (i + 1)) as [s1 b1]. simpl in *.
        destruct (CInv_bump_update s1 h i 0 w HI1) as (s' & E & HI'); try lia. rewrite E. exact HI'.
      * apply CInv_same; simpl; auto.
  - simpl in *. unfold cm_remove. destruct i as [i|], j as [j|]; simpl in Hn; try (apply CInv_same; simpl; auto; fail).
    zcase; [|apply CInv_same; simpl; auto].
    destruct (Z.eq_dec i (cm_size s)) as [->|Hi].
    { unfold cm_bump. rewrite np_index_ge by lia. apply CInv_same; simpl; auto. }
    destruct (Z.eq_dec j (cm_size s)) as [->|Hj].
    { unfold cm_bump. rewrite np_index_in, np_index_ge by lia. apply CInv_same; simpl; auto. }
    destruct (CInv_bump_remove s h i j HI) as (s' & E & HI'); try lia. rewrite E. exact HI'.
  - simpl in *. destruct (Z.eq_dec m n) as [<-|Hmn].
    + destruct (Z_lt_le_dec m (cm_size s)) as [Hlt|Hle].
      * unfold cm_reshape. replace (m <? cm_size s) with true by (symmetry; apply Z.ltb_lt; lia).
        rewrite orb_true_r. simpl. apply CInv_same; simpl; auto.
      * destruct (CInv_reshape s h m HI Hle) as (HI1 & _ & _). destruct (cm_reshape s m m) as [s1 b1].
        apply CInv_same; simpl; auto.
    + unfold cm_reshape. replace (m =? n) with false by (symmetry; apply Z.eqb_neq; auto). simpl.
      apply CInv_same; simpl; auto.
  - simpl. unfold cm_restart, np_dim. zcase; [apply CInv_same; simpl; auto|].
    unfold CInv; simpl. split; [auto|].
    split; [|split]; intros; rewrite ?tally_snoc, ?net_snoc; auto.
Qed.

Lemma cm_run_inv ops : forall s h, CInv s h -> Forall nonneg_op ops ->
  CInv (fst (cm_run s ops)) (h ++ snd (cm_run s ops)).
Proof.
  induction ops as [|o ops IH]; intros s h HI Hf; simpl.
  - rewrite app_nil_r. exact HI.
  - inversion Hf; subst. pose proof (cm_step_inv s h o HI H1) as HS.
    destruct (cm_step s o) as [s1 x]. simpl in HS. specialize (IH s1 _ HS H2).
    destruct (cm_run s1 ops) as [s2 hs]. simpl in *. rewrite <- app_assoc in IH. exact IH.
Qed.

Lemma CInv_init n s : cm_init n = Ok s -> CInv s [].
Proof.
  unfold cm_init, np_dim. destruct (targets_or_0 n <? 0) eqn:E; [discriminate|]. simpl. intros H; inversion H; subst.
  zb. unfold CInv; simpl. repeat split; auto.
Qed.

Lemma fold_left_add_sum (f : Z -> Z) l : forall a, fold_left (fun acc i => acc + f i) l a = a + zsum (map f l).
Proof. induction l as [|x l IH]; intros a; simpl; [lia|]. rewrite IH. lia. Qed.

Lemma zrange_In n x : In x (zrange n) <-> 0 <= x < n.
Proof.
  unfold zrange. rewrite in_map_iff. split.
  - intros (k & <- & H). apply in_seq in H. lia.
  - intros H. exists (Z.to_nat x). split; [lia|]. apply in_seq. lia.
Qed.

Lemma confusion_matrix_counts_proof n s0 ops :
  cm_init n = Ok s0 -> Forall nonneg_op ops ->
  let '(s, h) := cm_run s0 ops in
  (forall i j, 0 <= i < cm_size s -> 0 <= j < cm_size s -> cm_value_at s i j = Ok (tally h i j))
  /\ (forall i j, 0 <= i -> 0 <= j -> (cm_size s <= i \/ cm_size s <= j) ->
        cm_value_at s i j = Raise IndexError /\ tally h i j = 0)
  /\ cm_count s = net_calls h
  /\ cm_diagonal s = zsum (map (fun i => tally h i i) (zrange (cm_size s)))
  /\ (forall r, 0 <= r < cm_size s -> cm_row s r = [map (tally h r) (zrange (cm_size s))])
  /\ (forall c, 0 <= c < cm_size s -> cm_column s c = map (fun a => [tally h a c]) (zrange (cm_size s))).
Proof.
  intros HI Hf. pose proof (cm_run_inv ops s0 [] (CInv_init n s0 HI) Hf) as H.
  destruct (cm_run s0 ops) as [s h]. simpl in H. destruct H as (H0 & H1 & H2 & H3).
  split; [|split; [|split; [|split; [|split]]]].
  - intros i j Hi Hj. unfold cm_value_at. rewrite !np_index_in by auto. simpl. rewrite H1; auto.
  - intros i j Hi Hj Ho. split; [|apply H2; lia]. unfold cm_value_at.
    destruct (Z_lt_le_dec i (cm_size s)); [rewrite np_index_in by lia; simpl; rewrite np_index_ge by lia; reflexivity|].
    rewrite np_index_ge by lia. reflexivity.
  - exact H3.
  - unfold cm_diagonal. rewrite fold_left_add_sum. simpl. f_equal. apply map_ext_in. intros i Hi.
    apply zrange_In in Hi. apply H1; lia.
  - intros r Hr. unfold cm_row. zcase; [|lia]. f_equal. apply map_ext_in. intros i Hi.
    apply zrange_In in Hi. apply H1; lia.
  - intros c Hc. unfold cm_column. apply map_ext_in. intros i Hi. apply zrange_In in Hi.
    zcase; [|lia]. rewrite H1; auto; lia.
Qed.

(** update with labels beyond the matrix *)
Lemma update_beyond s i j w :
  0 <= cm_size s -> 0 <= i -> 0 <= j -> (cm_size s <= i \/ cm_size s <= j) ->
  match cm_update s (Some i) (Some j) w with
  | (s', Ok true) => j = 0 /\ cm_size s' = i + 1 /\ cm_value_at s' i 0 = Ok w
  | (s', Ok false) => False
  | (s', Raise e) => j <> 0 /\ e = AxisError /\ s' = s
  end.
Proof.
  intros H0 Hi Hj Ho. unfold cm_update. zcase; [lia|]. unfold np_max_axis. zcase.
  - assert (j = 0) by (destruct Heqb0; zb; lia). subst j. zcase; [lia|].
    unfold cm_reshape. rewrite Z.eqb_refl. replace (i + 1 <? cm_size s) with false by (symmetry; apply Z.ltb_ge; lia). simpl.
    unfold cm_bump; simpl. rewrite (np_index_in (i + 1) i), np_index_in by lia. split; [auto|]. split; [auto|].
    unfold cm_value_at; simpl. rewrite (np_index_in (i + 1) i), np_index_in by lia. simpl. unfold set_cell.
    rewrite Z.eqb_refl. simpl. zcase; [lia|]. reflexivity.
  - split; [|auto]. lia.
Qed.

Lemma remove_outside s i j :
  0 <= cm_size s -> 0 <= i -> 0 <= j -> (cm_size s <= i \/ cm_size s <= j) ->
  cm_remove s (Some i) (Some j)
  = (s, if (i <=? cm_size s) && (j <=? cm_size s) then Raise IndexError else Ok false).
Proof.
  intros H0 Hi Hj Ho. unfold cm_remove. zcase.
  - replace ((i <=? cm_size s) && (j <=? cm_size s)) with true by (symmetry; apply andb_true_intro; split; apply Z.leb_le; lia).
    unfold cm_bump. destruct (Z_lt_le_dec i (cm_size s)).
    + rewrite np_index_in, np_index_ge by lia. reflexivity.
    + rewrite np_index_ge by lia. reflexivity.
  - zcase; [lia|reflexivity].
Qed.

(** *** MOLConfusionMatrix *)
Definition MInv (s : mol) (h : list (mol_op * res bool)) : Prop :=
  0 <= mo_size s
  /\ (forall t i j, 0 <= t < mo_size s -> 0 <= i < 2 -> 0 <= j < 2 -> mo_cell s t i j = mtally h t i j)
  /\ (forall t i j, mo_size s <= t -> mtally h t i j = 0).

Lemma mtally_snoc h e t i j : mtally (h ++ [e]) t i j =
    match e with
    | (MUpdate c a b w, Ok true) => if is_label c t && is_label a i && is_label b j then mtally h t i j + w else mtally h t i j
    | (MRemove c a b, Ok true) => if is_label c t && is_label a i && is_label b j then mtally h t i j - 1 else mtally h t i j
    | (MRestart _, Ok _) => 0
    | _ => mtally h t i j
    end.
Proof. unfold mtally. rewrite fold_left_snoc. reflexivity. Qed.

Lemma MInv_same s h o x : MInv s h ->
  match o, x with
  | MUpdate _ _ _ _, Ok true | MRemove _ _ _, Ok true | MRestart _, Ok _ => False
  | _, _ => True
  end -> MInv s (h ++ [(o, x)]).
Proof.
  intros (H0 & H1 & H2) Hx. unfold MInv. split; [auto|].
  assert (E : forall t i j, mtally (h ++ [(o, x)]) t i j = mtally h t i j).
  { intros. rewrite mtally_snoc. destruct o, x as [[]|]; simpl in *; tauto. }
  split; intros; rewrite E; auto.
Qed.

Lemma MInv_bump s h t i j d o : MInv s h -> 0 <= t < mo_size s -> 0 <= i < 2 -> 0 <= j < 2 ->
  (o = MUpdate (Some t) (Some i) (Some j) d \/ (o = MRemove (Some t) (Some i) (Some j) /\ d = -1)) ->
  exists s', mol_bump s t i j d = (s', Ok true) /\ MInv s' (h ++ [(o, Ok true)]) /\ mo_size s' = mo_size s.
Proof.
  intros (H0 & H1 & H2) Ht Hi Hj Ho. unfold mol_bump. rewrite !np_index_in by auto.
  eexists; split; [reflexivity|]. split; [|reflexivity].
  assert (E : forall c a b, mtally (h ++ [(o, Ok true)]) c a b
     = if (c =? t) && (a =? i) && (b =? j) then mtally h c a b + d else mtally h c a b).
  { intros. rewrite mtally_snoc. destruct Ho as [->|[-> ->]]; unfold is_label;
      rewrite (Z.eqb_sym t), (Z.eqb_sym i), (Z.eqb_sym j); zcase; auto; lia. }
  unfold MInv; simpl. split; [auto|]. split.
  - intros c a b Hc Ha Hb. rewrite E. unfold set_cell3. zcase; subst; rewrite H1 by lia; reflexivity.
  - intros c a b Hc. rewrite E. zcase; [lia|]. auto.
Qed.

Lemma mol_step_inv s h o : MInv s h -> mol_sane s o ->
  MInv (fst (mol_step s o)) (h ++ [(o, snd (mol_step s o))]).
Proof.
  intros HI Hn. pose proof HI as (H0 & H1 & H2). destruct o as [t i j w|t i j|t m n|n]; simpl in *.
  - unfold mol_update. destruct t as [t|], i as [i|], j as [j|]; simpl in Hn; try (apply MInv_same; simpl; auto; fail).
    zcase.
    + destruct (MInv_bump s h t i j w _ HI ltac:(lia) ltac:(lia) ltac:(lia) (or_introl eq_refl)) as (s' & -> & HI' & _).
      exact HI'.
    + destruct ((1 <? i) || (i <? 0) || (1 <? j) || (j <? 0)) eqn:EL; [apply MInv_same; simpl; auto|]. zb.
      zcase; [apply MInv_same; simpl; auto|].
      assert (Ht : t = mo_size s) by lia. subst t.
      unfold mol_reshape. replace (mo_size s + 1 <? mo_size s + 1) with false by (symmetry; apply Z.ltb_ge; lia). simpl.
      zcase; [lia|]. zcase; [lia|].
      match goal with |- context[mol_bump ?x _ _ _ _] => set (s1 := x) end.
      assert (HI1 : MInv s1 h).
      { unfold MInv, s1; simpl. split; [lia|]. split.
        - intros c a b Hc Ha Hb. zcase; [apply H1; lia|]. symmetry. apply H2. lia.
        - intros; apply H2; lia. }
      destruct (MInv_bump s1 h (mo_size s) i j w _ HI1 ltac:(simpl; lia) ltac:(lia) ltac:(lia) (or_introl eq_refl))
        as (s' & -> & HI' & _). exact HI'.
  - unfold mol_remove. destruct t as [t|], i as [i|], j as [j|]; simpl in Hn; try (apply MInv_same; simpl; auto; fail).
    zcase; [|apply MInv_same; simpl; auto].
    destruct (Z.eq_dec t (mo_size s)) as [->|Ht].
    { unfold mol_bump. rewrite np_index_ge by lia. apply MInv_same; simpl; auto. }
    destruct (Z.eq_dec i 2) as [->|Hi].
    { unfold mol_bump. rewrite np_index_in by lia. cbn. apply MInv_same; simpl; auto. }
    destruct (Z.eq_dec j 2) as [->|Hj].
    { unfold mol_bump. rewrite !np_index_in by lia. cbn. apply MInv_same; simpl; auto. }
    destruct (MInv_bump s h t i j (-1) _ HI ltac:(lia) ltac:(lia) ltac:(lia) (or_intror (conj eq_refl eq_refl)))
      as (s' & -> & HI' & _). exact HI'.
  - unfold mol_reshape. zcase; [apply MInv_same; simpl; auto|]. zcase; [lia|]. zcase; [lia|].
    apply MInv_same; simpl; auto. unfold MInv; simpl. split; [lia|]. split.
    + intros c a b Hc Ha Hb. zcase; [apply H1; lia|]. symmetry. apply H2. lia.
    + intros; apply H2; lia.
  - unfold mol_restart, np_dim. zcase; [apply MInv_same; simpl; auto|].
    unfold MInv; simpl. split; [auto|]. split; intros; rewrite mtally_snoc; auto.
Qed.

Lemma mol_run_inv ops : forall s h, MInv s h -> mol_sane_run s ops ->
  MInv (fst (mol_run s ops)) (h ++ snd (mol_run s ops)).
Proof.
  induction ops as [|o ops IH]; intros s h HI Hf; simpl.
  - rewrite app_nil_r. exact HI.
  - destruct Hf as [Hf1 Hf2]. pose proof (mol_step_inv s h o HI Hf1) as HS.
    destruct (mol_step s o) as [s1 x]. simpl in HS, Hf2. specialize (IH s1 _ HS Hf2).
    destruct (mol_run s1 ops) as [s2 hs]. simpl in *. rewrite <- app_assoc in IH. exact IH.
Qed.

Lemma MInv_init n s : mol_init n = Ok s -> MInv s [].
Proof.
  unfold mol_init, np_dim. destruct (targets_or_0 n <? 0) eqn:E; [discriminate|]. simpl. intros H; inversion H; subst.
  zb. unfold MInv; simpl. repeat split; auto.
Qed.

Lemma zsum_map_add (f g : Z -> Z) l : zsum (map (fun x => f x + g x) l) = zsum (map f l) + zsum (map g l).
Proof. induction l; simpl; lia. Qed.

Lemma mol_counts_proof n s0 ops :
  mol_init n = Ok s0 -> mol_sane_run s0 ops ->
  let '(s, h) := mol_run s0 ops in
  let targets := zrange (mo_size s) in
  (forall t i j, 0 <= t < mo_size s -> 0 <= i < 2 -> 0 <= j < 2 -> mol_value_at s t i j = Ok (mtally h t i j))
  /\ (forall t i j, mo_size s <= t -> mtally h t i j = 0)
  /\ mol_diagonal s = zsum (map (fun t => mtally h t 0 0 + mtally h t 1 1) targets)
  /\ mol_discordance s = zsum (map (fun t => mtally h t 0 1 + mtally h t 1 0) targets)
  /\ mol_total s = mol_diagonal s + mol_discordance s.
Proof.
  intros HI Hf. pose proof (mol_run_inv ops s0 [] (MInv_init n s0 HI) Hf) as H.
  destruct (mol_run s0 ops) as [s h]. simpl in H. destruct H as (H0 & H1 & H2). cbv zeta.
  assert (ED : mol_diagonal s = zsum (map (fun t => mtally h t 0 0 + mtally h t 1 1) (zrange (mo_size s)))).
  { unfold mol_diagonal.
    assert (E : forall l a, fold_left (fun acc t => acc + mo_cell s t 0 0 + mo_cell s t 1 1) l a
       = a + zsum (map (fun t => mo_cell s t 0 0 + mo_cell s t 1 1) l)).
    { induction l as [|x l IH]; intros a; simpl; [lia|]. rewrite IH. lia. }
    rewrite E. simpl. f_equal. apply map_ext_in. intros t Ht. apply zrange_In in Ht. rewrite !H1 by lia. reflexivity. }
  split; [|split; [|split; [|split]]].
  - intros t i j Ht Hi Hj. unfold mol_value_at. rewrite !np_index_in by auto. simpl. rewrite H1; auto.
  - auto.
  - exact ED.
  - unfold mol_discordance. rewrite ED. unfold mol_total.
    replace (map _ (zrange (mo_size s))) with
      (map (fun t => (mtally h t 0 1 + mtally h t 1 0) + (mtally h t 0 0 + mtally h t 1 1)) (zrange (mo_size s))).
    + rewrite (zsum_map_add (fun t => mtally h t 0 1 + mtally h t 1 0)). lia.
    + apply map_ext_in. intros t Ht. apply zrange_In in Ht. rewrite !H1 by lia. lia.
  - unfold mol_discordance. lia.
Qed.
