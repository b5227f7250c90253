(** The rules of a Hoeffding tree. *)
From Coq Require Import List ZArith Bool Lia Permutation.
From Verif Require Import Base.Py Base.Num Base.Dict Model.Suggestion Model.GaussianObs Model.NominalObs Model.SplitTests
  Model.SplitCriteria Model.Knn Model.NaiveBayes Model.TreeSkeleton Model.HoeffdingTree Model.TreeRules Spec.TreeSpec Spec.HoeffdingSpec Spec.TreeRulesSpec
  Proofs.SplitTestProofs Proofs.TreeProofs Proofs.HoeffdingProofs.
Import ListNotations.
Local Open Scope Z_scope.

Section Inv.
Context {T : Type} {N : Num T}.
Variables (k : T) (phi : T -> T) (key : T -> Z) (cfg : ht_config T) (sz : sizes T (leaf T) (list (Z * T)) (list (Z * T)) (htest T)) (n : nat).
Local Notation O := (ht_ops k phi key cfg).

(** ** Tests read attributes of the rows, and multiway tests know the value of each of their branches *)
Definition rtest (t : htest T) (m : nat) : Prop :=
  test_ok t m /\ ht_att t < Z.of_nat n /\ match t with TMulti t => inverse t | _ => True end.
Definition rleaf (l : leaf T) : Prop := keys_ok l /\ forall i, In i (dkeys (lf_obs l)) -> i < Z.of_nat n.

Lemma rbranch t m x b : rtest t m -> o_branch O t x = Ok b -> b < Z.of_nat m.
Proof. intros [H _]. now apply branch_lt. Qed.
Lemma radd t m x b t' b' : rtest t m -> o_multiway O t = true -> o_branch O t x = Ok b -> b < 0 -> o_add O t x = Ok (t', b') ->
  b' = Z.of_nat m /\ rtest t' (m + 1) /\ forall x2 b2, o_branch O t x2 = Ok b2 -> 0 <= b2 -> o_branch O t' x2 = Ok b2.
Proof.
  intros (H1 & H2 & H3) M B Lb A. destruct (add_branch k phi key cfg t m x b t' b' H1 M B Lb A) as (E & T' & F). split; auto. split; auto. split; auto.
  destruct t as [t|a v|t]; try discriminate. cbn [o_add ht_ops ht_add o_branch ht_branch ht_att] in *.
  apply bind_Ok in A as (v & Ev & A). apply bind_Ok in A as ([t1 b1] & EA & A). injection A as <- <-.
  unfold multi_branch in B. destruct (no_attribute (mw_att t) (map key x)) eqn:En.
  - exfalso. unfold no_attribute in En. destruct H1 as [H1 _]. unfold at_index in Ev.
    destruct (Z.ltb_spec (mw_att t) 0) as [|_]; [lia|]. destruct (Z.ltb_spec (mw_att t) 0) as [|_]; [lia|]. rewrite orb_false_r in En. apply Z.ltb_lt in En.
    destruct (nth_error (map key x) (Z.to_nat (mw_att t))) eqn:E1; [|discriminate]. assert (X : nth_error (map key x) (Z.to_nat (mw_att t)) <> None) by congruence. apply nth_error_Some in X. lia.
  - rewrite Ev in B. cbn [bind] in B. injection B as <-. destruct (dget (mw_map t) v) as [b0|] eqn:E0.
    { exfalso. apply (dget_vals) in E0. destruct H1 as [_ K]. rewrite K in E0. apply in_map_iff in E0 as (i & <- & _). lia. }
    assert (NE : mw_map t <> []). { intros E1. unfold multi_add in EA. rewrite E1 in EA. discriminate. }
    destruct (multi_add_ok t v H3 NE E0) as (t2 & b2 & E2 & I2 & A2 & _). rewrite E2 in EA. injection EA as <- <-. split; auto. cbn [ht_att] in *. lia.
Qed.

Lemma sorted_set_nodup l : NoDup (sorted_set l).
Proof. unfold sorted_set. apply NoDup_dsort. apply (fold_set_keys l []). constructor. Qed.
Lemma branch_mapping_keys vals : dkeys (branch_mapping vals) = vals.
Proof.
  unfold branch_mapping, dkeys. rewrite map_map. cbn [fst]. generalize 0%nat.
  induction vals as [|v vals IH]; intros a; cbn; [reflexivity|]. now rewrite IH.
Qed.
Definition rsug (s : suggestion (option (htest T)) (list (list (Z * T))) T) : Prop := match sg_test s with Some t => rtest t (length (sg_dists s)) | None => True end.
Lemma best_of_r pre i o s : 0 <= i < Z.of_nat n -> best_of k phi cfg pre i o = Ok (Some s) -> rsug s.
Proof.
  intros Li H. pose proof (best_of_ok k phi key cfg pre i o s (proj1 Li) H) as S1. unfold sug_ok in S1. unfold rsug, rtest. revert S1.
  destruct o as [g|m|]; cbn [best_of] in H; [| |discriminate].
  - apply bind_Ok in H as ([b|] & E & H); [|discriminate]. injection H as <-. cbn [sg_test ht_att nt_att]. intros [S1 _]. repeat split; auto; try apply S1; lia.
  - unfold no_best in H. cbv zeta in H. rewrite fold_keep in H. destruct (fold_left keep_best _ _) as [b|] eqn:E; [|discriminate]. injection H as <-. cbn [sg_test sg_dists].
    apply keep_best_in in E as [E|E].
    + apply in_map_iff in E as (a & <- & _). cbn [sg_test ht_att]. intros [S1 _]. split; auto. split; auto. lia.
    + destruct (h_binary cfg); [discriminate|]. injection E as <-. cbn [sg_test ht_att multi_new mw_att sg_dists]. intros [S1 _]. split; auto. split; [lia|].
      apply multi_new_inverse; [rewrite branch_mapping_keys; apply sorted_set_nodup|]. rewrite branch_mapping_vals. apply FinFun.Injective_map_NoDup; [intros a b; lia|apply seq_NoDup].
Qed.
Lemma decide_split_r l l' te ds : rleaf l -> o_decide O l = Ok (SplitOn l' te ds) -> rtest te (length ds) /\ forall d, In d ds -> rleaf (o_child O l' d).
Proof.
  intros [K B] H. destruct (decide_split k phi key cfg l l' te ds K H) as [D1 D2]. split; [|intros d Hd; split; [auto|intros i []]].
  apply decide_cases in H as [_ (_ & bs & best & Eb & Hin & Et & <-)]. unfold suggestions in Eb. apply bind_Ok in Eb as (rs & E & Eb). injection Eb as <-.
  apply in_app_iff in Hin as [Hin|Hin]; [destruct (h_no_preprune cfg); [contradiction|destruct Hin as [<-|[]]; discriminate]|].
  apply in_flat_map in Hin as ([s'|] & Hs & Hin); [|contradiction]. destruct Hin as [->|[]].
  destruct (mapM_in _ _ _ E _ Hs) as ([i o] & Hio & Ei). cbn [fst snd] in Ei.
  assert (Hi : In i (dkeys (lf_obs l))) by (apply in_map_iff; exists (i, o); auto).
  pose proof (best_of_r (lf_stats l) i o best (conj (proj1 K i Hi) (B i Hi)) Ei) as R. unfold rsug in R. now rewrite Et in R.
Qed.
Lemma update_observers_bound f y w : forall x obs i obs', i + Z.of_nat (length x) <= Z.of_nat n -> (forall j, In j (dkeys obs) -> j < Z.of_nat n) ->
  update_observers key f obs i x y w = Ok obs' -> forall j, In j (dkeys obs') -> j < Z.of_nat n.
Proof.
  induction x as [|a x IH]; intros obs i obs' Li H E; cbn [update_observers] in E; [injection E as <-; auto|]. cbn [length] in Li.
  apply bind_Ok in E as (o' & _ & E). eapply IH; [|  |exact E]; [lia|]. intros j Hj. apply In_dkeys_dset in Hj as [->|Hj]; auto. lia.
Qed.
Lemma rlearn l x y w l' : rleaf l -> length x = n -> o_learn O l x y w = Ok l' -> rleaf l'.
Proof.
  intros [K B] Lx E. split; [eapply keys_learn; eauto|]. cbn [o_learn ht_ops] in E. unfold leaf_learn in E.
  apply bind_Ok in E as ([mc nb] & _ & E). apply bind_Ok in E as (obs & E1 & E). injection E as <-. cbn [lf_obs]. eapply (update_observers_bound _ _ _ x _ 0); eauto. lia.
Qed.
Lemma disable_bound p : forall l, (forall i, In i (dkeys (lf_obs l)) -> i < Z.of_nat n) -> forall i, In i (dkeys (lf_obs (fold_left (disable cfg) p l))) -> i < Z.of_nat n.
Proof.
  induction p as [|a p IH]; intros l H i Hi; cbn [fold_left] in Hi; auto. apply (IH (disable cfg l a)); auto. intros j. unfold disable.
  destruct (h_kind cfg); auto. destruct (dmem (lf_obs l) a) eqn:E; auto. cbn [lf_obs]. apply dmem_true in E. rewrite dset_old by auto. auto.
Qed.
Lemma decide_r l d : rleaf l -> decide k phi cfg l = Ok d -> match d with Keep l' | NullWins l' => rleaf l' | _ => True end.
Proof.
  intros [K B] H. pose proof (decide_keys k phi cfg l d K H) as DK. revert H. unfold decide. cbv zeta. destruct (leaf_pure l); [intros [= <-]; split; auto|]. intros H. apply bind_Ok in H as (bs & Eb & H).
  destruct (rev _) as [|best [|second rest]] eqn:Er.
  - injection H as <-. split; auto.
  - injection H as <-. destruct (sg_test best); auto. split; auto.
  - apply bind_Ok in H as (bound & _ & H). apply bind_Ok in H as (poor & _ & H). injection H as <-. pose proof (disable_bound poor l B) as A.
    destruct (_ || _); [destruct (sg_test best); auto; split; auto|]. split; auto.
Qed.
Definition rgood (t : tree T (leaf T) (list (Z * T)) (list (Z * T)) (htest T)) : Prop := good rtest rleaf ndk t.
Lemma rfit_one t x y w t' : rgood t -> length x = n -> fit_one O (h_memory cfg) sz t x y w = Ok t' -> rgood t'.
Proof.
  intros G Lx H. refine (proj1 (fit_one_ok O rtest rleaf ndk _ _ _ _ _ (h_memory cfg) sz _ (fun x _ _ => length x = n) _ _ _ _ _ _ t x y w t' Lx G H)); cbn.
  - exact rbranch.
  - intros l [[_ K] _]; exact K.
  - intros i Hi. split; [now apply keys_new|intros j []].
  - reflexivity.
  - reflexivity.
  - exact decide_split_r.
  - split; [apply keys_new; constructor|intros j []].
  - intros l x0 y0 w0 l' K L0 E. exact (rlearn l x0 y0 w0 l' K L0 E).
  - intros i x0 y0 w0 i' K _ [= <-]. now apply update_stats_ndk.
  - exact decide_r.
  - exact (ht_keep k phi key cfg).
  - exact radd.
Qed.
Lemma rgood_new : rgood tree_new. Proof. split; cbn; auto. Qed.
Lemma rrows rows : forall ws t t', (forall x y, In (x, y) rows -> length x = n) -> rgood t -> ht_rows k phi key cfg sz t rows ws = Ok t' -> rgood t'.
Proof.
  induction rows as [|[x y] rows IH]; intros ws t t' W G H; cbn [ht_rows] in H; [destruct ws; injection H as <-; auto|].
  destruct ws as [|w ws]; [injection H as <-; auto|]. apply bind_Ok in H as (t1 & E1 & H). eapply IH; [|  |exact H]; [intros; eapply W; right; eauto|].
  apply fit_weighted_cases in E1 as [->|[_ E1]]; auto. eapply rfit_one; [|  |exact E1]; [destruct G as [C Wf]; split; auto|]. eapply W. now left.
Qed.
Lemma rrun es : forall s s', width n es -> rgood (ht_tree s) -> ht_run k phi key cfg sz s es = Ok s' -> rgood (ht_tree s').
Proof.
  induction es as [|e es IH]; intros s s' W G H; cbn [ht_run] in H; [injection H as <-; auto|]. apply bind_Ok in H as (s1 & E & H).
  assert (G1 : rgood (ht_tree s1)).
  { destruct e as [rows c ws|]; cbn [ht_step] in E; [|injection E as <-; apply rgood_new]. unfold ht_fit in E. cbv zeta in E. destruct (Nat.eqb _ _); [|discriminate].
    apply bind_Ok in E as (t & E & E2). injection E2 as <-. cbn [ht_tree]. eapply rrows; [|exact G|exact E]. intros x y Hin. apply (W (HFit rows c ws) x y); [now left|exact Hin]. }
  eapply IH; [|exact G1|exact H]. intros e' x y He. apply W. now right.
Qed.

Lemma branch_total t m x : rtest t m -> length x = n -> exists b, o_branch O t x = Ok b.
Proof.
  intros (H1 & H2 & H3) Lx. assert (P : 0 <= ht_att t) by (destruct t; cbn in H1 |- *; tauto).
  destruct (nth_error x (Z.to_nat (ht_att t))) as [v|] eqn:Ev; [|apply nth_error_None in Ev; lia]. destruct t as [t|a u|t]; cbn [o_branch ht_ops ht_branch ht_att] in *.
  - unfold num_branch. rewrite (has_attribute _ _ _ P Ev), (at_index_in _ _ _ P Ev). cbn [bind]. destruct (_ =? _)%num; eauto.
  - rewrite (has_attribute _ _ _ P Ev), (at_index_in _ _ _ P Ev). cbn [bind]. eauto.
  - assert (Ek : nth_error (map key x) (Z.to_nat (mw_att t)) = Some (key v)) by (rewrite nth_error_map, Ev; reflexivity).
    unfold multi_branch. rewrite (has_attribute _ _ _ P Ek), (at_index_in _ _ _ P Ek). cbn [bind]. eauto.
Qed.

(** ** A branch is taken exactly when its predicate holds *)
Hypothesis leb_eq : forall a b : T, (a <=? b)%num = (a =? b)%num || (a <? b)%num.
Hypothesis lt_not_le : forall a b : T, (b <? a)%num = negb (a <=? b)%num.
Lemma branch_pred t m x i : rtest t m -> length x = n -> 0 <= i < Z.of_nat m ->
  exists b p, o_branch O t x = Ok b /\ ht_rule t i = Ok p /\ tpred_covers key p x = Ok (b =? i).
Proof.
  intros (H1 & H2 & H3) Lx Li. destruct t as [t|a v|t]; cbn [o_branch ht_ops ht_branch ht_rule test_ok ht_att] in *.
  - destruct H1 as [[P1 Q] ->]. destruct (nth_error x (Z.to_nat (nt_att t))) as [v|] eqn:Ev; [|apply nth_error_None in Ev; lia].
    unfold num_branch, num_rule. rewrite (has_attribute _ _ _ P1 Ev), (at_index_in _ _ _ P1 Ev). cbn [bind]. rewrite Q.
    assert (X : exists b, (if (v =? nt_value t)%num then Ok 0 else Ok (if (v <? nt_value t)%num then 0 else 1)) = Ok b /\ b = (if (v <=? nt_value t)%num then 0 else 1)).
    { rewrite leb_eq. destruct (v =? nt_value t)%num, (v <? nt_value t)%num; cbn; eauto. }
    destruct X as (b & -> & ->). do 2 eexists. split; [reflexivity|]. split; [reflexivity|]. cbn [tpred_covers]. unfold covers. cbn [p_att p_op p_value]. rewrite (at_index_in _ _ _ P1 Ev). cbn [bind].
    destruct (Z.eq_dec i 0) as [->|Ni]; [|assert (i = 1) as -> by lia]; cbn; rewrite ?lt_not_le; destruct (v <=? nt_value t)%num; reflexivity.
  - destruct H1 as [P1 ->]. destruct (nth_error x (Z.to_nat a)) as [u|] eqn:Ev; [|apply nth_error_None in Ev; lia].
    rewrite (has_attribute _ _ _ P1 Ev), (at_index_in _ _ _ P1 Ev). cbn [bind]. do 2 eexists. split; [reflexivity|]. split; [reflexivity|]. cbn [tpred_covers].
    assert (Ek : nth_error (map key x) (Z.to_nat a) = Some (key u)) by (rewrite nth_error_map, Ev; reflexivity). rewrite (at_index_in _ _ _ P1 Ek). cbn [bind].
    destruct (Z.eq_dec i 0) as [->|Ni]; [|assert (i = 1) as -> by lia]; cbn; destruct (key u =? v); reflexivity.
  - destruct H1 as [P1 Q]. destruct H3 as [ND I]. destruct (nth_error x (Z.to_nat (mw_att t))) as [u|] eqn:Ev; [|apply nth_error_None in Ev; lia].
    assert (Ek : nth_error (map key x) (Z.to_nat (mw_att t)) = Some (key u)) by (rewrite nth_error_map, Ev; reflexivity).
    unfold multi_branch, multi_rule. rewrite (has_attribute _ _ _ P1 Ek), (at_index_in _ _ _ P1 Ek). cbn [bind].
    assert (Hi : In i (dvals (mw_map t))). { rewrite Q. apply in_map_iff. exists (Z.to_nat i). split; [lia|]. apply in_seq. lia. }
    apply in_dvals in Hi as (v & Hv); auto. pose proof (proj1 (I _ _) Hv) as Hr. rewrite Hr. cbn [bind p_att p_value]. do 2 eexists. split; [reflexivity|]. split; [reflexivity|].
    cbn [tpred_covers]. rewrite (at_index_in _ _ _ P1 Ek). cbn [bind]. f_equal. destruct (Z.eqb_spec (key u) v) as [->|Nv].
    + rewrite Hv. symmetry. apply Z.eqb_refl.
    + symmetry. apply Z.eqb_neq. destruct (dget (mw_map t) (key u)) as [b|] eqn:Eb; [|lia]. intros ->. apply I in Eb. rewrite Hr in Eb. injection Eb. congruence.
Qed.

(** ** Rules *)
Lemma covered_app ps qs x : covered key (ps ++ qs) x = (b <- covered key ps x ;; if b then covered key qs x else Ok false).
Proof.
  induction ps as [|p ps IH]; cbn [covered app bind]; [reflexivity|]. destruct (tpred_covers key p x) as [[|]|e]; cbn [bind]; auto.
Qed.
Local Notation tnode := (node (leaf T) (list (Z * T)) (list (Z * T)) (htest T)).
Local Notation wfn := (wf rtest rleaf ndk).
Fixpoint ch_rules (te : htest T) (cur : list (tpred T)) (l : list (Z * tnode)) : res (list (rule T)) :=
  match l with
  | [] => Ok []
  | (i, c) :: r => p <- ht_rule te i ;; rs <- node_rules c (cur ++ [p]) ;; rest <- ch_rules te cur r ;; Ok (rs ++ rest)
  end.
Lemma node_rules_split te st ch cur : node_rules (Split te st ch) cur = ch_rules te cur ch.
Proof.
  cbn [node_rules]. induction ch as [|[i c] ch IH]; [reflexivity|]. cbn [ch_rules]. destruct (ht_rule te i); [|reflexivity]. cbn [bind].
  destruct (node_rules c (cur ++ [a])); [|reflexivity]. cbn [bind]. rewrite IH. reflexivity.
Qed.
(** The rules of a subtree: those of the leaf an instance is sorted to are true of it (below the predicates above), all others false *)
Definition picked (rs : list (rule T)) (x : list T) (b : bool) (m : tnode) : Prop :=
  if is_split m then forall r, In r rs -> rule_covers key r x = Ok false
  else exists before r after, rs = before ++ r :: after /\ rule_covers key r x = Ok b /\ (forall r', In r' (before ++ after) -> rule_covers key r' x = Ok false)
         /\ r_dist r = stats_of O m /\ max_key (r_dist r) = Ok (r_class r).
Lemma picked_false rs x m : picked rs x false m -> forall r, In r rs -> rule_covers key r x = Ok false.
Proof.
  unfold picked. destruct (is_split m); auto. intros (bf & r0 & af & -> & E & F & _) r Hr. apply in_app_iff in Hr as [Hr|[<-|Hr]]; auto; apply F, in_app_iff; auto.
Qed.
Lemma picked_app rs1 rs2 rs3 x b m : (forall r, In r (rs1 ++ rs3) -> rule_covers key r x = Ok false) -> picked rs2 x b m -> picked (rs1 ++ rs2 ++ rs3) x b m.
Proof.
  intros H. unfold picked. destruct (is_split m).
  - intros P r Hr. rewrite !in_app_iff in Hr. destruct Hr as [Hr|[Hr|Hr]]; auto; apply H, in_app_iff; auto.
  - intros (bf & r0 & af & -> & E & F & G). exists (rs1 ++ bf), r0, (af ++ rs3). split; [rewrite <- !app_assoc; reflexivity|]. split; auto. split; auto.
    intros r' Hr. rewrite !in_app_iff in Hr. destruct Hr as [[Hr|Hr]|[Hr|Hr]]; try (apply H, in_app_iff; auto; fail); apply F, in_app_iff; auto.
Qed.
Lemma rules_below (t : tnode) : wfn t -> forall cur rs x, length x = n -> node_rules t cur = Ok rs ->
  forall b, covered key cur x = Ok b -> exists p m, route O t x = Ok (p, Some m) /\ picked rs x b m.
Proof.
  induction t as [l|i|te st ch IH] using node_rect'; intros W cur rs x Lx H b Hb.
  - cbn [node_rules] in H. apply bind_Ok in H as (c & Ec & H). injection H as <-. exists [], (Active l). split; [reflexivity|]. exists [], (mk_rule cur (lf_stats l) c), [].
    repeat split; auto. intros r' [].
  - cbn [node_rules] in H. apply bind_Ok in H as (c & Ec & H). injection H as <-. exists [], (Inactive i). split; [reflexivity|]. exists [], (mk_rule cur i c), [].
    repeat split; auto. intros r' [].
  - rewrite node_rules_split in H. inversion W as [| |? ? ? K TI F]; subst.
    destruct (branch_total te _ x TI Lx) as (b0 & Eb).
    assert (Q : forall l rs, (forall i c, In (i, c) l -> In (i, c) ch) -> NoDup (dkeys l) -> ch_rules te cur l = Ok rs ->
      match dget l b0 with Some c => exists p m, route O c x = Ok (p, Some m) /\ picked rs x b m | None => forall r, In r rs -> rule_covers key r x = Ok false end).
    { induction l as [|[i c] l IHl]; intros rs0 Sub ND E; cbn [ch_rules] in E; [injection E as <-; cbn; intros r []|].
      apply bind_Ok in E as (p & Ep & E). apply bind_Ok in E as (rs1 & E1 & E). apply bind_Ok in E as (rs2 & E2 & E). injection E as <-.
      inversion ND as [|? ? N1 N2]; subst. specialize (IHl rs2 (fun i c H => Sub i c (or_intror H)) N2 E2).
      assert (Hin : In (i, c) ch) by (apply Sub; now left). assert (Li : 0 <= i < Z.of_nat (length ch)). { apply (keys_contiguous ch i K). apply in_map_iff. exists (i, c). auto. }
      destruct (branch_pred te _ x i TI Lx Li) as (b1 & p1 & Eb1 & Ep1 & Cp). rewrite Eb in Eb1. injection Eb1 as <-. rewrite Ep in Ep1. injection Ep1 as <-.
      rewrite Forall_forall in IH, F. specialize (IH _ Hin (F _ Hin) _ _ _ Lx E1). cbn [snd] in IH.
      assert (Cc : covered key (cur ++ [p]) x = Ok (b && (b0 =? i))).
      { rewrite covered_app, Hb. cbn [bind]. destruct b; [|reflexivity]. cbn [covered]. rewrite Cp. cbn. destruct (b0 =? i); reflexivity. }
      destruct (IH _ Cc) as (q & m & Rq & Pq). cbn [dget]. destruct (Z.eqb_spec i b0) as [->|Ni].
      - rewrite Z.eqb_refl, andb_true_r in Pq. exists q, m. split; auto. apply (picked_app [] rs1 rs2); auto. cbn [app]. destruct (dget l b0) as [c'|] eqn:Ec; [|exact IHl].
        exfalso. apply N1. apply dget_In in Ec. apply in_map_iff. exists (b0, c'). auto.
      - rewrite (proj2 (Z.eqb_neq b0 i)), andb_false_r in Pq by congruence. pose proof (picked_false _ _ _ Pq) as A.
        destruct (dget l b0) as [c'|]; [|intros r Hr; apply in_app_iff in Hr as [Hr|Hr]; auto].
        destruct IHl as (q' & m' & R' & P'). exists q', m'. split; auto. rewrite <- (app_nil_r rs2). apply picked_app; auto. rewrite app_nil_r. auto. }
    assert (ND : NoDup (dkeys ch)). { rewrite K. apply FinFun.Injective_map_NoDup; [intros a c; lia|apply seq_NoDup]. }
    specialize (Q ch rs (fun i c H => H) ND H). rewrite route_split, Eb. cbn [bind]. destruct (Z.leb_spec 0 b0) as [Lb|Lb].
    + pose proof (rbranch _ _ _ _ TI Eb) as Ub. destruct (dget ch b0) as [c|] eqn:Ec.
      * destruct Q as (q & m & Rq & Pq). rewrite Rq. cbn [bind]. eauto.
      * exfalso. assert (X : In b0 (dkeys ch)) by (apply (keys_contiguous ch b0 K); lia). apply dget_Some in X as (c & Ec'). congruence.
    + exists [], (Split te st ch). split; [reflexivity|]. unfold picked. cbn [is_split]. destruct (dget ch b0) as [c|] eqn:Ec; [|exact Q].
      exfalso. assert (X : In b0 (dkeys ch)) by (apply dget_Some; eauto). apply (keys_contiguous ch b0 K) in X. lia.
Qed.

(** ** When there are rules, and how many *)
Lemma rule_exists t m i : rtest t m -> 0 <= i < Z.of_nat m -> exists p, ht_rule t i = Ok p.
Proof.
  intros (H1 & H2 & H3) Li. destruct t as [t|a v|t]; cbn [ht_rule]; eauto. destruct H1 as [P1 Q]. destruct H3 as [ND I]. cbn [ht_att] in *.
  assert (Hi : In i (dvals (mw_map t))). { rewrite Q. apply in_map_iff. exists (Z.to_nat i). split; [lia|]. apply in_seq. lia. }
  apply in_dvals in Hi as (v & Hv); auto. apply I in Hv. unfold multi_rule. rewrite Hv. cbn. eauto.
Qed.
Definition has_stats (t : tnode) : bool := match t with Split _ _ _ => true | _ => match stats_of O t with [] => false | _ => true end end.
Lemma rules_exist (t : tnode) : wfn t -> forall cur,
  (forallb has_stats (nodes t) = true -> exists rs, node_rules t cur = Ok rs /\ Z.of_nat (length rs) = count is_active t + count is_inactive t)
  /\ (forallb has_stats (nodes t) = false -> node_rules t cur = Raise ValueError).
Proof.
  induction t as [l|i|te st ch IH] using node_rect'; intros W cur.
  - cbn. destruct (lf_stats l) as [|kv d]; cbn; split; try discriminate; auto. intros _. eexists. split; [reflexivity|]. reflexivity.
  - cbn. destruct i as [|kv d]; cbn; split; try discriminate; auto. intros _. eexists. split; [reflexivity|]. reflexivity.
  - rewrite node_rules_split, !count_split. cbn [is_active is_inactive]. inversion W as [| |? ? ? K TI F]; subst. cbn [nodes forallb has_stats andb].
    set (go := fix go (l : list (Z * tnode)) : list tnode := match l with [] => [] | (_, c) :: r => nodes c ++ go r end).
    assert (Q : forall l, (forall i c, In (i, c) l -> In (i, c) ch) ->
      (forallb has_stats (go l) = true -> exists rs, ch_rules te cur l = Ok rs /\ Z.of_nat (length rs) = count_all is_active l + count_all is_inactive l)
      /\ (forallb has_stats (go l) = false -> ch_rules te cur l = Raise ValueError)).
    { induction l as [|[i c] l IHl]; intros Sub; [cbn; split; [eauto|discriminate]|].
      assert (Hin : In (i, c) ch) by (apply Sub; now left). assert (Li : 0 <= i < Z.of_nat (length ch)). { apply (keys_contiguous ch i K). apply in_map_iff. exists (i, c). auto. }
      destruct (rule_exists te _ i TI Li) as (p & Ep). rewrite Forall_forall in IH, F. destruct (IH _ Hin (F _ Hin) (cur ++ [p])) as [A B]. cbn [snd] in A, B.
      destruct (IHl (fun i c H => Sub i c (or_intror H))) as [C D]. change (go ((i, c) :: l)) with (nodes c ++ go l). rewrite forallb_app. cbn [ch_rules]. rewrite Ep. cbn [bind].
      destruct (forallb has_stats (nodes c)) eqn:E1.
      - destruct A as (rs1 & -> & L1); auto. cbn [bind andb]. destruct (forallb has_stats (go l)) eqn:E2.
        + split; [|discriminate]. intros _. destruct C as (rs2 & -> & L2); auto. cbn [bind]. eexists. split; [reflexivity|]. rewrite app_length. unfold count_all in *. cbn [map fold_right snd]. lia.
        + split; [discriminate|]. intros _. rewrite D; auto.
      - cbn [andb]. split; [discriminate|]. intros _. rewrite B; auto. }
    destruct (Q ch (fun i c H => H)) as [A B]. split; auto.
Qed.
End Inv.
