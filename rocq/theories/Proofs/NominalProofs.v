(** Lemmas about the nominal attribute observers. *)
From Coq Require Import List ZArith Bool Lia Reals Lra Sorted Permutation.
From Verif Require Import Base.Py Base.Num Base.Dict Spec.Lists Spec.ObserverSpec Spec.NominalSpec Spec.EbstSpec Model.Suggestion Model.TargetStats Model.NominalObs
  Proofs.ListFacts Proofs.SuggestionProofs Proofs.EbstProofs.
Import ListNotations.
Local Open Scope R_scope.

(** ** Optional weights *)
Definition oplus (a b : option R) : option R :=
  match a, b with None, _ => b | _, None => a | Some x, Some y => Some (x + y) end.
Lemma oplus_comm a b : oplus a b = oplus b a.
Proof. destruct a, b; cbn; auto. f_equal. lra. Qed.
Lemma oplus_assoc a b c : oplus a (oplus b c) = oplus (oplus a b) c.
Proof. destruct a, b, c; cbn; auto. f_equal. lra. Qed.
Lemma oplus_None a : oplus a None = a. Proof. now destruct a. Qed.
Lemma weight_of_nil sel : weight_of sel [] = None. Proof. reflexivity. Qed.
Definition total_of (l : list cell) : option R := match l with [] => None | l' => Some (Rsum (map snd l')) end.
Lemma total_of_app a b : total_of (a ++ b) = oplus (total_of a) (total_of b).
Proof.
  destruct a as [|x a]; [reflexivity|]. destruct b as [|y b]; [now rewrite app_nil_r, oplus_None|].
  cbn [app total_of oplus]. change (x :: a ++ y :: b) with ((x :: a) ++ (y :: b)). now rewrite map_app, Rsum_app.
Qed.
Lemma weight_of_app sel l m : weight_of sel (l ++ m) = oplus (weight_of sel l) (weight_of sel m).
Proof.
  assert (E : forall l, weight_of sel l = total_of (filter (fun x => sel (fst (fst x)) (snd (fst x))) l)) by (intros k; unfold weight_of; now destruct (filter _ k)).
  rewrite !E, <- total_of_app. f_equal. apply filter_app.
Qed.
Lemma weight_of_one sel c a w : weight_of sel [(c, a, w)] = if sel c a then Some w else None.
Proof. unfold weight_of. cbn. destruct (sel c a); cbn; auto. f_equal. lra. Qed.
Lemma weight_of_cons sel x l : weight_of sel (x :: l) = oplus (weight_of sel [x]) (weight_of sel l).
Proof. apply (weight_of_app sel [x] l). Qed.
Lemma weight_of_perm sel l m : Permutation l m -> weight_of sel l = weight_of sel m.
Proof.
  induction 1 as [|x l m P IH|x y l|l m n P1 IH1 P2 IH2]; auto.
  - now rewrite (weight_of_cons sel x l), (weight_of_cons sel x m), IH.
  - rewrite (weight_of_cons sel y (x :: l)), (weight_of_cons sel x l), (weight_of_cons sel x (y :: l)), (weight_of_cons sel y l).
    rewrite !oplus_assoc. f_equal. apply oplus_comm.
  - congruence.
Qed.
Lemma weight_of_ext sel sel' l : (forall c a w, In (c, a, w) l -> sel c a = sel' c a) -> weight_of sel l = weight_of sel' l.
Proof.
  intros H. unfold weight_of. replace (filter (fun x => sel (fst (fst x)) (snd (fst x))) l) with (filter (fun x => sel' (fst (fst x)) (snd (fst x))) l); auto.
  apply filter_ext_in. intros [[c a] w] Hx. cbn. symmetry. eapply H; eauto.
Qed.
Lemma weight_of_none sel l : weight_of sel l = None <-> forall c a w, In (c, a, w) l -> sel c a = false.
Proof.
  unfold weight_of. split.
  - intros H c a w Hx. destruct (sel c a) eqn:E; auto. assert (F : In (c, a, w) (filter (fun x => sel (fst (fst x)) (snd (fst x))) l)) by (apply filter_In; auto).
    destruct (filter _ l); [destruct F|discriminate].
  - intros H. destruct (filter _ l) as [|[[c a] w] r] eqn:E; auto. assert (F : In (c, a, w) ((c, a, w) :: r)) by now left. rewrite <- E in F.
    apply filter_In in F as [F1 F2]. cbn in F2. rewrite (H c a w F1) in F2. discriminate.
Qed.
Lemma weight_of_sum sel l : (forall c a w, In (c, a, w) l -> sel c a = true) -> l <> [] -> weight_of sel l = Some (Rsum (map snd l)).
Proof.
  intros H N. unfold weight_of. replace (filter _ l) with l; [destruct l; congruence|].
  clear N. induction l as [|[[c a] w] l IH]; auto. cbn. rewrite (H c a w) by now left. f_equal. apply IH. intros. eapply H. now right; eauto.
Qed.

(** ** Flattened tables *)
Definition tag (c : Z) (inner : list (Z * R)) : list cell := map (fun q => (c, fst q, snd q)) inner.
Definition flat (d : list (Z * list (Z * R))) : list cell := flat_map (fun p => tag (fst p) (snd p)) d.
Lemma flat_perm d e : Permutation d e -> Permutation (flat d) (flat e).
Proof. intros P. unfold flat. now apply Permutation_flat_map. Qed.
Lemma tag_perm c d e : Permutation d e -> Permutation (tag c d) (tag c e).
Proof. apply Permutation_map. Qed.
Lemma in_tag c inner c' a w : In (c', a, w) (tag c inner) <-> c' = c /\ In (a, w) inner.
Proof.
  unfold tag. rewrite in_map_iff. split.
  - intros ([a' w'] & [= <- <- <-] & H). auto.
  - intros [-> H]. exists (a, w). auto.
Qed.
Lemma in_flat d c a w : In (c, a, w) (flat d) <-> exists inner, In (c, inner) d /\ In (a, w) inner.
Proof.
  unfold flat. rewrite in_flat_map. split.
  - intros ([c' inner] & H1 & H2). apply in_tag in H2 as [-> H2]. eauto.
  - intros (inner & H1 & H2). exists (c, inner). split; auto. now apply in_tag.
Qed.
Definition cell_is (c a : Z) (c' a' : Z) : bool := Z.eqb c' c && Z.eqb a' a.
Lemma tag_get c inner a : NoDup (dkeys inner) -> weight_of (cell_is c a) (tag c inner) = dget inner a.
Proof.
  induction inner as [|[k v] inner IH]; intros ND; auto. cbn [tag map]. inversion ND as [|? ? N1 N2]; subst.
  rewrite weight_of_cons. fold (tag c inner). cbn [fst snd]. rewrite weight_of_one, IH by auto. unfold cell_is. rewrite Z.eqb_refl. cbn [andb dget].
  destruct (Z.eqb_spec k a) as [->|]; auto. replace (dget inner a) with (@None R); auto. symmetry. now apply dget_None.
Qed.
Definition get2 (d : list (Z * list (Z * R))) (c a : Z) : option R := match dget d c with Some inner => dget inner a | None => None end.
Definition wf (d : list (Z * list (Z * R))) : Prop := NoDup (dkeys d) /\ forall c inner, dget d c = Some inner -> NoDup (dkeys inner) /\ inner <> [].
Lemma flat_get d c a : wf d -> weight_of (cell_is c a) (flat d) = get2 d c a.
Proof.
  unfold get2. induction d as [|[k inner] d IH]; intros [ND W]; auto. inversion ND as [|? ? N1 N2]; subst. cbn [flat flat_map fst snd dget]. fold (flat d).
  rewrite weight_of_app. assert (W' : wf d).
  { split; auto. intros c' i' E. apply (W c' i'). cbn. destruct (Z.eqb_spec k c') as [->|]; auto. exfalso. apply N1. apply dget_Some. eauto. }
  destruct (Z.eqb_spec k c) as [->|Hk].
  - rewrite IH by auto. replace (dget d c) with (@None (list (Z * R))) by (symmetry; now apply dget_None). rewrite oplus_None. apply tag_get.
    apply (W c inner). cbn. now rewrite Z.eqb_refl.
  - rewrite (proj2 (weight_of_none _ (tag k inner))); [cbn [oplus]; auto|]. intros c' a' w H. apply in_tag in H as [-> _]. unfold cell_is. destruct (Z.eqb_spec k c); [contradiction|reflexivity].
Qed.

(** ** The observer's table *)
Definition ninv (P : list cell) (d : list (Z * list (Z * R))) : Prop :=
  wf d /\ StronglySorted Z.lt (dkeys d) /\ forall sel, weight_of sel (flat d) = weight_of sel P.
Lemma ninv_nil : ninv [] [].
Proof. split; [split; [constructor|discriminate]|]. split; [constructor|reflexivity]. Qed.

Lemma weight_add_inner c inner a v w sel : dget inner a = Some v ->
  weight_of sel (tag c (dset inner a (v + w))) = oplus (weight_of sel (tag c inner)) (weight_of sel [(c, a, w)]).
Proof.
  intros E. destruct (dset_perm _ _ _ E) as (rest & P1 & P2). rewrite (weight_of_perm _ _ _ (tag_perm c _ _ (P2 (v + w)))), (weight_of_perm _ _ _ (tag_perm c _ _ P1)).
  cbn [tag map fst snd]. fold (tag c rest). rewrite (weight_of_cons _ (c, a, v + w)), (weight_of_cons _ (c, a, v)), !weight_of_one.
  destruct (sel c a); [|cbn; now rewrite oplus_None]. destruct (weight_of sel (tag c rest)); cbn; f_equal; lra.
Qed.
Lemma weight_new_inner c inner a w sel : dget inner a = None ->
  weight_of sel (tag c (dsort (dset inner a w))) = oplus (weight_of sel (tag c inner)) (weight_of sel [(c, a, w)]).
Proof.
  intros E. rewrite <- (weight_of_perm _ _ _ (tag_perm c _ _ (dsort_perm _))). rewrite dset_new by now apply dget_None.
  unfold tag. rewrite map_app, weight_of_app. reflexivity.
Qed.
Lemma weight_replace d c inner inner' sel x : dget d c = Some inner -> weight_of sel (tag c inner') = oplus (weight_of sel (tag c inner)) x ->
  weight_of sel (flat (dset d c inner')) = oplus (weight_of sel (flat d)) x.
Proof.
  intros E H. destruct (dset_perm _ _ _ E) as (rest & P1 & P2). rewrite (weight_of_perm _ _ _ (flat_perm _ _ (P2 inner'))), (weight_of_perm _ _ _ (flat_perm _ _ P1)).
  cbn [flat flat_map fst snd]. fold (flat rest). rewrite !weight_of_app, H, <- !oplus_assoc. f_equal. apply oplus_comm.
Qed.
Lemma dset_same_keys_sorted {V} (d : list (Z * V)) c x y : dget d c = Some x -> StronglySorted Z.lt (dkeys d) -> StronglySorted Z.lt (dkeys (dset d c y)).
Proof. intros E S. rewrite dset_old; auto. apply dget_Some. eauto. Qed.
Lemma wf_dset d c inner : wf d -> NoDup (dkeys inner) -> inner <> [] -> wf (dset d c inner).
Proof.
  intros [A B] H1 H2. split; [now apply NoDup_dset|]. intros c' i' E. rewrite dget_dset in E. destruct (Z.eqb c c'); [injection E as <-; auto|]. eauto.
Qed.
Lemma dset_nonempty {V} (d : list (Z * V)) k v : dset d k v <> [].
Proof. destruct d as [|[k' x] d]; cbn; [discriminate|]. destruct (Z.eqb k' k); discriminate. Qed.
Lemma dsort_nonempty {V} (d : list (Z * V)) : d <> [] -> dsort d <> [].
Proof. intros H E. apply H. apply Permutation_nil. rewrite <- E. symmetry. apply dsort_perm. Qed.

Lemma no_update_ok P o a c w : ninv P (no_dist o) ->
  ninv (P ++ match a with Some a => [(c, a, w)] | None => [] end) (no_dist (no_update o a c w)).
Proof.
  intros (W & S & E). destruct a as [a|]; [|rewrite app_nil_r; exact (conj W (conj S E))]. cbn [no_update no_dist]. unfold n0. cbn [nofZ nadd NumR].
  destruct (dmem (no_dist o) c) eqn:M.
  - apply dmem_true, dget_Some in M as (inner & Ei). rewrite Ei. destruct (proj2 W _ _ Ei) as [ND NE].
    destruct (dget inner a) as [v|] eqn:Ea.
    + split; [apply wf_dset; auto; [now apply NoDup_dset|apply dset_nonempty]|]. split; [eapply dset_same_keys_sorted; eauto|].
      intros sel. rewrite (weight_replace _ _ _ _ _ _ Ei (weight_add_inner c inner a v w sel Ea)), E, weight_of_app. reflexivity.
    + split; [apply wf_dset; auto; [now apply NoDup_dsort, NoDup_dset|apply dsort_nonempty, dset_nonempty]|]. split; [eapply dset_same_keys_sorted; eauto|].
      intros sel. rewrite (weight_replace _ _ _ _ _ _ Ei (weight_new_inner c inner a w sel Ea)), E, weight_of_app. reflexivity.
  - assert (Nc : ~ In c (dkeys (no_dist o))) by (rewrite <- dmem_true; congruence).
    set (d := dsort (dset (no_dist o) c [(a, 0)])).
    assert (ND : NoDup (dkeys (dset (no_dist o) c [(a, 0)]))) by (apply NoDup_dset, W).
    assert (Ed : dget d c = Some [(a, 0)]). { unfold d. rewrite dget_dsort, dget_dset, Z.eqb_refl; auto. }
    rewrite Ed. cbn [dget]. rewrite Z.eqb_refl. cbn [dset]. rewrite Z.eqb_refl.
    assert (Wd : wf d). { split; [unfold d; now apply NoDup_dsort|]. intros c' i' E'. unfold d in E'. rewrite dget_dsort in E' by auto. rewrite dget_dset in E'.
      destruct (Z.eqb c c'); [injection E' as <-; split; [repeat constructor; intros []|discriminate]|eapply W; eauto]. }
    split; [apply wf_dset; auto; [repeat constructor; intros []|discriminate]|].
    split; [eapply dset_same_keys_sorted; eauto; unfold d; now apply dsort_strict|].
    intros sel. destruct (dset_perm _ _ _ Ed) as (rest & P1 & P2). rewrite (weight_of_perm _ _ _ (flat_perm _ _ (P2 _))).
    cbn [flat flat_map fst snd]. fold (flat rest). rewrite weight_of_app. cbn [tag map fst snd].
    assert (Pr : Permutation rest (no_dist o)).
    { apply (Permutation_cons_inv (a := (c, [(a, 0)]))). rewrite <- P1. unfold d. rewrite <- dsort_perm, dset_new by auto. rewrite <- Permutation_cons_append. reflexivity. }
    rewrite (weight_of_perm _ _ _ (flat_perm _ _ Pr)), E, weight_of_app, oplus_comm. f_equal. rewrite !weight_of_one. destruct (sel c a); auto. f_equal. lra.
Qed.
Lemma no_run_ok h : ninv (present_cells h) (no_dist (no_run h)).
Proof.
  unfold no_run. induction h as [|[[a c] w] h IH] using rev_ind; [apply ninv_nil|]. rewrite fold_left_app. unfold present_cells. rewrite flat_map_app. cbn [fold_left flat_map].
  rewrite app_nil_r. apply (no_update_ok _ _ a c w) in IH. destruct a; exact IH.
Qed.

(** ** Values *)
Lemma fold_dset_keys l : forall d : list (Z * unit), NoDup (dkeys d) -> NoDup (dkeys (fold_left (fun d a => dset d a tt) l d))
  /\ forall k, In k (dkeys (fold_left (fun d a => dset d a tt) l d)) <-> In k l \/ In k (dkeys d).
Proof.
  induction l as [|a l IH]; intros d ND; cbn [fold_left]; [split; auto; intros k; cbn; tauto|].
  destruct (IH (dset d a tt) (NoDup_dset _ _ _ ND)) as [A B]. split; auto. intros k. rewrite B, In_dkeys_dset. cbn. intuition (subst; auto).
Qed.
Lemma sorted_set_ok l : increasing_list_of l (sorted_set l).
Proof.
  unfold sorted_set. destruct (fold_dset_keys l [] (NoDup_nil _)) as [A B]. split; [now apply dsort_strict|]. intros k. rewrite In_dkeys_dsort, B. cbn. tauto.
Qed.
Definition cell_val (x : cell) : Z := snd (fst x).
Definition cell_class (x : cell) : Z := fst (fst x).
Lemma weight_of_in c a P : weight_of (cell_is c a) P <> None <-> exists w, In (c, a, w) P.
Proof.
  rewrite weight_of_none. split.
  - intros H. destruct (existsb (fun x => cell_is c a (cell_class x) (cell_val x)) P) eqn:E.
    + apply existsb_exists in E as ([[c' a'] w] & Hx & Hs). unfold cell_is, cell_class, cell_val in Hs. cbn in Hs. apply andb_prop in Hs as [H1 H2].
      apply Z.eqb_eq in H1, H2. subst. eauto.
    + destruct H. intros c' a' w Hx. destruct (cell_is c a c' a') eqn:Hs; auto.
      assert (existsb (fun x => cell_is c a (cell_class x) (cell_val x)) P = true) by (apply existsb_exists; exists (c', a', w); auto). congruence.
  - intros (w & Hx) H. specialize (H _ _ _ Hx). unfold cell_is in H. rewrite !Z.eqb_refl in H. discriminate.
Qed.
Lemma get2_in P d : ninv P d -> forall c a, get2 d c a = weight_of (cell_is c a) P.
Proof. intros (W & _ & E) c a. rewrite <- flat_get by auto. apply E. Qed.
Lemma in_flat_iff P d : ninv P d -> forall c a, (exists w, In (c, a, w) (flat d)) <-> exists w, In (c, a, w) P.
Proof. intros (_ & _ & E) c a. rewrite <- !weight_of_in. now rewrite E. Qed.
Lemma no_values_ok P o : ninv P (no_dist o) -> increasing_list_of (map cell_val P) (no_values o).
Proof.
  intros H. pose proof (in_flat_iff _ _ H) as F. destruct (sorted_set_ok (flat_map dkeys (dvals (no_dist o)))) as [A B]. split; auto. intros k. unfold no_values. rewrite B.
  rewrite in_flat_map. split.
  - intros (inner & Hi & Hk). unfold dvals in Hi. apply in_map_iff in Hi as ([c inner'] & <- & Hi). unfold dkeys in Hk. apply in_map_iff in Hk as ([k' w] & <- & Hk).
    destruct (proj1 (F c k')) as (w' & Hx); [exists w; apply in_flat; eauto|]. apply in_map_iff. exists (c, k', w'). auto.
  - intros Hk. apply in_map_iff in Hk as ([[c k'] w] & <- & Hx). destruct (proj2 (F c k')) as (w' & Hf); [eauto|].
    apply in_flat in Hf as (inner & H1 & H2). exists inner. split; [apply in_map_iff; exists (c, inner); auto|]. apply in_map_iff. exists (k', w'). auto.
Qed.
Lemma classes_ok P d : ninv P d -> increasing_list_of (map cell_class P) (dkeys d).
Proof.
  intros H. pose proof (in_flat_iff _ _ H) as F. destruct H as (W & S & E). split; auto. intros c. split.
  - intros Hc. apply dget_Some in Hc as (inner & Hi). destruct (proj2 W _ _ Hi) as [_ NE]. destruct inner as [|[a w] inner]; [congruence|].
    destruct (proj1 (F c a)) as (w' & Hx); [exists w; apply in_flat; exists ((a, w) :: inner); split; [now apply dget_In|now left]|].
    apply in_map_iff. exists (c, a, w'). auto.
  - intros Hc. apply in_map_iff in Hc as ([[c' a] w] & <- & Hx). destruct (proj2 (F c' a)) as (w' & Hf); [eauto|].
    apply in_flat in Hf as (inner & H1 & H2). apply in_map_iff. exists (c', inner). auto.
Qed.

(** ** Nested loops are loops over the flattened table *)
Lemma fold_flat {S} (g : S -> Z -> Z * R -> S) d : forall s,
  fold_left (fun s p => fold_left (fun s q => g s (fst p) q) (snd p) s) d s = fold_left (fun s x => g s (cell_class x) (cell_val x, snd x)) (flat d) s.
Proof.
  induction d as [|[c inner] d IH]; intros s; auto. cbn [fold_left flat flat_map fst snd]. fold (flat d). rewrite fold_left_app, IH. f_equal.
  generalize s. induction inner as [|[a w] inner IHi]; intros s'; auto. cbn [fold_left tag map fst snd]. fold (tag c inner). apply IHi.
Qed.
Lemma dget_dadd (d : list (Z * R)) k v j : dget (dadd d k v) j = oplus (dget d j) (if Z.eqb k j then Some v else None).
Proof.
  unfold dadd. rewrite dget_dset. destruct (Z.eqb_spec k j) as [->|]; [|now rewrite oplus_None]. unfold n0. cbn [nadd NumR nofZ]. destruct (dget d j); cbn; f_equal; lra.
Qed.

(** ** Binary splits *)
Lemma no_binary_fold o v : let F := flat (no_dist o) in
  no_binary o v = [fold_left (fun d x => if Z.eqb (cell_val x) v then dadd d (cell_class x) (snd x) else d) F [];
                   fold_left (fun d x => if Z.eqb (cell_val x) v then d else dadd d (cell_class x) (snd x)) F []].
Proof.
  cbv zeta. unfold no_binary.
  rewrite (fold_flat (fun acc i q => if Z.eqb (fst q) v then (dadd (fst acc) i (snd q), snd acc) else (fst acc, dadd (snd acc) i (snd q)))). cbn [fst snd].
  generalize (@nil (Z * R)) at 1 3 as e. generalize (@nil (Z * R)) as n. induction (flat (no_dist o)) as [|x F IH]; intros n e; auto. cbn [fold_left].
  destruct (Z.eqb (cell_val x) v); apply IH.
Qed.
Lemma fold_sel_get (sel : Z -> bool) F : forall d c,
  dget (fold_left (fun d x => if sel (cell_val x) then dadd d (cell_class x) (snd x) else d) F d) c
  = oplus (dget d c) (weight_of (fun c' a => Z.eqb c' c && sel a) F).
Proof.
  induction F as [|[[k a] w] F IH]; intros d c; cbn [fold_left]; [now rewrite weight_of_nil, oplus_None|]. rewrite IH, (weight_of_cons _ (k, a, w)), weight_of_one.
  unfold cell_val, cell_class. cbn [fst snd]. rewrite oplus_assoc. f_equal. destruct (sel a).
  - rewrite dget_dadd, andb_true_r. reflexivity.
  - now rewrite andb_false_r, oplus_None.
Qed.
(** keys are appended in the order of the classes *)
Definition asc (d : list (Z * R)) (k : Z) : Prop := StronglySorted Z.lt (dkeys d) /\ forall j, In j (dkeys d) -> (j <= k)%Z.
Lemma sorted_snoc l k : StronglySorted Z.lt l -> (forall j, In j l -> (j < k)%Z) -> StronglySorted Z.lt (l ++ [k]).
Proof.
  induction 1 as [|x l S IH F]; intros H; cbn; [constructor; constructor|]. constructor.
  - apply IH. intros. apply H. now right.
  - apply Forall_app. split; auto. constructor; auto. apply H. now left.
Qed.
Lemma asc_dadd d k v : asc d k -> asc (dadd d k v) k.
Proof.
  intros [A B]. unfold dadd, asc. rewrite dkeys_dset. destruct (dmem d k) eqn:E; [split; auto|].
  assert (~ In k (dkeys d)) by (rewrite <- dmem_true; congruence). split.
  - apply sorted_snoc; auto. intros j Hj. specialize (B j Hj). assert (j <> k) by congruence. lia.
  - intros j Hj. apply in_app_or in Hj. destruct Hj as [Hj|[<-|[]]]; auto. lia.
Qed.
Lemma fold_sel_sorted (sel : Z -> bool) D : StronglySorted Z.lt (dkeys D) -> forall d, StronglySorted Z.lt (dkeys d) ->
  (forall j k, In j (dkeys d) -> In k (dkeys D) -> (j <= k)%Z) ->
  StronglySorted Z.lt (dkeys (fold_left (fun d x => if sel (cell_val x) then dadd d (cell_class x) (snd x) else d) (flat D) d)).
Proof.
  induction D as [|[c inner] D IH]; intros S d Sd H; auto. cbn [flat flat_map fst snd]. fold (flat D). rewrite fold_left_app.
  inversion S as [|? ? S' F]; subst. rewrite Forall_forall in F.
  assert (A : asc (fold_left (fun d x => if sel (cell_val x) then dadd d (cell_class x) (snd x) else d) (tag c inner) d) c).
  { assert (A0 : asc d c) by (split; auto; intros j Hj; apply H; [auto|now left]). clear - A0. revert d A0. induction inner as [|[a w] inner IHi]; intros d A0; auto.
    cbn [tag map fold_left]. fold (tag c inner). apply IHi. unfold cell_val, cell_class. cbn [fst snd]. destruct (sel a); auto. now apply asc_dadd. }
  apply IH; auto; [apply A|]. intros j k Hj Hk. apply A in Hj. specialize (F _ Hk). lia.
Qed.
Lemma class_dist_get cs sel P : StronglySorted Z.lt cs -> (forall c a w, In (c, a, w) P -> In c cs) ->
  StronglySorted Z.lt (dkeys (class_dist cs sel P)) /\ forall c, dget (class_dist cs sel P) c = weight_of (fun c' a => Z.eqb c' c && sel a) P.
Proof.
  intros S. assert (G : (forall k, In k (dkeys (class_dist cs sel P)) -> In k cs) /\ StronglySorted Z.lt (dkeys (class_dist cs sel P))
    /\ forall c, dget (class_dist cs sel P) c = if in_dec Z.eq_dec c cs then weight_of (fun c' a => Z.eqb c' c && sel a) P else None).
  { induction S as [|k cs S IH F]; [split; [intros k []|split; [constructor|reflexivity]]|]. destruct IH as (A & B & C). rewrite Forall_forall in F.
    cbn [class_dist flat_map]. fold (class_dist cs sel P). set (w := weight_of (fun c' a => Z.eqb c' k && sel a) P). split; [|split].
    - intros j Hj. unfold dkeys in Hj. rewrite map_app in Hj. apply in_app_or in Hj. destruct Hj as [Hj|Hj]; [|right; auto]. destruct w; [destruct Hj as [<-|[]]; now left|destruct Hj].
    - destruct w; cbn; auto. constructor; auto. apply Forall_forall. auto.
    - intros c. destruct (in_dec Z.eq_dec c (k :: cs)) as [Hc|Hc].
      + destruct Hc as [Hc|Hc].
        * subst c. fold w. destruct w as [x|]; cbn [app dget]; [now rewrite Z.eqb_refl|]. rewrite C. destruct (in_dec Z.eq_dec k cs) as [Hk|]; auto. specialize (F _ Hk). lia.
        * assert (k <> c) by (intros ->; specialize (F _ Hc); lia). destruct w as [x|]; cbn [app dget]; [destruct (Z.eqb_spec k c); [contradiction|]|]; rewrite C; destruct (in_dec Z.eq_dec c cs); tauto.
      + cbn in Hc. destruct w as [x|]; cbn [app dget]; [destruct (Z.eqb_spec k c); [tauto|]|]; rewrite C; destruct (in_dec Z.eq_dec c cs); tauto. }
  intros Hin. destruct G as (_ & B & C). split; auto. intros c. rewrite C. destruct (in_dec Z.eq_dec c cs) as [|N]; auto. symmetry. apply weight_of_none.
  intros c' a w Hx. destruct (Z.eqb_spec c' c) as [Hc|]; auto. subst c'. destruct N. eauto.
Qed.
Lemma in_classes P d c a w : ninv P d -> In (c, a, w) P -> In c (dkeys d).
Proof. intros H Hx. apply (proj2 (classes_ok _ _ H)). apply in_map_iff. exists (c, a, w). auto. Qed.

Lemma no_binary_ok P o v : ninv P (no_dist o) ->
  no_binary o v = [class_dist (dkeys (no_dist o)) (fun a => Z.eqb a v) P; class_dist (dkeys (no_dist o)) (fun a => negb (Z.eqb a v)) P].
Proof.
  intros H. pose proof H as (W & S & E). rewrite no_binary_fold. cbv zeta.
  assert (G : forall sel : Z -> bool, fold_left (fun (d : list (Z * R)) (x : cell) => if sel (cell_val x) then dadd d (cell_class x) (snd x) else d) (flat (no_dist o)) [] = class_dist (dkeys (no_dist o)) sel P).
  { intros sel. destruct (class_dist_get (dkeys (no_dist o)) sel P S) as [A B]; [intros; eapply in_classes; eauto|]. apply dict_ext; auto.
    - apply fold_sel_sorted; auto; [constructor|intros j k []].
    - intros c. rewrite fold_sel_get, B, E. reflexivity. }
  rewrite <- !G. f_equal. f_equal.
  clear. generalize (@nil (Z * R)). induction (flat (no_dist o)) as [|x F IH]; intros e; auto. cbn [fold_left]. destruct (Z.eqb (cell_val x) v); cbn [negb]; apply IH.
Qed.

(** ** Multiway splits *)
Definition mstep (res : list (Z * list (Z * R))) (x : cell) : list (Z * list (Z * R)) :=
  dset res (cell_val x) (dadd (match dget res (cell_val x) with Some d => d | None => [] end) (cell_class x) (snd x)).
Lemma mstep_ok F : forall res, wf res -> let res' := fold_left mstep F res in
  wf res' /\ (forall a c, get2 res' a c = oplus (get2 res a c) (weight_of (cell_is c a) F))
  /\ forall a, In a (dkeys res') <-> In a (map cell_val F) \/ In a (dkeys res).
Proof.
  induction F as [|[[c a] w] F IH]; intros res W; cbn [fold_left]; cbv zeta.
  - split; auto. split; [intros a c; now rewrite weight_of_nil, oplus_None|]. intros a. cbn. tauto.
  - assert (W1 : wf (mstep res (c, a, w))).
    { unfold mstep, cell_val, cell_class. cbn [fst snd]. apply wf_dset; auto; [|apply dset_nonempty]. apply NoDup_dset. destruct (dget res a) as [d|] eqn:Ed; [eapply W; eauto|constructor]. }
    destruct (IH _ W1) as (A & B & C). split; auto. split.
    + intros a' c'. rewrite B, (weight_of_cons _ (c, a, w)), weight_of_one, oplus_assoc. f_equal. unfold get2, mstep, cell_val, cell_class, cell_is. cbn [fst snd]. rewrite dget_dset.
      destruct (Z.eqb_spec a a') as [Ha|Ha]; [subst a'|].
      * rewrite dget_dadd, andb_true_r. destruct (dget res a); auto.
      * now rewrite andb_false_r, oplus_None.
    + intros a'. rewrite C. unfold mstep at 1. cbn [fst snd]. rewrite In_dkeys_dset. unfold cell_val. cbn. intuition (subst; auto).
Qed.
Lemma no_multiway_ok P o : ninv P (no_dist o) ->
  no_multiway o = map (fun v => class_dist (dkeys (no_dist o)) (fun a => Z.eqb a v) P) (no_values o).
Proof.
  intros H. pose proof H as (W & S & E). unfold no_multiway.
  rewrite (fold_flat (fun (res : list (Z * list (Z * R))) (i : Z) (q : Z * R) => dset res (fst q) (dadd (match dget res (fst q) with Some d => d | None => [] end) i (snd q)))). cbn [fst snd].
  change (fun (s : list (Z * list (Z * R))) (x : cell) => dset s (cell_val x) (dadd (match dget s (cell_val x) with Some d => d | None => [] end) (cell_class x) (snd x))) with mstep.
  destruct (mstep_ok (flat (no_dist o)) [] (proj1 ninv_nil)) as (A & B & C). set (res := fold_left mstep (flat (no_dist o)) []) in *.
  assert (K : dkeys (dsort res) = no_values o).
  { apply sorted_ext; [apply dsort_strict, A|apply (no_values_ok P o H)|]. intros a. rewrite In_dkeys_dsort, C. rewrite (proj2 (no_values_ok P o H) a). cbn.
    rewrite !in_map_iff. split.
    - intros [([[c a'] w] & <- & Hx)|[]]. destruct (proj1 (in_flat_iff _ _ H c a')) as (w' & Hw); [eauto|]. exists (c, a', w'). auto.
    - intros ([[c a'] w] & <- & Hx). left. destruct (proj2 (in_flat_iff _ _ H c a')) as (w' & Hw); [eauto|]. exists (c, a', w'). auto. }
  rewrite <- K. unfold dvals, dkeys. rewrite !map_map. apply map_ext_in. intros [v d] Hv. cbn [fst snd].
  assert (Ev : dget res v = Some d). { rewrite <- dget_dsort by apply A. apply In_dget; auto. apply NoDup_dsort, A. }
  destruct (proj2 A _ _ Ev) as [ND _]. destruct (class_dist_get (dkeys (no_dist o)) (fun a => Z.eqb a v) P S) as [CA CB]; [intros; eapply in_classes; eauto|].
  apply dict_ext; auto; [now apply dsort_strict|]. intros c. rewrite dget_dsort, CB by auto.
  specialize (B v c). unfold get2 in B. rewrite Ev in B. rewrite B, E. cbn [dget oplus]. reflexivity.
Qed.

(** ** The suggestion *)
Definition merit_order {A D} (a b : suggestion A D R) : Prop := merit_le (sg_merit a) (sg_merit b).
Lemma fold_keep_map {A D V} (g : V -> suggestion A D R) l : forall b, fold_left (fun best a => keep_best best (g a)) l b = fold_left keep_best (map g l) b.
Proof. induction l as [|x l IH]; intros b; cbn; auto. Qed.
Lemma keep_first {A D} (l : list (suggestion A D R)) : match fold_left keep_best l None with None => l = [] | Some s => first_best merit_order l s end.
Proof.
  destruct l as [|x l]; [reflexivity|]. destruct (keep_best_ok (x :: l) ltac:(discriminate)) as (pre & s & post & E & -> & M & F). exists pre, post. auto.
Qed.
Lemma no_best_fold merit b (o : nobs (T:=R)) : no_best merit b o = fold_left keep_best
  ((if b then [] else [mkSug (Multiway (branch_mapping (no_values o))) (no_multiway o) (merit (no_multiway o))])
   ++ map (fun a => mkSug (Binary a) (no_binary o a) (merit (no_binary o a))) (no_values o)) None.
Proof.
  unfold no_best. cbv zeta. rewrite fold_left_app, (fold_keep_map (fun a => mkSug (Binary a) (no_binary o a) (merit (no_binary o a)))). now destruct b.
Qed.

(** ** Smoothed probabilities *)
Lemma dsum_R (l : list R) : dsum l = Rsum l.
Proof.
  unfold dsum, n0. cbn [nofZ NumR]. assert (G : forall a, fold_left nadd l a = a + Rsum l).
  { induction l as [|x l IH]; intros a; cbn; [lra|]. rewrite IH. cbn. lra. }
  rewrite G. lra.
Qed.
Lemma no_probability_ok P o c a : ninv P (no_dist o) -> (forall x, In x P -> 0 <= snd x) ->
  (forall x, In x P -> cell_class x <> c) /\ no_probability o a c = Ok 0
  \/ exists vs W, NoDup vs /\ vs <> [] /\ (forall v, In v vs <-> exists w, In (c, v, w) P) /\ weight_of (fun c' _ => Z.eqb c' c) P = Some W /\ 0 <= W
     /\ Rsum (map (fun v => match weight_of (cell_is c v) P with Some w => w | None => 0 end) vs) = W
     /\ no_probability o a c = Ok ((match weight_of (cell_is c a) P with Some w => w | None => 0 end + 1) / (W + INR (length vs))).
Proof.
  intros H NN. pose proof H as (W & S & E). pose proof (get2_in _ _ H c) as G2. pose proof (in_flat_iff _ _ H) as FI. unfold no_probability, get2 in *.
  destruct (dget (no_dist o) c) as [inner|] eqn:Ec.
  - right. destruct (proj2 W _ _ Ec) as [ND NE].
    assert (EW : weight_of (fun c' _ => Z.eqb c' c) P = Some (Rsum (dvals inner))).
    { rewrite <- E. destruct (dset_perm _ _ _ Ec) as (rest & P1 & _). rewrite (weight_of_perm _ _ _ (flat_perm _ _ P1)). cbn [flat flat_map fst snd]. fold (flat rest).
      rewrite weight_of_app. rewrite (proj2 (weight_of_none _ (flat rest))).
      - rewrite oplus_None, weight_of_sum.
        + f_equal. f_equal. unfold tag, dvals. now rewrite map_map.
        + intros c' a' w Hx. apply in_tag in Hx as [-> _]. apply Z.eqb_refl.
        + destruct inner; [congruence|discriminate].
      - intros c' a' w Hx. apply in_flat in Hx as (i' & Hx & _). destruct (Z.eqb_spec c' c) as [Hc|]; auto. subst c'. exfalso.
        assert (N2 : NoDup (c :: dkeys rest)) by (eapply Permutation_NoDup; [apply (Permutation_map fst P1)|apply W]). inversion N2 as [|? ? N3 N4]. apply N3.
        apply in_map_iff. exists (c, i'). auto. }
    exists (dkeys inner), (Rsum (dvals inner)). split; auto. split; [destruct inner; [congruence|discriminate]|].
    assert (WP : 0 <= Rsum (dvals inner)).
    { unfold weight_of in EW. destruct (filter _ P) as [|x l] eqn:F; [discriminate|]. assert (EQ : Rsum (map snd (x :: l)) = Rsum (dvals inner)) by (injection EW; auto). rewrite <- EQ. apply Rsum_nonneg. intros y Hy. rewrite <- F in Hy.
      apply in_map_iff in Hy as (z & <- & Hz). apply filter_In in Hz as [Hz _]. auto. }
    split; [|split; [exact EW|split; [exact WP|split]]].
    + intros v. rewrite <- dget_Some, G2. rewrite <- weight_of_in. destruct (weight_of (cell_is c v) P); split; intros Hv; eauto; try congruence. destruct Hv as (? & ?). congruence.
    + unfold dkeys, dvals. rewrite map_map. f_equal. apply map_ext_in. intros [v w] Hv. cbn [fst snd]. rewrite <- G2, (In_dget _ _ _ ND Hv). reflexivity.
    + rewrite <- G2. unfold pydiv, n0, n1. cbn [neqb nadd ndiv nofZ NumR]. rewrite dsum_R. rewrite <- INR_IZR_INZ.
      assert (P1 : 0 < INR (length inner)) by (apply lt_0_INR; destruct inner; [congruence|cbn; lia]).
      destruct (Reqb _ 0) eqn:Ez; rcase; [lra|]. unfold dkeys. rewrite map_length. destruct (dget inner a); reflexivity.
  - left. split; auto. intros [[c' a'] w] Hx Hc. unfold cell_class in Hc. cbn in Hc. subst c'. apply dget_None in Ec. apply Ec. eapply in_classes; eauto.
Qed.

(** ** Regression *)
Section Reg.
Context {I : Type}.
Local Notation st := (stat R I).
Definition sempty (s : option st) : st := match s with Some s => s | None => s_zero end.
(** The statistics of the observations with attribute value [v]; [None] if there is none *)
Definition stats_at (v : Z) (l : list (Z * (I -> R) * R)) : option st :=
  match filter (fun o => Z.eqb (fst (fst o)) v) l with [] => None | m => Some (stats m) end.
Definition ntable (P : list (Z * (I -> R) * R)) (d : list (Z * st)) : Prop :=
  NoDup (dkeys d) /\ StronglySorted Z.lt (dkeys d) /\ forall v, dget d v = stats_at v P.
Definition present_targets (h : list (option Z * (I -> R) * R)) : list (Z * (I -> R) * R) :=
  flat_map (fun o => match o with (Some v, y, w) => [(v, y, w)] | _ => [] end) h.
Lemma stats_at_snoc v P a y w : stats_at v (P ++ [(a, y, w)]) =
  if Z.eqb a v then Some (match stats_at v P with Some s => s_add s (s_one y w) | None => s_one y w end) else stats_at v P.
Proof.
  unfold stats_at. rewrite filter_app. cbn [filter fst snd]. destruct (Z.eqb a v); [|now rewrite app_nil_r].
  destruct (filter _ P) as [|x l]; [cbn [app]; now rewrite stats_one|]. rewrite <- (stats_one a y w), <- stats_app. reflexivity.
Qed.
Lemma nr_run_ok h : ntable (present_targets h) (nr_run h).
Proof.
  unfold nr_run. induction h as [|[[a y] w] h IH] using rev_ind; [split; [constructor|split; [constructor|reflexivity]]|].
  rewrite fold_left_app. unfold present_targets. rewrite flat_map_app. fold (present_targets h). cbn [fold_left flat_map]. rewrite app_nil_r.
  destruct a as [a|]; [|now rewrite app_nil_r]. destruct IH as (ND & S & E). cbn [nr_update]. rewrite E.
  set (d := fold_left _ h []) in *. destruct (stats_at a (present_targets h)) as [s|] eqn:Ea.
  - split; [now apply NoDup_dset|]. rewrite <- E in Ea. split; [eapply dset_same_keys_sorted; eauto|]. intros v. rewrite dget_dset, stats_at_snoc.
    destruct (Z.eqb_spec a v) as [Hv|]; auto. subst v. rewrite E in Ea. now rewrite Ea.
  - split; [now apply NoDup_dsort, NoDup_dset|]. split; [now apply dsort_strict, NoDup_dset|]. intros v. rewrite dget_dsort by now apply NoDup_dset. rewrite dget_dset, stats_at_snoc.
    destruct (Z.eqb_spec a v) as [Hv|]; auto. subst v. now rewrite Ea.
Qed.
Lemma stats_at_in v P : stats_at v P <> None <-> In v (map (fun o => fst (fst o)) P).
Proof.
  unfold stats_at. rewrite in_map_iff. split.
  - destruct (filter _ P) as [|x l] eqn:E; [congruence|]. intros _. assert (H : In x (x :: l)) by now left. rewrite <- E in H. apply filter_In in H as [H1 H2]. apply Z.eqb_eq in H2. eauto.
  - intros (o & <- & Ho). assert (H : In o (filter (fun x => Z.eqb (fst (fst x)) (fst (fst o))) P)) by (apply filter_In; split; auto; apply Z.eqb_refl).
    destruct (filter _ P); [destruct H|discriminate].
Qed.
Lemma ntable_keys P d : ntable P d -> increasing_list_of (map (fun o => fst (fst o)) P) (dkeys d).
Proof.
  intros (ND & S & E). split; auto. intros v. rewrite <- dget_Some, <- stats_at_in, E. destruct (stats_at v P); split; intros H; eauto; try congruence. destruct H as (? & ?). congruence.
Qed.
Lemma stats_at_stats v P : sempty (stats_at v P) = stats (filter (fun o => Z.eqb (fst (fst o)) v) P).
Proof. unfold stats_at. destruct (filter _ P); [symmetry; apply stats_nil|reflexivity]. Qed.
Lemma nr_best_fold merit (pre : st) b d : StronglySorted Z.lt (dkeys d) -> nr_best merit pre b d = fold_left keep_best
  ((if b then [] else [let l := map (fun v => sempty (dget d v)) (dkeys d) in mkSug (Multiway (branch_mapping (dkeys d))) l (merit l)])
   ++ map (fun v => let s := sempty (dget d v) in let l := [s; s_sub pre s] in mkSug (Binary v) l (merit l)) (dkeys d)) None.
Proof.
  intros S. assert (Es : dkeys (dsort d) = dkeys d).
  { apply sorted_ext; auto; [|intros k; apply In_dkeys_dsort]. apply dsort_strict. clear - S. induction S as [|x l S IH F]; constructor; auto.
    intros H. rewrite Forall_forall in F. specialize (F _ H). lia. }
  unfold nr_best. cbv zeta. rewrite Es, fold_left_app, (fold_keep_map (fun v => mkSug (Binary v) [sempty (dget d v); s_sub pre (sempty (dget d v))] (merit [sempty (dget d v); s_sub pre (sempty (dget d v))]))).
  now destruct b.
Qed.
End Reg.
