(** Taught with weights that are not negative, a Hoeffding tree holds and votes no negative weight. *)
From Coq Require Import List ZArith Reals Bool Lia Lra Permutation.
From Verif Require Import Base.Py Base.Num Base.Dict Model.Suggestion Model.Adwin Model.Knn Model.NaiveBayes Model.GaussianObs Model.NominalObs Model.SplitTests Model.SplitCriteria Model.TreeSkeleton
  Model.HoeffdingTree Spec.Lists Spec.CriteriaSpec Spec.TreeSpec Spec.HoeffdingSpec Proofs.CriteriaProofs Proofs.TreeProofs Proofs.HoeffdingProofs Proofs.TreeEveryProofs Props.VfdrPredictProps.
Import ListNotations.
Local Open Scope R_scope.

Definition nneg (d : list (Z * R)) : Prop := Forall (fun kv => 0 <= snd kv) d.
Lemma nneg_dset d c v : nneg d -> 0 <= v -> nneg (dset d c v). Proof. apply (Forall_dset (fun v => 0 <= v)). Qed.
Lemma Forall_dsort {V} (P : Z * V -> Prop) (d : list (Z * V)) : Forall P d -> Forall P (dsort d).
Proof. intros F. rewrite Forall_forall in *. intros x Hx. apply F. eapply Permutation_in; [apply Permutation_sym, dsort_perm|exact Hx]. Qed.
Lemma Forall_dget {V} (P : V -> Prop) (d : list (Z * V)) c v : Forall (fun kv => P (snd kv)) d -> dget d c = Some v -> P v.
Proof. intros F E. apply dget_In in E. rewrite Forall_forall in F. exact (F _ E). Qed.
Lemma nneg_dget d c v : nneg d -> dget d c = Some v -> 0 <= v. Proof. apply (Forall_dget (fun v => 0 <= v)). Qed.
Lemma nneg_dadd d c v : nneg d -> 0 <= v -> nneg (dadd d c v).
Proof. intros F Hv. unfold dadd. apply nneg_dset; auto. cbn [nadd NumR]. destruct (dget d c) as [u|] eqn:E; [apply (nneg_dget d) in E; auto; lra|]. unfold n0. cbn [nofZ NumR]. lra. Qed.
Lemma nneg_vsum d : nneg d -> 0 <= vsum d.
Proof. intros F. rewrite vsum_weight. unfold weight. induction F as [|[c v] d Hv F IH]; cbn in *; [lra|]. unfold Rsum in *. cbn in *. lra. Qed.
Definition obs_nneg (o : cobs R) : Prop := match o with CNum g => Forall (fun kv => 0 <= g_w (snd kv)) (go_dist g) | CNom m => Forall (fun kv => nneg (snd kv)) (no_dist m) | CNull => True end.
Lemma g_add_nneg g v w g' : 0 <= w -> 0 <= g_w g -> g_add g (Some v) w = Ok g' -> 0 <= g_w g'.
Proof. intros Hw Hg H. unfold g_add in H. destruct (_ <? _)%num; [|injection H as <-; cbn; auto]. cbv zeta in H. apply bind_Ok in H as (d & _ & H). injection H as <-. cbn [g_w nadd NumR]. lra. Qed.
Lemma go_update_nneg (g : gobs R) x c w g' : 0 <= w -> Forall (fun kv => 0 <= g_w (snd kv)) (go_dist g) -> go_update g (Some x) c w = Ok g' -> Forall (fun kv => 0 <= g_w (snd kv)) (go_dist g').
Proof.
  intros Hw F E. assert (Z0 : 0 <= g_w (g_new (T := R))) by (cbn; lra).
  assert (Old : forall g0 g1, 0 <= g_w g0 -> g_add g0 (Some x) w = Ok g1 -> Forall (fun kv => 0 <= g_w (snd kv)) (dset (go_dist g) c g1)) by (intros g0 g1 H0 E1; apply (Forall_dset (fun g => 0 <= g_w g)); auto; exact (g_add_nneg _ _ _ _ Hw H0 E1)).
  assert (New : forall g1, g_add g_new (Some x) w = Ok g1 -> Forall (fun kv => 0 <= g_w (snd kv)) (dset (dsort (dset (go_dist g) c g_new)) c g1)).
  { intros g1 E1. apply (Forall_dset (fun g => 0 <= g_w g)); [|exact (g_add_nneg _ _ _ _ Hw Z0 E1)]. apply Forall_dsort. apply (Forall_dset (fun g => 0 <= g_w g)); auto. }
  unfold go_update in E. destruct (dget (go_dist g) c) as [g0|] eqn:Eg; [destruct (dget (go_min g) c); [destruct (dget (go_max g) c)|]|]; apply bind_Ok in E as (g1 & E1 & E); injection E as <-; cbn [go_dist]; auto.
  apply (Old g0); auto. exact (Forall_dget (fun g => 0 <= g_w g) _ _ _ F Eg).
Qed.
Lemma co_update_nneg key o x c w o' : 0 <= w -> obs_nneg o -> co_update key o x c w = Ok o' -> obs_nneg o'.
Proof.
  intros Hw W H. destruct o as [g|m|]; cbn [co_update] in H; [|injection H as <-|injection H as <-; exact I].
  - apply bind_Ok in H as (g' & E & H). injection H as <-. exact (go_update_nneg _ _ _ _ _ Hw W E).
  - cbn [obs_nneg] in *. unfold no_update. cbv zeta. cbn [no_dist]. set (d := if dmem (no_dist m) c then _ else _).
    assert (Fd : Forall (fun kv => nneg (snd kv)) d). { subst d. destruct (dmem _ _); auto. apply Forall_dsort. apply (Forall_dset nneg); auto. constructor; [cbn; lra|constructor]. }
    apply (Forall_dset nneg); auto. set (inner := match dget d c with Some x => x | None => [] end). assert (Fi : nneg inner). { subst inner. destruct (dget d c) eqn:E; [exact (Forall_dget nneg _ _ _ Fd E)|constructor]. }
    destruct (dget inner (key x)) as [u|] eqn:Eu; [|apply Forall_dsort]; apply nneg_dset; auto. apply (nneg_dget inner) in Eu; auto. cbn. lra.
Qed.
Lemma observers_nneg key nominal x : forall obs i y w obs', 0 <= w -> Forall (fun io => obs_nneg (snd io)) obs -> update_observers key nominal obs i x y w = Ok obs' -> Forall (fun io => obs_nneg (snd io)) obs'.
Proof.
  induction x as [|a x IH]; intros obs i y w obs' Hw F H; cbn [update_observers] in H; [injection H as <-; auto|]. apply bind_Ok in H as (o & E & H). refine (IH _ _ _ _ _ Hw _ H). apply (Forall_dset obs_nneg); auto. refine (co_update_nneg _ _ _ _ _ _ Hw _ E).
  destruct (dget obs i) as [o0|] eqn:Eo; [exact (Forall_dget obs_nneg _ _ _ F Eo)|]. unfold co_new. destruct (nominal i); constructor.
Qed.
Lemma density_nneg k (g : gauss R) v d : 0 < k -> g_density k g v = Ok d -> 0 <= d.
Proof.
  intros Hk H. unfold g_density in H. destruct (_ <? _)%num; [|injection H as <-; cbn; lra]. apply bind_Ok in H as (std & _ & H). destruct (n0 <? std)%num eqn:Es.
  - change (Rltb 0 std = true) in Es. apply Rltb_true in Es. cbv zeta in H. apply bind_Ok in H as (a & Ea & H). apply bind_Ok in H as (b & _ & H). injection H as <-. unfold pydiv in Ea. destruct (_ =? _)%num; [discriminate|]. injection Ea as <-. cbn.
    apply Rmult_le_pos; [|left; apply exp_pos]. apply Rmult_le_pos; [lra|]. left. apply Rinv_0_lt_compat. apply Rmult_lt_0_compat; lra.
  - destruct (_ =? _)%num; injection H as <-; cbn; lra.
Qed.
Lemma estimate_nneg k phi (g : gauss R) v a b c : 0 < k -> (forall z, 0 <= phi z) -> 0 <= g_w g -> g_estimate k phi g v = Ok (a, b, c) -> 0 <= a + b /\ 0 <= c.
Proof.
  intros Hk Hp Hg H. unfold g_estimate in H. apply bind_Ok in H as (d & Ed & H). apply density_nneg in Ed; auto. cbv zeta in H. apply bind_Ok in H as (std & _ & H). apply bind_Ok in H as (less & El & H). injection H as <- <- <-. assert (Hd : 0 <= d * g_w g) by (apply Rmult_le_pos; auto). cbn [nadd nsub nmul NumR] in *. split.
  - destruct (n0 <? std)%num; [apply bind_Ok in El as (z & _ & El); injection El as <-; pose proof (Rmult_le_pos _ _ (Hp z) Hg); lra|]. destruct (_ <? _)%num; injection El as <-; [lra|]. unfold n0. cbn. lra.
  - change (0 <= if Rltb (g_w g - d * g_w g - less) 0 then 0 else g_w g - d * g_w g - less). destruct (Rltb _ 0) eqn:E; [lra|]. apply Rltb_false in E. lra.
Qed.
Lemma go_sides_nneg k phi (o : gobs R) items v : 0 < k -> (forall z, 0 <= phi z) -> forall l r l' r', Forall (fun kv => 0 <= g_w (snd kv)) items -> nneg l -> nneg r -> go_sides k phi o items v l r = Ok (l', r') -> nneg l' /\ nneg r'.
Proof.
  intros Hk Hp. induction items as [|[c g] items IH]; intros l r l' r' F Wl Wr H; cbn [go_sides] in H; [injection H as <- <-; auto|]. inversion F as [|? ? Fg Fi]; subst. cbn [snd] in Fg.
  destruct (dget (go_min o) c); [|discriminate]. destruct (dget (go_max o) c); [|discriminate]. destruct (_ <? _)%num; [eapply IH; [| | |exact H]; auto; now apply nneg_dset|]. destruct (_ <=? _)%num; [eapply IH; [| | |exact H]; auto; now apply nneg_dset|].
  apply bind_Ok in H as ([[a b] e] & E & H). apply estimate_nneg in E as [E1 E2]; auto. eapply IH; [| | |exact H]; auto; apply nneg_dset; auto.
Qed.
Lemma no_binary_nneg (o : nobs (T := R)) v : Forall (fun kv => nneg (snd kv)) (no_dist o) -> Forall nneg (no_binary o v).
Proof.
  intros W. unfold no_binary.
  assert (Q1 : forall i inner a b, nneg inner -> nneg a -> nneg b -> let r := fold_left (fun acc q => if Z.eqb (fst q) v then (dadd (fst acc) i (snd q), snd acc) else (fst acc, dadd (snd acc) i (snd q))) inner (a, b) in nneg (fst r) /\ nneg (snd r)).
  { intros i inner. induction inner as [|q inner IH]; intros a b Fi Wa Wb; cbn [fold_left fst snd]; auto. inversion Fi; subst. destruct (fst q =? v)%Z; apply IH; auto; now apply nneg_dadd. }
  assert (Q : forall dd a b, Forall (fun kv => nneg (snd kv)) dd -> nneg a -> nneg b -> let r := fold_left (fun acc p => let i := fst p in
      fold_left (fun acc q => if Z.eqb (fst q) v then (dadd (fst acc) i (snd q), snd acc) else (fst acc, dadd (snd acc) i (snd q))) (snd p) acc) dd (a, b) in nneg (fst r) /\ nneg (snd r)).
  { induction dd as [|[i inner] dd IH]; intros a b Wd Wa Wb; cbn [fold_left fst snd]; auto. inversion Wd as [|? ? Wi Wd']; subst. destruct (Q1 i inner a b Wi Wa Wb) as [A B]. cbv zeta in *.
    destruct (fold_left (fun acc q => if Z.eqb (fst q) v then (dadd (fst acc) i (snd q), snd acc) else (fst acc, dadd (snd acc) i (snd q))) inner (a, b)) as [a1 b1]. apply IH; auto. }
  specialize (Q (no_dist o) [] [] W (Forall_nil _) (Forall_nil _)). cbv zeta in Q. destruct (fold_left _ _ _) as [a b]. repeat constructor; apply Q.
Qed.
Lemma no_multiway_nneg (o : nobs (T := R)) : Forall (fun kv => nneg (snd kv)) (no_dist o) -> Forall nneg (no_multiway o).
Proof.
  intros W. unfold no_multiway. cbv zeta. set (good := fun res : list (Z * list (Z * R)) => Forall (fun jd => nneg (snd jd)) res).
  assert (H : forall D res, good D -> good res -> good (fold_left (fun res p => let i := fst p in
      fold_left (fun res q => let j := fst q in dset res j (dadd (match dget res j with Some d => d | None => [] end) i (snd q))) (snd p) res) D res)).
  { induction D as [|[i inner] D IH]; intros res WD G; cbn [fold_left fst snd]; auto. inversion WD as [|? ? Wi WD']; subst. cbn [snd] in Wi. apply IH; auto. cbv zeta. clear IH WD WD'. revert res G.
    induction inner as [|[j u] inner IH]; intros res G; cbn [fold_left fst snd]; auto. inversion Wi as [|? ? Wu Wi']; subst. apply IH; auto. apply (Forall_dset nneg); auto. apply nneg_dadd; auto. destruct (dget res j) as [d|] eqn:E; [exact (Forall_dget nneg _ _ _ G E)|constructor]. }
  specialize (H (no_dist o) [] W (Forall_nil _)). set (res := fold_left _ _ _) in *. apply Forall_forall. intros d Hd. apply in_map_iff in Hd as (d0 & <- & Hd).
  apply Forall_dsort. apply in_map_iff in Hd as ([j d1] & E & Hd). cbn in E. subst d1. unfold good in H. rewrite Forall_forall in H. apply (H (j, d0)). eapply Permutation_in; [apply Permutation_sym, dsort_perm|exact Hd].
Qed.
Section Tree.
Variables (k : R) (phi : R -> R) (key : R -> Z) (cfg : ht_config R) (sz : sizes R (leaf R) (list (Z * R)) (list (Z * R)) (htest R)).
Hypothesis Hk : 0 < k.
Hypothesis Hp : forall z, 0 <= phi z.
Local Notation O := (ht_ops k phi key cfg).
Definition leaf_nneg (l : leaf R) : Prop := nneg (lf_stats l) /\ Forall (fun io => obs_nneg (snd io)) (lf_obs l).
Lemma new_nneg d : nneg d -> leaf_nneg (leaf_new d). Proof. split; cbn; auto. Qed.
Lemma stats_nneg d y w : 0 <= w -> nneg d -> nneg (update_stats d y w).
Proof. intros Hw W. unfold update_stats. destruct (dget d y) eqn:E; [apply (nneg_dget d) in E; auto|apply Forall_dsort]; apply nneg_dset; auto. cbn. lra. Qed.
Lemma learn_nneg l x y w l' : 0 <= w -> leaf_nneg l -> o_learn O l x y w = Ok l' -> leaf_nneg l'.
Proof.
  cbn [o_learn ht_ops]. unfold leaf_learn. intros Hy [A B] H. apply bind_Ok in H as ([mc nb] & _ & H). apply bind_Ok in H as (obs & E & H). injection H as <-. split; cbn [lf_stats lf_obs]; [now apply stats_nneg|eapply observers_nneg; eauto].
Qed.
Lemma go_best_loop_nneg merit o vs : Forall (fun kv => 0 <= g_w (snd kv)) (go_dist o) -> forall best s, (forall b, best = Some b -> nneg (fst (sg_dists b)) /\ nneg (snd (sg_dists b))) ->
  go_best_loop k phi merit o vs best = Ok (Some s) -> nneg (fst (sg_dists s)) /\ nneg (snd (sg_dists s)).
Proof.
  intros W. induction vs as [|v vs IH]; intros best s Hb H; cbn [go_best_loop] in H; [injection H as H; auto|]. apply bind_Ok in H as ([l r] & E & H).
  eapply IH; [|exact H]. intros b Eb. unfold go_split in E. pose proof (go_sides_nneg k phi o (go_dist o) v Hk Hp [] [] l r W (Forall_nil _) (Forall_nil _) E) as Q. unfold keep_best in Eb.
  destruct best as [b0|]; [destruct (mgt _ _)|]; injection Eb as <-; auto.
Qed.
Lemma best_nneg pre i o s : obs_nneg o -> best_of k phi cfg pre i o = Ok (Some s) -> Forall nneg (sg_dists s).
Proof.
  destruct o as [g|m|]; cbn [best_of obs_nneg]; [| |discriminate]; intros W.
  - intros H. apply bind_Ok in H as ([b|] & E & H); [|discriminate]. injection H as <-. cbn [sg_dists]. unfold go_best in E. apply bind_Ok in E as (vs & _ & E). apply go_best_loop_nneg in E as [E1 E2]; [|exact W|discriminate]. repeat constructor; auto.
  - unfold no_best. cbv zeta. rewrite fold_keep. intros H. destruct (fold_left keep_best _ _) as [b|] eqn:E; [|discriminate]. injection H as <-. cbn [sg_dists]. apply keep_best_in in E as [E|E].
    + apply in_map_iff in E as (a & <- & _). now apply no_binary_nneg.
    + destruct (h_binary cfg); [discriminate|]. injection E as <-. now apply no_multiway_nneg.
Qed.
Lemma suggestions_nneg l bs : leaf_nneg l -> suggestions k phi cfg l = Ok bs -> Forall (fun s => sg_test s <> None -> Forall nneg (sg_dists s)) bs.
Proof.
  intros [_ W] H. unfold suggestions in H. apply bind_Ok in H as (rs & E & H). injection H as <-. apply Forall_app. split.
  - destruct (h_no_preprune cfg); constructor; [cbn; congruence|constructor].
  - apply Forall_forall. intros s Hs _. apply in_flat_map in Hs as ([s'|] & Hin & Hs); [|contradiction]. destruct Hs as [->|[]].
    destruct (mapM_in _ _ _ E _ Hin) as ([i o] & Hio & Eb). cbn [fst snd] in Eb. eapply best_nneg; [|exact Eb]. rewrite Forall_forall in W. exact (W _ Hio).
Qed.
Lemma disable_nneg p : forall l, leaf_nneg l -> leaf_nneg (fold_left (disable cfg) p l).
Proof. induction p as [|a p IH]; intros l W; cbn [fold_left]; auto. apply IH. unfold disable. destruct (h_kind cfg); auto. destruct (dmem _ _); auto. destruct W as [A B]. split; cbn; auto. apply (Forall_dset obs_nneg); cbn; auto. Qed.
Lemma decide_nneg l d : leaf_nneg l -> o_decide O l = Ok d -> match d with Keep l' | NullWins l' => leaf_nneg l' | SplitOn l' _ ds => leaf_nneg l' /\ Forall nneg ds end.
Proof.
  cbn [o_decide ht_ops]. intros W H. assert (A : match d with Keep l' | NullWins l' | SplitOn l' _ _ => leaf_nneg l' end).
  { unfold decide in H. cbv zeta in H. destruct (leaf_pure l); [injection H as <-; exact W|]. apply bind_Ok in H as (bs & Eb & H). destruct (rev _) as [|best [|second rest]] eqn:Er.
    - injection H as <-. exact W.
    - injection H as <-. destruct (sg_test best); auto.
    - apply bind_Ok in H as (bound & _ & H). apply bind_Ok in H as (poor & _ & H). injection H as <-. pose proof (disable_nneg poor l W) as D. destruct (_ || _); [destruct (sg_test best); auto|]. exact D. }
  apply decide_cases in H as [_ H]. destruct d as [l'|l'|l' te ds]; auto. split; auto. destruct H as (_ & bs & best & Eb & Hin & Et & <-). apply suggestions_nneg in Eb; auto. rewrite Forall_forall in Eb. apply (Eb best Hin). congruence.
Qed.
Definition tree_nneg (t : tree R (leaf R) (list (Z * R)) (list (Z * R)) (htest R)) : Prop := root_every leaf_nneg nneg nneg t.
Lemma one_nneg t x y w t' : 0 <= w -> tree_nneg t -> fit_weighted O (h_memory cfg) sz t x y w = Ok t' -> tree_nneg t'.
Proof.
  intros Hw. apply (every_fit_weighted O (h_memory cfg) sz leaf_nneg nneg nneg (fun _ w => 0 <= w)); auto; cbn [o_new o_child o_stop o_start o_stats o_learn_inactive ht_ops].
  - apply new_nneg. constructor.
  - intros l d _ W. now apply new_nneg.
  - intros l [W _]. exact W.
  - intros d. apply new_nneg.
  - intros. eapply learn_nneg; eauto.
  - intros i _ y0 w0 i' Hy0 W [= <-]. now apply stats_nneg.
  - intros l [W _]. exact W.
  - intros l d W E. exact (decide_nneg l d W E).
Qed.
Lemma attributes_nneg obs c : Forall (fun io => obs_nneg (snd io)) obs -> forall x i v r, 0 <= v -> nb_attributes k key obs i x c v = Ok r -> 0 <= r.
Proof.
  intros F. induction x as [|a x IH]; intros i v r Hv H; cbn [nb_attributes] in H; [injection H as <-; auto|]. destruct (dget obs i) as [o|] eqn:Eo; [|eapply IH; eauto]. apply bind_Ok in H as (p & E & H). cbv zeta in H. eapply IH; [|exact H]. assert (Hpp : 0 <= p).
  { pose proof (Forall_dget obs_nneg _ _ _ F Eo) as W. destruct o as [g|m|]; cbn [co_prob] in E; [| |injection E as <-; cbn; lra].
    - unfold go_probability in E. destruct (dget (go_dist g) c) as [g0|]; [|injection E as <-; cbn; lra]. exact (density_nneg _ _ _ _ Hk E).
    - unfold no_probability in E. destruct (dget (no_dist m) c) as [d|] eqn:Ed; [|injection E as <-; cbn; lra]. cbn [obs_nneg] in W. pose proof (Forall_dget nneg _ _ _ W Ed) as Wd. cbv zeta in E.
      assert (V : 0 <= match dget d (key a) with Some v => v | None => 0 end) by (destruct (dget d (key a)) eqn:Ev; [exact (nneg_dget _ _ _ Wd Ev)|lra]).
      assert (S : 0 <= dsum (dvals d)). { unfold dsum, dvals. assert (Q : forall acc, 0 <= acc -> 0 <= fold_left nadd (map snd d) acc); [|apply Q; cbn; lra]. clear - Wd. induction Wd as [|[q u] d Hu Wd IH]; intros acc Ha; cbn [map fold_left]; auto. apply IH. cbn in *. lra. }
      unfold pydiv in E. destruct (_ =? _)%num eqn:Ez; [discriminate|]. injection E as <-. cbn [ndiv nadd nofZ NumR n1 n0] in *. unfold n0, n1 in *. cbn [nofZ NumR] in *. assert (L : 0 <= IZR (Z.of_nat (length d))) by (apply IZR_le; lia).
      change (Reqb (dsum (dvals d) + IZR (Z.of_nat (length d))) 0 = false) in Ez. unfold Reqb in Ez. destruct (Req_EM_T _ _); [discriminate|]. apply Rmult_le_pos; [lra|]. left. apply Rinv_0_lt_compat. lra. }
  destruct (_ =? _)%num; [cbn; now apply Rmult_le_pos|cbn; lra].
Qed.
Lemma nb_nneg x d obs v : nneg d -> Forall (fun io => obs_nneg (snd io)) obs -> nb_votes k key x d obs = Ok v -> nneg v.
Proof.
  intros W F B. pose proof (nneg_vsum d W) as S. unfold nb_votes in B. cbv zeta in B.
  destruct (_ || _) eqn:E; [injection B as <-; constructor; [cbn; lra|constructor]|]. apply orb_false_iff in E as [_ E]. change (Reqb (vsum d) 0 = false) in E. unfold Reqb in E. destruct (Req_EM_T _ _) as [|NZ]; [discriminate|]. apply Forall_forall. intros [c u] Hcu.
  apply (mapM_in _ _ _ B) in Hcu as ((c0 & w0) & I0 & E0). apply bind_Ok in E0 as (u0 & E1 & E0). injection E0 as <- <-. cbn [snd fst] in *. eapply attributes_nneg; [exact F| |exact E1]. cbn [ndiv NumR]. unfold nneg in W. rewrite Forall_forall in W. specialize (W _ I0). cbn in W. apply Rmult_le_pos; [lra|]. left. apply Rinv_0_lt_compat. lra.
Qed.
Lemma votes_nneg s x v : tree_nneg (ht_tree s) -> ht_votes k phi key cfg s x = Ok v -> nneg v.
Proof.
  intros W H. unfold ht_votes in H. apply bind_Ok in H as (n & A & H). destruct n as [n|]; [|injection H as <-; constructor].
  apply (every_answering O leaf_nneg nneg nneg) in A; auto. destruct n as [l|i|te st ch]; inversion A; subst; try (injection H as <-; auto; fail).
  unfold leaf_votes in H. destruct H1 as [W1 W2]. destruct (h_kind cfg); [injection H as <-; auto|destruct (_ <=? _)%num|destruct (_ <? _)%num]; try (injection H as <-; exact W1); exact (nb_nneg _ _ _ _ W1 W2 H).
Qed.
Lemma run_nneg es : forall s s', Forall (fun e => match e with HFit _ _ (Some ws) => Forall (fun w => 0 <= w) ws | _ => True end) es -> tree_nneg (ht_tree s) -> ht_run k phi key cfg sz s es = Ok s' -> tree_nneg (ht_tree s').
Proof.
  induction es as [|e es IH]; intros s s' F W H; cbn [ht_run] in *; [injection H as <-; auto|]. inversion F as [|? ? Fe Fs]; subst. apply bind_Ok in H as (s1 & E & H). apply (IH s1 s' Fs); [|exact H]. destruct e as [rows c ws|]; cbn [ht_step] in E; [|injection E as <-; intros r; cbn; discriminate].
  unfold ht_fit in E. cbv zeta in E. destruct (Nat.eqb _ _); [|discriminate]. apply bind_Ok in E as (t & E & E'). injection E' as <-. cbn [ht_tree].
  assert (Fw : Forall (fun w => 0 <= w) (match ws with Some ws => ws | None => repeat n1 (length rows) end)). { destruct ws; [exact Fe|]. apply Forall_forall. intros w Hw. apply repeat_spec in Hw. subst. cbn. lra. }
  revert W E Fw. generalize (match ws with Some ws => ws | None => repeat n1 (length rows) end) (ht_tree s). clear - Hk Hp. 
  induction rows as [|[x y] rows IH]; intros ws t0 W E Fw; cbn [ht_rows] in E; [injection E as <-; exact W|]. destruct ws as [|w ws]; [injection E as <-; exact W|]. inversion Fw; subst. apply bind_Ok in E as (t1 & E1 & E). refine (IH ws t1 _ E _); auto. refine (one_nneg _ _ _ _ _ _ W E1); auto.
Qed.
End Tree.
