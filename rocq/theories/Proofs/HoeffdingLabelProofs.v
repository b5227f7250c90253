(** The statistics and observers of a Hoeffding tree name only labels it was taught. *)
From Coq Require Import List ZArith Bool Lia Permutation.
From Verif Require Import Base.Py Base.Num Base.Dict Model.Suggestion Model.Adwin Model.Knn Model.NaiveBayes Model.GaussianObs Model.NominalObs Model.SplitTests Model.SplitCriteria Model.TreeSkeleton
  Model.HoeffdingTree Spec.TreeSpec Spec.HoeffdingSpec Spec.LabelSpec Proofs.TreeProofs Proofs.HoeffdingProofs Proofs.TreeEveryProofs Props.VfdrPredictProps.
Import ListNotations.

Section Any.
Context {T : Type} {N : Num T}.
Variables (k : T) (phi : T -> T) (key : T -> Z) (cfg : ht_config T) (sz : sizes T (leaf T) (list (Z * T)) (list (Z * T)) (htest T)).
Local Notation O := (ht_ops k phi key cfg).
Section Labels.
Variable L : Z -> Prop.
Definition leaf_within (l : leaf T) : Prop := within L (lf_stats l) /\ Forall (fun io => obs_within L (snd io)) (lf_obs l).
Lemma new_within d : within L d -> leaf_within (leaf_new d). Proof. split; cbn; auto. Qed.
Lemma stats_within d y w : L y -> within L d -> within L (update_stats d y w).
Proof. intros Hy W. unfold update_stats. destruct (dget d y); [|apply within_dsort]; now apply within_dset. Qed.
Lemma observers_within x : forall obs i y w obs', L y -> Forall (fun io => obs_within L (snd io)) obs -> update_observers key (h_nominal cfg) obs i x y w = Ok obs' -> Forall (fun io => obs_within L (snd io)) obs'.
Proof.
  induction x as [|a x IH]; intros obs i y w obs' Hy F H; cbn [update_observers] in H; [injection H as <-; auto|]. apply bind_Ok in H as (o & E & H). refine (IH _ _ _ _ _ Hy _ H). apply (Forall_dset (obs_within L)); auto. refine (co_update_within _ _ _ _ _ _ _ Hy _ E).
  destruct (dget obs i) as [o0|] eqn:Eo; [apply dget_In in Eo; rewrite Forall_forall in F; exact (F _ Eo)|]. unfold co_new. destruct (h_nominal cfg i); cbn; apply within_nil.
Qed.
Lemma learn_within l x y w l' : L y -> leaf_within l -> o_learn O l x y w = Ok l' -> leaf_within l'.
Proof.
  cbn [o_learn ht_ops]. unfold leaf_learn. intros Hy [A B] H. apply bind_Ok in H as ([mc nb] & _ & H). apply bind_Ok in H as (obs & E & H). injection H as <-. split; cbn [lf_stats lf_obs]; [now apply stats_within|eapply observers_within; eauto].
Qed.
Lemma no_multiway_within (o : nobs (T := T)) : within L (no_dist o) -> Forall (within L) (no_multiway o).
Proof.
  intros W. unfold no_multiway. cbv zeta. set (good := fun res : list (Z * list (Z * T)) => Forall (fun jd => within L (snd jd)) res).
  assert (H : forall D res, within L D -> good res -> good (fold_left (fun res p => let i := fst p in
      fold_left (fun res q => let j := fst q in dset res j (dadd (match dget res j with Some d => d | None => [] end) i (snd q))) (snd p) res) D res)).
  { induction D as [|[i inner] D IH]; intros res WD G; cbn [fold_left fst snd]; auto. assert (Li : L i) by (apply WD; now left). apply IH; [intros c Hc; apply WD; now right|]. cbv zeta. clear IH WD. revert res G.
    induction inner as [|[j u] inner IH]; intros res G; cbn [fold_left fst snd]; auto. apply IH. apply (Forall_dset (within L)); auto. unfold dadd. apply within_dset; auto. destruct (dget res j) as [d|] eqn:E; [|apply within_nil]. apply dget_In in E. unfold good in G. rewrite Forall_forall in G. exact (G _ E). }
  specialize (H (no_dist o) [] W (Forall_nil _)). set (res := fold_left _ _ _) in *. apply Forall_forall. intros d Hd. apply in_map_iff in Hd as (d0 & <- & Hd).
  apply within_dsort. apply in_map_iff in Hd as ([j d1] & E & Hd). cbn in E. subst d1. unfold good in H. rewrite Forall_forall in H. apply (H (j, d0)). eapply Permutation_in; [apply Permutation_sym, dsort_perm|exact Hd].
Qed.
Lemma go_best_loop_within merit o vs : within L (go_dist o) -> forall best s, (forall b, best = Some b -> within L (fst (sg_dists b)) /\ within L (snd (sg_dists b))) ->
  go_best_loop k phi merit o vs best = Ok (Some s) -> within L (fst (sg_dists s)) /\ within L (snd (sg_dists s)).
Proof.
  intros W. induction vs as [|v vs IH]; intros best s Hb H; cbn [go_best_loop] in H; [injection H as H; auto|]. apply bind_Ok in H as ([l r] & E & H).
  eapply IH; [|exact H]. intros b Eb. unfold go_split in E. apply (go_sides_within _ _ L) in E; auto using within_nil. unfold keep_best in Eb.
  destruct best as [b0|]; [destruct (mgt _ _)|]; injection Eb as <-; auto.
Qed.
Lemma best_within pre i o s : obs_within L o -> best_of k phi cfg pre i o = Ok (Some s) -> Forall (within L) (sg_dists s).
Proof.
  destruct o as [g|m|]; cbn [best_of obs_within]; [| |discriminate]; intros W.
  - intros H. apply bind_Ok in H as ([b|] & E & H); [|discriminate]. injection H as <-. cbn [sg_dists]. unfold go_best in E. apply bind_Ok in E as (vs & _ & E). apply go_best_loop_within in E as [E1 E2]; [|exact W|discriminate]. repeat constructor; auto.
  - unfold no_best. cbv zeta. rewrite fold_keep. intros H. destruct (fold_left keep_best _ _) as [b|] eqn:E; [|discriminate]. injection H as <-. cbn [sg_dists]. apply keep_best_in in E as [E|E].
    + apply in_map_iff in E as (a & <- & _). now apply no_binary_within.
    + destruct (h_binary cfg); [discriminate|]. injection E as <-. now apply no_multiway_within.
Qed.
Lemma suggestions_within l bs : leaf_within l -> suggestions k phi cfg l = Ok bs -> Forall (fun s => sg_test s <> None -> Forall (within L) (sg_dists s)) bs.
Proof.
  intros [_ W] H. unfold suggestions in H. apply bind_Ok in H as (rs & E & H). injection H as <-. apply Forall_app. split.
  - destruct (h_no_preprune cfg); constructor; [cbn; congruence|constructor].
  - apply Forall_forall. intros s Hs _. apply in_flat_map in Hs as ([s'|] & Hin & Hs); [|contradiction]. destruct Hs as [->|[]].
    destruct (mapM_in _ _ _ E _ Hin) as ([i o] & Hio & Eb). cbn [fst snd] in Eb. eapply best_within; [|exact Eb]. rewrite Forall_forall in W. exact (W _ Hio).
Qed.
Lemma disable_within p : forall l, leaf_within l -> leaf_within (fold_left (disable cfg) p l).
Proof. induction p as [|a p IH]; intros l W; cbn [fold_left]; auto. apply IH. unfold disable. destruct (h_kind cfg); auto. destruct (dmem _ _); auto. destruct W as [A B]. split; cbn; auto. apply (Forall_dset (obs_within L)); cbn; auto. Qed.
Lemma decide_within l d : leaf_within l -> o_decide O l = Ok d -> match d with Keep l' | NullWins l' => leaf_within l' | SplitOn l' _ ds => leaf_within l' /\ Forall (within L) ds end.
Proof.
  cbn [o_decide ht_ops]. intros W H. assert (A : match d with Keep l' | NullWins l' | SplitOn l' _ _ => leaf_within l' end).
  { unfold decide in H. cbv zeta in H. destruct (leaf_pure l); [injection H as <-; exact W|]. apply bind_Ok in H as (bs & Eb & H). destruct (rev _) as [|best [|second rest]] eqn:Er.
    - injection H as <-. exact W.
    - injection H as <-. destruct (sg_test best); auto.
    - apply bind_Ok in H as (bound & _ & H). apply bind_Ok in H as (poor & _ & H). injection H as <-. pose proof (disable_within poor l W) as D. destruct (_ || _); [destruct (sg_test best); auto|]. exact D. }
  apply decide_cases in H as [_ H]. destruct d as [l'|l'|l' te ds]; auto. split; auto. destruct H as (_ & bs & best & Eb & Hin & Et & <-). apply suggestions_within in Eb; auto. rewrite Forall_forall in Eb. apply (Eb best Hin). congruence.
Qed.
(** All nodes of the tree *)
Definition tree_within (t : tree T (leaf T) (list (Z * T)) (list (Z * T)) (htest T)) : Prop := root_every leaf_within (within L) (within L) t.
Lemma one_within t x y w t' : ((w =? n0)%num = false -> L y) -> tree_within t -> fit_weighted O (h_memory cfg) sz t x y w = Ok t' -> tree_within t'.
Proof.
  intros Hy. apply (every_fit_weighted O (h_memory cfg) sz leaf_within (within L) (within L) (fun y _ => L y)); auto; cbn [o_new o_child o_stop o_start o_stats o_learn_inactive ht_ops].
  - apply new_within, within_nil.
  - intros l d _ W. now apply new_within.
  - intros l [W _]. exact W.
  - intros d. apply new_within.
  - intros. eapply learn_within; eauto.
  - intros i _ y0 w0 i' Hy0 W [= <-]. now apply stats_within.
  - intros l [W _]. exact W.
  - intros l d W E. exact (decide_within l d W E).
Qed.
Lemma nb_within x d obs v : within L d -> nb_votes k key x d obs = Ok v -> forall c, In c (dkeys v) -> L c \/ c = 0%Z.
Proof.
  intros W B c Hc. unfold nb_votes in B. cbv zeta in B. destruct (_ || _); [injection B as <-; right; destruct Hc as [<-|[]]; auto|]. left. apply W. unfold dkeys in Hc. apply in_map_iff in Hc as ([c' u] & <- & Hin).
  apply (mapM_in _ _ _ B) in Hin as ((c0 & w0) & I0 & E). apply bind_Ok in E as (u0 & _ & E). injection E as <- _. cbn [fst]. unfold dkeys. apply in_map_iff. exists (c0, w0). auto.
Qed.
Lemma votes_within s x v : tree_within (ht_tree s) -> ht_votes k phi key cfg s x = Ok v -> forall c, In c (dkeys v) -> L c \/ c = 0%Z.
Proof.
  intros W H. unfold ht_votes in H. apply bind_Ok in H as (n & A & H). destruct n as [n|]; [|injection H as <-; intros c []].
  apply (every_answering O leaf_within (within L) (within L)) in A; auto. destruct n as [l|i|te st ch]; inversion A; subst; try (injection H as <-; auto; fail).
  unfold leaf_votes in H. destruct H1 as [W1 _]. destruct (h_kind cfg); [injection H as <-; auto| |]; (destruct (_ : bool); [|]); first [injection H as <-; auto | exact (nb_within _ _ _ _ W1 H)].
Qed.
End Labels.
Lemma leaf_within_mono (L M : Z -> Prop) l : (forall c, L c -> M c) -> leaf_within L l -> leaf_within M l.
Proof. intros H [A B]. split; [exact (within_mono L M _ H A)|]. eapply Forall_impl; [|exact B]. intros [i o]. destruct o; cbn; auto; apply within_mono; auto. Qed.
Lemma every_mono {L I S E} (P P' : L -> Prop) (Q Q' : I -> Prop) (R R' : S -> Prop) : (forall l, P l -> P' l) -> (forall i, Q i -> Q' i) -> (forall s, R s -> R' s) ->
  forall t : node L I S E, every P Q R t -> every P' Q' R' t.
Proof.
  intros HP HQ HR t. induction t as [l|i|te st ch IH] using node_rect'; intros H; inversion H as [| |? ? ? A F]; subst; constructor; auto. clear H. induction F as [|kc ch Hk F IHF]; constructor; inversion IH; subst; auto.
Qed.
Lemma tree_within_mono (L M : Z -> Prop) t : (forall c, L c -> M c) -> tree_within L t -> tree_within M t.
Proof. intros H W r Er. refine (every_mono _ _ _ _ _ _ _ _ _ r (W r Er)); intros; [eapply leaf_within_mono; eauto|eapply within_mono; eauto..]. Qed.
Lemma ht_rows_within rows : forall ws t t' (acc : list Z), tree_within (fun c => In c acc) t -> length rows = length ws -> ht_rows k phi key cfg sz t rows ws = Ok t' ->
  tree_within (fun c => In c (acc ++ map (fun rw => snd (fst rw)) (filter (fun rw => negb (snd rw =? n0)%num) (combine rows ws)))) t'.
Proof.
  induction rows as [|[x y] rows IH]; intros ws t t' acc W Len H; destruct ws as [|w ws]; try discriminate; cbn [ht_rows combine filter map] in *; [injection H as <-; now rewrite app_nil_r|]. injection Len as Len. apply bind_Ok in H as (t1 & E & H). cbn [snd]. destruct (w =? n0)%num eqn:Ew; cbn [negb].
  - apply IH with (t := t1); auto. refine (one_within _ t x y w t1 _ W E). congruence.
  - cbn [map fst snd]. change (y :: map ?f ?l) with ([y] ++ map f l). rewrite app_assoc. apply IH with (t := t1); auto. refine (one_within _ t x y w t1 _ (tree_within_mono _ _ t _ W) E); intros; apply in_app_iff; cbn; auto.
Qed.
Lemma ones {A} (rows : list A) : map (fun _ => n1) rows = repeat n1 (length rows). Proof. induction rows; cbn; f_equal; auto. Qed.
Lemma ht_run_within es : forall s s' (acc : list Z), tree_within (fun c => In c acc) (ht_tree s) -> ht_run k phi key cfg sz s es = Ok s' ->
  tree_within (fun c => In c (fold_left (fun acc e => match e with HFit rows _ ws => acc ++ labels_of rows ws | HReset => [] end) es acc)) (ht_tree s').
Proof.
  induction es as [|e es IH]; intros s s' acc W H; cbn [ht_run fold_left] in *; [injection H as <-; auto|]. apply bind_Ok in H as (s1 & E & H). eapply IH; [|exact H]. destruct e as [rows c ws|]; cbn [ht_step] in E.
  - unfold ht_fit in E. cbv zeta in E. unfold labels_of. rewrite ones. destruct (Nat.eqb_spec (length rows) (length (match ws with Some ws => ws | None => repeat n1 (length rows) end))) as [Len|]; [|discriminate]. apply bind_Ok in E as (t & E & E'). injection E' as <-. cbn [ht_tree].
    exact (ht_rows_within _ _ _ _ _ W Len E).
  - injection E as <-. intros r. cbn. discriminate.
Qed.
End Any.
