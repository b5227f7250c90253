(** Multi-target trees: the same tree whatever the leaves keep, mixtures of models, the order of the targets. *)
From Coq Require Import List ZArith Bool Reals Lra Lia Permutation.
From Verif Require Import Base.Py Base.Num Base.Dict Model.Suggestion Model.Adwin Model.Knn Model.SplitCriteria Model.TargetStats Model.Ebst Model.NominalObs Model.SplitTests Model.TreeSkeleton Model.HoeffdingTree Model.HoeffdingRegressor Model.ISoup
  Spec.TreeSpec Spec.TreeRelSpec Spec.ISoupSpec Proofs.TreeProofs Proofs.TreeRelProofs Proofs.HoeffdingProofs Proofs.ISoupRelProofs.
Import ListNotations.

Lemma orel_eq {T} (a b : option (stat T nat)) : orel eq a b <-> a = b.
Proof. destruct a, b; cbn; split; intros H; subst; auto; try contradiction; try discriminate; congruence. Qed.
Lemma brel_eq {T} (a : bst T nat) : forall b, brel eq a b <-> a = b.
Proof.
  induction a as [|v s l IHl r IHr]; intros [|v' s' l' r']; cbn; split; intros H; auto; try contradiction; try discriminate.
  - destruct H as (-> & -> & Hl & Hr). apply IHl in Hl. apply IHr in Hr. congruence.
  - injection H as <- <- <- <-. repeat split; auto; [now apply IHl|now apply IHr].
Qed.
Lemma F2_pairs {V} (R : V -> V -> Prop) (E : forall a b, R a b <-> a = b) (a b : list (Z * V)) : Forall2 (fun p q => fst p = fst q /\ R (snd p) (snd q)) a b <-> a = b.
Proof.
  split.
  - induction 1 as [|[k v] [k' v'] a b [A B] _ IH]; auto. cbn in A, B. apply E in B. congruence.
  - intros <-. induction a as [|[k v] a IH]; constructor; auto. split; auto. cbn. now apply E.
Qed.
Lemma obrel_eq {T} (a b : mobs T) : obrel eq a b <-> a = b.
Proof.
  destruct a, b; cbn; split; intros H; try contradiction; try discriminate; auto.
  - apply brel_eq in H. congruence.
  - injection H as <-. now apply brel_eq.
  - apply (F2_pairs eq ltac:(tauto)) in H. congruence.
  - injection H as <-. now apply (F2_pairs eq ltac:(tauto)).
Qed.
Lemma osrel_eq {T} (a b : list (Z * mobs T)) : osrel eq a b <-> a = b.
Proof. apply F2_pairs, obrel_eq. Qed.
Lemma F2_eq {A} (l : list A) : Forall2 eq l l. Proof. induction l; constructor; auto. Qed.
Lemma F2_eq_inv {A} (l l' : list A) : Forall2 eq l l' -> l = l'. Proof. induction 1; congruence. Qed.
Lemma times_rel {A B} strict (R : A -> B -> Prop) (f : A -> res A) (g : B -> res B) : (forall a b, R a b -> rrel strict R (f a) (g b)) ->
  forall k a b, R a b -> rrel strict R (times k f a) (times k g b).
Proof. intros H. induction k as [|k IH]; intros a b Hab; cbn [times]; [exact Hab|]. eapply rrel_bind; [apply H; exact Hab|]. auto. Qed.

(** ** Two trees taught the same *)
Section Same.
Context {T : Type} {N : Num T} (key : T -> Z) (cfg : htr_config T) (n : nat) (M M' : model T) (strict : bool) (RP : M_T M -> M_T M' -> Prop).
Hypothesis Pnew : RP (M_new M) (M_new M').
Hypothesis Pchild : forall p p', RP p p' -> RP (M_child M p) (M_child M' p').
Hypothesis Plearn : forall p p' s i y w, RP p p' -> rrel strict RP (M_learn M p s i y w) (M_learn M' p' s i y w).
Variables (sz : sizes T (mleaf M) (minactive M) (option (stat T nat)) (htest T)) (sz' : sizes T (mleaf M') (minactive M') (option (stat T nat)) (htest T)).
Hypothesis Quiet : forall w, c_period_due (r_memory cfg) w = false.
Definition srel : mt M -> mt M' -> Prop := mrel M M' eq RP eq.
Lemma same_learn p p' (s s' : stat T nat) (i i' : minst T) (y y' : nat -> T) w : RP p p' -> s = s' -> i = i' -> y = y' -> rrel strict RP (M_learn M p s i y w) (M_learn M' p' s' i' y' w).
Proof. intros H <- <- <-. now apply Plearn. Qed.
Lemma same_run es : rrel strict srel (mt_run key cfg n M sz (mt_new M) es) (mt_run key cfg n M' sz' (mt_new M') es).
Proof.
  refine (run_rel key cfg n M M' strict eq eq eq RP _ _ _ _ _ _ _ _ Pnew Pchild same_learn sz sz' Quiet eq eq _ _ _ es es _ (mt_new M) (mt_new M') _); try (intros; subst; auto; fail).
  - intros pre pre' post post' <- F. apply F2_eq_inv in F. congruence.
  - induction es as [|[rows ws|] es IH]; constructor; cbn; auto. split; auto. apply F2_eq.
  - apply mrel_new; auto.
Qed.
Lemma srel_same s s' : srel s s' -> same_mtree s s'.
Proof.
  intros (A & B & C). split; auto. destruct A as [R]. constructor; auto. destruct (t_root (mt_tree M s)) as [r|], (t_root (mt_tree M' s')) as [r'|]; auto. clear - R. revert r r' R. apply nrel_ind'.
  - intros l l' (A & B & C & D). constructor. split; [now apply orel_eq|]. split; [now apply osrel_eq|exact C].
  - intros i i' (A & B). constructor. now apply orel_eq.
  - intros te te' d d' ch ch' He Hd _ IH. constructor; auto. now apply orel_eq.
Qed.
(** The node that answers an instance, in both trees *)
Lemma same_found s s' x v v' : srel s s' -> mt_value key cfg n M s x = Ok v -> mt_value key cfg n M' s' x = Ok v' ->
  exists f f', v = map f (seq 0 n) /\ v' = map f' (seq 0 n) /\ exists r r' p (u : node (mleaf M) (minactive M) (option (stat T nat)) (htest T)) (u' : node (mleaf M') (minactive M') (option (stat T nat)) (htest T)), t_root (mt_tree M s) = Some r /\ t_root (mt_tree M' s') = Some r' /\
    route (mt_ops key cfg n M) r (mk_minst x (mt_sums M s) (fun _ _ => n0) (fun _ _ => n0)) = Ok (p, Some u) /\
    match u, u' with
    | Active l, Active l' => ml_stats M l = ml_stats M' l' /\ RP (ml_model M l) (ml_model M' l') /\ M_value M (ml_model M l) (ml_stats M l) (mt_sums M s) x = Ok f /\ M_value M' (ml_model M' l') (ml_stats M l) (mt_sums M s) x = Ok f'
    | Inactive l, Inactive l' => mn_stats M l = mn_stats M' l' /\ RP (mn_model M l) (mn_model M' l') /\ M_value M (mn_model M l) (mn_stats M l) (mt_sums M s) x = Ok f /\ M_value M' (mn_model M' l') (mn_stats M l) (mt_sums M s) x = Ok f'
    | Split _ d _, Split _ d' _ => d = d' /\ f = m_mean d /\ f' = m_mean d
    | _, _ => False
    end.
Proof.
  intros (H1 & H2 & _) Hv Hv'. unfold mt_value in Hv, Hv'. pose proof (tr_root _ _ _ _ _ _ H1) as R. destruct (t_root (mt_tree M s)) as [r|], (t_root (mt_tree M' s')) as [r'|]; try contradiction; try discriminate.
  apply bind_Ok in Hv as ([p u] & Er & Hv). apply bind_Ok in Hv as (f & Ef & Hv). injection Hv as <-. apply bind_Ok in Hv' as ([p' u'] & Er' & Hv'). apply bind_Ok in Hv' as (f' & Ef' & Hv'). injection Hv' as <-.
  exists f, f'. split; auto. split; auto. exists r, r', p. rewrite <- H2 in Er', Ef'.
  assert (K : alike (mt_ops key cfg n M) (mt_ops key cfg n M') (r_memory cfg) sz sz' strict eq eq (lrel M M' eq RP) (irel M M' eq RP) (orel eq) eq).
  { apply multi_alike; auto; try (intros; subst; auto; fail). - intros pre pre' post post' <- F. apply F2_eq_inv in F. congruence. }
  pose proof (rel_route _ _ _ _ _ _ _ _ _ _ _ _ K r r' _ _ R (eq_refl (mk_minst x (mt_sums M s) (fun _ _ => n0) (fun _ _ => n0)))) as Q. rewrite Er, Er' in Q. destruct Q as [_ Q]. cbn [snd] in Q.
  destruct u as [u|], u' as [u'|]; try contradiction; try discriminate. exists u, u'. repeat (split; [auto; fail|]). destruct Q as [l l' (A & _ & _ & D)|i i' (A & D)|te te' d d' ch ch' _ Hd _].
  - apply orel_eq in A. rewrite <- A in Ef'. auto.
  - apply orel_eq in A. rewrite <- A in Ef'. auto.
  - apply orel_eq in Hd. subst d'. injection Ef as <-. injection Ef' as <-. auto.
Qed.
End Same.

(** ** Leaves that keep several models *)
Section Mixed.
Context {T : Type} {N : Num T} (int_of : T -> Z) (cfg : htr_config T) (n : nat).
Lemma adaptive_perceptron (a : adaptive (T := T)) (p : option (matrix T)) s i y w : ad_w a = p ->
  rrel true (fun (a : M_T (adaptive_model int_of cfg n)) (p : M_T (perceptron_model int_of cfg n)) => ad_w a = p) (a_learn int_of cfg n a s i y w) (p_learn int_of cfg n p s i y w).
Proof.
  intros <-. unfold a_learn, p_learn. eapply rrel_bind; [apply rrel_eq|]. intros ratio ? <-.
  eapply rrel_bind with (RA := fun c m => fst (fst c) = m).
  - apply times_rel; [|reflexivity]. intros [[m em] ep] m' E. cbn in E. subst m'. unfold a_update, p_update. eapply rrel_bind; [apply rrel_eq|]. intros xn ? <-. eapply rrel_bind; [apply rrel_eq|]. intros u ? <-. reflexivity.
  - intros [[m em] ep] m' E. cbn in *. congruence.
Qed.
Lemma stacked_perceptron (a : stacked (T := T)) (p : option (matrix T)) s i y w : option_map fst (sa_w a) = p ->
  rrel true (fun (a : M_T (stacked_adaptive_model int_of cfg n)) (p : M_T (perceptron_model int_of cfg n)) => option_map fst (sa_w a) = p) (sa_learn int_of cfg n a s i y w) (p_learn int_of cfg n p s i y w).
Proof.
  intros <-. unfold sa_learn, p_learn. eapply rrel_bind; [apply rrel_eq|]. intros ratio ? <-. assert (E : p_start n (option_map fst (sa_w a)) i = fst (s_start n (sa_w a) i)) by (destruct (sa_w a); reflexivity).
  destruct (s_start n (sa_w a) i) as [m m2]. rewrite E. cbn [fst].
  eapply rrel_bind with (RA := fun c m => fst (fst (fst (fst c))) = m).
  - apply times_rel; [|reflexivity]. intros [[[[u u2] em] ep] es] m' Eq. cbn in Eq. subst m'. unfold sa_update, p_update. eapply rrel_bind; [apply rrel_eq|]. intros xn ? <-. eapply rrel_bind; [apply rrel_eq|]. intros q ? <-. reflexivity.
  - intros [[[[u u2] em] ep] es] m' Eq. cbn in *. congruence.
Qed.
Lemma stacked_stacked (a : stacked (T := T)) (p : option (matrix T * matrix T)) s i y w : sa_w a = p ->
  rrel true (fun (a : M_T (stacked_adaptive_model int_of cfg n)) (p : M_T (stacked_model int_of cfg n)) => sa_w a = p) (sa_learn int_of cfg n a s i y w) (s_learn int_of cfg n p s i y w).
Proof.
  intros <-. unfold sa_learn, s_learn. eapply rrel_bind; [apply rrel_eq|]. intros ratio ? <-. destruct (s_start n (sa_w a) i) as [m m2].
  eapply rrel_bind with (RA := fun c m => fst (fst (fst c)) = m).
  - apply times_rel; [|reflexivity]. intros [[[[u u2] em] ep] es] m' Eq. cbn in Eq. subst m'. unfold sa_update, s_update. eapply rrel_bind; [apply rrel_eq|]. intros xn ? <-. eapply rrel_bind; [apply rrel_eq|]. intros q ? <-. reflexivity.
  - intros [[[[u u2] em] ep] es] m' Eq. cbn in *. congruence.
Qed.
Lemma value_adaptive (a : adaptive) st g x f fp : a_value a st g x = Ok f -> p_value (ad_w a) st g x = Ok fp -> forall i, f i = m_mean st i \/ f i = fp i.
Proof.
  unfold a_value, p_value. destruct (ad_w a) as [m|]; [|intros [= <-] [= <-]; auto]. destruct (g_seen g <=? n1)%num; [intros [= <-] [= <-]; auto|]. intros H H'.
  apply bind_Ok in H as (xn & E & H). rewrite E in H'. cbn [bind] in H'. apply bind_Ok in H as (u & E2 & H). rewrite E2 in H'. cbn [bind] in H'. injection H as <-. injection H' as <-. intros i. destruct (le_opt _ _); auto.
Qed.
Lemma value_stacked (a : stacked) st g x f fp fs : (g_seen g <=? n1)%num = false -> sa_value n a st g x = Ok f -> p_value (option_map fst (sa_w a)) st g x = Ok fp -> s_value n (sa_w a) st g x = Ok fs ->
  forall i, f i = m_mean st i \/ f i = fp i \/ f i = fs i.
Proof.
  intros Hg. unfold sa_value, p_value, s_value. destruct (sa_w a) as [[m m2]|]; [|intros [= <-] [= <-]; auto]. cbn [option_map fst]. rewrite Hg. intros H H' H2.
  apply bind_Ok in H as (xn & E & H). rewrite E in H', H2. cbn [bind] in H', H2. apply bind_Ok in H as (u & E2 & H). rewrite E2 in H', H2. cbn [bind] in H', H2. injection H as <-. injection H' as <-. injection H2 as <-. intros i. unfold sa_choice.
  destruct (argmin3 _ _ _) as [|[|k]]; auto; destruct (_ && _) || destruct (eq_opt _ _); auto.
Qed.
End Mixed.

(** ** The order of the targets, over the reals *)
Section Order.
Local Open Scope R_scope.
Variables (p : nat -> nat) (n : nat).
Hypothesis Hp : reorders n p.
Lemma p_lt i : (i < n)%nat -> (p i < n)%nat.
Proof. intros H. assert (I : In (p i) (seq 0 n)) by (eapply Permutation_in; [exact Hp|]; apply in_map, in_seq; lia). apply in_seq in I. lia. Qed.
Lemma fold_perm (l l' : list R) : Permutation l l' -> forall a, fold_left Rplus l a = fold_left Rplus l' a.
Proof. induction 1; intros a; cbn; auto; [|congruence]. f_equal. ring. Qed.
Definition stp (s s' : stat R nat) : Prop := st_w s = st_w s' /\ (forall i, st_s s' i = st_s s (p i)) /\ (forall i, st_q s' i = st_q s (p i)).
Definition yp (y y' : nat -> R) : Prop := forall i, y' i = y (p i).
Definition gp (g g' : msums R) : Prop := g_seen g = g_seen g' /\ (forall i, g_sum g' i = g_sum g (p i)) /\ (forall i, g_sq g' i = g_sq g (p i)) /\ g_att g = g_att g' /\ g_attsq g = g_attsq g'.
Definition xp (i i' : minst R) : Prop := mi_x i = mi_x i' /\ gp (mi_sums i) (mi_sums i') /\ forall k j, mi_draw i' k j = mi_draw i (p k) j.
Definition mp (m m' : matrix R) : Prop := mx_cols m = mx_cols m' /\ forall i, (i < n)%nat -> m_row m' i = m_row m (p i).
Definition omp (m m' : option (matrix R)) : Prop := match m, m' with Some m, Some m' => mp m m' | None, None => True | _, _ => False end.
Definition vp (f f' : nat -> option R) : Prop := forall i, (i < n)%nat -> f' i = f (p i).
Definition ap (a a' : adaptive (T := R)) : Prop := omp (ad_w a) (ad_w a') /\ vp (ad_m a) (ad_m a') /\ vp (ad_p a) (ad_p a').
Lemma ic_sd_perm s s' : stp s s' -> ic_sd (seq 0 n) s = ic_sd (seq 0 n) s'.
Proof.
  intros (A & B & C). unfold ic_sd. cbv zeta. rewrite A. f_equal. f_equal. set (f := fun i => ((st_q s i - st_s s i * st_s s i / st_w s') / (st_w s' - n1))%num).
  rewrite (map_ext (fun i => ((st_q s' i - st_s s' i * st_s s' i / st_w s') / (st_w s' - n1))%num) (fun i => f (p i))) by (intros i; unfold f; now rewrite B, C).
  rewrite <- (map_map p f). apply fold_perm. apply Permutation_map. apply Permutation_sym, Hp.
Qed.
Lemma merit_perm pre pre' post post' : stp pre pre' -> Forall2 stp post post' -> mmerit n pre post = mmerit n pre' post'.
Proof.
  intros A F. unfold mmerit, ic_merit, sdr_merit. rewrite (ic_sd_perm _ _ A). destruct A as (A & _). rewrite A.
  assert (L : length (filter (fun d => (nofZ 5 <=? st_w d)%num) post) = length (filter (fun d => (nofZ 5 <=? st_w d)%num) post') /\ length post = length post').
  { induction F as [|a b l l' (E & _) F [IH1 IH2]]; cbn; auto. rewrite E. match goal with |- context [if ?b then _ else _] => destruct b end; cbn; auto. }
  destruct L as [-> ->]. destruct (Nat.eqb _ _); [|reflexivity]. destruct (ic_sd (seq 0 n) pre') as [v|]; cbn [bind]; [|reflexivity]. f_equal.
  revert v. induction F as [|a b l l' Hab F IH]; intros v; cbn [sdr_loop]; [reflexivity|]. rewrite (ic_sd_perm _ _ Hab). destruct Hab as (-> & _). destruct (pydiv _ _); cbn [bind]; [|reflexivity]. destruct (ic_sd _ b); cbn [bind]; auto.
Qed.
Lemma target_perm g g' i v v' : gp g g' -> v' = v -> m_target g' i v' = m_target g (p i) v.
Proof. intros (A & B & C & _) ->. unfold m_target. now rewrite A, B, C. Qed.
Lemma scale_perm g g' i v v' : gp g g' -> v' = v -> m_scale g' i v' = m_scale g (p i) v.
Proof. intros (A & B & C & _) ->. unfold m_scale. now rewrite A, B, C. Qed.
Lemma normalize_perm g g' x : gp g g' -> m_normalize g x = m_normalize g' x.
Proof. intros (A & _ & _ & B & C). unfold m_normalize. now rewrite A, B, C. Qed.
Lemma mean_perm d d' i : orel stp d d' -> m_mean d' i = m_mean d (p i).
Proof. destruct d, d'; cbn; try contradiction; auto. intros (A & B & _). now rewrite A, B. Qed.
Lemma dot_perm m m' x : mp m m' -> vp (m_dot m x) (m_dot m' x).
Proof. intros (A & B) i Hi. unfold m_dot. now rewrite B. Qed.
Lemma row_map (f : nat -> option (list R)) c i : (i < n)%nat -> m_row (mk_matrix c (map f (seq 0 n))) i = f i.
Proof. intros H. unfold m_row. cbn [mx_rows]. rewrite (nth_indep _ None (f 0%nat)) by now rewrite map_length, seq_length. rewrite map_nth, seq_nth by auto. reflexivity. Qed.
Lemma step_perm m m' r yn yn' pr pr' x : mp m m' -> vp yn yn' -> vp pr pr' -> mp (m_step n m r yn pr x) (m_step n m' r yn' pr' x).
Proof.
  intros (A & B) Y P. split; [exact A|]. intros i Hi. unfold m_step. rewrite !row_map by (auto; now apply p_lt). now rewrite (B i Hi), (Y i Hi), (P i Hi).
Qed.
Variables (int_of : R -> Z) (cfg : htr_config R).
Lemma start_perm m m' i i' : omp m m' -> xp i i' -> mp (p_start n m i) (p_start n m' i').
Proof.
  intros H (A & _ & D). unfold p_start. destruct m, m'; cbn in H; try contradiction; auto. split; [cbn; congruence|]. intros k Hk. unfold m_draw. rewrite !row_map by (auto; now apply p_lt). rewrite A. f_equal. apply map_ext. auto.
Qed.
Lemma ratio_perm s s' : stp s s' -> m_ratio cfg s = m_ratio cfg s'.
Proof. intros (A & _). unfold m_ratio. now rewrite A. Qed.
Lemma p_learn_perm m m' s s' i i' y y' w : omp m m' -> stp s s' -> xp i i' -> yp y y' -> rrel true omp (p_learn int_of cfg n m s i y w) (p_learn int_of cfg n m' s' i' y' w).
Proof.
  intros Hm Hs Hi Hy. unfold p_learn. rewrite (ratio_perm _ _ Hs). eapply rrel_bind; [apply rrel_eq|]. intros r ? <-. eapply rrel_bind; [|intros a b Hab; exact Hab].
  apply times_rel; [|now apply start_perm]. intros a b Hab. destruct Hi as (Hx & Hg & _). unfold p_update. rewrite Hx, (normalize_perm _ _ _ Hg). eapply rrel_bind; [apply rrel_eq|]. intros xn ? <-. unfold fits. rewrite (proj1 Hab). eapply rrel_bind; [apply rrel_eq|]. intros u ? <-. cbn.
  apply step_perm; auto; [|now apply dot_perm]. intros k Hk. apply target_perm; auto. now rewrite Hy.
Qed.
Lemma p_value_perm m m' d d' g g' x : omp m m' -> orel stp d d' -> gp g g' -> rrel true vp (p_value m d g x) (p_value m' d' g' x).
Proof.
  intros Hm Hd Hg. assert (Hmean : vp (m_mean d) (m_mean d')) by (intros k _; now apply mean_perm). unfold p_value. destruct m as [m|], m' as [m'|]; cbn in Hm; try contradiction; [|exact Hmean]. rewrite <- (proj1 Hg). destruct (g_seen g <=? n1)%num; [exact Hmean|].
  rewrite (normalize_perm _ _ _ Hg). eapply rrel_bind; [apply rrel_eq|]. intros xn ? <-. unfold fits. rewrite (proj1 Hm). eapply rrel_bind; [apply rrel_eq|]. intros u ? <-. cbn. intros k Hk. apply scale_perm; auto. now apply dot_perm.
Qed.
Lemma a_learn_perm a a' s s' i i' y y' w : ap a a' -> stp s s' -> xp i i' -> yp y y' -> rrel true ap (a_learn int_of cfg n a s i y w) (a_learn int_of cfg n a' s' i' y' w).
Proof.
  intros (Hm & Em & Ep) Hs Hi Hy. unfold a_learn. rewrite (ratio_perm _ _ Hs). eapply rrel_bind; [apply rrel_eq|]. intros r ? <-.
  eapply rrel_bind with (RA := fun c c' => mp (fst (fst c)) (fst (fst c')) /\ vp (snd (fst c)) (snd (fst c')) /\ vp (snd c) (snd c')).
  - apply times_rel; [|cbn; split; auto; now apply start_perm]. intros [[a1 b1] c1] [[a2 b2] c2] (Hab & E1 & E2). cbn [fst snd] in Hab, E1, E2. destruct Hi as (Hx & Hg & _). unfold a_update. rewrite Hx, (normalize_perm _ _ _ Hg).
    eapply rrel_bind; [apply rrel_eq|]. intros xn ? <-. unfold fits. rewrite (proj1 Hab). eapply rrel_bind; [apply rrel_eq|]. intros u ? <-. cbn [rrel fst snd].
    assert (Q : vp (fun k => m_target (mi_sums i) k (Some (y k))) (fun k => m_target (mi_sums i') k (Some (y' k)))) by (intros k Hk; apply target_perm; auto; now rewrite Hy).
    assert (D : vp (m_dot a1 (Some xn)) (m_dot a2 (Some xn))) by now apply dot_perm.
    split; [now apply step_perm|]. split; intros k Hk.
    + rewrite (E1 k Hk), (Q k Hk). f_equal. apply target_perm; auto. cbn. destruct Hs as (S1 & S2 & _). now rewrite S1, S2.
    + now rewrite (E2 k Hk), (Q k Hk), (D k Hk).
  - intros [[a1 b1] c1] [[a2 b2] c2] (Hab & E1 & E2). repeat split; auto; apply Hab.
Qed.
Lemma a_value_perm a a' d d' g g' x : ap a a' -> orel stp d d' -> gp g g' -> rrel true vp (a_value a d g x) (a_value a' d' g' x).
Proof.
  intros (Hm & Em & Ep) Hd Hg. assert (Hmean : vp (m_mean d) (m_mean d')) by (intros k _; now apply mean_perm). unfold a_value. destruct (ad_w a) as [m|], (ad_w a') as [m'|]; cbn in Hm; try contradiction; [|exact Hmean]. rewrite <- (proj1 Hg). destruct (g_seen g <=? n1)%num; [exact Hmean|].
  rewrite (normalize_perm _ _ _ Hg). eapply rrel_bind; [apply rrel_eq|]. intros xn ? <-. unfold fits. rewrite (proj1 Hm). eapply rrel_bind; [apply rrel_eq|]. intros u ? <-. cbn. intros k Hk. rewrite (Em k Hk), (Ep k Hk), (Hmean k Hk). destruct (le_opt _ _); auto. apply scale_perm; auto. now apply dot_perm.
Qed.
Section Tree.
Variables (key : R -> Z) (M : model R) (RP : M_T M -> M_T M -> Prop).
Hypothesis Pnew : RP (M_new M) (M_new M).
Hypothesis Pchild : forall a a', RP a a' -> RP (M_child M a) (M_child M a').
Hypothesis Plearn : forall a a' s s' i i' y y' w, RP a a' -> stp s s' -> xp i i' -> yp y y' -> rrel true RP (M_learn M a s i y w) (M_learn M a' s' i' y' w).
Hypothesis Pvalue : forall a a' s s' g g' x, RP a a' -> orel stp s s' -> gp g g' -> rrel true vp (M_value M a s g x) (M_value M a' s' g' x).
Variables (sz sz' : sizes R (mleaf M) (minactive M) (option (stat R nat)) (htest R)).
Hypothesis Quiet : forall w, c_period_due (r_memory cfg) w = false.
Definition rmp (s s' : msample R) : Prop := s' = reorder_sample p s.
Definition prel : mt M -> mt M -> Prop := mrel M M stp RP gp.
Lemma stp_add a a' b b' : stp a a' -> stp b b' -> stp (s_add a b) (s_add a' b').
Proof. intros (A & B & C) (D & E & F). repeat split; cbn; intros; congruence. Qed.
Lemma stp_sub a a' b b' : stp a a' -> stp b b' -> stp (s_sub a b) (s_sub a' b').
Proof. intros (A & B & C) (D & E & F). repeat split; cbn; intros; congruence. Qed.
Lemma stp_zero : stp s_zero s_zero. Proof. repeat split. Qed.
Lemma stp_one y y' w : yp y y' -> stp (s_one y w) (s_one y' w). Proof. intros H. repeat split; cbn; intros; now rewrite H. Qed.
Lemma stp_upd y y' w : yp y y' -> stp (mkS w (fun i => y i * w)%num (fun i => y i * y i * w)%num) (mkS w (fun i => y' i * w)%num (fun i => y' i * y' i * w)%num).
Proof. intros H. repeat split; cbn; intros; now rewrite H. Qed.
Lemma gp_add g g' r r' w : gp g g' -> rmp r r' -> gp (msums_add g (ms_x r) (ms_y r) w) (msums_add g' (ms_x r') (ms_y r') w).
Proof. intros (A & B & C & D & E) ->. repeat split; cbn; intros; try congruence; now rewrite ?B, ?C. Qed.
Lemma perm_run es : rrel true prel (mt_run key cfg n M sz (mt_new M) es) (mt_run key cfg n M sz' (mt_new M) (map (reorder_event p) es)).
Proof.
  refine (run_rel key cfg n M M true stp yp xp RP (fun s s' H => proj1 H) stp_add stp_sub stp_zero stp_one stp_upd merit_perm (fun i i' H => proj1 H) Pnew Pchild Plearn sz sz' Quiet gp rmp _ gp_add _ es _ _ (mt_new M) (mt_new M) _).
  - intros r r' ->. split; [reflexivity|]. intros i. reflexivity.
  - intros g g' r r' G ->. repeat split; cbn; try apply G; auto.
  - induction es as [|[rows ws|] es IH]; cbn [map]; constructor; cbn; auto. split; auto. clear. induction rows; cbn; constructor; auto. reflexivity.
  - apply mrel_new; auto. repeat split.
Qed.
Lemma perm_value s s' x : prel s s' -> rrel true (fun a b => exists f f', vp f f' /\ a = map f (seq 0 n) /\ b = map f' (seq 0 n)) (mt_value key cfg n M s x) (mt_value key cfg n M s' x).
Proof.
  intros H.
  refine (value_rel key cfg n M M true stp yp xp RP (fun s s' H => proj1 H) stp_add stp_sub stp_zero stp_one stp_upd merit_perm (fun i i' H => proj1 H) Pnew Pchild Plearn sz sz' Quiet gp vp x _ _ _ s s' H).
  - intros g g' G. repeat split; cbn; auto; apply G.
  - intros. now apply Pvalue.
  - intros d d' Hd i _. now apply mean_perm.
Qed.
Lemma perm_shape s s' : prel s s' -> match t_root (mt_tree M s), t_root (mt_tree M s') with Some r, Some r' => same_shape r r' | None, None => True | _, _ => False end.
Proof.
  intros (A & _). pose proof (tr_root _ _ _ _ _ _ A) as R. destruct (t_root _) as [r|], (t_root (mt_tree M s')) as [r'|]; auto. clear - R. revert r r' R. apply nrel_ind'; intros; constructor; auto.
Qed.
Lemma perm_predict s s' xs : prel s s' -> mt_set M s = true -> rrel true (Forall2 (reordered n p)) (mt_predict key cfg n M s xs) (mt_predict key cfg n M s' xs).
Proof.
  intros H S. unfold mt_predict. destruct H as (H1 & H2 & H3). rewrite <- H3, S. apply mapM_rel with (RA := eq); [|apply F2_eq]. intros x ? <-. eapply rrel_mono; [|apply perm_value; split; auto]. intros a b (f & f' & V & -> & ->). unfold reordered. rewrite !map_length, !seq_length. repeat split; auto. intros i Hi.
  rewrite (nth_indep (map f' (seq 0 n)) None (f' 0%nat)), (nth_indep (map f (seq 0 n)) None (f 0%nat)) by (rewrite map_length, seq_length; auto; now apply p_lt). rewrite !map_nth, !seq_nth by (auto; now apply p_lt). now apply V.
Qed.
End Tree.
End Order.
