(** Lemmas about a Hoeffding tree before its first split attempt. *)
From Coq Require Import List ZArith Bool Lia Reals Lra Permutation Sorted.
From Verif Require Import Base.Py Base.Num Base.Dict Spec.Lists Spec.NaiveBayesSpec Spec.CriteriaSpec Spec.HoeffdingSpec Spec.LeafSpec
  Model.Adwin Model.SplitCriteria Model.Knn Model.NaiveBayes Model.TreeSkeleton Model.HoeffdingTree
  Proofs.ListFacts Proofs.CriteriaProofs Proofs.KnnProofs Proofs.NaiveBayesProofs.
Import ListNotations.
Local Open Scope R_scope.

Section Leaf.
Variables (k : R) (phi : R -> R) (key : R -> Z) (cfg : ht_config R) (sz : sizes R (leaf R) (list (Z * R)) (list (Z * R)) (htest R)).
Hypothesis Hk : k > 0.
Local Notation O := (ht_ops k phi key cfg).
Local Notation nominal := (h_nominal cfg).

Definition maj_says (h : list sample) (_ : list R) (c : Z) : Prop := majority_says h c.
Record leafinv (h : list sample) (l : leaf R) : Prop := {
  li_stats : dinv h (lf_stats l);
  li_sorted : StronglySorted Z.lt (dkeys (lf_stats l));
  li_obs : oinv key nominal (column h) (lf_obs l);
  li_pos : forall p, In p h -> 0 < snd p;
  li_last : lf_last l = 0;
  li_hits : h_kind cfg = NBA -> hits maj_says h (lf_mc l) /\ hits (bayes_says k key nominal) h (lf_nb l) }.

Lemma leafinv_new : leafinv [] (leaf_new []).
Proof. split; cbn; [apply dinv_nil|apply SSorted_nil|apply oinv_nil|intros p []|reflexivity|intros _; split; constructor]. Qed.
Lemma leaf_nb h l : leafinv h l -> nbinv key h (mk_nb (lf_stats l) (lf_obs l) None nominal).
Proof. intros [A B C D E F]. split; cbn; auto. Qed.
Lemma update_stats_same (d : list (Z * R)) y (w : R) : NoDup (dkeys d) -> forall c, dget (update_stats d y w) c = dget (match dget d y with Some v => dset d y (v + w) | None => dset d y w end) c.
Proof. intros ND c. unfold update_stats. destruct (dget d y); [reflexivity|]. rewrite dget_dsort; [reflexivity|]. now apply NoDup_dset. Qed.
Lemma update_stats_ok h d X y w : dinv h d -> dinv (h ++ [(X, y, w)]) (update_stats d y w).
Proof.
  intros I. pose proof (dinv_add h d X y w I) as (A & B & C). destruct I as (ND & _ & _). split; [|split].
  - unfold update_stats. destruct (dget d y); [now apply NoDup_dset|]. now apply NoDup_dsort, NoDup_dset.
  - rewrite <- B. unfold update_stats. destruct (dget d y); [reflexivity|]. unfold dvals. apply Rsum_perm, Permutation_map, Permutation_sym, dsort_perm.
  - intros c. rewrite update_stats_same by auto. apply C.
Qed.
Lemma update_stats_sorted (d : list (Z * R)) y w : StronglySorted Z.lt (dkeys d) -> NoDup (dkeys d) -> StronglySorted Z.lt (dkeys (update_stats d y w)).
Proof.
  intros S ND. unfold update_stats. destruct (dget d y) as [v|] eqn:E; [|now apply dsort_strict, NoDup_dset].
  rewrite dset_old; auto. apply dget_Some. eauto.
Qed.

(** max(d, key=d.get) on a dictionary sorted by key *)
Definition fold_best : list (Z * R) -> Z * R -> Z * R := fold_left (fun best kv => if Rltb (snd best) (snd kv) then kv else best).
Lemma fold_best_ok d : forall b, StronglySorted Z.lt (dkeys (b :: d)) ->
  In (fold_best d b) (b :: d) /\ forall c v, In (c, v) (b :: d) -> v < snd (fold_best d b) \/ v = snd (fold_best d b) /\ (fst (fold_best d b) <= c)%Z.
Proof.
  induction d as [|a d IH]; intros b S; cbn [fold_best fold_left].
  - split; [now left|]. intros c v [E|[]]. subst b. right. cbn. split; [reflexivity|lia].
  - assert (Sb : StronglySorted Z.lt (dkeys (b :: d))) by (inversion S as [|? ? S1 F]; inversion S1; inversion F; subst; constructor; auto).
    assert (Sa : StronglySorted Z.lt (dkeys (a :: d))) by (inversion S; auto).
    assert (Lab : (fst b < fst a)%Z) by (inversion S as [|? ? ? F]; inversion F; auto).
    unfold Rltb. destruct (Rlt_dec (snd b) (snd a)) as [L|L].
    + destruct (IH a Sa) as [I1 I2]. unfold fold_best in *. split; [right; exact I1|]. intros c v [E|Hin]; [|now apply I2].
      subst b. cbn [snd fst] in *. destruct (I2 (fst a) (snd a)) as [Q|[Q _]]; [left; now destruct a|left; lra|left; lra].
    + destruct (IH b Sb) as [I1 I2]. unfold fold_best in *. split; [destruct I1 as [I1|I1]; [now left|right; now right]|]. intros c v [E|[E|Hin]].
      * apply I2. now left.
      * subst a. cbn [snd fst] in *. destruct (I2 (fst b) (snd b)) as [Q|[Q Q']]; [left; now destruct b|left; lra|]. destruct (Req_dec v (snd b)) as [->|NE]; [right; split; auto; lia|left; lra].
      * apply I2. now right.
Qed.
Lemma max_key_ok (d : list (Z * R)) : StronglySorted Z.lt (dkeys d) -> d <> [] ->
  exists c v, max_key d = Ok c /\ In (c, v) d /\ forall c' v', In (c', v') d -> v' < v \/ v' = v /\ (c <= c')%Z.
Proof.
  intros S NE. destruct d as [|b d]; [congruence|]. destruct (fold_best_ok d b S) as [A B]. exists (fst (fold_best d b)), (snd (fold_best d b)).
  split; [reflexivity|]. split; [now destruct (fold_best d b)|exact B].
Qed.
Lemma top_unique score h a b : top_label score h a -> top_label score h b -> a = b.
Proof. intros [A1 A2] [B1 B2]. destruct (A2 b B1) as [|[E1 L1]], (B2 a A1) as [|[E2 L2]]; try lra. lia. Qed.

Lemma stats_nonempty h l : leafinv h l -> h <> [] -> lf_stats l <> [].
Proof.
  intros I NE E. destruct h as [|[[X y] w] h]; [congruence|]. destruct (li_stats _ _ I) as (_ & _ & C). specialize (C y). rewrite E in C. cbn in C.
  destruct (proj2 (wget_label ((X, y, w) :: h) y)) as (v & Hv); [exists X, w; now left|congruence].
Qed.
Lemma stats_empty l : leafinv [] l -> lf_stats l = [].
Proof. intros I. destruct (li_stats _ _ I) as (_ & _ & C). destruct (lf_stats l) as [|[c v] d]; auto. specialize (C c). cbn in C. rewrite Z.eqb_refl in C. discriminate. Qed.
Lemma bayes_votes h l X : leafinv h l -> h <> [] -> nb_votes k key X (lf_stats l) (lf_obs l) = Ok (map (fun c => (c, nb_score k key nominal h X c)) (dkeys (lf_stats l))).
Proof. intros I NE. exact (nb_votes_ok k key h _ X Hk (leaf_nb h l I) NE). Qed.

Lemma counters_ok h l X y w : leafinv h l -> 0 < w -> h_kind cfg = NBA ->
  exists mc nb, nba_counters k key l X y w = Ok (mc, nb) /\ hits maj_says (h ++ [(X, y, w)]) mc /\ hits (bayes_says k key nominal) (h ++ [(X, y, w)]) nb.
Proof.
  intros I Hw HN. destruct (li_hits _ _ I HN) as [H1 H2]. unfold nba_counters. destruct h as [|s0 h0] eqn:Eh.
  - rewrite (stats_empty l I). cbn [bind nb_votes orb max_key fold_left fst]. do 2 eexists. split; [reflexivity|]. cbn [nadd NumR]. split; destruct (Z.eqb_spec 0 y); first [apply hits_right; auto; cbn; now symmetry | apply hits_wrong; auto; cbn; congruence].
  - assert (NE : h <> []) by (subst; discriminate). rewrite <- Eh in *. rewrite (bayes_votes h l X I NE). set (sc := nb_score k key nominal h X).
    pose proof (stats_nonempty h l I NE) as NS. pose proof (dkeys_label h (lf_stats l)) as DK. specialize (fun c => DK c (li_stats _ _ I)) as DK'. 
    destruct (max_key_ok (lf_stats l) (li_sorted _ _ I) NS) as (m & vm & Em & Im & Tm).
    assert (Top1 : top_label (label_weight h) h m).
    { destruct (li_stats _ _ I) as (ND & _ & C). assert (W : forall c v, In (c, v) (lf_stats l) -> label_weight h c = v) by (intros c v Hc; apply wget_weight; rewrite <- C; now apply In_dget).
      split; [apply DK'; apply in_map_iff; exists (m, vm); auto|]. intros d Hd. apply DK' in Hd. apply in_map_iff in Hd as ([d' v] & <- & Hd). cbn [fst].
      rewrite (W _ _ Im), (W _ _ Hd). exact (Tm _ _ Hd). }
    assert (KM : dkeys (map (fun c => (c, sc c)) (dkeys (lf_stats l))) = dkeys (lf_stats l)) by (unfold dkeys; rewrite !map_map; reflexivity).
    destruct (max_key_ok (map (fun c => (c, sc c)) (dkeys (lf_stats l)))) as (b & vb & Eb & Ib & Tb); [rewrite KM; apply I|destruct (lf_stats l); [congruence|discriminate]|].
    assert (Top2 : top_label sc h b).
    { apply in_map_iff in Ib as (c & [= -> <-] & Hc). split; [now apply DK'|]. intros d Hd. apply DK' in Hd. apply (Tb d (sc d)). apply in_map_iff. exists d. auto. }
    destruct (lf_stats l) as [|s1 st] eqn:Es; [congruence|]. rewrite <- Es in *. rewrite Em. cbn [bind]. rewrite Eb. cbn [bind]. do 2 eexists. split; [reflexivity|].
    assert (M : forall c, majority_says h c <-> m = c). { intros c. unfold majority_says. rewrite Eh, <- Eh. split; [intros T; eapply top_unique; eauto|now intros <-]. }
    assert (B : forall c, bayes_says k key nominal h X c <-> b = c). { intros c. unfold bayes_says. rewrite Eh, <- Eh. split; [intros T; eapply top_unique; eauto|now intros <-]. }
    cbn [nadd NumR]. split.
    + destruct (Z.eqb_spec m y) as [E|E]; [apply hits_right|apply hits_wrong]; auto; unfold maj_says; rewrite M; auto.
    + destruct (Z.eqb_spec b y) as [E|E]; [apply hits_right|apply hits_wrong]; auto; rewrite B; auto.
Qed.
Lemma leaf_learn_ok h l X y w : leafinv h l -> 0 < w -> exists l', leaf_learn k key cfg l X y w = Ok l' /\ leafinv (h ++ [(X, y, w)]) l'.
Proof.
  intros I Hw. unfold leaf_learn.
  assert (Q : exists mc nb, match h_kind cfg with NBA => nba_counters k key l X y w | _ => Ok (lf_mc l, lf_nb l) end = Ok (mc, nb) /\ (h_kind cfg = NBA -> hits maj_says (h ++ [(X, y, w)]) mc /\ hits (bayes_says k key nominal) (h ++ [(X, y, w)]) nb)).
  { destruct (h_kind cfg) eqn:HN; [exists (lf_mc l), (lf_nb l); split; auto; discriminate|exists (lf_mc l), (lf_nb l); split; auto; discriminate|].
    destruct (counters_ok h l X y w I Hw HN) as (mc & nb & E & Q). exists mc, nb. auto. }
  destruct Q as (mc & nb & -> & Q). cbn [bind]. destruct (observe_ok key nominal h (lf_obs l) X y w) as (obs & -> & IO); [lra|apply I|]. cbn [bind]. eexists. split; [reflexivity|].
  split; cbn [lf_stats lf_obs lf_last lf_mc lf_nb]; auto.
  - apply update_stats_ok, I.
  - apply update_stats_sorted; apply I.
  - intros p Hp. apply in_app_or in Hp as [Hp|[<-|[]]]; [now apply (li_pos _ _ I)|auto].
  - apply I.
Qed.

(** The tree holds one leaf. *)
Definition treeinv (h : list sample) (t : tree R (leaf R) (list (Z * R)) (list (Z * R)) (htest R)) : Prop :=
  match t_root t with None => h = [] | Some (Active l) => leafinv h l | _ => False end.
Hypothesis Hdue : forall w, c_period_due (h_memory cfg) w = false.
Lemma fit_weighted_ok h t X y w : 0 <= w -> total_weight h + w < h_grace cfg -> treeinv h t ->
  exists t', fit_weighted O (h_memory cfg) sz t X y w = Ok t' /\ treeinv (h ++ if Req_EM_T w 0 then [] else [(X, y, w)]) t'.
Proof.
  intros Hw HG I. unfold fit_weighted. cbn [neqb NumR]. unfold n0. cbn [nofZ NumR]. unfold Reqb. destruct (Req_EM_T w 0) as [E0|E0].
  { exists t. rewrite app_nil_r. auto. }
  unfold fit_one. cbn [t_root t_decision t_inactive t_inactive_size t_active_size t_overhead t_growth t_weight].
  assert (Q : exists l, leafinv h l /\ match t_root t with Some r => r = Active l | None => leaf_new [] = l end).
  { unfold treeinv in I. destruct (t_root t) as [[l|i|te st ch]|]; try contradiction; [exists l; auto|]. subst h. exists (leaf_new []). split; auto. apply leafinv_new. }
  destruct Q as (l & Il & El). destruct (leaf_learn_ok h l X y w Il) as (l' & EL & Il'); [lra|].
  assert (D : o_due O l' = false).
  { cbn [ht_ops o_due]. rewrite (li_last _ _ Il'). unfold leaf_weight. rewrite vsum_weight. unfold weight. destruct (li_stats _ _ Il') as (_ & S & _). unfold dvals in S. rewrite S, total_snoc.
    cbn [nleb nsub NumR]. apply Rleb_false. lra. }
  destruct (t_root t) as [r|]; [subst r|subst l]; cbn [route bind learn_found o_learn o_new ht_ops]; change (@HoeffdingTree.leaf_learn R NumR) with (@leaf_learn R NumR); rewrite EL; cbn [bind root_of t_root update_at];
    change (h_grace cfg <=? leaf_weight l' - lf_last l')%num with (o_due O l'); rewrite D, andb_false_r; cbn [bind]; cbn [with_root t_weight]; rewrite Hdue; eexists; (split; [reflexivity|]); exact Il'.
Qed.
Lemma total_nonneg h : (forall p, In p h -> 0 < snd p) -> 0 <= total_weight h.
Proof. intros H. destruct h as [|p h]; [cbn; lra|]. left. now apply total_pos. Qed.
Lemma tree_pos h t : treeinv h t -> forall p, In p h -> 0 < snd p.
Proof. unfold treeinv. destruct (t_root t) as [[l|i|te st ch]|]; try contradiction; [apply li_pos|]. intros -> p []. Qed.
Definition counted (l : list sample) : list sample := filter (fun s => if Req_EM_T (snd s) 0 then false else true) l.
Lemma counted_pos l : (forall p, In p l -> 0 <= snd p) -> forall p, In p (counted l) -> 0 < snd p.
Proof. intros H p Hp. apply filter_In in Hp as [Hp E]. destruct (Req_EM_T (snd p) 0); [discriminate|]. specialize (H p Hp). lra. Qed.
Lemma total_app h g : total_weight (h ++ g) = total_weight h + total_weight g.
Proof. unfold total_weight. now rewrite map_app, Rsum_app. Qed.
Lemma ht_rows_ok rows : forall ws h t, length ws = length rows -> Forall (fun w => 0 <= w) ws -> treeinv h t -> total_weight (h ++ counted (combine rows ws)) < h_grace cfg ->
  exists t', ht_rows k phi key cfg sz t rows ws = Ok t' /\ treeinv (h ++ counted (combine rows ws)) t'.
Proof.
  induction rows as [|[X y] rows IH]; intros ws h t HL HW I HG; destruct ws as [|w ws]; try discriminate; cbn [ht_rows combine].
  - exists t. cbn. rewrite app_nil_r. auto.
  - inversion HW as [|? ? Hw HW']; subst. injection HL as HL. unfold counted in *. cbn [filter snd combine] in *.
    assert (NNr : 0 <= total_weight (counted (combine rows ws))).
    { apply total_nonneg, counted_pos. intros [p v] Hp. apply in_combine_r in Hp. rewrite Forall_forall in HW'. cbn. auto. }
    destruct (fit_weighted_ok h t X y w Hw) as (t1 & -> & I1); auto.
    { destruct (Req_EM_T w 0) as [->|E0]; rewrite total_app in HG; unfold counted in NNr; [rewrite Rplus_0_r; lra|]. unfold total_weight at 2 in HG. cbn [map Rsum snd] in HG. fold (total_weight (filter (fun s : sample => if Req_EM_T (snd s) 0 then false else true) (combine rows ws))) in HG. lra. }
    cbn [bind]. destruct (Req_EM_T w 0) as [E|E].
    + rewrite app_nil_r in I1. apply IH; auto.
    + destruct (IH ws (h ++ [(X, y, w)]) t1) as (t2 & E2 & I2); auto; [rewrite <- app_assoc; exact HG|]. exists t2. split; auto. rewrite <- app_assoc in I2. exact I2.
Qed.
Definition after (h : list sample) (e : ht_event R) : list sample :=
  match e with HReset => [] | HFit rows _ ws => h ++ counted (combine rows (match ws with Some ws => ws | None => map (fun _ => 1) rows end)) end.
Lemma ht_step_ok h s e : event_ok e -> treeinv h (ht_tree s) -> total_weight (after h e) < h_grace cfg ->
  exists s', ht_step k phi key cfg sz s e = Ok s' /\ treeinv (after h e) (ht_tree s').
Proof.
  intros OK I HG. destruct e as [rows c ws|]; cbn [ht_step after] in *; [|eexists; split; [reflexivity|]; reflexivity].
  unfold ht_fit. cbv zeta. set (w := match ws with Some ws => ws | None => map (fun _ => 1) rows end) in *.
  assert (Ew : match ws with Some ws => ws | None => repeat n1 (length rows) end = w).
  { destruct ws; auto. unfold w. clear. induction rows; cbn; [reflexivity|]. now f_equal. }
  rewrite Ew. assert (Hl : length w = length rows /\ Forall (fun w => 0 <= w) w).
  { destruct ws as [ws|]; [exact OK|]. unfold w. rewrite map_length. split; auto. apply Forall_forall. intros v Hv. apply in_map_iff in Hv as (? & <- & _). lra. }
  destruct Hl as [Hl HW]. rewrite Hl, Nat.eqb_refl. destruct (ht_rows_ok rows w h (ht_tree s) Hl HW I HG) as (t' & -> & I'). cbn [bind]. eexists. split; [reflexivity|exact I'].
Qed.
(** Events before the last reset do not count, but they must not fail. *)
Fixpoint light (h : list sample) (es : list (ht_event R)) : Prop :=
  match es with [] => True | e :: r => total_weight (after h e) < h_grace cfg /\ light (after h e) r end.
Lemma ht_run_ok es : forall h s, Forall event_ok es -> treeinv h (ht_tree s) -> light h es ->
  exists s', ht_run k phi key cfg sz s es = Ok s' /\ treeinv (fold_left after es h) (ht_tree s').
Proof.
  induction es as [|e es IH]; intros h s OK I HG; cbn [ht_run fold_left]; [eauto|]. inversion OK; subst. destruct HG as [HG HG'].
  destruct (ht_step_ok h s e) as (s1 & -> & I1); auto. cbn [bind]. now apply IH.
Qed.
Lemma light_prefixes es : forall h, (forall a b, es = a ++ b -> total_weight (fold_left after a h) < h_grace cfg) -> light h es.
Proof.
  induction es as [|e es IH]; intros h H; cbn [light]; auto. split; [apply (H [e] es); reflexivity|]. apply IH. intros a b E. apply (H (e :: a) b). rewrite E. reflexivity.
Qed.
Lemma samples_after es : samples_since es = fold_left after es [].
Proof. reflexivity. Qed.

(** Votes *)
Lemma weights_votes h l : leafinv h l -> votes_are (label_weight h) h (lf_stats l).
Proof.
  intros I. destruct (li_stats _ _ I) as (ND & S & C). split; [exact ND|]. intros c v. split.
  - intros Hc. assert (dget (lf_stats l) c = Some v) as E by now apply In_dget. rewrite C in E. split; [apply wget_label; eauto|symmetry; now apply wget_weight].
  - intros [Hc ->]. apply wget_label in Hc as (v & Hv). pose proof (wget_weight _ _ _ Hv) as E. rewrite <- C in Hv. apply dget_In in Hv. now rewrite E.
Qed.
Lemma score_votes h l (sc : Z -> R) : leafinv h l -> votes_are sc h (map (fun c => (c, sc c)) (dkeys (lf_stats l))).
Proof.
  intros I. pose proof (li_stats _ _ I) as D. split; [rewrite map_map; cbn; rewrite map_id; apply D|]. intros c v. rewrite in_map_iff. split.
  - intros (c' & [= -> <-] & Hc). split; auto. now apply (dkeys_label h _ c D).
  - intros [Hc ->]. exists c. split; auto. now apply (dkeys_label h _ c D).
Qed.
Lemma tree_votes h s x : h <> [] -> treeinv h (ht_tree s) -> exists l, leafinv h l /\ ht_votes k phi key cfg s x = leaf_votes k key cfg l x.
Proof.
  intros NE I. unfold treeinv in I. unfold ht_votes, answering. destruct (t_root (ht_tree s)) as [[l|i|te st ch]|]; try contradiction.
  exists l. split; auto.
Qed.
Lemma leaf_total h l : leafinv h l -> leaf_weight l = total_weight h.
Proof. intros I. destruct (li_stats _ _ I) as (_ & S & _). unfold leaf_weight. rewrite vsum_weight. exact S. Qed.
End Leaf.
