(** What the adaptive Hoeffding tree answers with, and the fate of the alternate trees. *)
From Coq Require Import List ZArith Bool Lia Reals Lra.
From Verif Require Import Base.Py Base.Num Base.Dict Model.Suggestion Model.Adwin Model.SplitTests Model.SplitCriteria Model.Knn Model.NaiveBayes Model.TreeSkeleton Model.HoeffdingTree
  Model.AdaTree Model.HoeffdingAdaptive Spec.AdaSpec Spec.Lists Spec.CriteriaSpec Proofs.TreeProofs Proofs.HoeffdingProofs Proofs.ExpertRunProofs Proofs.AdaProofs Proofs.HatProofs Proofs.CriteriaProofs.
Import ListNotations.
Local Open Scope Z_scope.

Section Votes.
Context {T A G : Type} {N : Num T}.
Variables (k : T) (phi : T -> T) (key : T -> Z) (cfg : ht_config T) (bootstrap : bool) (D : det T A) (g_new : G) (poisson : G -> Z * G).
Local Notation dist := (list (Z * T)).
Local Notation O := (hat_ops k phi key cfg bootstrap D g_new poisson).
Local Notation hnode := (anode (aleaf T A G) dist dist (htest T) A).

Lemma mapM_keys {B} (f : Z * T -> res B) l : forall v, mapM (fun cw => u <- f cw ;; Ok (fst cw, u)) l = Ok v -> dkeys v = dkeys l.
Proof.
  induction l as [|[a b] l IH]; intros v H; cbn [mapM] in H; [injection H as <-; reflexivity|]. apply bind_Ok in H as (u & E1 & H). apply bind_Ok in E1 as (u' & E1 & E2). injection E2 as <-.
  apply bind_Ok in H as (us & E3 & H). injection H as <-. cbn [dkeys map fst]. f_equal. apply IH. exact E3.
Qed.
Lemma nb_votes_ndk x d obs v : ndk d -> nb_votes k key x d obs = Ok v -> ndk v.
Proof.
  unfold nb_votes. destruct (_ || _); [intros _ [= <-]; unfold ndk; cbn; constructor; [tauto|constructor]|]. intros Hd H. unfold ndk in *.
  apply (mapM_keys (fun cw => nb_attributes k key obs 0 x (fst cw) (snd cw / vsum d)%num)) in H. unfold dkeys in *. rewrite H. exact Hd.
Qed.
Lemma al_votes_ndk (l : aleaf T A G) x v : al_ok l -> al_votes k key cfg D l x = Ok v -> ndk v.
Proof.
  intros [_ Hs] H. unfold al_votes in H. apply bind_Ok in H as (d & Ed & H).
  assert (Nd : ndk d).
  { destruct (h_kind cfg); [injection Ed as <-; exact Hs|exact (nb_votes_ndk _ _ _ _ Hs Ed)|]. unfold leaf_votes in Ed. cbn [nba_config h_kind] in Ed.
    destruct (_ <? _)%num; [injection Ed as <-; exact Hs|exact (nb_votes_ndk _ _ _ _ Hs Ed)]. }
  injection H as <-. destruct (_ <? _)%num; [|exact Nd]. unfold ndk, dkeys in *. rewrite map_map. exact Nd.
Qed.
Lemma dset_new (d : dist) a v : dget d a = None -> dset d a v = d ++ [(a, v)].
Proof. induction d as [|[b u] d IH]; cbn [dget dset app]; intros H; [reflexivity|]. destruct (Z.eqb b a); [discriminate|]. f_equal. auto. Qed.
Lemma add_nothing (d : dist) : ndk d -> add_dict_values [] d = d.
Proof.
  intros H. assert (Q : forall d r : dist, NoDup (dkeys (r ++ d)) -> add_dict_values r d = r ++ d).
  { clear. induction d as [|[a v] d IH]; intros r H; [cbn; now rewrite app_nil_r|]. unfold add_dict_values. cbn [fold_left fst snd].
    assert (E : dget r a = None). { apply dget_None. unfold dkeys in *. rewrite map_app in H. cbn in H. apply NoDup_remove_2 in H. rewrite in_app_iff in H. tauto. }
    rewrite E, (dset_new _ _ _ E). change ((r ++ [(a, v)]) ++ d) with ((r ++ [(a, v)]) ++ d). replace (r ++ (a, v) :: d) with ((r ++ [(a, v)]) ++ d) by (rewrite <- app_assoc; reflexivity).
    apply IH. rewrite <- app_assoc. exact H. }
  exact (Q d [] H).
Qed.

Lemma dead_child (ch : list (Z * hnode)) b c : sum_all (number is_adead) ch = 0 -> dget ch b = Some c -> number is_adead c = 0.
Proof.
  assert (Z0 : forall n : hnode, 0 <= number is_adead n) by (intros; unfold number; lia).
  assert (S0 : forall l : list (Z * hnode), 0 <= sum_all (number is_adead) l) by (unfold sum_all; induction l as [|[? n'] l IH]; cbn [map fold_right snd]; [lia|specialize (Z0 n'); lia]).
  induction ch as [|[k0 n] ch IH]; [discriminate|]. unfold sum_all. cbn [map fold_right snd dget]. fold (sum_all (number is_adead) ch). specialize (S0 ch). specialize (Z0 n). intros H. destruct (Z.eqb k0 b); [intros [= <-]; lia|intros Ec; apply IH; [lia|exact Ec]].
Qed.

(** An instance that is sorted to a leaf is found there, and in alternate trees only besides. *)
Lemma found_at (t : hnode) x p : hat_wf t -> sorted O t x p -> number is_adead t = 0 ->
  exists side, (forall nb, In nb side -> snd nb = -999) /\
    match p with
    | At n => exists l, n = ALeaf l /\ al_ok l /\ forall br, afound O t x br = Ok ((n, br) :: side)
    | Childless _ => False
    | Branchless _ => forall br, afound O t x br = Ok side
    end.
Proof.
  intros Wt H. induction H as [l x|i x|te st wt alt ch x b c p Eb Hb Ec H IH|te st wt alt ch x b Eb Hb Ec|te st wt alt ch x b Eb Hb]; intros Na.
  - exists []. split; [intros nb []|]. exists l. inversion Wt; subst. auto.
  - rewrite number_leaf in Na by reflexivity. discriminate.
  - inversion Wt as [| |? ? ? ? ? K TI F A1]; subst. assert (Wc : hat_wf c). { refine (Forall_dget (fun n => awf test_ok al_ok ndk n) ch b c _ Ec). exact F. }
    assert (Nc : number is_adead c = 0).
    { rewrite number_split in Na. change (sum_all (number is_adead) ch = 0) in Na. exact (dead_child ch b c Na Ec). }
    destruct (IH Wc Nc) as (side & Hs & Hp).
    set (more := match alt with None => [] | Some a => [(a, -999)] end).
    assert (Em : match alt with None => Ok [] | Some a => afound O a x (-999) end = Ok more).
    { unfold more. destruct alt as [a|]; [|reflexivity]. destruct (A1 a eq_refl) as (l & -> & _). reflexivity. }
    exists (side ++ more). split.
    + intros nb Hn. apply in_app_iff in Hn as [Hn|Hn]; [auto|]. unfold more in Hn. destruct alt; [destruct Hn as [<-|[]]; reflexivity|destruct Hn].
    + destruct (Z.leb_spec 0 b); [|lia]. destruct p as [n|n|n]; [|destruct Hp|].
      * destruct Hp as (l & -> & Wl & Hp). exists l. split; [reflexivity|]. split; [exact Wl|]. intros br. rewrite afound_split, Eb. cbn [bind].
        destruct (Z.leb_spec 0 b); [|lia]. rewrite Ec, Hp. cbn [bind]. rewrite Em. reflexivity.
      * intros br. rewrite afound_split, Eb. cbn [bind]. destruct (Z.leb_spec 0 b); [|lia]. rewrite Ec, Hp. cbn [bind]. rewrite Em. reflexivity.
  - exfalso. pose proof (awf_nochild O test_ok al_ok ndk (hat_branch k phi key cfg bootstrap D g_new poisson) te st wt alt ch x b Wt Eb Ec). lia.
  - inversion Wt as [| |? ? ? ? ? K TI F A1]; subst. exists (match alt with None => [] | Some a => [(a, -999)] end). split.
    + intros nb Hn. destruct alt; [destruct Hn as [<-|[]]; reflexivity|destruct Hn].
    + intros br. rewrite afound_split, Eb. cbn [bind]. destruct (Z.leb_spec 0 b); [lia|]. cbn [bind]. destruct alt as [a|]; [|reflexivity]. destruct (A1 a eq_refl) as (l & -> & _). reflexivity.
Qed.
Lemma side_ignored (side : list (hnode * Z)) x acc : (forall nb, In nb side -> snd nb = -999) ->
  foldM (fun acc nb => if (snd nb =? -999) then Ok acc else v <- avote O (fst nb) x ;; Ok (add_dict_values acc v)) side acc = Ok acc.
Proof. induction side as [|nb side IH]; intros H; cbn [foldM]; [reflexivity|]. rewrite (H nb (or_introl eq_refl)). cbn. apply IH. intros; apply H; now right. Qed.
Lemma votes_at s (t : hnode) x p : hat_root s = Some t -> hat_wf t -> number is_adead t = 0 -> sorted O t x p ->
  match p with
  | At n => exists l, n = ALeaf l /\ hat_votes k phi key cfg bootstrap D g_new poisson s x = al_votes k key cfg D l x
  | Childless _ => False
  | Branchless _ => hat_votes k phi key cfg bootstrap D g_new poisson s x = Ok []
  end.
Proof.
  intros Et Wt Na H. destruct (found_at t x p Wt H Na) as (side & Hs & Hp).
  assert (E : hat_votes k phi key cfg bootstrap D g_new poisson s x = (ns <- afound O t x (-1) ;; foldM (fun acc nb => if (snd nb =? -999) then Ok acc else v <- avote O (fst nb) x ;; Ok (add_dict_values acc v)) ns [])).
  { unfold hat_votes. rewrite Et. destruct t; [reflexivity| |reflexivity]. rewrite number_leaf in Na by reflexivity. discriminate. }
  destruct p as [n|n|n]; [|exact Hp|].
  - destruct Hp as (l & -> & Wl & Hp). exists l. split; [reflexivity|]. rewrite E, Hp. cbn [bind foldM snd fst avote]. change (-1 =? -999) with false. cbv iota. cbn [hat_ops a_vote].
    destruct (al_votes k key cfg D l x) as [v|e] eqn:Ev; [|reflexivity]. cbn [bind]. rewrite side_ignored by exact Hs. f_equal. apply add_nothing. exact (al_votes_ndk _ _ _ Wl Ev).
  - rewrite E, Hp. cbn [bind]. apply side_ignored. exact Hs.
Qed.
(** Every instance whose tests can be evaluated is sorted somewhere. *)
Lemma sorted_somewhere (t : hnode) x : (forall te st wt alt ch, In (ASplit te st wt alt ch) (main_nodes t) -> exists b, a_branch O te x = Ok b) -> exists p, sorted O t x p.
Proof.
  induction t as [l|i|te st wt alt ch _ IHc] using anode_ind'; intros H; [eexists; constructor|eexists; constructor|].
  destruct (H te st wt alt ch (or_introl eq_refl)) as (b & Eb). destruct (Z.ltb_spec b 0) as [Hb|Hb]; [eexists; econstructor 5; eauto|]. destruct (dget ch b) as [c|] eqn:Ec; [|eexists; econstructor 4; eauto].
  assert (exists p, sorted O c x p) as (p & Hp); [|exists p; econstructor 3; eauto].
  refine (Forall_dget (fun c => (forall te st wt alt ch, In (ASplit te st wt alt ch) (main_nodes c) -> exists b, a_branch O te x = Ok b) -> exists p, sorted O c x p) ch b c IHc Ec _).
  intros te' st' wt' alt' ch' Hin. apply (H te' st' wt' alt' ch'). right. clear - Ec Hin. induction ch as [|[k0 n] ch IH]; [discriminate|]. cbn [dget] in Ec. apply in_app_iff. destruct (Z.eqb k0 b); [injection Ec as ->; left; exact Hin|right; auto].
Qed.

(** The verdict on the alternate tree of a split node *)
Lemma judge_rule self wt changed a c v c' : judge O self wt changed (Some (ALeaf a)) c = Ok (v, c') ->
  (v = Fresh <-> changed = true) /\
  (v = Switch <-> changed = false /\ nltb (nofZ 300) (d_width D wt) = true /\ nltb (nofZ 300) (d_width D (al_det a)) = true
                  /\ nltb (hat_bound (d_est D wt) (d_width D (al_det a)) (d_width D wt)) (d_est D wt - d_est D (al_det a))%num = true) /\
  (v = Prune <-> changed = false /\ nltb (nofZ 300) (d_width D wt) = true /\ nltb (nofZ 300) (d_width D (al_det a)) = true
                  /\ nltb (hat_bound (d_est D wt) (d_width D (al_det a)) (d_width D wt)) (d_est D wt - d_est D (al_det a))%num = false
                  /\ nltb (hat_bound (d_est D wt) (d_width D (al_det a)) (d_width D wt)) (d_est D (al_det a) - d_est D wt)%num = true).
Proof.
  unfold judge. destruct changed; [intros [= <- _]; intuition congruence|].
  cbn [awidth bind hat_ops a_lwidth a_wwidth a_west aest a_lest a_bound]. unfold threshold.
  destruct (nltb (nofZ 300) (d_width D wt)) eqn:E1; cbn [andb]; [|intros [= <- _]; intuition congruence].
  destruct (nltb (nofZ 300) (d_width D (al_det a))) eqn:E2; cbn [andb]; [|intros [= <- _]; intuition congruence].
  destruct (nltb (hat_bound (d_est D wt) (d_width D (al_det a)) (d_width D wt)) (d_est D wt - d_est D (al_det a))%num) eqn:E3; cbn [bind].
  - intros H. apply bind_Ok in H as (n & _ & H). cbn [aleaves bind] in H. injection H as <- _. intuition congruence.
  - destruct (nltb (hat_bound (d_est D wt) (d_width D (al_det a)) (d_width D wt)) (d_est D (al_det a) - d_est D wt)%num) eqn:E4; intros [= <- _]; intuition congruence.
Qed.
End Votes.

(** Over the reals the error weight of the votes cannot be seen in the answers. *)
Lemma weight_scale (d : list (Z * R)) f : weight (map (fun kv => (fst kv, (snd kv / f)%R)) d) = (weight d / f)%R.
Proof. unfold weight. induction d as [|[a v] d IH]; cbn [map Rsum fold_right fst snd]; [cbn; unfold Rdiv; lra|]. cbn in *. rewrite IH. unfold Rdiv. lra. Qed.
Lemma row_scale cl (d : list (Z * R)) f : (0 < f)%R -> weight d <> 0%R -> ht_row cl (map (fun kv => (fst kv, (snd kv / f)%R)) d) = ht_row cl d.
Proof.
  intros Hf Hw. unfold ht_row. destruct d as [|kv d0] eqn:Ed; [reflexivity|]. rewrite <- Ed in *. destruct (map (fun kv => (fst kv, (snd kv / f)%R)) d) as [|x0 l0] eqn:Em; [rewrite Ed in Em; discriminate|]. rewrite <- Em.
  cbv zeta. rewrite !vsum_weight, weight_scale. unfold n0. cbn [neqb NumR nofZ ndiv]. unfold Reqb.
  destruct (Req_EM_T (weight d / f) 0) as [E1|E1].
  { exfalso. apply Hw. apply (Rmult_eq_compat_r f) in E1. unfold Rdiv in E1. rewrite Rmult_assoc, Rinv_l, Rmult_0_l, Rmult_1_r in E1 by lra. exact E1. }
  destruct (Req_EM_T (weight d) 0) as [E2|E2]; [contradiction|]. rewrite map_map. cbn [fst snd].
  assert (Q : map (fun x : Z * R => (fst x, (snd x / f / (weight d / f))%R)) d = map (fun kv : Z * R => (fst kv, (snd kv / weight d)%R)) d).
  { apply map_ext. intros [a v]. cbn. f_equal. field. split; lra. }
  rewrite Q. reflexivity.
Qed.
