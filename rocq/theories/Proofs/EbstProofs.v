(** Lemmas about the E-BST: the statistics of a node are those of the observations up to its cut point. *)
From Coq Require Import List ZArith Bool Lia Reals Lra FunctionalExtensionality Sorted.
From Verif Require Import Base.Py Base.Num Spec.Lists Spec.ObserverSpec Spec.EbstSpec Model.Suggestion Model.TargetStats Model.Ebst
  Proofs.ListFacts Proofs.SuggestionProofs.
Import ListNotations.
Local Open Scope R_scope.

Section P.
Context {I : Type}.
Local Notation st := (stat R I).
Local Notation ob := (eobs I).

Lemma stat_ext (a b : st) : st_w a = st_w b -> (forall i, st_s a i = st_s b i) -> (forall i, st_q a i = st_q b i) -> a = b.
Proof. destruct a, b; cbn. intros -> H1 H2. f_equal; extensionality i; auto. Qed.
Ltac sext := apply stat_ext; [|intros ?i|intros ?i]; cbn [st_w st_s st_q s_add s_sub s_zero s_one stats minus nadd nsub nmul nofZ NumR n0].

Lemma s_sub_add (a b : st) : s_sub (s_add a b) b = a.
Proof. sext; lra. Qed.
Lemma s_add_comm (a b : st) : s_add a b = s_add b a.
Proof. sext; lra. Qed.
Lemma s_add_assoc (a b c : st) : s_add a (s_add b c) = s_add (s_add a b) c.
Proof. sext; lra. Qed.
Lemma s_add_0 (a : st) : s_add a s_zero = a.
Proof. sext; unfold n0; cbn; lra. Qed.
Lemma stats_nil {V} : @stats I V [] = s_zero.
Proof. sext; reflexivity. Qed.
Lemma stats_one {V} (v : V) y w : stats (I:=I) [(v, y, w)] = s_one y w.
Proof. sext; cbn; lra. Qed.
Lemma stats_app {V} (a b : list (V * (I -> R) * R)) : stats (a ++ b) = s_add (stats a) (stats b).
Proof. sext; rewrite map_app, Rsum_app; reflexivity. Qed.
Lemma stats_cons {V} o (a : list (V * (I -> R) * R)) : stats (o :: a) = s_add (stats [o]) (stats a).
Proof. apply (stats_app [o] a). Qed.
Lemma s_sub_minus (a b : st) : s_sub a b = minus a b.
Proof. sext; reflexivity. Qed.

Definition below (v : R) (l : list ob) := filter (fun o => Rltb (e_val o) v) l.
Definition above (v : R) (l : list ob) := filter (fun o => Rltb v (e_val o)) l.
Lemma upto_app v (a b : list ob) : upto v (a ++ b) = upto v a ++ upto v b.
Proof. apply filter_app. Qed.
Lemma upto_below v v' (l : list ob) : v' < v -> upto v' (below v l) = upto v' l.
Proof.
  intros H. induction l as [|o l IH]; auto. cbn [below filter]. fold (below v l). destruct (Rltb (e_val o) v) eqn:E; rcase; cbn [upto filter]; fold (upto v' l) (upto v' (below v l)).
  - now rewrite IH.
  - destruct (Rle_dec (e_val o) v'); [lra|]. exact IH.
Qed.
Lemma upto_above v v' (l : list ob) : v < v' -> s_add (stats (upto v' (above v l))) (stats (upto v l)) = stats (upto v' l).
Proof.
  intros H. induction l as [|o l IH]; [cbn [above upto filter]; rewrite (@stats_nil R); apply s_add_0|]. cbn [above filter]. fold (above v l).
  destruct (Rltb v (e_val o)) eqn:E; rcase; cbn [upto filter]; fold (upto v' l) (upto v' (above v l)) (upto v l).
  - destruct (Rle_dec (e_val o) v); [lra|]. destruct (Rle_dec (e_val o) v'); auto.
    rewrite (stats_cons o (upto v' (above v l))), (stats_cons o (upto v' l)), <- s_add_assoc, IH. reflexivity.
  - destruct (Rle_dec (e_val o) v); [|lra]. destruct (Rle_dec (e_val o) v'); [|lra].
    rewrite (stats_cons o (upto v l)), (stats_cons o (upto v' l)), s_add_assoc, (s_add_comm _ (stats [o])), <- s_add_assoc, IH. reflexivity.
Qed.
Lemma in_below x v (l : list ob) : In x (map e_val (below v l)) <-> In x (map e_val l) /\ x < v.
Proof.
  unfold below. rewrite !in_map_iff. split.
  - intros (o & <- & H). apply filter_In in H as [H E]. rcase. eauto.
  - intros [(o & <- & H) L]. exists o. split; auto. apply filter_In. split; auto. now apply Rltb_true.
Qed.
Lemma in_above x v (l : list ob) : In x (map e_val (above v l)) <-> In x (map e_val l) /\ v < x.
Proof.
  unfold above. rewrite !in_map_iff. split.
  - intros (o & <- & H). apply filter_In in H as [H E]. rcase. eauto.
  - intros [(o & <- & H) L]. exists o. split; auto. apply filter_In. split; auto. now apply Rltb_true.
Qed.

(** [obs]: the observations that belong to the subtree's range; [full]: nothing was pruned. *)
Fixpoint rep (full : bool) (obs : list ob) (t : bst R I) : Prop :=
  match t with
  | Leaf => full = true -> obs = []
  | Node v s l r => In v (map e_val obs) /\ s = stats (upto v obs) /\ rep full (below v obs) l /\ rep full (above v obs) r
  end.
Lemma rep_weaken obs t : rep true obs t -> rep false obs t.
Proof. revert obs. induction t as [|v s l IHl r IHr]; cbn; intros obs; [discriminate|]. intros (A & B & C & D). auto. Qed.

Lemma insert_rep v y w t : forall obs, rep true obs t -> rep true (obs ++ [(v, y, w)]) (bst_insert v y w t).
Proof.
  induction t as [|v0 s l IHl r IHr]; intros obs; cbn [rep bst_insert].
  - intros H. rewrite (H eq_refl). cbn. split; auto. destruct (Rle_dec _ _) as [_|N]; [|destruct N; unfold e_val; cbn; lra].
    split; [now rewrite stats_one|]. unfold e_val. cbn. rewrite !(proj2 (Rltb_false _ _)) by lra. split; auto.
  - intros (A & B & C & D). cbn [neqb nltb NumR].
    assert (In0 : In v0 (map e_val (obs ++ [(v, y, w)]))) by (rewrite map_app; apply in_or_app; auto).
    destruct (Reqb v v0) eqn:E1; [|destruct (Rltb v v0) eqn:E2]; repeat rcase; cbn [rep]; (split; [exact In0|]); rewrite upto_app; unfold below, above in *; rewrite ?filter_app in *; cbn [upto filter];
      unfold e_val in *; cbn [fst snd] in *.
    + subst v0. rewrite !(proj2 (Rltb_false _ _)), !app_nil_r by lra. destruct (Rle_dec v v); [|lra]. rewrite stats_app, stats_one, <- B. auto.
    + rewrite (proj2 (Rltb_true v v0)), (proj2 (Rltb_false v0 v)), app_nil_r by lra. destruct (Rle_dec v v0); [|lra]. rewrite stats_app, stats_one, <- B. auto.
    + rewrite (proj2 (Rltb_true v0 v)), (proj2 (Rltb_false v v0)), !app_nil_r by lra. destruct (Rle_dec v v0); [lra|]. rewrite !app_nil_r. auto.
Qed.
Lemma run_rep h : rep true (present h) (ebst_run h).
Proof.
  unfold ebst_run. induction h as [|[[[v|] y] w] h IH] using rev_ind; [cbn; auto| |];
    unfold present; rewrite fold_left_app, flat_map_app; fold (present (I:=I) h); cbn [fold_left ebst_update flat_map].
  - rewrite app_nil_r. now apply insert_rep.
  - now rewrite app_nil_r.
Qed.

(** ** Cut points in order *)
Fixpoint cuts (t : bst R I) : list R := match t with Leaf => [] | Node v _ l r => cuts l ++ v :: cuts r end.
Lemma cuts_in b t : forall obs, rep b obs t -> forall x, In x (cuts t) -> In x (map e_val obs).
Proof.
  induction t as [|v s l IHl r IHr]; intros obs; cbn [rep cuts]; [intros _ x []|]. intros (A & B & C & D) x H.
  apply in_app_or in H. destruct H as [H|[<-|H]]; auto.
  - apply (IHl _ C), in_below in H. tauto.
  - apply (IHr _ D), in_above in H. tauto.
Qed.
Lemma cuts_all t : forall obs, rep true obs t -> forall x, In x (map e_val obs) -> In x (cuts t).
Proof.
  induction t as [|v s l IHl r IHr]; intros obs; cbn [rep cuts].
  - intros H x. rewrite (H eq_refl). intros [].
  - intros (A & B & C & D) x H. apply in_or_app. destruct (Rtotal_order x v) as [L|[->|L]].
    + left. apply (IHl _ C), in_below. auto.
    + right. now left.
    + right. right. apply (IHr _ D), in_above. auto.
Qed.
Lemma StronglySorted_app (a b : list R) : StronglySorted Rlt a -> StronglySorted Rlt b -> (forall x y, In x a -> In y b -> x < y) -> StronglySorted Rlt (a ++ b).
Proof.
  intros Sa Sb H. induction Sa as [|x a Sa IH F]; auto. cbn. constructor.
  - apply IH. intros. apply H; [now right|auto].
  - apply Forall_app. split; auto. apply Forall_forall. intros y Hy. apply H; [now left|auto].
Qed.
Lemma cuts_sorted b t : forall obs, rep b obs t -> StronglySorted Rlt (cuts t).
Proof.
  induction t as [|v s l IHl r IHr]; intros obs; cbn [rep cuts]; [constructor|]. intros (A & B & C & D).
  assert (Hl : forall x, In x (cuts l) -> x < v) by (intros x H; apply (cuts_in _ _ _ C), in_below in H; tauto).
  assert (Hr : forall x, In x (cuts r) -> v < x) by (intros x H; apply (cuts_in _ _ _ D), in_above in H; tauto).
  apply StronglySorted_app; eauto.
  - constructor; eauto. apply Forall_forall. auto.
  - intros x y Hx [<-|Hy]; auto. specialize (Hl _ Hx). specialize (Hr _ Hy). lra.
Qed.

(** ** The search *)
Section Search.
Variable merit : st -> st -> option R.
Variable pre : st.
Variable all : list ob.
Local Notation sug := (esug R I).

Definition cand_at (v : R) : sug := let left := stats (upto v all) in mkSug (Some v) (Some (left, minus pre left)) (merit left (minus pre left)).
Definition keep (c s : sug) : sug := if mgt (sg_merit s) (sg_merit c) then s else c.
Definition ctx (obs : list ob) (aux : st) : Prop := forall v, In v (map e_val obs) -> s_add (stats (upto v obs)) aux = stats (upto v all).

Lemma ctx_left obs aux v : ctx obs aux -> ctx (below v obs) aux.
Proof. intros H x Hx. apply in_below in Hx as [Hx L]. rewrite upto_below by auto. auto. Qed.
Lemma ctx_right obs aux v : ctx obs aux -> ctx (above v obs) (s_add aux (stats (upto v obs))).
Proof.
  intros H x Hx. apply in_above in Hx as [Hx L]. rewrite (s_add_comm aux), s_add_assoc, upto_above by auto. auto.
Qed.
Lemma ctx_top : ctx all s_zero.
Proof. intros v _. apply s_add_0. Qed.

Lemma keep_ge c s : merit_le (sg_merit c) (sg_merit (keep c s)).
Proof.
  unfold keep. destruct (mgt (sg_merit s) (sg_merit c)) eqn:E; [|apply merit_le_refl]. apply mgt_true in E.
  destruct (merit_total (sg_merit s) (sg_merit c)); tauto.
Qed.
Lemma fold_keep_same l : forall c, fold_left keep l c = c \/ ~ merit_le (sg_merit (fold_left keep l c)) (sg_merit c).
Proof.
  induction l as [|s l IH]; intros c; cbn [fold_left]; auto. destruct (IH (keep c s)) as [->|H].
  - unfold keep. destruct (mgt (sg_merit s) (sg_merit c)) eqn:E; auto. right. now apply mgt_true in E.
  - right. intros H'. apply H. eapply merit_le_trans; eauto. apply keep_ge.
Qed.

Lemma find_best_ok b t : forall obs aux cand, rep b obs t -> ctx obs aux ->
  find_best merit pre t cand aux = (fold_left keep (map cand_at (cuts t)) cand, aux).
Proof.
  induction t as [|v s l IHl r IHr]; intros obs aux cand; cbn [rep cuts find_best]; auto. intros (A & B & C & D) X.
  rewrite (IHl _ aux cand C (ctx_left _ _ _ X)). rewrite map_app, fold_left_app. cbn [map fold_left].
  set (c1 := fold_left keep (map cand_at (cuts l)) cand). rewrite B, (X v A), s_sub_minus.
  change (if mgt (merit (stats (upto v all)) (minus pre (stats (upto v all)))) (sg_merit c1)
    then mkSug (Some v) (Some (stats (upto v all), minus pre (stats (upto v all)))) (merit (stats (upto v all)) (minus pre (stats (upto v all))))
    else c1) with (keep c1 (cand_at v)).
  destruct r as [|v' s' l' r'] eqn:Er; [reflexivity|]. rewrite <- Er in *. clear Er.
  rewrite (IHr _ _ (keep c1 (cand_at v)) D (ctx_right _ _ _ X)), s_sub_add. f_equal.
  destruct (fold_keep_same (map cand_at (cuts r)) (keep c1 (cand_at v))) as [E|H].
  - rewrite E. now destruct (mgt _ _).
  - apply mgt_true in H. now rewrite H.
Qed.

(** ** Pruning *)
Definition bad (ratio sdr e : R) (v : R) : Prop :=
  match sg_merit (cand_at v) with Some m => m / sdr < ratio - 2 * e | None => 0 < sdr end.
Lemma is_bad_ok ratio sdr e v : sdr <> 0 -> exists x, is_bad ratio sdr e (sg_merit (cand_at v)) = Ok x /\ (x = true <-> bad ratio sdr e v).
Proof.
  intros H. unfold is_bad, bad, pydiv, n0. cbn [neqb NumR nofZ ndiv nltb nsub nmul]. destruct (sg_merit (cand_at v)) as [m|].
  - destruct (Reqb sdr 0) eqn:E; rcase; [lra|]. cbn [bind]. eexists. split; [reflexivity|]. apply Rltb_true.
  - destruct (Reqb sdr 0) eqn:E; rcase; [lra|]. eexists. split; [reflexivity|]. apply Rltb_true.
Qed.
Lemma remove_bad_ok ratio sdr e b t : sdr <> 0 -> forall obs aux, rep b obs t -> ctx obs aux ->
  exists t' x, remove_bad merit pre ratio sdr e t aux = Ok (t', x, aux) /\ rep false obs t' /\ incl (cuts t') (cuts t)
    /\ (forall v, In v (cuts t) -> ~ In v (cuts t') -> bad ratio sdr e v) /\ (x = true -> t' = Leaf).
Proof.
  intros Hs. induction t as [|v s l IHl r IHr]; intros obs aux; cbn [rep cuts remove_bad].
  - intros _ _. exists Leaf, true. cbn. split; auto. split; [discriminate|]. split; [apply incl_refl|]. split; auto. intros v [].
  - intros (A & B & C & D) X. destruct (IHl _ aux C (ctx_left _ _ _ X)) as (l' & bl & -> & Rl & Il & Ml & Ll). cbn [bind].
    assert (R' : exists r' br, (if bl then match r with
                             | Leaf => Ok (r, true, aux)
                             | Node _ _ _ _ =>
                                 ' (r', b, aux) <- remove_bad merit pre ratio sdr e r (s_add aux s) ;;
                                 Ok (r', b, s_sub aux s)
                             end
                           else Ok (r, false, aux)) = Ok (r', br, aux) /\ rep false (above v obs) r' /\ incl (cuts r') (cuts r)
        /\ (forall x, In x (cuts r) -> ~ In x (cuts r') -> bad ratio sdr e x) /\ (br = true -> bl = true /\ r' = Leaf)).
    { destruct bl.
      - pose proof (ctx_right _ _ v X) as X'. rewrite <- B in X'. destruct (IHr _ _ D X') as (r' & br & Er & Rr & Ir & Mr & Lr).
        destruct r as [|v' s' l1 r1] eqn:Err.
        + exists Leaf, true. split; auto. split; [cbn; discriminate|]. split; [apply incl_refl|]. split; [intros x []|auto].
        + rewrite <- Err in *. rewrite Er. cbn [bind]. rewrite s_sub_add. exists r', br. auto 7.
      - exists r, false. split; auto. split; [destruct b; auto; now apply rep_weaken|]. split; [apply incl_refl|]. split; [tauto|discriminate]. }
    destruct R' as (r' & br & -> & Rr & Ir & Mr & Lr). cbn [bind].
    assert (KEEP : exists t' x, Ok (Node v s l' r', false, aux) = Ok (t', x, aux) /\ rep false obs t' /\ incl (cuts t') (cuts l ++ v :: cuts r)
      /\ (forall v0, In v0 (cuts l ++ v :: cuts r) -> ~ In v0 (cuts t') -> bad ratio sdr e v0) /\ (x = true -> t' = Leaf)).
    { exists (Node v s l' r'), false. split; auto. split; [cbn; auto|]. split; [|split; [|discriminate]].
      - cbn [cuts]. intros x Hx. apply in_app_or in Hx. apply in_or_app. destruct Hx as [Hx|[Hx|Hx]]; [left; auto|right; now left|right; right; auto].
      - cbn [cuts]. intros x Hx N. rewrite in_app_iff in N. cbn [In] in N. apply in_app_or in Hx. destruct Hx as [Hx|[Hx|Hx]]; [apply Ml; tauto|tauto|apply Mr; tauto]. }
    destruct br; [|exact KEEP]. destruct (Lr eq_refl) as [-> ->]. rewrite B, (X v A), s_sub_minus.
    destruct (is_bad_ok ratio sdr e v Hs) as (x & Ex & Bx). unfold cand_at in Ex. cbn [sg_merit] in Ex. rewrite Ex. cbn [bind].
    destruct x; [|rewrite <- B; exact KEEP]. exists Leaf, true. split; auto. split; [cbn; discriminate|]. split; [intros z []|]. split; auto.
    intros z Hz _. rewrite (Ll eq_refl) in Ml. apply in_app_or in Hz. destruct Hz as [Hz|[<-|Hz]]; [apply Ml; auto|now apply Bx|apply Mr; auto].
Qed.

(** ** The first candidate of maximal merit *)
Lemma fold_keep_best l : forall c, 
  (fold_left keep l c = c /\ forall x, In x l -> merit_le (sg_merit x) (sg_merit c))
  \/ exists p s q, l = p ++ s :: q /\ fold_left keep l c = s /\ ~ merit_le (sg_merit s) (sg_merit c)
     /\ (forall x, In x l -> merit_le (sg_merit x) (sg_merit s)) /\ (forall x, In x p -> ~ merit_le (sg_merit s) (sg_merit x)).
Proof.
  intros c. induction l as [|x l IH] using rev_ind; [left; split; [auto|intros ? []]|]. rewrite fold_left_app. cbn [fold_left].
  destruct IH as [(E & M)|(p & s & q & El & E & G & M & F)]; rewrite E; unfold keep; destruct (mgt (sg_merit x) _) eqn:Em.
  - right. apply mgt_true in Em. exists l, x, []. split; auto. split; auto. split; auto. split.
    + intros y Hy. apply in_app_or in Hy. destruct Hy as [Hy|[<-|[]]]; [|apply merit_le_refl]. specialize (M _ Hy).
      destruct (merit_total (sg_merit x) (sg_merit c)); [tauto|]. eapply merit_le_trans; eauto.
    + intros y Hy H. apply Em. eapply merit_le_trans; eauto.
  - left. apply mgt_false in Em. split; auto. intros y Hy. apply in_app_or in Hy. destruct Hy as [Hy|[<-|[]]]; auto.
  - right. apply mgt_true in Em. exists l, x, []. split; auto. split; auto. destruct (merit_total (sg_merit x) (sg_merit s)) as [T|T]; [tauto|].
    split; [|split].
    + intros H. apply G. eapply merit_le_trans; eauto.
    + intros y Hy. apply in_app_or in Hy. destruct Hy as [Hy|[<-|[]]]; [|apply merit_le_refl]. eapply merit_le_trans; eauto.
    + intros y Hy H. apply Em. eapply merit_le_trans; eauto.
  - right. apply mgt_false in Em. exists p, s, (q ++ [x]). split; [rewrite El, <- app_assoc; reflexivity|]. split; auto. split; auto. split; auto.
    intros y Hy. apply in_app_or in Hy. destruct Hy as [Hy|[<-|[]]]; auto.
Qed.

(** What a search over the increasing cut points [l] returns *)
Definition best_of (l : list R) (best : sug) : Prop :=
  ((forall v, In v l -> sg_merit (cand_at v) = None) -> best = mkSug None None None)
  /\ ((exists v, In v l /\ sg_merit (cand_at v) <> None) ->
      exists v, In v l /\ best = cand_at v /\ (forall v', In v' l -> merit_le (sg_merit (cand_at v')) (sg_merit (cand_at v)))
        /\ (forall v', In v' l -> v' < v -> ~ merit_le (sg_merit (cand_at v)) (sg_merit (cand_at v')))).
Lemma sorted_split (p q : list R) v v' : StronglySorted Rlt (p ++ v :: q) -> In v' (p ++ v :: q) -> v' < v -> In v' p.
Proof.
  induction p as [|x p IH]; cbn; intros S H L.
  - inversion S as [|? ? S1 F]; subst. destruct H as [->|H]; [lra|]. rewrite Forall_forall in F. specialize (F _ H). lra.
  - inversion S as [|? ? S1 F]; subst. destruct H as [->|H]; auto.
Qed.
Lemma best_of_ok l : StronglySorted Rlt l -> best_of l (fold_left keep (map cand_at l) (mkSug None None None)).
Proof.
  intros S. destruct (fold_keep_best (map cand_at l) (mkSug None None None)) as [(E & M)|(p & s & q & El & E & G & M & F)]; rewrite E; cbn [sg_merit] in *.
  - split; auto. intros (v & Hv & N). exfalso. specialize (M (cand_at v) (in_map _ _ _ Hv)). destruct (sg_merit (cand_at v)); [contradiction|congruence].
  - assert (Hs : exists v p' q', l = p' ++ v :: q' /\ s = cand_at v /\ p = map cand_at p').
    { clear - El. revert p El. induction l as [|x l IH]; intros [|y p] El; try discriminate; cbn in El; injection El as <- El.
      - exists x, [], l. auto.
      - destruct (IH _ El) as (v & p' & q' & -> & -> & ->). exists v, (x :: p'), q'. auto. }
    destruct Hs as (v & p' & q' & -> & -> & ->). split.
    + intros H. exfalso. apply G. rewrite H; [exact Logic.I|]. apply in_or_app. right. now left.
    + intros _. exists v. split; [apply in_or_app; right; now left|]. split; auto. split.
      * intros v' Hv. apply M. now apply in_map.
      * intros v' Hv L. apply F. apply in_map. eapply sorted_split; eauto.
Qed.
End Search.
End P.
