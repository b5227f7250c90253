(** Proofs about the self adjusting memory: the nearest neighbours and the votes. *)
From Coq Require Import List ZArith Bool Arith Lia Reals Lra Sorting.Sorted.
From Verif Require Import Base.Py Base.Num Spec.Lists Model.Adwin Model.DataStream Model.Knn
  Proofs.ListFacts Proofs.StreamProofs Proofs.WindowedProofs Proofs.ExpertRunProofs Proofs.NaiveBayesProofs Model.SamKnn Spec.SamKnnSpec.
Import ListNotations.

Lemma mapM_ok_of {A B} (f : A -> res B) l : (forall a, In a l -> exists b, f a = Ok b) -> exists r, mapM f l = Ok r.
Proof.
  induction l as [|a l IH]; intros H; cbn; [eauto|]. destruct (H a (or_introl eq_refl)) as (b & ->). cbn.
  destruct IH as (r & ->); [intros; apply H; right; auto|]. cbn. eauto.
Qed.
Lemma mapM_ok_len {A B} (f : A -> res B) l r : mapM f l = Ok r -> length r = length l.
Proof.
  revert r. induction l as [|a l IH]; intros r E; cbn in E; [injection E as <-; auto|].
  apply bind_Ok in E as (b & E1 & E). apply bind_Ok in E as (bs & E2 & E). injection E as <-. cbn. f_equal; auto.
Qed.
Lemma mapM_app {A B} (f : A -> res B) a b : mapM f (a ++ b) = (x <- mapM f a ;; y <- mapM f b ;; Ok (x ++ y)).
Proof.
  induction a as [|c a IH]; cbn; [destruct (mapM f b); reflexivity|]. destruct (f c); cbn; auto. rewrite IH. destruct (mapM f a); cbn; auto. destruct (mapM f b); reflexivity.
Qed.
Lemma mapM_ext_in {A B} (f g : A -> res B) l : (forall a, In a l -> f a = g a) -> mapM f l = mapM g l.
Proof.
  induction l as [|a l IH]; intros H; cbn; auto. rewrite (H a (or_introl eq_refl)). destruct (g a); cbn; auto. rewrite IH; auto. intros; apply H; right; auto.
Qed.
Lemma pick_ok {A} (l : list A) idx d : (forall i, In i idx -> i < length l) -> pick l idx = Ok (map (fun i => nth i l d) idx).
Proof.
  intros H. unfold pick. induction idx as [|i idx IH]; cbn; auto. destruct (nth_error l i) eqn:E.
  - cbn. rewrite IH; [|intros; apply H; right; auto]. cbn. rewrite (nth_error_nth _ _ d E). reflexivity.
  - apply nth_error_None in E. specialize (H i (or_introl eq_refl)). lia.
Qed.
Lemma existsb_eqb_In j used : existsb (Nat.eqb j) used = true <-> In j used.
Proof. rewrite existsb_exists. split; [intros (x & H & E); apply Nat.eqb_eq in E; subst; auto|intros H; exists j; split; auto; apply Nat.eqb_refl]. Qed.

Section AnyT.
Context {T : Type} {N : Num T}.
Lemma arg_min_some used (vs : list T) : forall j best, (best <> None \/ exists p, j <= p < j + length vs /\ ~ In p used) ->
  exists m i, arg_min used j vs best = Some (m, i) /\ (best = Some (m, i) \/ (j <= i < j + length vs /\ ~ In i used)).
Proof.
  induction vs as [|v vs IH]; intros j best H; cbn.
  - destruct best as [(m & i)|]; [eauto|]. destruct H as [H|(p & H & _)]; [congruence|cbn in H; lia].
  - destruct (existsb (Nat.eqb j) used) eqn:U.
    + rewrite andb_false_r. destruct (IH (S j) best) as (m & i & E & H2).
      { destruct H as [H|(p & H1 & H2)]; auto. right. exists p. split; auto. cbn in H1. apply existsb_eqb_In in U. destruct (Nat.eq_dec p j); [subst; tauto|lia]. }
      exists m, i. split; auto. destruct H2 as [H2|H2]; auto. right. split; [lia|tauto].
    + assert (Uj : ~ In j used) by (intros I; apply existsb_eqb_In in I; congruence).
      rewrite andb_true_r. destruct (IH (S j) (if match best with None => true | Some (m, _) => (v <? m)%num end then Some (v, j) else best)) as (m & i & E & H2).
      { left. destruct best as [(m & i)|]; [destruct (v <? m)%num; congruence|congruence]. }
      exists m, i. split; auto. destruct H2 as [H2|H2]; [|right; split; [lia|tauto]].
      destruct (match best with None => true | Some (m, _) => (v <? m)%num end); [|auto]. injection H2 as <- <-. right. split; [lia|auto].
Qed.
(** n distinct indices in range *)
Lemma n_arg_min_total (vs : list T) : forall n used, NoDup used -> (forall i, In i used -> i < length vs) -> n + length used <= length vs ->
  exists idx, n_arg_min n used vs = Ok idx /\ length idx = n /\ NoDup idx /\ (forall i, In i idx -> i < length vs /\ ~ In i used).
Proof.
  induction n as [|n IH]; intros used U1 U2 L; cbn; [exists []; split; [auto|]; split; [auto|]; split; [constructor|intros i []]|].
  destruct (arg_min_some used vs 0 None) as (m & i & E & H).
  { right. assert (NE : ~ incl (seq 0 (length vs)) used) by (intros I; apply NoDup_incl_length in I; [rewrite seq_length in I; lia|apply seq_NoDup]).
    destruct (existsb (fun p => negb (existsb (Nat.eqb p) used)) (seq 0 (length vs))) eqn:X.
    - apply existsb_exists in X as (p & Hp & X). apply in_seq in Hp. exists p. split; [lia|]. intros I. apply existsb_eqb_In in I. rewrite I in X. discriminate.
    - exfalso. apply NE. intros p Hp. destruct (existsb (Nat.eqb p) used) eqn:Y; [apply existsb_eqb_In; auto|].
      assert (existsb (fun p => negb (existsb (Nat.eqb p) used)) (seq 0 (length vs)) = true) by (apply existsb_exists; exists p; rewrite Y; auto). congruence. }
  rewrite E. destruct H as [H|H]; [discriminate|]. cbn in H.
  destruct (IH (used ++ [i])) as (idx & E2 & L2 & D2 & R2).
  { eapply NoDup_Add with (a := i) (l := used); [|split; [auto|tauto]]. rewrite <- (app_nil_r used) at 1. apply Add_app. }
  { intros p I. apply in_app_iff in I as [I|[<-|[]]]; [auto|lia]. }
  { rewrite app_length; cbn; lia. }
  rewrite E2. cbn. exists (i :: idx). split; auto. split; [cbn; lia|]. split.
  - constructor; auto. intros I. apply R2 in I as [_ I]. apply I, in_app_iff. right; left; auto.
  - intros p [<-|I]; [split; [lia|tauto]|]. apply R2 in I as [I1 I2]. split; auto. intros I. apply I2, in_app_iff; auto.
Qed.
Lemma nearest_total n (vs : list T) : n <= length vs -> exists idx, n_arg_min n [] vs = Ok idx /\ length idx = n /\ NoDup idx /\ (forall i, In i idx -> i < length vs).
Proof.
  intros L. destruct (n_arg_min_total vs n []) as (idx & E & H1 & H2 & H3); [constructor|intros i []|cbn; lia|]. exists idx. split; auto. split; auto. split; auto. intros i I. apply (H3 i I).
Qed.
Lemma get_label_total b (ds : list T) labels k : length labels = length ds -> k <= length ds -> exists l, get_label b ds labels k = Ok l.
Proof.
  intros L K. unfold get_label. destruct (nearest_total k ds K) as (idx & -> & _ & _ & R). cbn.
  rewrite (pick_ok (map int8 labels) idx 0%Z); [|intros i I; rewrite map_length, L; auto]. cbn.
  destruct b; [|eauto]. rewrite (pick_ok ds idx n0); auto. cbn. eauto.
Qed.
Lemma distances_len (x : list T) l : length (distances x l) = length l.
Proof. apply map_length. Qed.
Lemma by_stm_total cfg (s : sam T) x : exists l, by_stm cfg s x = Ok l.
Proof.
  unfold by_stm. destruct (s_stm s) eqn:E; [eauto|]. rewrite <- E. apply get_label_total; [rewrite map_length, distances_len; auto|]. rewrite distances_len. lia.
Qed.
Lemma all_memories_total cfg (s : sam T) x : exists v, all_memories cfg s x = Ok v.
Proof.
  unfold all_memories. destruct (Nat.eqb_spec (length (s_stm s)) 0); [eauto|]. destruct (Nat.ltb_spec (length (s_stm s)) (m_k cfg)).
  - destruct (get_label_total (m_dist cfg) (distances x (s_stm s)) (map snd (s_stm s)) (length (s_stm s))) as (l & ->); [rewrite map_length, distances_len; auto|rewrite distances_len; auto|]. cbn; eauto.
  - destruct (get_label_total (m_dist cfg) (distances x (s_stm s)) (map snd (s_stm s)) (m_k cfg)) as (l & ->); [rewrite map_length, distances_len; auto|rewrite distances_len; auto|]. cbn.
    destruct (get_label_total (m_dist cfg) (distances x (s_stm s) ++ distances x (s_ltm s)) (map snd (s_stm s) ++ map snd (s_ltm s)) (m_k cfg)) as (l2 & ->);
      [rewrite !app_length, !map_length, !distances_len; auto|rewrite app_length, !distances_len; lia|]. cbn.
    destruct (Nat.leb_spec (m_k cfg) (length (s_ltm s))); [|eauto].
    destruct (get_label_total (m_dist cfg) (distances x (s_ltm s)) (map snd (s_ltm s)) (m_k cfg)) as (l3 & ->); [rewrite map_length, distances_len; auto|rewrite distances_len; auto|]. cbn; eauto.
Qed.
Lemma predict_total cfg (s : sam T) xs : exists ys, sam_predict cfg s xs = Ok ys.
Proof.
  apply mapM_ok_of. intros x _. destruct (m_use cfg); [|apply by_stm_total]. destruct (all_memories_total cfg s x) as (v & ->). cbn; eauto.
Qed.
End AnyT.

(** *** Over the reals *)
Local Open Scope R_scope.
Lemma before_trans ds i j l : before ds i j -> before ds j l -> before ds i l.
Proof. unfold before. intros [H|[H1 H2]] [G|[G1 G2]]; try (left; lra). right. split; [lra|lia]. Qed.
Lemma arg_min_R used (vs : list R) : forall pre best m i,
  (forall m0 i0, best = Some (m0, i0) -> (i0 < length pre)%nat /\ nth i0 pre 0 = m0 /\ ~ In i0 used /\ forall p, (p < length pre)%nat -> ~ In p used -> p <> i0 -> before (pre ++ vs) i0 p) ->
  (best = None -> forall p, (p < length pre)%nat -> In p used) ->
  arg_min used (length pre) vs best = Some (m, i) ->
  (i < length (pre ++ vs))%nat /\ ~ In i used /\ forall p, (p < length (pre ++ vs))%nat -> ~ In p used -> p <> i -> before (pre ++ vs) i p.
Proof.
  induction vs as [|v vs IH]; intros pre best m i Hb Hn E; cbn in E.
  - subst best. destruct (Hb _ _ eq_refl) as (H1 & _ & H3 & H4). rewrite app_nil_r in *. auto.
  - replace (S (length pre)) with (length (pre ++ [v])) in E by (rewrite app_length; cbn; lia).
    replace (pre ++ v :: vs) with ((pre ++ [v]) ++ vs) in * by (rewrite <- app_assoc; reflexivity).
    assert (NV : nth (length pre) ((pre ++ [v]) ++ vs) 0 = v) by (rewrite <- app_assoc, app_nth2, Nat.sub_diag; cbn; auto).
    assert (NP : forall p, (p < length pre)%nat -> nth p ((pre ++ [v]) ++ vs) 0 = nth p pre 0) by (intros p Hp; rewrite <- app_assoc, app_nth1; auto).
    destruct (existsb (Nat.eqb (length pre)) used) eqn:U.
    + apply existsb_eqb_In in U. rewrite andb_false_r in E. apply IH in E; auto.
      * intros m0 i0 ->. destruct (Hb _ _ eq_refl) as (H1 & H2 & H3 & H4). rewrite app_length; cbn [length]. split; [lia|]. split; [rewrite app_nth1; auto|]. split; auto.
        intros p Hp Up Ne. apply H4; auto. destruct (Nat.eq_dec p (length pre)); [subst; tauto|lia].
      * intros -> p Hp. rewrite app_length in Hp; cbn in Hp. destruct (Nat.eq_dec p (length pre)); [subst; auto|]. apply Hn; auto. lia.
    + assert (Uj : ~ In (length pre) used) by (intros I; apply existsb_eqb_In in I; congruence). rewrite andb_true_r in E.
      apply IH in E; auto.
      * intros m0 i0 Em. rewrite app_length; cbn [length]. destruct best as [(m1 & i1)|].
        -- destruct (Hb _ _ eq_refl) as (H1 & H2 & H3 & H4). change (@nltb R NumR) with Rltb in Em. destruct (Rltb v m1) eqn:Lt.
           ++ injection Em as <- <-. apply Rltb_true in Lt. split; [lia|]. split; [rewrite app_nth2, Nat.sub_diag; auto|]. split; auto. intros p Hp Up Ne.
              destruct (Nat.eq_dec p i1) as [->|N1]; [left; rewrite NV, NP; [lra|lia]|]. assert (Hp' : (p < length pre)%nat) by lia. specialize (H4 p Hp' Up N1).
              left. rewrite NV. destruct H4 as [H4|[H4 _]]; rewrite (NP i1 H1) in H4; lra.
           ++ injection Em as <- <-. apply Rltb_false in Lt. split; [lia|]. split; [rewrite app_nth1; auto|]. split; auto. intros p Hp Up Ne.
              destruct (Nat.eq_dec p (length pre)) as [->|N1]; [|apply H4; auto; lia]. unfold before. rewrite NV, NP by lia. rewrite H2. destruct (Req_dec m1 v); [right; split; [auto|lia]|left; lra].
        -- injection Em as <- <-. split; [lia|]. split; [rewrite app_nth2, Nat.sub_diag; auto|]. split; auto. intros p Hp Up Ne. exfalso. apply Up, Hn; auto. lia.
      * intros Em. destruct best as [(m1 & i1)|]; [destruct (Rltb v m1); discriminate Em|discriminate Em].
Qed.
Lemma n_arg_min_R ds : forall n used idx, n_arg_min n used ds = Ok idx ->
  length idx = n /\ NoDup idx /\ (forall i, In i idx -> (i < length ds)%nat /\ ~ In i used)
  /\ (forall i j, In i idx -> (j < length ds)%nat -> ~ In j used -> ~ In j idx -> before ds i j)
  /\ (forall a b i j, (a < b)%nat -> nth_error idx a = Some i -> nth_error idx b = Some j -> before ds i j).
Proof.
  induction n as [|n IH]; intros used idx E; cbn in E.
  - injection E as <-. split; [auto|]. split; [constructor|]. split; [intros i []|]. split; [intros i j []|]. intros a b i j _ H. destruct a; discriminate H.
  - destruct (arg_min used 0 ds None) as [(m & j0)|] eqn:A; [|discriminate]. apply bind_Ok in E as (r & E & X). injection X as <-.
    apply (arg_min_R used ds []) in A; [|intros ? ? K; discriminate K|intros _ p Hp; cbn in Hp; lia]. cbn [app] in A. destruct A as (A1 & A2 & A3).
    destruct (IH _ _ E) as (L & D & I & B & O). split; [cbn; lia|]. split; [constructor; auto; intros J; apply I in J as [_ J]; apply J, in_app_iff; right; left; auto|].
    split; [intros i [<-|J]; [auto|]; apply I in J as [J1 J2]; split; auto; intros K; apply J2, in_app_iff; auto|]. split.
    + intros i j [<-|Hi] Hj Uj Ij; [apply A3; auto; intros ->; apply Ij; left; auto|]. apply B; auto; [|intros K; apply Ij; right; auto].
      intros K. apply in_app_iff in K as [K|[<-|[]]]; [auto|]. apply Ij; left; auto.
    + intros a b i j Hab Ha Hb. destruct b as [|b]; [lia|]. cbn in Hb. destruct a as [|a]; [|eapply O; [|exact Ha|exact Hb]; lia].
      cbn in Ha. injection Ha as <-. apply nth_error_In in Hb. apply I in Hb as [Hb1 Hb2]. apply A3; auto; [intros K; apply Hb2, in_app_iff; auto|]. intros ->. apply Hb2, in_app_iff. right; left; auto.
Qed.
Lemma n_arg_min_least n ds idx : n_arg_min n [] ds = Ok idx -> n_least n ds idx.
Proof.
  intros E. destruct (n_arg_min_R ds n [] idx E) as (H1 & H2 & H3 & H4 & H5). split; [auto|]. split; [auto|]. split; [intros i I; apply (H3 i I)|]. split; [|exact H5]. intros i j Hi Hj Nj. apply H4; auto.
Qed.

(** The choice among sorted labels *)
Section Choice.
Context {V : Type} (ltb : V -> V -> bool) (val : V -> R) (ltb_val : forall a b, ltb a b = Rltb (val a) (val b)).
Lemma best_label (f : Z -> V) us : forall l0 v0, StronglySorted Z.lt us ->
  let r := fold_left (fun acc l => let c := f l in if ltb (snd acc) c then (l, c) else acc) us (l0, v0) in
  (r = (l0, v0) /\ forall l, In l us -> val (f l) <= val v0)
  \/ (In (fst r) us /\ snd r = f (fst r) /\ val v0 < val (f (fst r)) /\ forall l, In l us -> val (f l) <= val (f (fst r)) /\ (val (f l) = val (f (fst r)) -> (fst r <= l)%Z)).
Proof.
  induction us as [|u us IH]; intros l0 v0 S; cbn [fold_left]; [left; split; [auto|intros l []]|].
  apply StronglySorted_inv in S as [S1 S2]. rewrite Forall_forall in S2. cbn [snd]. cbv zeta. rewrite ltb_val. destruct (Rltb (val v0) (val (f u))) eqn:L.
  - apply Rltb_true in L. destruct (IH u (f u) S1) as [[E H]|(H1 & H2 & H3 & H4)]; cbv zeta in *.
    + right. rewrite E. cbn [fst snd]. split; [left; auto|]. split; auto. split; auto. intros l [<-|I]; [split; [lra|lia]|]. split; [apply H; auto|]. intros _. specialize (S2 l I). lia.
    + right. split; [right; auto|]. split; auto. split; [lra|]. intros l [<-|I]; [|apply H4; auto]. split; [lra|]. intros K. lra.
  - apply Rltb_false in L. destruct (IH l0 v0 S1) as [[E H]|(H1 & H2 & H3 & H4)]; cbv zeta in *.
    + left. split; auto. intros l [<-|I]; auto.
    + right. split; [right; auto|]. split; auto. split; auto. intros l [<-|I]; [|apply H4; auto]. split; [lra|]. intros K. lra.
Qed.
Lemma best_wins (f : Z -> V) (labels : list Z) l0 v0 : labels <> [] -> (forall l, In l labels -> val v0 < val (f l)) ->
  wins (fun l => val (f l)) labels (fst (fold_left (fun acc l => let c := f l in if ltb (snd acc) c then (l, c) else acc) (np_unique labels) (l0, v0))).
Proof.
  intros NE P. destruct (np_unique_spec labels) as [S U]. destruct (best_label f (np_unique labels) l0 v0 S) as [[E H]|(H1 & H2 & H3 & H4)]; cbv zeta in *.
  - exfalso. destruct labels as [|a r]; [congruence|]. assert (I : In a (a :: r)) by (left; auto). specialize (P a I). apply U in I. specialize (H a I). lra.
  - split; [apply U; auto|]. intros l' I. apply H4, U; auto.
Qed.
End Choice.
Lemma wins_ext f g labels l : (forall l', In l' labels -> f l' = g l') -> wins f labels l -> wins g labels l.
Proof. intros E [H1 H2]. split; auto. intros l' I. rewrite <- (E l' I), <- (E l H1). apply H2; auto. Qed.
Lemma most_common_wins (nb : list (R * Z)) : nb <> [] -> wins (fun l => votes_for l nb) (map snd nb) (most_common (map snd nb)).
Proof.
  intros NE. unfold most_common. eapply wins_ext; [|apply (best_wins Nat.ltb INR)].
  - intros l _. cbv beta. unfold count_of, votes_for. f_equal. clear. induction nb as [|p nb IH]; cbn; auto. rewrite Z.eqb_sym. destruct (Z.eqb (snd p) l); cbn; auto.
  - intros a b. destruct (Nat.ltb_spec a b) as [H|H]; symmetry; [apply Rltb_true, lt_INR; auto|apply Rltb_false, le_INR; auto].
  - destruct nb; [congruence|discriminate].
  - intros l I. apply lt_INR. unfold count_of. assert (J : In l (filter (Z.eqb l) (map snd nb))) by (apply filter_In; split; auto; apply Z.eqb_refl). destruct (filter _ _); [destruct J|cbn; lia].
Qed.
Lemma fold_nadd_Rsum (l : list R) a : fold_left nadd l a = a + Rsum l.
Proof. revert a. induction l as [|x l IH]; intros a; cbn; [lra|]. rewrite IH. change (nadd a x) with (a + x). lra. Qed.
Lemma inv_dist_R d : inv_dist d = 1 / Rmax d (1 / 1000000000).
Proof.
  unfold inv_dist, tiny. change (@nltb R NumR) with Rltb. change (@ndiv R NumR) with Rdiv. change (@n1 R NumR) with 1. change (@nofZ R NumR) with IZR.
  destruct (Rltb d (1 / 1000000000)) eqn:L; [apply Rltb_true in L; rewrite Rmax_right; lra|apply Rltb_false in L; rewrite Rmax_left; lra].
Qed.
Lemma weight_of_R l (nb : list (R * Z)) : weight_of l (map snd nb) (map nsqrt (map fst nb)) = weight_for l nb.
Proof.
  unfold weight_of, weight_for. rewrite fold_nadd_Rsum. change (@n0 R NumR) with 0. rewrite Rplus_0_l. f_equal. induction nb as [|p nb IH]; [reflexivity|]. cbn [map combine filter fst snd].
  rewrite Z.eqb_sym. destruct (Z.eqb (snd p) l); cbn [map combine filter fst snd]; [|exact IH]. rewrite inv_dist_R. f_equal. exact IH.
Qed.
Lemma weight_for_pos l (nb : list (R * Z)) : In l (map snd nb) -> 0 < weight_for l nb.
Proof.
  assert (NN : forall d : R, 0 < 1 / Rmax d (1 / 1000000000)) by (intros d; apply Rdiv_lt_0_compat; [lra|]; pose proof (Rmax_r d (1 / 1000000000)); lra).
  assert (G : forall m : list (R * Z), 0 <= Rsum (map (fun p => 1 / Rmax (sqrt (fst p)) (1 / 1000000000)) m)).
  { intros m. apply Rsum_nonneg. intros x I. apply in_map_iff in I as (p & <- & _). apply Rlt_le, NN. }
  unfold weight_for. induction nb as [|p nb IH]; intros I; [destruct I|]. cbn. destruct (Z.eqb_spec (snd p) l) as [E|E].
  - cbn. specialize (NN (sqrt (fst p))). specialize (G (filter (fun p => Z.eqb (snd p) l) nb)). lra.
  - apply IH. destruct I as [I|I]; [congruence|auto].
Qed.
Lemma linear_weighted_wins (nb : list (R * Z)) : nb <> [] -> wins (fun l => weight_for l nb) (map snd nb) (linear_weighted (map snd nb) (map nsqrt (map fst nb))).
Proof.
  intros NE. unfold linear_weighted. eapply wins_ext; [|apply (best_wins Rltb (fun x => x))].
  - intros l _. cbv beta. apply weight_of_R.
  - auto.
  - destruct nb; [congruence|discriminate].
  - intros l I. rewrite weight_of_R. apply weight_for_pos; auto.
Qed.
Lemma get_distance_R a b : get_distance a b = sq_dist a b.
Proof.
  unfold get_distance, sq_dist. transitivity (0 + Rsum (map (fun p => (fst p - snd p) * (fst p - snd p)) (combine a b))); [|lra].
  change (@n0 R NumR) with 0. generalize 0 as s. induction (combine a b) as [|p l IH]; intros s; cbn [fold_left map Rsum]; [lra|]. rewrite IH. cbv zeta. change (@nadd R NumR) with Rplus. change (@nmul R NumR) with Rmult. change (@nsub R NumR) with Rminus. lra.
Qed.
(** The label is the one the nearest samples elect *)
Lemma get_label_elects b n (memory : list (list R * Z)) x l : (1 <= n)%nat ->
  get_label b (distances x memory) (map snd memory) n = Ok l -> elects b n memory x l.
Proof.
  intros P E. unfold get_label in E. apply bind_Ok in E as (idx & E1 & E). apply n_arg_min_least in E1.
  unfold distances in E1. rewrite (map_ext (fun s => get_distance x (fst s)) (fun s => sq_dist x (fst s))) in E1 by (intros; apply get_distance_R).
  exists idx. split; [exact E1|]. destruct E1 as (L & _ & I & _). rewrite map_length in I. cbv zeta.
  set (nb := map (fun i => (sq_dist x (fst (nth i memory ([], 0%Z))), int8 (snd (nth i memory ([], 0%Z))))) idx).
  assert (NE : nb <> []) by (unfold nb; destruct idx; [cbn in L; lia|discriminate]).
  rewrite (pick_ok _ idx (int8 0%Z)) in E by (intros i J; rewrite !map_length; auto). cbn [bind] in E.
  assert (S1 : map (fun i => nth i (map int8 (map snd memory)) (int8 0)) idx = map snd nb).
  { symmetry. unfold nb. rewrite map_map. apply map_ext. intros i. symmetry. cbn [snd]. rewrite map_map. change (int8 0) with ((fun s : list R * Z => int8 (snd s)) ([], 0%Z)). rewrite map_nth. reflexivity. }
  rewrite S1 in E. destruct b.
  - rewrite (pick_ok _ idx (sq_dist x [])) in E by (intros i J; rewrite distances_len; auto). cbn [bind] in E. injection E as <-.
    replace (map (fun i => nth i (distances x memory) (sq_dist x [])) idx) with (map fst nb); [apply linear_weighted_wins; auto|].
    unfold nb. rewrite map_map. apply map_ext. intros i. cbn [fst]. unfold distances. rewrite (map_ext (fun s => get_distance x (fst s)) (fun s => sq_dist x (fst s))) by (intros; apply get_distance_R).
    change (sq_dist x []) with ((fun s : list R * Z => sq_dist x (fst s)) ([], 0%Z)). rewrite map_nth. reflexivity.
  - injection E as <-. apply most_common_wins; auto.
Qed.
