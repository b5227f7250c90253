From Coq Require Import List ZArith Bool Lia Sorted Permutation.
From Verif Require Import Base.Py Model.Evaluate Model.DataStream Model.TimeManager Model.EvaluateDelayed Spec.DelayedSpec
  Proofs.StreamProofs Proofs.TimeManagerProofs.
Import ListNotations.

(** ** Transposition *)
Lemma transpose_ok {A} (m : list (list A)) c : m <> [] -> (forall r, In r m -> length r = c) ->
  exists t, transpose m = Ok t /\ length t = c /\
  forall k, k < c -> exists col, nth_error t k = Some col /\ length col = length m
    /\ forall j r, nth_error m j = Some r -> nth_error col j = nth_error r k.
Proof.
  intros Hm Hc. destruct m as [|r0 m0] eqn:Em; [contradiction|]. rewrite <- Em in *.
  assert (L0 : length r0 = c) by (apply Hc; rewrite Em; left; auto).
  unfold transpose. rewrite Em. rewrite <- Em.
  replace (forallb (fun r => length r =? length r0) m) with true.
  2: { symmetry. apply forallb_forall. intros r Hr. apply Nat.eqb_eq. rewrite L0. auto. }
  eexists. split; [reflexivity|]. rewrite map_length, seq_length. split; auto.
  intros k Hk. eexists. split.
  { rewrite nth_error_map, (nth_error_nth' _ 0) by (rewrite seq_length; lia). rewrite seq_nth by lia. reflexivity. }
  simpl. clear Em L0 Hm r0 m0. 
  induction m as [|r m IH]; simpl; [split; auto; intros [|j] r H; discriminate|].
  assert (Lr : length r = c) by (apply Hc; left; auto).
  destruct (nth_error r k) as [a|] eqn:E; [|apply nth_error_None in E; lia]. simpl.
  destruct IH as [IH1 IH2]; [intros; apply Hc; right; auto|]. split; [auto|].
  intros [|j] r' H; simpl in *; [congruence|auto].
Qed.

Lemma in_combine_nth {A B} : forall k (a : list A) (b : list B) x y,
  nth_error a k = Some x -> nth_error b k = Some y -> In (x, y) (combine a b).
Proof.
  induction k; intros [|u a] [|v b] x y H1 H2; simpl in *; try discriminate; [left; congruence|right; eauto].
Qed.

Section Proofs.
Context {X Y P W : Type}.
Variable src : source (drow X Y W).
Notation rw n := (src_at src n).
Notation event := (dev X Y P W).
Notation trc := (list event).

(** ** The trace functions *)
Lemma dscored_app i (a b : trc) : dscored i (a ++ b) = dscored i a ++ dscored i b.
Proof. apply flat_map_app. Qed.
Lemma dtrained_app i (a b : trc) : dtrained i (a ++ b) = dtrained i a ++ dtrained i b.
Proof. apply flat_map_app. Qed.
Lemma dpredicted_app i (a b : trc) : dpredicted i (a ++ b) = dpredicted i a ++ dpredicted i b.
Proof. apply flat_map_app. Qed.
Lemma dfitted_app i (a b : trc) : dfitted i (a ++ b) = dfitted i a || dfitted i b.
Proof. apply existsb_app. Qed.
Lemma predicted_app i n p (a b : trc) : predicted i n p a -> predicted i n p (a ++ b).
Proof. intros (xs & ps & x & H1 & H2). exists xs, ps, x. split; auto. apply in_or_app; auto. Qed.

Definition calm (l : trc) : Prop := Forall (fun e => match e with DClock _ => False | _ => True end) l.
Lemma clock_app (a b : trc) : calm b -> clock (a ++ b) = clock a.
Proof.
  unfold clock. rewrite fold_left_app. generalize (fold_left (fun (a : option Z) (e : event) => match e with DClock z => Some z | _ => a end) a None).
  intros o C. induction C as [|e l He _ IH]; simpl; auto. destruct e; simpl in *; try contradiction; auto.
Qed.
Lemma avail_app n (a b : trc) : calm b -> label_available src n a -> label_available src n (a ++ b).
Proof.
  intros C [H|(now & H1 & H2)]; [left; apply in_or_app; auto|right]. exists now. rewrite clock_app; auto.
Qed.
Lemma calm_app a b : calm a -> calm b -> calm (a ++ b).
Proof. intros. apply Forall_app; auto. Qed.
Lemma calm_map {A} (f : A -> event) l : (forall a, match f a with DClock _ => False | _ => True end) -> calm (map f l).
Proof. intros H. apply Forall_forall. intros e He. apply in_map_iff in He. destruct He as (a & <- & _). apply H. Qed.

Lemma dthroughout_snoc ok (t : trc) e : dthroughout ok t -> ok t e -> dthroughout ok (t ++ [e]).
Proof.
  intros H He t1 e' t2 E. destruct (rev_ind (fun l => l = [] \/ exists l' x, l = l' ++ [x]) (or_introl eq_refl)
    (fun x l _ => or_intror (ex_intro _ l (ex_intro _ x eq_refl))) t2) as [->|(t2' & x & ->)].
  - apply app_inj_tail in E. destruct E as [<- <-]. exact He.
  - change (t1 ++ e' :: t2' ++ [x]) with (t1 ++ (e' :: t2') ++ [x]) in E. rewrite app_assoc in E.
    apply app_inj_tail in E. destruct E as [E _]. eapply H; eauto.
Qed.

Variable weighted : bool.
Variable sort : list (trow (nat * X) Y (list P) W) -> list (trow (nat * X) Y (list P) W).
Hypothesis sort_ok : forall l, Permutation (sort l) l /\ by_avail (sort l).
Variable fit_r : trc -> nat -> res unit.
Variable predict_r : trc -> nat -> list X -> res (list P).
Hypothesis sized : forall t i xs ps, predict_r t i xs = Ok ps -> length ps = length xs.
Variable report_r : trc -> res unit.
Variable timeout : nat -> bool.
Variable n_models : nat.
Hypothesis some_model : 0 < n_models.
Variable classif : bool.
Variables batch n_wait max_samples : nat.
Variables p0 pre : nat.
Notation good := (dthroughout (delayed_ok src p0 pre n_models classif)).

(** A sample of the time manager that is as in the stream, with the predictions made for it. *)
Notation sample_t := ((nat * X) * Y * list P)%type.
Definition tag_of (r : sample_t) : nat := fst (sx r).
Definition sample_good (t : trc) (r : sample_t) : Prop :=
  sx r = (tag_of r, d_x (rw (tag_of r))) /\ sy r = d_y (rw (tag_of r)) /\ length (sp r) = n_models
  /\ forall i p, nth_error (sp r) i = Some p -> predicted i (tag_of r) p t.
Lemma sample_good_app t l r : sample_good t r -> sample_good (t ++ l) r.
Proof. intros (H1 & H2 & H3 & H4). repeat split; auto. intros. apply predicted_app; auto. Qed.

(** ** Scoring *)
Lemma dscore_rows_ok j : j < n_models -> forall (tys : list (nat * Y)) ps (t : trc),
  length ps = length tys -> good t -> NoDup (map fst tys) ->
  (forall k n y p, nth_error tys k = Some (n, y) -> nth_error ps k = Some p ->
      y = d_y (rw n) /\ predicted j n p t /\ ~ In n (dscored j t) /\ label_available src n t) ->
  exists t', dscore_rows (length tys) j t tys ps = (t', Ok tt) /\ good t'
    /\ exists l, t' = t ++ l /\ calm l /\ (forall i, dtrained i l = [] /\ dfitted i l = false /\ dpredicted i l = [])
       /\ forall i, dscored i l = if j =? i then map fst tys else [].
Proof.
  intros Hj. induction tys as [|[n y] tys IH]; intros ps t L G ND H; simpl.
  - exists t. repeat split; auto. exists []. rewrite app_nil_r. repeat split; auto; [constructor|]. intros i. now destruct (j =? i).
  - destruct ps as [|p ps]; [discriminate|]. injection L as L. inversion ND; subst.
    destruct (H 0 n y p eq_refl eq_refl) as (Q1 & Q2 & Q3 & Q4).
    assert (C1 : calm [DScore j n y p]) by (constructor; [exact I|constructor]).
    destruct (IH ps (t ++ [DScore j n y p])) as (t' & E & G' & l & El & Cl & T & S); auto.
    + apply dthroughout_snoc; auto. simpl. auto.
    + intros k n' y' p' K1 K2. destruct (H (S k) n' y' p' K1 K2) as (R1 & R2 & R3 & R4). split; auto.
      split; [now apply predicted_app|]. split; [|now apply avail_app].
      rewrite dscored_app. simpl. rewrite Nat.eqb_refl. simpl. intros C. apply in_app_or in C. destruct C as [C|[->|[]]]; auto.
      apply H2. apply nth_error_In in K1. apply in_map with (f := fst) in K1. exact K1.
    + exists t'. split; auto. split; auto. exists (DScore j n y p :: l). rewrite El, <- app_assoc. split; auto.
      split; [now constructor|]. split; [exact T|].
      intros i. specialize (S i). simpl. rewrite S. destruct (j =? i); auto.
Qed.

Lemma dscore_all_ok (tys : list (nat * Y)) (yps : list (list P)) : NoDup (map fst tys) -> length yps = n_models ->
  forall m j (t : trc), j + m = n_models -> good t ->
  (forall i ps, j <= i -> nth_error yps i = Some ps -> length ps = length tys /\
     forall k n y p, nth_error tys k = Some (n, y) -> nth_error ps k = Some p ->
      y = d_y (rw n) /\ predicted i n p t /\ ~ In n (dscored i t) /\ label_available src n t) ->
  exists t', dscore_all (seq j m) yps (length tys) t tys = (t', Ok tt) /\ good t'
    /\ exists l, t' = t ++ l /\ calm l /\ (forall i, dtrained i l = [] /\ dfitted i l = false /\ dpredicted i l = [])
       /\ forall i, i < n_models -> dscored i l = if j <=? i then map fst tys else [].
Proof.
  intros ND Ly. induction m as [|m IH]; intros j t Hj G H; simpl.
  - exists t. repeat split; auto. exists []. rewrite app_nil_r. repeat split; auto; [constructor|].
    intros i Hi. destruct (Nat.leb_spec j i); auto; lia.
  - destruct (nth_error yps j) as [ps|] eqn:Ep; [|apply nth_error_None in Ep; lia].
    destruct (H j ps (le_n _) Ep) as [L H'].
    destruct (dscore_rows_ok j ltac:(lia) tys ps t L G ND H') as (t1 & E1 & G1 & l1 & El1 & C1 & T1 & S1). rewrite E1.
    destruct (IH (S j) t1) as (t' & E & G' & l & El & C & T & S); auto; [lia| |].
    + intros i ps' Hi Ei. destruct (H i ps') as [L' H'']; auto; [lia|]. split; auto.
      intros k n y p K1 K2. destruct (H'' k n y p K1 K2) as (R1 & R2 & R3 & R4). subst t1. split; auto.
      split; [now apply predicted_app|]. split; [|now apply avail_app].
      rewrite dscored_app, S1. destruct (Nat.eqb_spec j i); [lia|]. now rewrite app_nil_r.
    + exists t'. split; auto. split; auto. exists (l1 ++ l). subst. rewrite app_assoc. split; auto. split; [now apply calm_app|].
      split.
      * intros i. destruct (T1 i) as (A1 & A2 & A3), (T i) as (B1 & B2 & B3).
        rewrite dtrained_app, dfitted_app, dpredicted_app, A1, A2, A3, B1, B2, B3. auto.
      * intros i Hi. rewrite dscored_app, S1, S by auto.
        destruct (Nat.eqb_spec j i), (Nat.leb_spec (Datatypes.S j) i), (Nat.leb_spec j i); try lia; subst; rewrite ?app_nil_r; auto.
Qed.

(** ** Training *)
Lemma dfit_all_ok (xs : list (nat * X)) (ys : list Y) ws :
  xs = map (fun n => (n, d_x (rw n))) (map fst xs) -> ys = map (fun n => d_y (rw n)) (map fst xs) ->
  forall m j (t : trc), j + m = n_models -> good t ->
  (forall i, i < n_models -> dfitted i t = true) ->
  (forall i n, j <= i < n_models -> In n (map fst xs) -> In n (dscored i t) /\ ~ In n (dtrained i t) /\ label_available src n t) ->
  let '(t', r) := dfit_all fit_r (seq j m) t xs ys ws false in
  good t' /\ exists l, t' = t ++ l /\ calm l /\ (forall i, dscored i l = [] /\ dpredicted i l = [])
    /\ (forall i n, In n (dtrained i l) -> In n (map fst xs))
    /\ (r = Ok tt -> forall i, i < n_models -> dtrained i l = if j <=? i then map fst xs else []).
Proof.
  intros Hx Hy. induction m as [|m IH]; intros j t Hj G F H; simpl.
  - split; auto. exists []. rewrite app_nil_r. repeat split; auto; [constructor|simpl; tauto|].
    intros _ i Hi. destruct (Nat.leb_spec j i); auto; lia.
  - destruct (fit_r t j) as [u|e].
    2: { split; auto. exists []. rewrite app_nil_r. repeat split; auto; [constructor|simpl; tauto|discriminate]. }
    set (e := DFit j xs ys ws false).
    assert (C1 : calm [e]) by (constructor; [exact I|constructor]).
    specialize (IH (S j) (t ++ [e])). destruct (dfit_all fit_r (seq (S j) m) (t ++ [e]) xs ys ws false) as [t' r].
    destruct IH as (G' & l & El & Cl & S & T & O).
    + lia.
    + apply dthroughout_snoc; auto. unfold e. simpl. split; [lia|]. rewrite F by lia. split; [now rewrite andb_false_r|].
      split; auto. split; auto. right. intros n Hn. apply H; auto. lia.
    + intros i Hi. rewrite dfitted_app, F; auto.
    + intros i n Hi Hn. destruct (H i n ltac:(lia) Hn) as (R1 & R2 & R3). rewrite dscored_app, dtrained_app.
      split; [apply in_or_app; auto|]. split; [|now apply avail_app]. unfold e. simpl. destruct (Nat.eqb_spec j i); [lia|]. now rewrite app_nil_r.
    + split; auto. exists (e :: l). rewrite El, <- app_assoc. split; auto. split; [constructor; [exact I|auto]|].
      split; [intros i; apply (S i)|]. split.
      * intros i n Hn. unfold e in Hn. simpl in Hn. apply in_app_or in Hn. destruct Hn as [Hn|Hn]; [|eauto].
        destruct (j =? i); [auto|contradiction].
      * intros Hr i Hi. change (dtrained i (e :: l)) with ((if j =? i then map fst xs else []) ++ dtrained i l). rewrite (O Hr i Hi).
        destruct (Nat.eqb_spec j i), (Nat.leb_spec (Datatypes.S j) i), (Nat.leb_spec j i); try lia; subst; rewrite ?app_nil_r; auto.
Qed.

(** ** One round of scoring and training *)
Definition fresh (t : trc) (S : list sample_t) : Prop :=
  NoDup (map tag_of S) /\ Forall (sample_good t) S
  /\ forall n i, In n (map tag_of S) -> i < n_models -> ~ In n (dscored i t) /\ ~ In n (dtrained i t).

Lemma report_good (t : trc) c : good t -> good (t ++ [DReport c]).
Proof. intros. apply dthroughout_snoc; auto. exact I. Qed.

Lemma tys_tags (S : list sample_t) : map fst (combine (map fst (map sx S)) (map sy S)) = map tag_of S.
Proof. induction S as [|r S IH]; simpl; auto. unfold tag_of at 1. now rewrite IH. Qed.
Lemma tags_sx (S : list sample_t) : map fst (map sx S) = map tag_of S.
Proof. now rewrite map_map. Qed.

Lemma metrics_ok amax s (S : list sample_t) yps : transpose (map sp S) = Ok yps -> good (dtr s) -> fresh (dtr s) S ->
  (forall n, In n (map tag_of S) -> label_available src n (dtr s)) ->
  let '(s', r) := update_metrics_delayed report_r n_models n_wait max_samples amax s (combine (map fst (map sx S)) (map sy S)) yps in
  good (dtr s') /\ dpos s' = dpos s /\ dtm s' = dtm s /\ dfirst s' = dfirst s /\ dcnt s' = dcnt s
  /\ exists l, dtr s' = dtr s ++ l /\ calm l /\ (forall i, dtrained i l = [] /\ dfitted i l = false /\ dpredicted i l = [])
       /\ (forall i, i < n_models -> dscored i l = map tag_of S).
Proof.
  intros Et0 G (ND & SG & FR) AV.
  destruct S as [|r0 S0] eqn:ES.
  { simpl in Et0. injection Et0 as <-. simpl. repeat split; auto. exists []. rewrite app_nil_r. repeat split; auto; constructor. }
  rewrite <- ES in *. assert (NE : map sp S <> []) by (rewrite ES; discriminate).
  destruct (transpose_ok (map sp S) n_models NE) as (yps' & Et & Ly & Ht).
  { intros r Hr. apply in_map_iff in Hr. destruct Hr as (q & <- & Hq). rewrite Forall_forall in SG. apply (SG q Hq). }
  rewrite Et0 in Et. injection Et as <-. rewrite map_length in Ht.
  set (tys := combine (map fst (map sx S)) (map sy S)) in *.
  assert (Lt : length tys = length S) by (unfold tys; rewrite combine_length, !map_length; lia).
  assert (Tn : forall k n y, nth_error tys k = Some (n, y) -> exists r, nth_error S k = Some r /\ n = tag_of r /\ y = sy r).
  { unfold tys. clear. induction S as [|r S IH]; intros [|k] n y H; simpl in *; try discriminate.
    - injection H as <- <-. eauto.
    - eauto. }
  unfold update_metrics_delayed. destruct yps as [|y0 yps'] eqn:Ey; [simpl in Ly; lia|]. rewrite <- Ey in *.
  assert (L0 : length y0 = length tys).
  { destruct (Ht 0 some_model) as (col & E & L & _). rewrite Ey in E. simpl in E. injection E as <-. lia. }
  rewrite L0.
  destruct (dscore_all_ok tys yps) with (m := n_models) (j := 0) (t := dtr s) as (t1 & E1 & G1 & l1 & El1 & C1 & T1 & S1); auto.
  { unfold tys. now rewrite tys_tags. }
  { intros i ps _ Ei. assert (Hi : i < n_models) by (rewrite <- Ly; apply nth_error_Some; congruence).
    destruct (Ht i Hi) as (col & E & L & Hc). rewrite Ei in E. injection E as <-. split; [lia|].
    intros k n y p K1 K2. destruct (Tn _ _ _ K1) as (r & Kr & -> & ->). rewrite Forall_forall in SG.
    destruct (SG r (nth_error_In _ _ Kr)) as (_ & Q2 & _ & Q4). split; auto.
    assert (Hin : In (tag_of r) (map tag_of S)) by (apply in_map; eapply nth_error_In; eauto).
    split; [|split; [apply FR|apply AV]; auto]. apply Q4. rewrite <- (Hc k (sp r)); auto. rewrite nth_error_map, Kr. reflexivity. }
  unfold tys in S1. rewrite tys_tags in S1. rewrite E1. cbv zeta. subst t1.
  assert (BASE : let s1 := with_tr s (dtr s ++ l1) in
     good (dtr s1) /\ dpos s1 = dpos s /\ dtm s1 = dtm s /\ dfirst s1 = dfirst s /\ dcnt s1 = dcnt s /\
     exists l, dtr s1 = dtr s ++ l /\ calm l /\ (forall i, dtrained i l = [] /\ dfitted i l = false /\ dpredicted i l = [])
       /\ (forall i, i < n_models -> dscored i l = map tag_of S)).
  { cbn. split; [exact G1|]. repeat (split; [reflexivity|]). exists l1. split; auto. }
  destruct (negb (progress_ok amax)); [exact BASE|]. destruct (n_wait =? 0); [exact BASE|].
  destruct (_ || _ || _); [|exact BASE]. destruct (report_r (dtr s ++ l1)); [|exact BASE].
  cbn. split; [now apply report_good|]. repeat (split; [reflexivity|]). exists (l1 ++ [DReport (dcnt s)]). rewrite app_assoc. split; auto.
  split; [apply calm_app; auto; constructor; [exact I|constructor]|]. split.
  - intros i. destruct (T1 i) as (A1 & A2 & A3). rewrite dtrained_app, dfitted_app, dpredicted_app, A1, A2, A3. auto.
  - intros i Hi. rewrite dscored_app, S1 by auto. simpl. apply app_nil_r.
Qed.

Lemma process_ok amax s (S : list sample_t) ws : good (dtr s) -> fresh (dtr s) S ->
  (forall n, In n (map tag_of S) -> label_available src n (dtr s)) ->
  dfirst s = false -> (forall i, i < n_models -> dfitted i (dtr s) = true) ->
  let '(s', r) := process fit_r report_r n_models classif n_wait max_samples amax s S ws in
  good (dtr s') /\ dpos s' = dpos s /\ dtm s' = dtm s /\ dfirst s' = false
  /\ exists l, dtr s' = dtr s ++ l /\ calm l /\ (forall i, dpredicted i l = [])
       /\ (forall i n, i < n_models -> In n (dscored i l) \/ In n (dtrained i l) -> In n (map tag_of S))
       /\ (r = Ok tt -> dcnt s' = dcnt s + length S /\ forall i, i < n_models -> dscored i l = map tag_of S /\ dtrained i l = map tag_of S).
Proof.
  intros G FRS AV DF FT. unfold process. destruct (transpose (map sp S)) as [yps|e] eqn:Et.
  2: { split; auto. repeat (split; [auto|]). exists []. rewrite app_nil_r. repeat split; auto; try constructor; try discriminate. simpl. tauto. }
  pose proof (metrics_ok amax s S yps Et G FRS AV) as M.
  destruct (update_metrics_delayed _ _ _ _ _ _ _ _) as [s1 r1]. destruct M as (G1 & P1 & M1 & F1 & N1 & l1 & E1 & C1 & T1 & S1).
  assert (Sub1 : forall i n, i < n_models -> In n (dscored i l1) \/ In n (dtrained i l1) -> In n (map tag_of S)).
  { intros i n Hi [H|H]; [now rewrite S1 in H by auto|]. destruct (T1 i) as (A & _). rewrite A in H. contradiction. }
  destruct r1 as [u|e].
  2: { split; auto. split; [auto|]. split; [auto|]. split; [congruence|]. exists l1. repeat split; auto; try discriminate. apply T1. }
  unfold update_classifiers. destruct FRS as (ND & SG & FR).
  assert (XS : map sx S = map (fun n => (n, d_x (rw n))) (map fst (map sx S))).
  { rewrite tags_sx. rewrite map_map. apply map_ext_in. intros r Hr. rewrite Forall_forall in SG. apply (SG r Hr). }
  assert (YS : map sy S = map (fun n => d_y (rw n)) (map fst (map sx S))).
  { rewrite tags_sx. rewrite map_map. apply map_ext_in. intros r Hr. rewrite Forall_forall in SG. apply (SG r Hr). }
  destruct (map sx S) as [|x0 xs0] eqn:EX.
  { assert (S = []) by (destruct S; [auto|discriminate]). subst S. split; auto. split; auto. split; auto. split; [congruence|].
    exists l1. repeat split; auto; [apply T1| |]. all: simpl in *; try lia; intros; auto; apply (T1 i). }
  rewrite <- EX in *. rewrite F1, DF. simpl andb.
  pose proof (dfit_all_ok (map sx S) (map sy S) ws XS YS n_models 0 (dtr s1) eq_refl G1) as FA. rewrite tags_sx in FA.
  destruct (dfit_all _ _ _ _ _ _ _) as [t2 r2]. destruct FA as (G2 & l2 & E2 & C2 & T2 & S2 & O2).
  { intros i Hi. rewrite E1, dfitted_app, FT; auto. }
  { intros i n Hi Hn. rewrite E1, dscored_app, dtrained_app, S1 by lia. destruct (T1 i) as (A & _). rewrite A, app_nil_r.
    split; [apply in_or_app; auto|]. split; [apply FR; auto; lia|]. apply avail_app; auto. }
  assert (Sub2 : forall i n, i < n_models -> In n (dscored i (l1 ++ l2)) \/ In n (dtrained i (l1 ++ l2)) -> In n (map tag_of S)).
  { intros i n Hi H. rewrite dscored_app, dtrained_app in H. destruct H as [H|H]; apply in_app_or in H; destruct H as [H|H]; eauto.
    destruct (T2 i) as [A _]. rewrite A in H. contradiction. }
  assert (PR : forall i, dpredicted i (l1 ++ l2) = []).
  { intros i. rewrite dpredicted_app. destruct (T1 i) as (_ & _ & ->), (T2 i) as (_ & ->). reflexivity. }
  destruct r2 as [u2|e2].
  - cbn. split; auto. split; auto. split; auto. split; auto. exists (l1 ++ l2). rewrite E2, E1, app_assoc. split; auto.
    split; [now apply calm_app|]. split; auto. split; auto. intros _. split; [rewrite N1, map_length; auto|].
    intros i Hi. rewrite dscored_app, dtrained_app, S1 by auto. destruct u2. rewrite (O2 eq_refl i Hi).
    destruct (T1 i) as (-> & _), (T2 i) as (-> & _). rewrite app_nil_r. auto.
  - cbn. split; auto. split; auto. split; auto. split; [congruence|]. exists (l1 ++ l2). rewrite E2, E1, app_assoc. split; auto.
    split; [now apply calm_app|]. split; auto. split; auto. discriminate.
Qed.

(** ** Drawing and predicting *)
Definition stop (p : nat) : nat := match src_len src with Some n => Nat.min p n | None => p end.
Lemma dtake_eq k b : dtake src k b = map (fun n => (n, rw n)) (seq k (stop (k + b) - k)).
Proof.
  unfold dtake, stop. replace (match src_len src with Some n => Nat.min (k + b) n | None => k + b end - k)
    with (match src_len src with Some n => Nat.min b (n - k) | None => b end) by (destruct (src_len src); lia).
  generalize (match src_len src with Some n => Nat.min b (n - k) | None => b end). intros c. revert k.
  induction c as [|c IH]; intros k; simpl; auto. now rewrite IH.
Qed.

Lemma seq_stop a p b : a <= p -> seq a (stop p - a) ++ seq p (stop (p + b) - p) = seq a (stop (p + b) - a).
Proof.
  intros H. unfold stop. destruct (src_len src) as [n|].
  - destruct (Nat.le_gt_cases n p).
    + replace (Nat.min (p + b) n - p) with 0 by lia. cbn [seq]. rewrite app_nil_r. f_equal. lia.
    + replace (Nat.min p n) with p by lia.
      replace (Nat.min (p + b) n - a) with ((p - a) + (Nat.min (p + b) n - p)) by lia.
      rewrite seq_app. do 2 f_equal. lia.
  - replace (p + b - a) with ((p - a) + (p + b - p)) by lia. rewrite seq_app. do 2 f_equal. lia.
Qed.

Lemma dpredict_all_ok (xs : list (nat * X)) : xs = map (fun n => (n, d_x (rw n))) (map fst xs) ->
  (forall n, In n (map fst xs) -> p0 + pre <= n) ->
  forall m j (t : trc) acc, j + m = n_models -> length acc = j -> good t ->
  (forall i n, j <= i < n_models -> In n (map fst xs) -> ~ In n (dscored i t) /\ ~ In n (dtrained i t) /\ ~ In n (dpredicted i t)) ->
  (forall i ps, nth_error acc i = Some ps -> length ps = length xs /\ In (DPredict i xs ps) t) ->
  let '(t', r) := dpredict_all predict_r (seq j m) t xs acc in
  good t' /\ (exists l, t' = t ++ l /\ calm l /\ (forall i, dscored i l = [] /\ dtrained i l = [] /\ dfitted i l = false)
     /\ (forall i n, In n (dpredicted i l) -> In n (map fst xs)))
  /\ match r with
     | Ok preds => length preds = n_models /\ forall i ps, nth_error preds i = Some ps -> length ps = length xs /\ In (DPredict i xs ps) t'
     | Raise _ => True
     end.
Proof.
  intros Hx Hp. induction m as [|m IH]; intros j t acc Hj La G H Ha; simpl.
  - split; auto. split; [exists []; rewrite app_nil_r; repeat split; auto; [constructor|simpl; tauto]|]. split; auto. lia.
  - destruct (predict_r t j (map snd xs)) as [ps|e] eqn:Ep.
    2: { split; auto. split; auto. exists []; rewrite app_nil_r; repeat split; auto; [constructor|simpl; tauto]. }
    pose proof (sized _ _ _ _ Ep) as L. rewrite map_length in L.
    set (e := DPredict j xs ps).
    specialize (IH (S j) (t ++ [e]) (acc ++ [ps])). destruct (dpredict_all predict_r (seq (S j) m) _ _ _) as [t' r].
    destruct IH as (G' & (l & El & Cl & T & Pd) & R).
    + lia.
    + rewrite app_length. simpl. lia.
    + apply dthroughout_snoc; auto. unfold e. simpl. split; [lia|]. split; auto. intros n Hn. split; auto. apply H; auto. lia.
    + intros i n Hi Hn. destruct (H i n ltac:(lia) Hn) as (R1 & R2 & R3). rewrite dscored_app, dtrained_app, dpredicted_app.
      unfold e. simpl. rewrite !app_nil_r. split; auto. split; auto. destruct (Nat.eqb_spec j i); [lia|]. simpl. now rewrite app_nil_r.
    + intros i qs Hi. destruct (Nat.lt_ge_cases i (length acc)) as [C|C].
      * rewrite nth_error_app1 in Hi by auto. destruct (Ha _ _ Hi). split; auto. apply in_or_app; auto.
      * rewrite nth_error_app2 in Hi by auto. destruct (i - length acc) as [|d] eqn:D; simpl in Hi; [|destruct d; discriminate].
        injection Hi as <-. assert (i = j) as -> by lia. split; auto. apply in_or_app. right. left. reflexivity.
    + split; auto. split; auto. exists (e :: l). rewrite El, <- app_assoc. split; auto. split; [constructor; [exact I|auto]|].
      split; [intros i; apply (T i)|]. intros i n Hn. unfold e in Hn. simpl in Hn. apply in_app_or in Hn. destruct Hn as [Hn|Hn]; [|eauto].
      destruct (j =? i); [auto|contradiction].
Qed.

(** ** The queue *)
Notation qrow := (trow (nat * X) Y (list P) W).
Definition smp (r : qrow) : sample_t := (tr_x r, tr_y r, tr_pred r).
Definition qtag (r : qrow) : nat := fst (tr_x r).
Lemma tags_smp (Q : list qrow) : map tag_of (map smp Q) = map qtag Q.
Proof. now rewrite map_map. Qed.

Definition avail_ok (r : qrow) : Prop :=
  tr_available r = d_av (rw (qtag r)) /\ forall N, src_len src = Some N -> qtag r < N.
(** What holds of the queue even after an exception. *)
Definition winv (s : dst X Y P W) (Q : list qrow) : Prop :=
  good (dtr s) /\ fresh (dtr s) (map smp Q) /\ Forall avail_ok Q
  /\ dfirst s = false /\ (forall i, i < n_models -> dfitted i (dtr s) = true) /\ p0 + pre <= dpos s
  /\ (forall n, In n (map qtag Q) -> n < dpos s)
  /\ (forall i n, i < n_models -> In n (dscored i (dtr s)) \/ In n (dtrained i (dtr s)) \/ In n (dpredicted i (dtr s)) -> n < dpos s).
(** And without one: every row drawn is scored or queued. *)
Definition sinv (s : dst X Y P W) (Q : list qrow) : Prop :=
  forall i, i < n_models ->
    Permutation (dscored i (dtr s) ++ map qtag Q) (seq (p0 + pre) (stop (dpos s) - (p0 + pre)))
    /\ dtrained i (dtr s) = seq p0 (stop (p0 + pre) - p0) ++ dscored i (dtr s)
    /\ dcnt s = pre + length (dscored i (dtr s)).

Lemma fresh_perm t S S' : Permutation S S' -> fresh t S -> fresh t S'.
Proof.
  intros Pm (N & F & D). split; [|split].
  - eapply Permutation_NoDup; [|exact N]. now apply Permutation_map.
  - eapply Permutation_Forall; eauto.
  - intros n i Hn. apply D. eapply Permutation_in; [|exact Hn]. apply Permutation_map. now symmetry.
Qed.
Lemma fresh_app t S S' : fresh t (S ++ S') -> fresh t S /\ fresh t S' /\ forall n, In n (map tag_of S) -> ~ In n (map tag_of S').
Proof.
  intros (N & F & D). rewrite map_app in N. apply Forall_app in F. destruct F as [F1 F2].
  assert (N1 : NoDup (map tag_of S)) by (clear - N; induction (map tag_of S); [constructor|]; simpl in N; inversion N; subst; constructor; auto; intros C; apply H1; apply in_or_app; auto).
  assert (N2 : NoDup (map tag_of S')) by (clear - N; induction (map tag_of S); auto; simpl in N; inversion N; auto).
  split; [|split].
  - split; auto. split; auto. intros n i Hn. apply D. rewrite map_app. apply in_or_app; auto.
  - split; auto. split; auto. intros n i Hn. apply D. rewrite map_app. apply in_or_app; auto.
  - clear - N. induction (map tag_of S) as [|a l IH]; simpl in *; [tauto|]. inversion N; subst. intros n [->|Hn]; auto.
    intros C. apply H1. apply in_or_app; auto.
Qed.
(** The queue stays fresh when the trace grows by events about other rows. *)
Lemma fresh_grow t l S (N : nat -> Prop) : fresh t S -> (forall n, In n (map tag_of S) -> ~ N n) ->
  (forall i n, i < n_models -> In n (dscored i l) \/ In n (dtrained i l) -> N n) -> fresh (t ++ l) S.
Proof.
  intros (ND & F & D) Dj Hl. split; auto. split.
  - eapply Forall_impl; [|exact F]. intros. now apply sample_good_app.
  - intros n i Hn Hi. destruct (D n i Hn Hi). rewrite dscored_app, dtrained_app.
    split; intros C; apply in_app_or in C; destruct C as [C|C]; auto; apply (Dj n Hn); eapply Hl; eauto.
Qed.

Lemma tm_zip_spec (ds : list (nat * drow X Y W)) : forall (yt : list (list P)) ws,
  length yt = length ds -> length ws = length ds ->
  let z := tm_zip (map (fun r => (fst r, d_x (snd r))) ds) (map (fun r => d_y (snd r)) ds) yt ws
      (map (fun r => d_arr (snd r)) ds) (map (fun r => d_av (snd r)) ds) in
  map qtag z = map fst ds /\
  forall r, In r z -> exists k n d ps, nth_error ds k = Some (n, d) /\ nth_error yt k = Some ps
     /\ tr_x r = (n, d_x d) /\ tr_y r = d_y d /\ tr_pred r = ps /\ tr_available r = d_av d.
Proof.
  induction ds as [|[n d] ds IH]; intros [|ps yt] [|w ws] L1 L2; simpl in *; try discriminate; [split; auto; tauto|].
  injection L1 as L1. injection L2 as L2. destruct (IH yt ws L1 L2) as [I1 I2]. split; [unfold qtag at 1; simpl; now rewrite I1|].
  intros r [<-|Hr].
  - exists 0, n, d, ps. simpl. auto 8.
  - destruct (I2 r Hr) as (k & n' & d' & ps' & H). exists (S k), n', d', ps'. exact H.
Qed.

(** One pass of the main loop. *)
Lemma dbody_ok amax s m : dtm s = Some m -> winv s (tm_queue m) ->
  let '(s', r) := dbody src weighted sort fit_r predict_r report_r n_models classif batch n_wait max_samples amax s in
  dpos s' = dpos s + batch /\
  exists m', dtm s' = Some m' /\ winv s' (tm_queue m')
    /\ tm_use_weight m' = (match r with Ok _ => tm_use_weight m && weighted | Raise _ => tm_use_weight m end)
    /\ (r <> Ok tt -> tm_queue m = [] -> tm_queue m' = [])
    /\ (r = Ok tt -> (sinv s (tm_queue m) -> sinv s' (tm_queue m')) /\ (stop (dpos s + batch) - dpos s <= length (tm_queue m'))).
Proof.
  intros Em (G & FQ & AQ & DF & FT & HP & QL & SL). unfold dbody. cbv zeta. cbn [dtm dpos dcnt dtr dfirst dupd]. rewrite Em.
  rewrite dtake_eq. set (ks := seq (dpos s) (stop (dpos s + batch) - dpos s)).
  set (rows := map (fun n => (n, rw n)) ks).
  assert (KS : forall n, In n ks -> dpos s <= n < dpos s + batch).
  { intros n Hn. apply in_seq in Hn. unfold stop in Hn. destruct (src_len src); lia. }
  destruct (last (map (fun r => Some (d_arr (snd r))) rows) None) as [now|] eqn:EL.
  2: { split; [reflexivity|]. exists m. cbn [dtm]. split; auto. split.
       - split; [exact G|]. split; [exact FQ|]. split; [exact AQ|]. split; [exact DF|]. split; [exact FT|]. cbn [dpos dtr].
         split; [lia|]. split; [intros n Hn; apply QL in Hn; lia|]. intros i n Hi Hn. apply SL in Hn; auto. lia.
       - split; [reflexivity|]. split; [auto|discriminate]. }
  set (m1 := tm_update_timestamp m now). unfold tm_get_available. cbn [tm_now tm_queue tm_use_weight tm_update_timestamp m1].
  set (D := filter (fun r => (tr_available r <=? now)%Z) (tm_queue m)). set (R := filter (fun r => (tr_available r >? now)%Z) (tm_queue m)).
  change (map (fun r : qrow => (tr_x r, tr_y r, tr_pred r)) D) with (map smp D).
  assert (PQ : Permutation (D ++ R) (tm_queue m)) by apply filter_le_gt.
  set (t1 := dtr s ++ [DClock now]).
  set (s1 := mkDst (dpos s + batch) (dcnt s) t1 (dfirst s) (dupd s) (Some (mkTM now R (tm_use_weight m)))).
  assert (G1 : good t1) by (apply dthroughout_snoc; auto; exact I).
  assert (F1 : fresh t1 (map smp D ++ map smp R)).
  { apply (fresh_grow _ _ _ (fun _ => False)); auto; [|intros i n Hi [[]|[]]].
    rewrite <- map_app. eapply fresh_perm; [|exact FQ]. apply Permutation_map. now symmetry. }
  apply fresh_app in F1. destruct F1 as (FD & FR & DJ).
  assert (AV : forall n, In n (map tag_of (map smp D)) -> label_available src n t1).
  { intros n Hn. right. exists now. split.
    - unfold t1, clock. rewrite fold_left_app. reflexivity.
    - rewrite tags_smp in Hn. apply in_map_iff in Hn. destruct Hn as (r & <- & Hr). apply filter_In in Hr. destruct Hr as [Hr Hle].
      rewrite Forall_forall in AQ. rewrite <- (proj1 (AQ r Hr)). now apply Z.leb_le. }
  assert (FT1 : forall i, i < n_models -> dfitted i t1 = true) by (intros i Hi; unfold t1; rewrite dfitted_app, FT; auto).
  pose proof (process_ok amax s1 (map smp D) (weights weighted rows) G1 FD AV DF FT1) as PR.
  destruct (process _ _ _ _ _ _ _ _ _ _) as [s2 r2]. destruct PR as (G2 & P2 & M2 & F2 & l & E2 & C2 & PD2 & SB2 & OK2).
  unfold s1 in P2, M2, E2, OK2. cbn [dpos dtm dtr dcnt] in P2, M2, E2, OK2.
  assert (SQ : forall n, In n (map qtag D) \/ In n (map qtag R) -> In n (map qtag (tm_queue m))).
  { intros n Hn. eapply Permutation_in; [apply Permutation_map; exact PQ|]. rewrite map_app. apply in_or_app. exact Hn. }
  assert (SC1 : forall i, dscored i t1 = dscored i (dtr s)) by (intros; unfold t1; rewrite dscored_app; apply app_nil_r).
  assert (TR1 : forall i, dtrained i t1 = dtrained i (dtr s)) by (intros; unfold t1; rewrite dtrained_app; apply app_nil_r).
  assert (PP1 : forall i, dpredicted i t1 = dpredicted i (dtr s)) by (intros; unfold t1; rewrite dpredicted_app; apply app_nil_r).
  assert (FR2 : fresh (dtr s2) (map smp R)).
  { rewrite E2. apply (fresh_grow _ _ _ (fun n => In n (map tag_of (map smp D)))); auto. intros n Hn C. exact (DJ n C Hn). }
  assert (AR : Forall avail_ok R).
  { apply Forall_forall. intros r Hr. apply filter_In in Hr. rewrite Forall_forall in AQ. now apply AQ. }
  assert (FT2 : forall i, i < n_models -> dfitted i (dtr s2) = true) by (intros i Hi; rewrite E2, dfitted_app, FT1; auto).
  assert (SL2 : forall i n, i < n_models -> In n (dscored i (dtr s2)) \/ In n (dtrained i (dtr s2)) \/ In n (dpredicted i (dtr s2)) -> n < dpos s).
  { intros i n Hi H. rewrite E2, dscored_app, dtrained_app, dpredicted_app, PD2, app_nil_r, SC1, TR1, PP1 in H.
    assert (SB : forall k, In k (dscored i l) \/ In k (dtrained i l) -> k < dpos s).
    { intros k Hk. apply SB2 in Hk; auto. rewrite tags_smp in Hk. auto. }
    destruct H as [H|[H|H]]; [apply in_app_or in H; destruct H as [H|H]|apply in_app_or in H; destruct H as [H|H]|]; eauto. }
  assert (W2 : forall u, winv (mkDst (dpos s2) (dcnt s2) (dtr s2) (dfirst s2) (dupd s2) u) R).
  { intros u. split; [exact G2|]. split; [exact FR2|]. split; [exact AR|]. split; [exact F2|]. split; [exact FT2|]. cbn [dpos dtr]. rewrite P2.
    split; [lia|]. split; [intros n Hn; assert (n < dpos s) by auto; lia|]. intros i n Hi Hn. apply SL2 in Hn; auto. lia. }
  destruct r2 as [u2|e2].
  2: { split; [exact P2|]. exists (mkTM now R (tm_use_weight m)). split; [exact M2|]. split; [|split; [reflexivity|split; [cbn; intros _ Hq; unfold R; now rewrite Hq|discriminate]]].
       specialize (W2 (dtm s2)). destruct s2; exact W2. }
  set (xs := map (fun r : nat * drow X Y W => (fst r, d_x (snd r))) rows).
  assert (XT : map fst xs = ks) by (unfold xs, rows; rewrite !map_map; apply map_id).
  assert (XE : xs = map (fun n => (n, d_x (rw n))) (map fst xs)) by (rewrite XT; unfold xs, rows; now rewrite map_map).
  pose proof (dpredict_all_ok xs XE) as PA. rewrite XT in PA.
  specialize (PA ltac:(intros n Hn; apply KS in Hn; lia) n_models 0 (dtr s2) [] eq_refl eq_refl G2).
  destruct (dpredict_all predict_r (seq 0 n_models) (dtr s2) xs []) as [t3 r3]. destruct PA as (G3 & (l3 & E3 & C3 & T3 & PD3) & R3).
  { intros i n Hi Hn. apply KS in Hn. repeat split; intros C; assert (n < dpos s) by (eapply SL2; [apply Hi|]; auto); lia. }
  { intros i ps Hi. destruct i; discriminate. }
  assert (SC3 : forall i, dscored i t3 = dscored i (dtr s2)).
  { intros i. rewrite E3, dscored_app. destruct (T3 i) as (-> & _). apply app_nil_r. }
  assert (TR3 : forall i, dtrained i t3 = dtrained i (dtr s2)).
  { intros i. rewrite E3, dtrained_app. destruct (T3 i) as (_ & -> & _). apply app_nil_r. }
  assert (FR3 : fresh t3 (map smp R)).
  { rewrite E3. apply (fresh_grow _ _ _ (fun _ => False)); auto. intros i n Hi H. destruct (T3 i) as (A & B & _). rewrite A, B in H. destruct H; contradiction. }
  assert (FT3 : forall i, i < n_models -> dfitted i t3 = true) by (intros i Hi; rewrite E3, dfitted_app, FT2; auto).
  assert (SL3 : forall i n, i < n_models -> In n (dscored i t3) \/ In n (dtrained i t3) \/ In n (dpredicted i t3) -> n < dpos s2).
  { intros i n Hi H. rewrite SC3, TR3, E3, dpredicted_app in H. rewrite P2.
    destruct H as [H|[H|H]]; [| |apply in_app_or in H; destruct H as [H|H]; [|apply PD3 in H; apply KS in H; lia]];
      (assert (n < dpos s) by (eapply SL2; eauto); lia). }
  assert (W3 : winv (with_tr s2 t3) R).
  { split; [exact G3|]. split; [exact FR3|]. split; [exact AR|]. split; [exact F2|]. split; [exact FT3|]. cbn [dpos dtr with_tr].
    split; [rewrite P2; lia|]. split; [intros n Hn; rewrite P2; assert (n < dpos s) by auto; lia|]. exact SL3. }
  destruct r3 as [preds|e3].
  2: { split; [exact P2|]. exists (mkTM now R (tm_use_weight m)). cbn [with_tr dtm]. split; [exact M2|]. split; [exact W3|split; [reflexivity|split; [cbn; intros _ Hq; unfold R; now rewrite Hq|discriminate]]]. }
  destruct R3 as [Lp R3].
  assert (LX : length xs = length ks) by (rewrite <- XT; now rewrite map_length).
  destruct (transpose_ok preds (length xs)) as (yt & Ey & Lyt & Hyt).
  { destruct preds; [simpl in Lp; lia|discriminate]. }
  { intros r Hr. apply In_nth_error in Hr. destruct Hr as [k Hk]. apply (R3 k r Hk). }
  rewrite Ey. split; [exact P2|].
  set (wl := match weights weighted rows with None => repeat None (length xs) | Some l0 => map Some l0 end).
  set (z := tm_zip xs (map (fun r : nat * drow X Y W => d_y (snd r)) rows) yt wl
      (map (fun r : nat * drow X Y W => d_arr (snd r)) rows) (map (fun r : nat * drow X Y W => d_av (snd r)) rows)).
  set (m4 := tm_update_queue sort _ _ _ _ _ _ _).
  assert (E4 : tm_queue m4 = sort (R ++ z) /\ tm_use_weight m4 = tm_use_weight m && weighted).
  { unfold m4, tm_update_queue, z, wl, weights. destruct weighted; simpl; split; auto. - now rewrite andb_true_r. - now rewrite andb_false_r. }
  destruct E4 as [E4 U4].
  assert (LR : length rows = length ks) by (unfold rows; apply map_length).
  destruct (tm_zip_spec rows yt wl) as [Z1 Z2]; [lia| |].
  { unfold wl, weights. destruct weighted; [now rewrite !map_length|rewrite repeat_length; lia]. }
  fold xs in Z1, Z2. fold z in Z1, Z2.
  assert (RK : map fst rows = ks) by (unfold rows; rewrite map_map; apply map_id).
  rewrite RK in Z1.
  assert (P4 : Permutation (tm_queue m4) (R ++ z)) by (rewrite E4; apply sort_ok).
  exists m4. cbn [dtm]. split; [reflexivity|].
  assert (FZ : fresh t3 (map smp (R ++ z))).
  { rewrite map_app. destruct FR3 as (N3 & S3 & D3).
    split; [|split].
    - rewrite map_app, !tags_smp, Z1. rewrite tags_smp in N3. 
      assert (DJ' : forall n, In n (map qtag R) -> ~ In n ks).
      { intros n Hn C. apply KS in C. assert (n < dpos s) by auto. lia. }
      clear - N3 DJ'. pose proof (seq_NoDup (stop (dpos s + batch) - dpos s) (dpos s)) as NK. fold ks in NK.
      induction (map qtag R) as [|a q IH]; simpl in *; auto. inversion N3; subst. constructor; auto.
      intros C. apply in_app_or in C. destruct C as [C|C]; auto. apply (DJ' a); auto.
    - apply Forall_app. split; auto. apply Forall_forall. intros q Hq. apply in_map_iff in Hq. destruct Hq as (r & <- & Hr).
      destruct (Z2 r Hr) as (k & n & d & ps & K1 & K2 & K3 & K4 & K5 & K6).
      assert (Hk : nth_error ks k = Some n) by (rewrite <- RK, nth_error_map, K1; reflexivity).
      assert (Hd : d = rw n).
      { unfold rows in K1. rewrite nth_error_map, Hk in K1. simpl in K1. congruence. }
      assert (Hkl : k < length xs) by (rewrite LX; apply nth_error_Some; congruence).
      destruct (Hyt k Hkl) as (col & J1 & J2 & J3). rewrite J1 in K2. injection K2 as <-.
      assert (T : tag_of (smp r) = n) by (unfold tag_of, smp, sx; simpl; now rewrite K3).
      split; [rewrite T; unfold smp, sx; simpl; now rewrite K3, Hd|]. split; [rewrite T; unfold smp, sy; simpl; now rewrite K4, Hd|].
      unfold smp, sp; simpl. rewrite K5. split; [lia|]. intros i p Hi.
      assert (exists pi, nth_error preds i = Some pi) as [pi Hpi].
      { destruct (nth_error preds i) eqn:E; [eauto|]. apply nth_error_None in E. assert (i < length col) by (apply nth_error_Some; congruence). lia. }
      rewrite (J3 i pi Hpi) in Hi. destruct (R3 i pi Hpi) as [L5 In5]. change (predicted i (tag_of (smp r)) p t3). rewrite T. exists xs, pi, (d_x (rw n)). split; auto.
      assert (HX : nth_error xs k = Some (n, d_x (rw n))) by (rewrite XE, XT, nth_error_map, Hk; reflexivity).
      eapply in_combine_nth; eauto.
    - intros n i Hn Hi. rewrite map_app, !tags_smp, Z1 in Hn. apply in_app_or in Hn. destruct Hn as [Hn|Hn].
      + rewrite <- tags_smp in Hn. auto.
      + rewrite SC3, TR3. apply KS in Hn. split; intros C; assert (n < dpos s) by (eapply SL2; eauto); lia. }
  split.
  { split; [exact G3|]. cbn [dtr with_tr]. split; [eapply fresh_perm; [|exact FZ]; apply Permutation_map; now symmetry|].
    split. { eapply Permutation_Forall; [symmetry; exact P4|]. apply Forall_app. split; auto. apply Forall_forall. intros r Hr.
      destruct (Z2 r Hr) as (k & n & d & ps & K1 & K2 & K3 & K4 & K5 & K6). unfold avail_ok. rewrite K6. unfold qtag. rewrite K3. simpl.
      assert (Hk : nth_error ks k = Some n) by (rewrite <- RK, nth_error_map, K1; reflexivity).
      split; [f_equal; unfold rows in K1; rewrite nth_error_map, Hk in K1; simpl in K1; congruence|].
      intros N HN. apply nth_error_In in Hk. apply in_seq in Hk. unfold stop in Hk. rewrite HN in Hk. lia. }
    split; [exact F2|]. split; [exact FT3|]. cbn [dpos with_tr]. split; [rewrite P2; lia|]. split; [|exact SL3].
    intros n Hn. assert (Hn' : In n (map qtag (R ++ z))) by (eapply Permutation_in; [apply Permutation_map; exact P4|exact Hn]).
    rewrite map_app, Z1 in Hn'. apply in_app_or in Hn'. rewrite P2. destruct Hn' as [Hn'|Hn'].
    - assert (n < dpos s) by auto. lia.
    - apply KS in Hn'. lia. }
  split; [exact U4|]. split; [congruence|]. intros _. split.
  2: { rewrite (Permutation_length P4), app_length. assert (length z = length ks) by (rewrite <- Z1; now rewrite map_length).
       rewrite H. unfold ks. rewrite seq_length. lia. }
  destruct u2. destruct (OK2 eq_refl) as [N2 OK2'].
  intros SI i Hi. destruct (SI i Hi) as (I1 & I2 & I3). destruct (OK2' i Hi) as [O1 O2]. cbn [dtr dpos dcnt with_tr].
  rewrite SC3, TR3, E2, dscored_app, dtrained_app, SC1, TR1, O1, O2, tags_smp. split; [|split].
  - transitivity ((dscored i (dtr s) ++ map qtag D) ++ map qtag R ++ ks).
    { apply Permutation_app_head. rewrite <- Z1, <- map_app. now apply Permutation_map. }
    rewrite app_assoc. rewrite <- (app_assoc (dscored i (dtr s))). rewrite <- map_app.
    rewrite P2. transitivity (seq (p0 + pre) (stop (dpos s) - (p0 + pre)) ++ ks).
    { apply Permutation_app_tail. etransitivity; [|exact I1]. apply Permutation_app_head. now apply Permutation_map. }
    unfold ks. rewrite seq_stop by lia. apply Permutation_refl.
  - rewrite I2. now rewrite app_assoc.
  - rewrite N2, I3, !app_length, !map_length. lia.
Qed.

Lemma dloop_ok amax : forall fuel it s m, dtm s = Some m -> winv s (tm_queue m) -> 
  let '(s', e) := dloop src weighted sort fit_r predict_r report_r timeout n_models classif batch n_wait max_samples fuel it amax s in
  exists m', dtm s' = Some m' /\ winv s' (tm_queue m')
    /\ (weighted = true -> tm_use_weight m = true -> tm_use_weight m' = true)
    /\ (weighted = false -> (tm_use_weight m = true -> tm_queue m = []) -> tm_use_weight m' = true -> tm_queue m' = [])
    /\ (e <> ByException -> (sinv s (tm_queue m) -> sinv s' (tm_queue m')) /\ (s' = s \/ (0 < batch -> tm_queue m' <> [])))
    /\ (e = OutOfFuel -> dpos s' = dpos s + fuel * batch /\ dhas_more src (dpos s') = true).
Proof.
  induction fuel as [|f IH]; intros it s m Em I; simpl.
  - destruct (_ && _ && _) eqn:C; exists m; (split; [auto|]); (split; [auto|]); (split; [auto|]).
    + split; [auto|]. split; [auto|]. intros _. split; [lia|]. apply andb_true_iff in C. apply C.
    + split; [auto|]. split; [auto|]. discriminate.
  - destruct (_ && _ && _) eqn:C.
    2: { exists m. (split; [auto|]); (split; [auto|]); (split; [auto|]). split; [auto|]. split; [auto|]. discriminate. }
    assert (HM : dhas_more src (dpos s) = true) by (apply andb_true_iff in C; apply C).
    pose proof (dbody_ok amax s m Em I) as B. destruct (dbody _ _ _ _ _ _ _ _ _ _ _ _ s) as [s1 r].
    destruct B as (P1 & m1 & E1 & I1 & U1 & V1 & B). destruct r as [u|e].
    + destruct u. destruct (B eq_refl) as [B1 B2]. pose proof (IH (S it) s1 m1 E1 I1) as H.
      destruct (dloop _ _ _ _ _ _ _ _ _ _ _ _ f _ _ s1) as [s2 e]. destruct H as (m2 & E2 & I2 & W2 & V2 & K2 & F2).
      assert (NE : 0 < batch -> tm_queue m1 <> []).
      { intros Hb Hq. rewrite Hq in B2. simpl in B2. unfold stop, dhas_more in *. destruct (src_len src); [apply Nat.ltb_lt in HM|]; lia. }
      exists m2. split; [auto|]. split; [auto|]. split. { intros Hw Hu. apply W2; auto. now rewrite U1, Hu, Hw. }
      split. { intros Hw Hu. apply V2; auto. rewrite U1, Hw, andb_false_r. discriminate. }
      split.
      * intros He. destruct (K2 He) as [K3 K4]. split; [auto|]. right. intros Hb. destruct K4 as [K4|K4]; [|auto].
        subst s2. rewrite E1 in E2. injection E2 as <-. auto.
      * intros He. destruct (F2 He) as [F3 F4]. split; auto. rewrite F3, P1. simpl. lia.
    + exists m1. split; [auto|]. split; [auto|]. split; [intros; now rewrite U1|].
      split; [intros Hw Hu; rewrite U1; intros Hm; apply V1; auto; discriminate|]. split; [congruence|discriminate].
Qed.

(** ** Draining the queue *)
Lemma winv_rest s Q D R l : winv s Q -> Q = D ++ R -> forall s', good (dtr s') -> dtr s' = dtr s ++ l -> dpos s' = dpos s -> dfirst s' = false ->
  (forall i, dpredicted i l = []) ->
  (forall i n, i < n_models -> In n (dscored i l) \/ In n (dtrained i l) -> In n (map qtag D)) -> winv s' R.
Proof.
  intros (G & FQ & AQ & DF & FT & HP & QL & SL) -> s' G' E P1 F1 PD SB.
  rewrite map_app in FQ. apply fresh_app in FQ. destruct FQ as (FD & FR & DJ). rewrite !tags_smp in DJ.
  split; [exact G'|]. split. { rewrite E. apply (fresh_grow _ _ _ (fun n => In n (map qtag D))); auto. rewrite tags_smp. intros n Hn C. exact (DJ n C Hn). }
  apply Forall_app in AQ. split; [apply AQ|]. split; [auto|]. split. { intros i Hi. rewrite E, dfitted_app, FT; auto. }
  rewrite P1. split; [lia|]. rewrite map_app in QL. split; [intros n Hn; apply QL, in_or_app; auto|].
  intros i n Hi H. rewrite E, dscored_app, dtrained_app, dpredicted_app, PD, app_nil_r in H.
  assert (SB' : forall k, In k (dscored i l) \/ In k (dtrained i l) -> k < dpos s).
  { intros k Hk. apply SB in Hk; auto. apply QL, in_or_app; auto. }
  destruct H as [H|[H|H]]; [apply in_app_or in H; destruct H as [H|H]|apply in_app_or in H; destruct H as [H|H]|]; eauto.
Qed.

Lemma ddrain_ok amax : forall fuel s m, dtm s = Some m -> winv s (tm_queue m) -> In DDrain (dtr s) ->
  let '(s', o) := ddrain fit_r report_r n_models classif batch n_wait max_samples fuel amax s in
  good (dtr s') /\ dpos s' = dpos s
  /\ (o = DReturned -> sinv s (tm_queue m) -> sinv s' [])
  /\ (tm_use_weight m = true -> tm_queue m <> [] -> 0 < fuel -> o = DRaised KeyError)
  /\ (o = DOutOfFuel -> 0 < batch -> fuel < length (tm_queue m)).
Proof.
  induction fuel as [|f IH]; intros s m Em I HD; simpl; rewrite Em.
  - destruct (tm_has_more m) eqn:HM.
    + split; [apply I|]. split; auto. split; [discriminate|]. split; [lia|]. intros _ _.
      unfold tm_has_more in HM. rewrite Z.gtb_ltb in HM. apply Z.ltb_lt in HM. lia.
    + split; [apply I|]. split; auto. split; [|split; [lia|discriminate]]. intros _ SI. unfold tm_has_more in HM.
      destruct (tm_queue m); auto. simpl in HM. discriminate.
  - destruct (tm_has_more m) eqn:HM.
    2: { assert (EQ : tm_queue m = []) by (unfold tm_has_more in HM; destruct (tm_queue m); auto; simpl in HM; discriminate).
         rewrite EQ. split; [apply I|]. split; auto. split; [auto|]. split; [congruence|discriminate]. }
    destruct (tm_use_weight m) eqn:UW.
    { unfold tm_next. rewrite UW. split; [apply I|]. split; auto. split; [discriminate|]. split; [auto|discriminate]. }
    rewrite tm_next_ok by auto. set (D := firstn batch (tm_queue m)). set (R := skipn batch (tm_queue m)).
    assert (EQ : tm_queue m = D ++ R) by (symmetry; apply firstn_skipn).
    set (s1 := mkDst (dpos s) (dcnt s) (dtr s) (dfirst s) (dupd s) (Some (mkTM (tm_now m) R false))).
    change (map sample D) with (map smp D).
    destruct I as (G & FQ & AQ & DF & FT & HP & QL & SL).
    assert (I' : winv s (tm_queue m)) by (split; [exact G|]; repeat (split; [assumption|]); assumption).
    assert (FQ' := FQ). rewrite EQ, map_app in FQ'. apply fresh_app in FQ'. destruct FQ' as (FD & FR & DJ).
    pose proof (process_ok amax s1 (map smp D) None G FD (fun n _ => or_introl HD) DF FT) as PR.
    destruct (process _ _ _ _ _ _ _ _ _ _) as [s2 r]. destruct PR as (G2 & P2 & M2 & F2 & l & E2 & C2 & PD2 & SB2 & OK2).
    rewrite tags_smp in SB2. cbn [s1 dpos dtm dtr dcnt] in P2, M2, E2, OK2.
    destruct r as [u|e]; [|split; [auto|]; split; [auto|]; split; [discriminate|]; split; [discriminate|discriminate]].
    destruct u. destruct (OK2 eq_refl) as [N2 OK2'].
    assert (I2 : winv s2 R) by (eapply winv_rest; eauto).
    specialize (IH s2 _ M2 I2). destruct (ddrain _ _ _ _ _ _ _ f amax s2) as [s3 o]. cbn [tm_queue tm_use_weight] in IH.
    destruct IH as (G3 & P3 & S3 & _ & O3); [rewrite E2; apply in_or_app; auto|].
    split; auto. split; [congruence|]. split; [|split; [congruence|]].
    + intros Ho SI. apply S3; auto. intros i Hi. destruct (SI i Hi) as (I1 & I3 & I4). destruct (OK2' i Hi) as [O1 O2].
      rewrite E2, dscored_app, dtrained_app, O1, O2, tags_smp, P2, N2. split; [|split].
      * rewrite <- app_assoc, <- map_app, <- EQ. exact I1.
      * rewrite I3. now rewrite app_assoc.
      * rewrite I4, app_length, !map_length. lia.
    + intros Ho Hb. specialize (O3 Ho Hb). unfold tm_has_more in HM. rewrite Z.gtb_ltb in HM. apply Z.ltb_lt in HM.
      unfold R in O3. rewrite skipn_length in O3. lia.
Qed.

(** ** Pretraining *)
Lemma pretrain_dok (xs : list (nat * X)) (ys : list Y) ws :
  xs = map (fun n => (n, d_x (rw n))) (map fst xs) -> ys = map (fun n => d_y (rw n)) (map fst xs) ->
  map fst xs = seq p0 (length xs) -> length xs <= pre -> 0 < pre ->
  forall m j (t : trc), j + m = n_models -> good t ->
  (forall i, i < n_models -> dfitted i t = (i <? j) /\ dtrained i t = if i <? j then map fst xs else []) ->
  (forall i, dpredicted i t = [] /\ dscored i t = []) ->
  let '(t', r) := dfit_all fit_r (seq j m) t xs ys ws classif in
  good t' /\ (forall i, dpredicted i t' = [] /\ dscored i t' = [])
  /\ (r = Ok tt -> forall i, i < n_models -> dfitted i t' = true /\ dtrained i t' = map fst xs).
Proof.
  intros Hx Hy Hs Hl Hp. induction m as [|m IH]; intros j t Hj G F PD; simpl.
  - split; auto. split; auto. intros _ i Hi. destruct (F i Hi) as [A B]. destruct (Nat.ltb_spec i j); [auto|lia].
  - destruct (fit_r t j) as [u|e]; [|split; auto; split; auto; discriminate].
    specialize (IH (S j) (t ++ [DFit j xs ys ws classif])). destruct (dfit_all fit_r (seq (S j) m) _ xs ys ws classif) as [t' r].
    apply IH; [lia| | |].
    + apply dthroughout_snoc; auto. simpl. split; [lia|]. destruct (F j ltac:(lia)) as [A B]. rewrite A.
      destruct (Nat.ltb_spec j j); [lia|]. split; [now rewrite andb_true_r|]. split; auto. split; auto. left. split; [exact Hs|]. split; [exact Hl|]. split; [exact Hp|]. intros i. apply PD.
    + intros i Hi. destruct (F i Hi) as [A B]. rewrite dfitted_app, dtrained_app, A, B. simpl. rewrite orb_false_r, app_nil_r.
      destruct (Nat.eqb_spec j i), (Nat.ltb_spec i j), (Nat.ltb_spec i (S j)); try lia; subst; rewrite ?app_nil_r; auto.
    + intros i. destruct (PD i) as [A B]. rewrite dpredicted_app, dscored_app, A, B. auto.
Qed.

(** ** The whole run *)
Lemma good_nil : good (@nil event).
Proof. intros [|a t1] e t2 E; discriminate. Qed.

Lemma last_map_some {A} (f : A -> Z) (l : list A) : last (map (fun r => Some (f r)) l) None = None -> l = [].
Proof.
  destruct l as [|a l]; auto. intros H. exfalso. revert a H. induction l as [|b l IH]; intros a H; [discriminate|]. apply (IH b). exact H.
Qed.

Lemma start_dok : 0 < pre ->
  let rows := dtake src p0 pre in
  let '(t, r) := dfit_all fit_r (seq 0 n_models) [] (map (fun r => (fst r, d_x (snd r))) rows)
                   (map (fun r => d_y (snd r)) rows) (weights weighted rows) classif in
  good t /\ (r = Ok tt -> forall now, 
    let s := mkDst (p0 + pre) pre t false 0 (Some (tm_new now)) in winv s [] /\ sinv s []).
Proof.
  intros Hp. cbv zeta. rewrite dtake_eq. set (ks := seq p0 (stop (p0 + pre) - p0)).
  assert (Lk : length ks <= pre) by (unfold ks; rewrite seq_length; unfold stop; destruct (src_len src); lia).
  set (xs := map (fun r : nat * drow X Y W => (fst r, d_x (snd r))) _).
  assert (XT : map fst xs = ks) by (unfold xs; rewrite !map_map; apply map_id).
  assert (Lx : length xs = length ks) by (rewrite <- XT; now rewrite map_length).
  pose proof (pretrain_dok xs (map (fun r : nat * drow X Y W => d_y (snd r)) (map (fun n => (n, rw n)) ks))
    (weights weighted (map (fun n => (n, rw n)) ks))) as PT. rewrite XT in PT.
  specialize (PT ltac:(unfold xs; now rewrite map_map) ltac:(now rewrite map_map)
    ltac:(rewrite Lx; unfold ks; now rewrite seq_length) ltac:(lia) Hp n_models 0 [] eq_refl good_nil).
  destruct (dfit_all _ _ _ _ _ _ _) as [t r]. destruct PT as (G & PD & R); [intros; simpl; auto|intros; auto|].
  split; auto. intros Hr now. specialize (R Hr). split.
  - split; [exact G|]. split; [split; [constructor|split; [constructor|intros n i []]]|]. split; [constructor|]. split; [reflexivity|].
    split; [intros i Hi; apply R; auto|]. cbn [dpos dtr]. split; [lia|]. split; [intros n []|].
    intros i n Hi H. destruct (PD i) as [A B]. rewrite A, B in H. destruct (R i Hi) as [_ C]. rewrite C in H.
    destruct H as [[]|[H|[]]]. apply in_seq in H. unfold stop in H. destruct (src_len src); lia.
  - intros i Hi. cbn [dtr dpos dcnt]. destruct (PD i) as [A B]. destruct (R i Hi) as [_ C]. rewrite B, C.
    split; [|split; [now rewrite app_nil_r|simpl; lia]]. replace (stop (p0 + pre) - (p0 + pre)) with 0; [constructor|].
    unfold stop. destruct (src_len src); lia.
Qed.

Lemma delayed_main fuel : 0 < pre ->
  let r := delayed src weighted sort fit_r predict_r report_r timeout n_models classif batch n_wait max_samples fuel p0 pre in
  good (dtr (dr_st r))
  /\ (dr_end r <> ByException -> dr_out r = DReturned -> sinv (dr_st r) [])
  /\ (weighted = true -> 0 < batch -> 0 < fuel -> dr_end r <> ByException -> p0 + pre < dpos (dr_st r) -> dr_out r = DRaised KeyError)
  /\ (forall n, src_len src = Some n -> 0 < batch -> n <= fuel -> dr_end r <> OutOfFuel /\ dr_out r <> DOutOfFuel).
Proof.
  intros Hp. unfold delayed. cbv zeta. pose proof (start_dok Hp) as ST. cbv zeta in ST.
  destruct (Nat.ltb_spec 0 pre) as [_|]; [|lia].
  destruct (dfit_all _ _ _ _ _ _ _) as [t [u|e]].
  2: { cbn. destruct ST as [G _]. split; auto. split; [congruence|]. split; [congruence|]. split; discriminate. }
  destruct u. destruct ST as [G ST]. specialize (ST eq_refl).
  destruct (last _ _) as [now|]; cbn.
  2: { split; auto. split; [congruence|]. split; [congruence|]. split; discriminate. }
  destruct (ST now) as [W0 S0].
  pose proof (dloop_ok (dactual_max src max_samples p0) fuel 0 (mkDst (p0 + pre) pre t false 0 (Some (tm_new now))) (tm_new now) eq_refl W0) as L.
  destruct (dloop _ _ _ _ _ _ _ _ _ _ _ _ _ _ _ _) as [s2 e]. destruct L as (m & Em & I & UW & _ & K & F).
  set (s2' := with_tr s2 (dtr s2 ++ [DDrain])).
  assert (I' : winv s2' (tm_queue m)).
  { eapply (winv_rest s2 (tm_queue m) [] (tm_queue m) [DDrain]); auto.
    - apply dthroughout_snoc; [apply I|exact Logic.I].
    - apply I.
    - simpl. tauto. }
  pose proof (ddrain_ok (dactual_max src max_samples p0) fuel s2' m Em I' ltac:(apply in_or_app; right; left; reflexivity)) as DR.
  destruct (ddrain _ _ _ _ _ _ _ _ _ _) as [s3 o]. destruct DR as (G3 & P3 & S3 & U3 & O3). cbn [dr_st dr_end dr_out].
  split; auto. split; [|split].
  - intros He Ho. apply S3; [destruct o; try discriminate; auto|].
    destruct (K He) as [K1 _]. intros i Hi. destruct (K1 S0 i Hi) as (A & B & C). cbn [s2' with_tr dtr dpos dcnt].
    rewrite dscored_app, dtrained_app. cbn. rewrite !app_nil_r. auto.
  - intros Hw Hb Hf He Hpos. destruct (K He) as [_ [K2|K2]].
    { exfalso. cbn in P3. rewrite P3, K2 in Hpos. cbn in Hpos. lia. }
    rewrite (U3 (UW Hw eq_refl) (K2 Hb) Hf). reflexivity.
  - intros n Hn Hb Hf. split.
    + intros He. destruct (F He) as [F1 F2]. unfold dhas_more in F2. rewrite Hn in F2. apply Nat.ltb_lt in F2. rewrite F1 in F2. cbn in F2.
      assert (fuel * 1 <= fuel * batch) by (apply Nat.mul_le_mono_l; auto). lia.
    + intros Ho. assert (o = DOutOfFuel) by (destruct o; auto; destruct ((n_models =? 0) || existsb is_dreport (dtr s3)); discriminate).
      specialize (O3 H Hb). destruct I as (_ & (FQ & _) & AQ & _). rewrite tags_smp in FQ.
      assert (HI : incl (map qtag (tm_queue m)) (seq 0 n)).
      { intros k Hk. apply in_map_iff in Hk. destruct Hk as (r & <- & Hr). apply in_seq. rewrite Forall_forall in AQ.
        destruct (AQ r Hr) as [_ B]. specialize (B n Hn). lia. }
      pose proof (NoDup_incl_length FQ HI) as HL. rewrite map_length, seq_length in HL. lia.
Qed.
End Proofs.
