From Coq Require Import List ZArith Bool Lia.
From Verif Require Import Model.Evaluate Spec.EvalSpec Proofs.EvalProofs.
Import ListNotations.

Section Proofs.
Context {X Y P : Type}.
Notation row := (X * Y)%type.
Variable src : source row.
Variable fit_ok : list (ev X Y P) -> nat -> list row -> bool -> bool.
Variable predict : list (ev X Y P) -> nat -> list X -> option (list P).
Variable report_ok : list (ev X Y P) -> bool.
Variable timeout : nat -> bool.
Notation rb := (rows_between src).

(** ** What the loops over the models append to the trace *)
Lemma fit_all_trace k (rows : list row) cls : forall is_ t,
  let '(t', ok) := fit_all fit_ok is_ t k rows cls in
  exists m, t' = t ++ map (fun i => Fit i k rows cls) (firstn m is_) /\ (ok = true -> firstn m is_ = is_).
Proof.
  induction is_ as [|i r IH]; intros t; simpl.
  - exists 0. rewrite app_nil_r. auto.
  - destruct (fit_ok t i rows cls).
    + specialize (IH (t ++ [Fit i k rows cls])). destruct (fit_all _ r _ k rows cls) as [t' ok].
      destruct IH as (m & -> & H). exists (S m). simpl. rewrite <- app_assoc. split; auto. intros E. now rewrite H.
    + exists 0. rewrite app_nil_r. split; auto. discriminate.
Qed.

Lemma predict_all_trace k (rows : list row) : forall is_ t acc,
  let '(t', r) := predict_all predict is_ t k rows acc in
  exists pss, t' = t ++ map (fun ip => Predict (fst ip) k rows (snd ip)) (combine is_ pss)
   /\ match r with
      | Some preds => preds = acc ++ pss /\ length pss = length is_
          /\ ((forall t i xs ps, predict t i xs = Some ps -> length ps = length xs) -> Forall (fun ps => length ps = length rows) pss)
      | None => True
      end.
Proof.
  induction is_ as [|i r IH]; intros t acc; simpl.
  - exists []. rewrite !app_nil_r. auto.
  - destruct (predict t i (map fst rows)) as [ps|] eqn:E.
    + specialize (IH (t ++ [Predict i k rows ps]) (acc ++ [ps])). destruct (predict_all _ r _ k rows _) as [t' o].
      destruct IH as (pss & -> & H). exists (ps :: pss). simpl. rewrite <- app_assoc. split; auto.
      destruct o; auto. destruct H as (-> & L & H). rewrite <- app_assoc. simpl. repeat split; auto.
      intros Hs. constructor; auto. apply Hs in E. now rewrite map_length in E.
    + exists []. rewrite app_nil_r. auto.
Qed.

Lemma score_rows_trace j : forall cnt (ys : list Y) (ps : list P) t,
  let '(t', ok) := score_rows (X := X) cnt j t ys ps in
  exists m, t' = t ++ map (fun yp => Score j (fst yp) (snd yp)) (firstn m (combine ys ps))
    /\ (cnt = length ys -> length ps = length ys -> ok = true /\ firstn m (combine ys ps) = combine ys ps).
Proof.
  induction cnt as [|c IH]; intros ys ps t; simpl.
  - exists 0. rewrite app_nil_r. split; auto. intros H1 H2. destruct ys; [|discriminate]. auto.
  - destruct ys as [|y ys]; [exists 0; rewrite app_nil_r; split; auto; discriminate|].
    destruct ps as [|p ps]; [exists 0; rewrite app_nil_r; split; auto; discriminate|].
    specialize (IH ys ps (t ++ [Score j y p])). destruct (score_rows c j _ ys ps) as [t' ok].
    destruct IH as (m & -> & H). exists (S m). simpl. rewrite <- app_assoc. split; auto.
    intros H1 H2. injection H1 as H1. injection H2 as H2. destruct (H H1 H2) as [-> ->]. auto.
Qed.

Definition score_events (j : nat) (ys : list Y) (preds : list (list P)) : list (ev X Y P) :=
  concat (map (fun jp => map (fun yp => Score (fst jp) (fst yp) (snd yp)) (combine ys (snd jp))) (combine (seq j (length preds)) preds)).

Lemma score_all_trace (ys : list Y) : forall preds len0 j t,
  let '(t', ok) := score_all (X := X) j preds len0 t ys in
  exists l, t' = t ++ l /\ Forall (fun e => exists i y p, e = Score i y p) l
    /\ ((preds = [] \/ len0 = length ys) -> Forall (fun ps : list P => length ps = length ys) preds -> ok = true /\ l = score_events j ys preds).
Proof.
  induction preds as [|ps r IH]; intros len0 j t; simpl.
  - exists []. rewrite app_nil_r. repeat split; auto.
  - pose proof (score_rows_trace j len0 ys ps t) as R. destruct (score_rows len0 j t ys ps) as [t1 ok1].
    destruct R as (m & -> & R).
    assert (FS : forall l, Forall (fun e : ev X Y P => exists i y p, e = Score i y p) (map (fun yp : Y * P => Score j (fst yp) (snd yp)) l)).
    { intros l. apply Forall_forall. intros e He. apply in_map_iff in He. destruct He as (yp & <- & _). eauto. }
    destruct ok1.
    + specialize (IH len0 (S j) (t ++ map (fun yp => Score j (fst yp) (snd yp)) (firstn m (combine ys ps)))).
      destruct (score_all (S j) r len0 _ ys) as [t2 ok2]. destruct IH as (l & -> & F & H).
      eexists. split; [rewrite <- app_assoc; reflexivity|]. split; [apply Forall_app; auto|].
      intros [H1|H1] H2; [discriminate|]. inversion H2; subst. destruct (R eq_refl H4) as [_ ->]. destruct (H (or_intror eq_refl) H5) as [-> ->]. auto.
    + eexists. split; [reflexivity|]. split; auto. intros [H1|H1] H2; [discriminate|]. inversion H2; subst. destruct (R eq_refl H3) as [E _]. discriminate.
Qed.

Lemma scores_score_events i ys : forall preds j, scores i (score_events j ys preds) =
  if (j <=? i) then (match nth_error preds (i - j) with Some ps => combine ys ps | None => [] end) else [].
Proof.
  assert (M : forall j l, scores i (map (fun yp : Y * P => Score (X := X) j (fst yp) (snd yp)) l) = if j =? i then l else []).
  { intros j l. induction l as [|[y p] l IH]; simpl; [destruct (j =? i); auto|]. unfold scores in *. simpl. rewrite IH.
    destruct (j =? i); auto. }
  unfold score_events. induction preds as [|ps r IH]; intros j; simpl.
  - destruct (j <=? i); auto. now destruct (i - j).
  - rewrite scores_app, M, IH. destruct (Nat.eqb_spec j i), (Nat.leb_spec (S j) i), (Nat.leb_spec j i); try lia; auto.
    + subst. rewrite Nat.sub_diag. simpl. now rewrite app_nil_r.
    + simpl. replace (i - j) with (S (i - S j)) by lia. reflexivity.
Qed.
Lemma only_scores_other (l : list (ev X Y P)) : Forall (fun e => exists i y p, e = Score i y p) l ->
  forall i, trained i l = [] /\ tested i l = [] /\ predictions i l = [].
Proof.
  intros F i. induction F as [|e l (j & y & p & ->) _ IH]; simpl; auto.
Qed.
Lemma pred_events i k (rows : list row) : forall is_ (pss : list (list P)), NoDup is_ -> length pss = length is_ ->
  let l := map (fun ip => Predict (fst ip) k rows (snd ip)) (combine is_ pss) in
  trained i l = [] /\ scores i l = [] /\
  (forall j, nth_error is_ j = Some i -> predictions i l = match nth_error pss j with Some ps => combine (map snd rows) ps | None => [] end).
Proof.
  induction is_ as [|a is_ IH]; intros [|ps pss] ND L; simpl in *; try discriminate.
  - repeat split; auto. intros j Hj. destruct j; discriminate.
  - inversion ND; subst. injection L as L. destruct (IH pss H2 L) as (I1 & I2 & I3).
    repeat split; auto. intros [|j] Hj; simpl in *.
    + injection Hj as ->. rewrite Nat.eqb_refl. rewrite <- (app_nil_r (combine (map snd rows) ps)) at 2. f_equal.
      clear - H1. revert pss. induction is_ as [|b is_ IH]; intros [|q pss]; simpl; auto.
      simpl in H1. destruct (Nat.eqb_spec b i); [exfalso; auto|]. simpl. apply IH. intros E; auto.
    + destruct (Nat.eqb_spec a i) as [->|]; [apply nth_error_In in Hj; contradiction|]. simpl. auto.
Qed.
Lemma fit_events i k (rows : list row) cls is_ : NoDup is_ -> 
  let l := map (fun j => Fit (P := P) j k rows cls) is_ in
  tested i l = [] /\ scores i l = [] /\ predictions i l = [] /\ (In i is_ -> trained i l = rows).
Proof.
  intros ND. induction ND as [|a is_ Ha ND IH]; simpl; [repeat split; auto; contradiction|].
  destruct IH as (I1 & I2 & I3 & I4). repeat split; auto. intros [->|H].
  - rewrite Nat.eqb_refl. rewrite <- (app_nil_r rows) at 2. f_equal.
    clear - Ha. induction is_ as [|b is_ IH]; simpl in *; auto. destruct (Nat.eqb_spec b i); [subst; exfalso; auto|]. simpl. auto.
  - destruct (Nat.eqb_spec a i) as [->|]; [contradiction|]. simpl. auto.
Qed.

Variable n_models : nat.
Variable classif : bool.
Variables batch n_wait max_samples test_size : nat.
Variable dynamic : bool.
Variable p0 : nat.

Lemma rb_length_le k b : length (rb k (k + b)) <= b.
Proof. unfold rows_between. rewrite map_length, seq_length. destruct (src_len src); lia. Qed.
Lemma rb_length_idem k b : rb k (k + length (rb k (k + b))) = rb k (k + b).
Proof.
  assert (E : length (rb k (k + b)) = (match src_len src with Some n => Nat.min (k + b) n | None => k + b end) - k).
  { unfold rows_between. now rewrite map_length, seq_length. }
  rewrite E. unfold rows_between. do 2 f_equal. destruct (src_len src); lia.
Qed.

(** ** Use of the stream *)
Definition fits_ok (p : nat) (t : list (ev X Y P)) : Prop :=
  forall i k rows c, In (Fit i k rows c) t -> rows = rb k (k + batch) /\ k + batch <= p.
Definition preds_ok (p : nat) (t : list (ev X Y P)) : Prop :=
  forall i k rows ps, In (Predict i k rows ps) t -> rows = rb k (k + test_size) /\ k + test_size <= p /\ (dynamic = false -> k = p0).
Definition apart (t : list (ev X Y P)) : Prop :=
  forall i k rows c j k' rows' ps, In (Fit i k rows c) t -> In (Predict j k' rows' ps) t -> k + batch <= k' \/ k' + test_size <= k.
Definition test_ok (p : nat) (t : list (ev X Y P)) (test : option (nat * list row)) : Prop :=
  match test with
  | None => True
  | Some (k', rows') => rows' = rb k' (k' + test_size) /\ (k' + test_size <= p /\ (dynamic = false -> k' = p0))
      /\ forall i k rows c, In (Fit i k rows c) t -> k + batch <= k' \/ k' + test_size <= k
  end.
Definition use (p : nat) (t : list (ev X Y P)) : Prop := fits_ok p t /\ preds_ok p t /\ apart t.

Lemma use_mono p q t : p <= q -> use p t -> use q t.
Proof.
  intros H (U1 & U2 & U3). split; [|split; auto].
  - intros i k r c Hin. destruct (U1 _ _ _ _ Hin). split; auto. lia.
  - intros i k r c Hin. destruct (U2 _ _ _ _ Hin) as (? & ? & ?). split; auto. split; auto. lia.
Qed.

Lemma use_disjoint p t : use p t -> disjoint_use src t.
Proof.
  intros (U1 & U2 & U3) i k rows c j k' rows' ps H1 H2.
  destruct (U1 _ _ _ _ H1) as [-> _]. destruct (U2 _ _ _ _ H2) as [-> _].
  rewrite !rb_length_idem. split; auto. split; auto.
  pose proof (rb_length_le k batch). pose proof (rb_length_le k' test_size). destruct (U3 _ _ _ _ _ _ _ _ H1 H2); lia.
Qed.

Lemma use_fit p t cls l : use p t -> use (p + batch) (t ++ map (fun i => Fit i p (rb p (p + batch)) cls) l).
Proof.
  intros (U1 & U2 & U3). split; [|split].
  - intros i k r c Hin. apply in_app_or in Hin. destruct Hin as [Hin|Hin].
    + destruct (U1 _ _ _ _ Hin). split; auto. lia.
    + apply in_map_iff in Hin. destruct Hin as (i' & E & _). injection E as _ <- <- _. split; auto.
  - intros i k r c Hin. apply in_app_or in Hin. destruct Hin as [Hin|Hin].
    + destruct (U2 _ _ _ _ Hin) as (? & ? & ?). split; auto. split; auto. lia.
    + apply in_map_iff in Hin. destruct Hin as (i' & E & _). discriminate.
  - intros i k rows c j k' rows' ps H1 H2. apply in_app_or in H1, H2.
    destruct H2 as [H2|H2]; [|apply in_map_iff in H2; destruct H2 as (i' & E & _); discriminate].
    destruct H1 as [H1|H1]; [eapply U3; eauto|].
    apply in_map_iff in H1. destruct H1 as (i' & E & _). injection E as _ <- _ _. right. apply (U2 _ _ _ _ H2).
Qed.
Lemma test_fit p t test cls l : test_ok p t test -> test_ok (p + batch) (t ++ map (fun i => Fit i p (rb p (p + batch)) cls) l) test.
Proof.
  destruct test as [[k' r']|]; simpl; auto. intros (E & (H & H') & D). split; auto. split; [split; [lia|auto]|].
  intros i k rows c Hin. apply in_app_or in Hin. destruct Hin as [Hin|Hin]; [eauto|].
  apply in_map_iff in Hin. destruct Hin as (i' & E' & _). injection E' as _ <- _ _. right. lia.
Qed.
Lemma use_pred p t k rows l : use p t -> test_ok p t (Some (k, rows)) ->
  (forall e, In e l -> (exists i ps, e = Predict i k rows ps) \/ (exists i y q, e = Score i y q) \/ exists c, e = Report c) -> use p (t ++ l).
Proof.
  intros (U1 & U2 & U3) (E & H & D) Hl. 
  assert (NF : forall i k0 r c, ~ In (Fit i k0 r c) l).
  { intros i k0 r c Hin. destruct (Hl _ Hin) as [(? & ? & A)|[(? & ? & ? & A)|(? & A)]]; discriminate. }
  assert (PL : forall i k0 r ps, In (Predict i k0 r ps) l -> k0 = k /\ r = rows).
  { intros i k0 r ps Hin. destruct (Hl _ Hin) as [(? & ? & A)|[(? & ? & ? & A)|(? & A)]]; try discriminate. injection A as _ -> -> _. auto. }
  split; [|split].
  - intros i k0 r c Hin. apply in_app_or in Hin. destruct Hin as [Hin|Hin]; [eauto|destruct (NF _ _ _ _ Hin)].
  - intros i k0 r ps Hin. apply in_app_or in Hin. destruct Hin as [Hin|Hin]; [eauto|]. destruct (PL _ _ _ _ Hin) as [-> ->]. auto.
  - intros i k0 r c j k' r' ps H1 H2. apply in_app_or in H1, H2.
    destruct H1 as [H1|H1]; [|destruct (NF _ _ _ _ H1)]. destruct H2 as [H2|H2]; [eapply U3; eauto|].
    destruct (PL _ _ _ _ H2) as [-> ->]. eapply D; eauto.
Qed.
Lemma test_more p t k rows l : test_ok p t (Some (k, rows)) ->
  (forall e, In e l -> (exists i ps, e = Predict i k rows ps) \/ (exists i y q, e = Score i y q) \/ exists c, e = Report c) -> test_ok p (t ++ l) (Some (k, rows)).
Proof.
  intros (E & H & D) Hl. split; auto. split; auto. intros i k0 r c Hin. apply in_app_or in Hin.
  destruct Hin as [Hin|Hin]; [eauto|]. destruct (Hl _ Hin) as [(? & ? & A)|[(? & ? & ? & A)|(? & A)]]; discriminate.
Qed.

(** The events of one test. *)
Lemma hold_test_trace s k (rows : list row) :
  let '(s', ok) := hold_test predict report_ok n_models s k rows in
  pos s' = pos s /\ cnt s' = cnt s /\ first_run s' = first_run s /\
  exists l, tr s' = tr s ++ l
   /\ (forall e, In e l -> (exists i ps, e = Predict i k rows ps) \/ (exists i y q, e = Score i y q) \/ exists c, e = Report c)
   /\ ((forall t i xs ps, predict t i xs = Some ps -> length ps = length xs) ->
       exists l1, l = l1 ++ (if ok then [Report (cnt s)] else []) /\ (forall c, ~ In (Report c) l1)
         /\ (ok = true -> forall i, i < n_models -> trained i l1 = [] /\ scores i l1 = predictions i l1)).
Proof.
  unfold hold_test. pose proof (predict_all_trace k rows (seq 0 n_models) (tr s) []) as PA.
  destruct (predict_all predict (seq 0 n_models) (tr s) k rows []) as [t1 r]. destruct PA as (pss & -> & PA).
  set (lp := map (fun ip => Predict (fst ip) k rows (snd ip)) (combine (seq 0 n_models) pss)).
  assert (Hlp : forall e, In e lp -> exists i ps, e = Predict i k rows ps).
  { intros e He. apply in_map_iff in He. destruct He as ((i & ps) & <- & _). eauto. }
  assert (NRp : forall c, ~ In (Report c) lp) by (intros c Hc; destruct (Hlp _ Hc) as (? & ? & A); discriminate).
  destruct r as [preds|].
  - destruct PA as (-> & L & PA). simpl app.
    pose proof (score_all_trace (map snd rows) pss (length (hd [] pss)) 0 (tr s ++ lp)) as SA.
    destruct (score_all 0 pss (length (hd [] pss)) (tr s ++ lp) (map snd rows)) as [t2 ok]. destruct SA as (ls & -> & FS & SA).
    assert (NRs : forall c, ~ In (Report c) ls).
    { intros c Hc. rewrite Forall_forall in FS. destruct (FS _ Hc) as (? & ? & ? & A). discriminate. }
    assert (Hls : forall e, In e (lp ++ ls) -> (exists i ps, e = Predict i k rows ps) \/ (exists i y q, e = Score i y q) \/ exists c, e = Report c).
    { intros e He. apply in_app_or in He. destruct He as [He|He]; [left; auto|right; left]. rewrite Forall_forall in FS. auto. }
    assert (NR : forall c, ~ In (Report c) (lp ++ ls)) by (intros c Hc; apply in_app_or in Hc; destruct Hc; [eapply NRp|eapply NRs]; eauto).
    assert (SC : (forall t i xs ps, predict t i xs = Some ps -> length ps = length xs) ->
       ok = true /\ forall i, i < n_models -> trained i (lp ++ ls) = [] /\ scores i (lp ++ ls) = predictions i (lp ++ ls)).
    { intros Hs. specialize (PA Hs).
      assert (Forall (fun ps : list P => length ps = length (map snd rows)) pss) by (eapply Forall_impl; [|exact PA]; simpl; intros; now rewrite map_length).
      assert (Hhd : length (hd [] pss) = length (map snd rows) \/ pss = []).
      { destruct pss; [auto|left]. now inversion H. }
      assert (Hsc : ok = true /\ ls = score_events 0 (map snd rows) pss) by (apply SA; tauto).
      destruct Hsc as [-> ->]. split; auto. intros i Hi.
      destruct (pred_events i k rows (seq 0 n_models) pss (seq_NoDup _ _)) as (P1 & P2 & P3); auto. fold lp in P1, P2, P3.
      destruct (only_scores_other _ FS i) as (Q1 & _ & Q3).
      rewrite trained_app, scores_app, predictions_app, P1, P2, Q1, Q3, app_nil_r. split; auto. simpl.
      rewrite scores_score_events. simpl. rewrite Nat.sub_0_r.
      rewrite app_nil_r, (P3 i); auto. rewrite (nth_error_nth' _ 0) by (rewrite seq_length; lia). rewrite seq_nth; auto. }
    destruct ok.
    + unfold report. cbn [tr pos cnt first_run upd]. destruct (report_ok ((tr s ++ lp) ++ ls)) eqn:RO; cbn [tr pos cnt first_run upd];
        (split; [reflexivity|]); (split; [reflexivity|]); (split; [reflexivity|]).
      * exists ((lp ++ ls) ++ [Report (cnt s)]). rewrite <- !app_assoc. split; auto. split.
        -- rewrite app_assoc. intros e He. apply in_app_or in He. destruct He as [He|[<-|[]]]; eauto.
        -- intros Hs. exists (lp ++ ls). rewrite <- !app_assoc. split; auto. split; auto. intros _. apply SC; auto.
      * exists (lp ++ ls). rewrite <- !app_assoc. split; auto. split; auto.
        intros Hs. exists (lp ++ ls). rewrite app_nil_r. split; auto. split; auto. discriminate.
    + cbn [tr pos cnt first_run upd]. (split; [reflexivity|]); (split; [reflexivity|]); (split; [reflexivity|]).
      exists (lp ++ ls). rewrite <- !app_assoc. split; auto. split; auto.
      intros Hs. exists (lp ++ ls). rewrite app_nil_r. split; auto. split; auto. discriminate.
  - cbn [tr pos cnt first_run upd]. (split; [reflexivity|]); (split; [reflexivity|]); (split; [reflexivity|]).
    exists lp. split; auto. split; auto. intros Hs. exists lp. rewrite app_nil_r. split; auto. split; auto. discriminate.
Qed.

(** ** The invariant of the loop *)
Notation report_good := (test_reports src p0 test_size n_models dynamic).
Definition hinv (h : hst X Y P) : Prop :=
  let s := h_st h in
  use (pos s) (tr s) /\ test_ok (pos s) (tr s) (h_test h) /\ (dynamic = false -> exists r, h_test h = Some (p0, r))
  /\ ((forall t i xs ps, predict t i xs = Some ps -> length ps = length xs) ->
      throughout report_good (tr s)
      /\ (forall i, i < n_models -> scores i (tr s) = predictions i (tr s) /\ (dynamic = false -> trained i (tr s) = rb (p0 + test_size) (pos s)))
      /\ (dynamic = false -> pos s = p0 + cnt s /\ p0 + test_size <= pos s)).

Lemma throughout_app_other (t l : list (ev X Y P)) : throughout report_good t -> (forall c, ~ In (Report c) l) -> throughout report_good (t ++ l).
Proof.
  intros H. induction l as [|a l IH] using rev_ind; intros N; [now rewrite app_nil_r|].
  rewrite app_assoc. apply throughout_snoc.
  - apply IH. intros c Hc. apply (N c). apply in_or_app; auto.
  - destruct a; simpl; auto. exfalso. apply (N count). apply in_or_app. right. left. reflexivity.
Qed.

Definition hgood (h : hst X Y P) : Prop :=
  use (pos (h_st h)) (tr (h_st h)) /\
  ((forall t i xs ps, predict t i xs = Some ps -> length ps = length xs) -> throughout report_good (tr (h_st h))).

Lemma hold_body_ok amax h : hinv h ->
  let '(h', ok) := hold_body src fit_ok predict report_ok n_models classif batch n_wait test_size dynamic amax h in
  hgood h' /\ pos (h_st h) + batch <= pos (h_st h') /\ cnt (h_st h) + batch <= cnt (h_st h') /\ (ok = true -> hinv h').
Proof.
  intros (U & T & D & W). unfold hold_body. cbv zeta.
  pose proof (fit_all_trace (pos (h_st h)) (take src (pos (h_st h)) batch) (first_run (h_st h) && classif) (seq 0 n_models) (tr (h_st h))) as FA.
  destruct (fit_all fit_ok _ _ _ _ _) as [t1 ok1]. destruct FA as (m & E1 & Hm).
  set (s := h_st h) in *. set (cls := first_run s && classif) in *.
  set (lf := map (fun i => Fit i (pos s) (take src (pos s) batch) cls) (firstn m (seq 0 n_models))) in *.
  assert (U1 : use (pos s + batch) t1) by (subst t1; unfold lf; rewrite take_rb; now apply use_fit).
  assert (T1 : test_ok (pos s + batch) t1 (h_test h)) by (subst t1; unfold lf; rewrite take_rb; now apply test_fit).
  assert (NF : forall c, ~ In (Report c) lf).
  { intros c Hc. apply in_map_iff in Hc. destruct Hc as (? & A & _). discriminate. }
  assert (G1 : (forall t i xs ps, predict t i xs = Some ps -> length ps = length xs) -> throughout report_good t1).
  { intros Hs. subst t1. apply throughout_app_other; auto. now apply W. }
  assert (S1 : ok1 = true -> (forall t i xs ps, predict t i xs = Some ps -> length ps = length xs) ->
     (forall i, i < n_models -> scores i t1 = predictions i t1 /\ (dynamic = false -> trained i t1 = rb (p0 + test_size) (pos s + batch)))
      /\ (dynamic = false -> pos s + batch = p0 + (cnt s + batch) /\ p0 + test_size <= pos s + batch)).
  { intros Ho Hs. destruct (W Hs) as (_ & W2 & W3). split.
    - intros i Hi. destruct (W2 i Hi) as [A B]. unfold lf in E1. rewrite (Hm Ho) in E1.
      destruct (fit_events i (pos s) (take src (pos s) batch) cls (seq 0 n_models) (seq_NoDup _ _)) as (_ & F2 & F3 & F4).
      rewrite E1, scores_app, predictions_app, trained_app, F2, F3, F4 by (apply in_seq; lia). rewrite !app_nil_r. split; auto.
      intros Hd. rewrite (B Hd), take_rb. apply rb_app; [apply W3; auto|lia].
    - intros Hd. destruct (W3 Hd). lia. }
  destruct ok1; [|cbn [h_st pos tr cnt]; split; [split; auto|]; split; [lia|]; split; [lia|discriminate]].
  specialize (S1 eq_refl).
  assert (K : forall u, hinv (mkH (mkSt (pos s + batch) (cnt s + batch) t1 false u) (h_test h) (h_perf h))).
  { intros u. split; [exact U1|]. split; [exact T1|]. split; [exact D|]. intros Hs. destruct (S1 Hs). split; auto. }
  assert (KG : forall u, hgood (mkH (mkSt (pos s + batch) (cnt s + batch) t1 false u) (h_test h) (h_perf h))).
  { intros u. split; [apply U1|]. exact G1. }
  destruct (negb (progress_ok amax)); [cbn [h_st pos cnt]; split; [apply KG|]; split; [lia|]; split; [lia|discriminate]|].
  destruct (negb dynamic && (n_wait =? 0)); [cbn [h_st pos cnt]; split; [apply KG|]; split; [lia|]; split; [lia|discriminate]|].
  destruct (_ || _); [|cbn [h_st pos cnt]; split; [apply KG|]; auto].
  set (nx := if dynamic then _ else _).
  assert (NX : exists p' c' k r, nx = (mkSt p' c' t1 false (upd s), Some (k, r)) /\ pos s + batch <= p' /\ cnt s + batch <= c'
     /\ test_ok p' t1 (Some (k, r)) /\ (dynamic = false -> p' = pos s + batch /\ c' = cnt s + batch /\ k = p0)).
  { unfold nx. destruct dynamic eqn:Dy.
    - do 4 eexists. split; [reflexivity|]. split; [lia|]. split; [lia|]. split; [|intros A; congruence].
      split; [apply take_rb|]. split; [split; [auto|intros A; congruence]|]. intros i k r c Hin. left. apply (proj1 U1 _ _ _ _ Hin).
    - destruct (D eq_refl) as [r Er]. rewrite Er in *. do 4 eexists. split; [reflexivity|]. repeat split; auto; apply T1. }
  clearbody nx. destruct NX as (p' & c' & k & r & -> & Hp' & Hc' & T2 & D2).
  set (s2 := mkSt p' c' t1 false (upd s)).
  pose proof (hold_test_trace s2 k r) as HT. destruct (hold_test predict report_ok n_models s2 k r) as [s3 ok3].
  destruct HT as (HP & HC & HF & l & EL & HL & HS). unfold s2 in HP, HC, EL, HS. cbn [pos cnt tr] in HP, HC, EL, HS.
  assert (U2 : use p' t1) by (eapply use_mono; [|exact U1]; lia).
  assert (U3 : use (pos s3) (tr s3)) by (rewrite HP, EL; eapply use_pred; eauto).
  assert (G3 : (forall t i xs ps, predict t i xs = Some ps -> length ps = length xs) -> throughout report_good (tr s3)).
  { intros Hs. destruct (HS Hs) as (l1 & El & N1 & Sc). rewrite EL, El. destruct ok3.
    - rewrite app_assoc. apply throughout_snoc; [apply throughout_app_other; auto|]. simpl. intros i Hi.
      destruct (S1 Hs) as [A B]. destruct (A i Hi) as [A1 A2]. destruct (Sc eq_refl i Hi) as [C1 C2].
      rewrite scores_app, predictions_app, trained_app, A1, C1, C2, app_nil_r. split; auto.
      intros Hd. destruct (D2 Hd) as (-> & -> & _). rewrite (A2 Hd). destruct (B Hd) as [-> _]. reflexivity.
    - rewrite app_nil_r. apply throughout_app_other; auto. }
  cbn [h_st pos cnt]. split; [split; auto|]. split; [cbn; lia|]. split; [cbn; lia|]. intros ->. split; [exact U3|]. cbn [h_st h_test].
  split; [rewrite HP, EL; eapply test_more; eauto|]. split; [intros Hd; destruct (D2 Hd) as (_ & _ & ->); eauto|].
  intros Hs. split; auto. destruct (S1 Hs) as [A B]. destruct (HS Hs) as (l1 & El & N1 & Sc). split.
  - intros i Hi. destruct (A i Hi) as [A1 A2]. destruct (Sc eq_refl i Hi) as [C1 C2].
    rewrite EL, El, !scores_app, !predictions_app, !trained_app, A1, C1, C2. simpl. rewrite !app_nil_r. split; auto.
    intros Hd. rewrite HP. destruct (D2 Hd) as (-> & _ & _). auto.
  - intros Hd. rewrite HP, HC. destruct (D2 Hd) as (-> & -> & _). auto.
Qed.

Lemma hold_loop_ok amax : forall fuel it h, hinv h ->
  let '(h', e) := hold_loop src fit_ok predict report_ok timeout n_models classif batch n_wait test_size dynamic fuel it amax h in
  hgood h' /\ (e <> ByException -> hinv h').
Proof.
  assert (K : forall h, hinv h -> hgood h) by (intros h (U & _ & _ & W); split; auto; intros Hs; apply W; auto).
  induction fuel as [|f IH]; intros it h I; simpl; (destruct (_ && _ && _); [|split; auto]).
  - split; auto.
  - pose proof (hold_body_ok amax h I) as B. destruct (hold_body _ _ _ _ _ _ _ _ _ _ amax h) as [h1 ok].
    destruct B as (B1 & _ & _ & B2). destruct ok; [apply IH; auto|]. split; [exact B1|congruence].
Qed.

Lemma holdout_inv0 : hinv (if dynamic then mkH (mkSt p0 0 [] true 0) None 0
            else mkH (mkSt (p0 + test_size) test_size [] true 0) (Some (p0, take src p0 test_size)) 0).
Proof.
  assert (U : forall p, use p []) by (intros p; split; [|split]; [intros ? ? ? ? [] | intros ? ? ? ? [] | intros ? ? ? ? ? ? ? ? []]).
  destruct dynamic eqn:Dy; (split; [apply U|]); cbn [h_st h_test pos cnt tr].
  - split; [exact I|]. split; [intros A; congruence|]. intros _. split; [apply throughout_nil|]. split; [|intros A; congruence].
    intros i Hi. split; [reflexivity|intros A; congruence].
  - split; [split; [apply take_rb|]; split; [split; auto; lia|]; intros ? ? ? ? []|]. split; [eauto|].
    intros _. split; [apply throughout_nil|]. split; [|lia]. intros i Hi. split; auto. intros _. simpl. now rewrite rb_nil.
Qed.

Lemma holdout_ok fuel :
  let r := holdout src fit_ok predict report_ok timeout n_models classif batch n_wait max_samples test_size dynamic fuel p0 in
  disjoint_use src (tr (r_st r))
  /\ (dynamic = false -> forall i k rows ps, In (Predict i k rows ps) (tr (r_st r)) -> k = p0 /\ rows = rb p0 (p0 + test_size)) /\
  ((forall t i xs ps, predict t i xs = Some ps -> length ps = length xs) -> throughout report_good (tr (r_st r))).
Proof.
  unfold holdout. cbv zeta. pose proof (hold_loop_ok (actual_max src max_samples p0) fuel 0 _ holdout_inv0) as L.
  destruct (hold_loop _ _ _ _ _ _ _ _ _ _ _ _ _ _ _) as [h e]. cbn [r_st]. destruct L as ((U & G) & _).
  split; [eapply use_disjoint; eauto|]. split; auto.
  intros Hd i k r ps Hin. destruct (proj1 (proj2 U) _ _ _ _ Hin) as (E & _ & E'). rewrite (E' Hd) in *. auto.
Qed.

(** ** Termination *)
Lemma hold_loop_ends amax : 0 < batch -> forall fuel it h, (amax - Z.of_nat (cnt (h_st h)) <= Z.of_nat fuel)%Z -> hinv h ->
  let '(h', e) := hold_loop src fit_ok predict report_ok timeout n_models classif batch n_wait test_size dynamic fuel it amax h in
  e <> OutOfFuel.
Proof.
  intros Hb. induction fuel as [|f IH]; intros it h Hf I; simpl.
  - destruct (Z.ltb_spec (Z.of_nat (cnt (h_st h))) amax); [lia|]. simpl. discriminate.
  - destruct (_ && _ && _); [|discriminate]. pose proof (hold_body_ok amax h I) as B.
    destruct (hold_body _ _ _ _ _ _ _ _ _ _ amax h) as [h1 ok]. destruct B as (_ & _ & B & B'). destruct ok; [|discriminate].
    apply IH; auto. lia.
Qed.
End Proofs.
