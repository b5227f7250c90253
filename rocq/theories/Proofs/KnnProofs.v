From Coq Require Import List ZArith Lia Reals Lra Bool Permutation Sorted.
From Verif Require Import Base.Py Base.Num Spec.Lists Spec.WindowSpec Spec.SlidingWindowSpec Spec.KnnSpec
  Model.SlidingWindow Model.Adwin Model.Knn Proofs.ListFacts Proofs.SlidingWindowProofs.
Import ListNotations.

Section P.
Context {V : Type} (vint : V -> Z) (query : list (list V) -> list V -> Z -> list nat).

Definition pairs (rows : list (list V * V)) : list (list V * list V) := map (fun '(x, y) => (x, [y])) rows.

Lemma wadds_pairs rows : map (fun '(x, y) => WAdd (x, [y])) rows = map WAdd (pairs rows).
Proof. unfold pairs. rewrite map_map. apply map_ext. intros [x y]; reflexivity. Qed.

Definition shape_after (sh : option (nat * nat)) (rows : list (list V * V)) : option (nat * nat) :=
  match sh, rows with None, (x, _) :: _ => Some (length x, 1) | _, _ => sh end.

Lemma add_rows_rep n rows : forall sh w s rest, 1 <= n -> srep n sh w s ->
  consistent sh (map WAdd (pairs rows) ++ rest) ->
  exists s' sh', add_rows s rows = (s', Ok tt) /\ srep n sh' (lastn n (w ++ pairs rows)) s' /\ consistent sh' rest.
Proof.
  induction rows as [|[x y] r IH]; intros sh w s rest Hn Hr Hc; simpl.
  - exists s, sh. rewrite app_nil_r. split; auto. destruct Hr as (A & B & C). rewrite lastn_all by auto.
    split; auto. split; auto.
  - assert (Hpre : match sh with None => True | Some (nf, nt) => length x = nf /\ length [y] = nt end).
    { simpl in Hc. destruct sh as [[nf nt]|]; auto. tauto. }
    destruct (sadd_rep n sh w s x [y] Hn Hr Hpre) as (s1 & Hs & Hr1). change (sw_add s (as_row x) (as_row [y])) with (sw_add s (row1 x) (row1 [y])).
    rewrite Hs.
    assert (Hc' : consistent (Some (length x, length [y])) (map WAdd (pairs r) ++ rest)).
    { simpl in Hc. destruct sh as [[nf nt]|]; auto. destruct Hc as (<- & Hl & Hc). simpl in Hl. subst. auto. }
    destruct (IH _ _ _ rest Hn Hr1 Hc') as (s' & sh' & E & Hr' & Hc'').
    exists s', sh'. split; auto. split; auto. rewrite lastn_lastn_app in Hr'. rewrite <- app_assoc in Hr'. exact Hr'.
Qed.

Lemma srep_size n sh (w : list (list V * list V)) s : srep n sh w s -> sw_size s = Z.of_nat (length w).
Proof.
  intros (A & B & C). unfold sw_size. destruct sh as [[nf nt]|].
  - destruct C as (_ & _ & _ & -> & _). simpl. rewrite map_length. reflexivity.
  - destruct C as (-> & -> & _). reflexivity.
Qed.
Lemma srep_features n sh (w : list (list V * list V)) s : srep n sh w s -> sw_features s = map fst w.
Proof.
  intros (A & B & C). unfold sw_features. destruct sh as [[nf nt]|].
  - destruct C as (_ & _ & _ & -> & _). reflexivity.
  - destruct C as (-> & -> & _). reflexivity.
Qed.
Lemma srep_targets n sh (w : list (list V * list V)) s : srep n sh w s -> sw_targets s = map snd w.
Proof.
  intros (A & B & C). unfold sw_targets. destruct sh as [[nf nt]|].
  - destruct C as (_ & _ & _ & _ & ->). reflexivity.
  - destruct C as (-> & _ & -> & _). reflexivity.
Qed.

(** Every stored sample has one target, a non-negative label. *)
Definition good_win (w : list (list V * list V)) : Prop :=
  Forall (fun p => exists y, snd p = [y] /\ (0 <= vint y)%Z) w.

Lemma good_lastn n w : good_win w -> good_win (lastn n w).
Proof. intros H. unfold good_win in *. rewrite Forall_forall in *. intros x Hx. apply H.
  unfold lastn in Hx. rewrite <- (firstn_skipn (length w - n) w). apply in_or_app; auto. Qed.
Lemma good_tl w : good_win w -> good_win (tl w).
Proof. intros H. destruct w; simpl; auto. inversion H; auto. Qed.
Lemma good_pairs rows : Forall (fun p => (0 <= vint (snd p))%Z) rows -> good_win (pairs rows).
Proof.
  intros H. unfold good_win, pairs. rewrite Forall_map. eapply Forall_impl; [|exact H].
  intros [x y] E. simpl in *. eauto.
Qed.

(** *** Votes *)
Lemma zmax_ok l x : In x l -> exists m, zmax l = Ok m /\ (forall y, In y l -> (y <= m)%Z).
Proof.
  destruct l as [|a r]; simpl; [tauto|]. intros _. eexists; split; [reflexivity|].
  assert (G : forall l a, (a <= fold_left Z.max l a)%Z /\ (forall y, In y l -> (y <= fold_left Z.max l a)%Z)).
  { induction l as [|b l IH]; simpl; intros c; split; try lia; try tauto.
    - destruct (IH (Z.max c b)). lia.
    - intros y [<-|Hy]; destruct (IH (Z.max c b)); [lia|auto]. }
  intros y [<-|Hy]; destruct (G r a); auto.
Qed.

Lemma py_index_in len c : (0 <= c < Z.of_nat len)%Z -> py_index len c = Some (Z.to_nat c).
Proof.
  intros H. unfold py_index. replace (0 <=? c)%Z with true by (symmetry; apply Z.leb_le; lia).
  replace (c <? Z.of_nat len)%Z with true by (symmetry; apply Z.ltb_lt; lia). reflexivity.
Qed.
Lemma py_get_in {A} (l : list A) c d : (0 <= c < Z.of_nat (length l))%Z -> py_get l c = Ok (nth (Z.to_nat c) l d).
Proof.
  intros H. unfold py_get. rewrite py_index_in by auto.
  destruct (nth_error l (Z.to_nat c)) eqn:E.
  - f_equal. symmetry. apply nth_error_nth. auto.
  - apply nth_error_None in E. lia.
Qed.
Lemma py_set_in {A} (l : list A) c v : (0 <= c < Z.of_nat (length l))%Z -> py_set l c v = Ok (set_nth l (Z.to_nat c) v).
Proof. intros H. unfold py_set. rewrite py_index_in by auto. reflexivity. Qed.
Lemma set_nth_len {A} (l : list A) : forall i v, length (set_nth l i v) = length l.
Proof. induction l; intros [|i] v; simpl; auto. Qed.
Lemma set_nth_nth {A} (l : list A) : forall i j v d, i < length l ->
  nth j (set_nth l i v) d = if Nat.eqb i j then v else nth j l d.
Proof.
  induction l as [|a l IH]; intros [|i] [|j] v d H; simpl in *; auto; try lia.
  rewrite IH by lia. reflexivity.
Qed.

Lemma label_at_ok n sh w s i : srep n sh w s -> good_win w -> i < length w ->
  exists x y, nth_error w i = Some (x, [y]) /\ label_at vint s i = Ok (vint y) /\ (0 <= vint y)%Z /\
    In (vint y) (window_classes vint s).
Proof.
  intros Hr Hg Hi. destruct (nth_error w i) as [[x ys]|] eqn:E.
  - pose proof (nth_error_In _ _ E) as Hin. unfold good_win in Hg. rewrite Forall_forall in Hg.
    destruct (Hg _ Hin) as (y & Ey & Hy). simpl in Ey. subst ys. exists x, y.
    split; auto. unfold label_at. rewrite (srep_targets _ _ _ _ Hr).
    rewrite nth_error_map, E. simpl. split; auto. split; auto.
    unfold window_classes. rewrite (srep_targets _ _ _ _ Hr). apply in_map. apply in_concat.
    exists [y]. split; [|left; auto]. apply in_map_iff. exists (x, [y]). auto.
  - apply nth_error_None in E. lia.
Qed.

Lemma votes_cons w i r c : votes_for vint w (i :: r) c =
  (if match nth_error w i with Some (_, [y]) => Z.eqb (vint y) (Z.of_nat c) | _ => false end then 1 else 0)
  + votes_for vint w r c.
Proof. unfold votes_for. simpl. destruct (match nth_error w i with Some (_, [y]) => _ | _ => _ end); reflexivity. Qed.

Lemma vote_fold n sh w s L q : srep n sh w s -> good_win w ->
  (forall c, In c (window_classes vint s) -> (c < Z.of_nat L)%Z) ->
  forall idx, (forall i, In i idx -> i < length w) -> forall acc : list R, length acc = L ->
  exists out, foldM (fun votes index => c <- label_at vint s index ;; v <- py_get votes c ;; py_set votes c (v + q)%R)
                idx acc = Ok out
    /\ length out = L /\ forall c, nth c out 0%R = (nth c acc 0 + INR (votes_for vint w idx c) * q)%R.
Proof.
  intros Hr Hg Hb. induction idx as [|i idx IH]; intros Hi acc Hl; simpl.
  - exists acc. split; auto. split; auto. intros c. unfold votes_for. simpl. lra.
  - destruct (label_at_ok n sh w s i Hr Hg) as (x & y & E & El & Hy & Hin); [apply Hi; left; auto|].
    rewrite El. cbn [bind]. specialize (Hb _ Hin) as Hlt.
    rewrite (py_get_in acc (vint y) 0%R) by (rewrite Hl; lia). cbn [bind].
    rewrite py_set_in by (rewrite Hl; lia). cbn [bind].
    destruct (IH (fun j Hj => Hi j (or_intror Hj)) (set_nth acc (Z.to_nat (vint y)) (nth (Z.to_nat (vint y)) acc 0 + q)%R))
      as (out & Eo & Lo & Ho).
    { rewrite set_nth_len; auto. }
    exists out. split; auto. split; auto. intros c. rewrite Ho, votes_cons, E.
    rewrite set_nth_nth by (rewrite Hl; lia).
    destruct (Nat.eqb_spec (Z.to_nat (vint y)) c) as [<-|Hne].
    + rewrite Z2Nat.id by lia. rewrite Z.eqb_refl. rewrite plus_INR. simpl (INR 1). lra.
    + replace (vint y =? Z.of_nat c)%Z with false by (symmetry; apply Z.eqb_neq; lia). rewrite plus_INR. simpl (INR 0). lra.
Qed.

Lemma repeat_nth0 c m : nth c (repeat 0%R m) 0%R = 0%R.
Proof. revert c. induction m; intros [|c]; simpl; auto. Qed.

Lemma mapM_Ok {A B} (f : A -> res B) (Q : A -> B -> Prop) l : (forall a, In a l -> exists b, f a = Ok b /\ Q a b) ->
  exists bs, mapM f l = Ok bs /\ Forall2 Q l bs.
Proof.
  induction l as [|a l IH]; simpl; intros H.
  - exists []. split; auto.
  - destruct (H a (or_introl eq_refl)) as (b & E & Hb). rewrite E. cbn [bind].
    destruct IH as (bs & E2 & H2); [intros; apply H; auto|]. rewrite E2. cbn [bind].
    exists (b :: bs). split; auto.
Qed.

Lemma mapM_len {A B} (f : A -> res B) l : forall bs, mapM f l = Ok bs -> length l = length bs.
Proof.
  induction l as [|a l IH]; simpl; intros bs E.
  - injection E as <-. reflexivity.
  - destruct (f a); simpl in E; [|discriminate]. destruct (mapM f l); simpl in E; [|discriminate].
    injection E as <-. simpl. f_equal. apply IH. reflexivity.
Qed.
Lemma Forall2_cons_inv {A B} (P : A -> B -> Prop) a b l m : Forall2 P (a :: l) (b :: m) -> P a b /\ Forall2 P l m.
Proof. intros H. inversion H; auto. Qed.
Lemma Forall2_imp {A B} (P Q : A -> B -> Prop) l m : (forall a b, P a b -> Q a b) -> Forall2 P l m -> Forall2 Q l m.
Proof. induction 2; constructor; auto. Qed.
Lemma mapM_one {A B} (f : A -> res B) a : mapM f [a] = (b <- f a ;; Ok [b]).
Proof. simpl. destruct (f a); reflexivity. Qed.

Definition row_votes (w : list (list V * list V)) (k : nat) (idx : list nat) (row : list R) : Prop :=
  forall c, nth c row 0%R = (INR (votes_for vint w idx c) / INR k)%R.

Lemma in_set_union a b x : In x (set_union a b) <-> In x a \/ In x b.
Proof. unfold set_union. rewrite nodup_In, in_app_iff. tauto. Qed.

Lemma proba_ok (n k : nat) sh w s X dist :
  1 <= k -> kn_k s = Z.of_nat k -> srep n sh w (kn_win s) -> good_win w -> k <= length w ->
  (forall pts x, k <= length pts -> k_nearest dist pts x k (query pts x (Z.of_nat k))) ->
  exists p s', knn_proba (T := R) vint query s X = Ok (p, s')
    /\ kn_k s' = kn_k s /\ kn_win s' = kn_win s
    /\ Forall2 (fun x row => row <> [] /\ exists idx, idx = query (map fst w) x (Z.of_nat k) /\ k_nearest dist (map fst w) x k idx /\ row_votes w k idx row) X p.
Proof.
  intros Hk Ek Hr Hg Hkw Hq. unfold knn_proba. rewrite (srep_size _ _ _ _ Hr), Ek.
  replace (Z.of_nat (length w) <? Z.of_nat k)%Z with false by (symmetry; apply Z.ltb_ge; lia).
  rewrite (srep_features _ _ _ _ Hr). cbv zeta.
  set (cl := set_union (kn_classes s) (window_classes vint (kn_win s))).
  assert (Hc0 : exists c, In c cl).
  { destruct (label_at_ok n sh w (kn_win s) 0 Hr Hg) as (x & y & _ & _ & _ & Hin); [lia|].
    exists (vint y). apply in_set_union; auto. }
  destruct Hc0 as (c0 & Hc0). destruct (zmax_ok cl c0 Hc0) as (m & Em & Hm).
  assert (Hpos : (0 <= m)%Z).
  { destruct (label_at_ok n sh w (kn_win s) 0 Hr Hg) as (x & y & _ & _ & Hy & Hin); [lia|].
    assert (In (vint y) cl) by (apply in_set_union; auto). specialize (Hm _ H). lia. }
  edestruct (mapM_Ok (fun x => knn_votes (T := R) vint (kn_win s) cl (query (map fst w) x (Z.of_nat k)))
    (fun x row => row <> [] /\ exists idx, idx = query (map fst w) x (Z.of_nat k) /\ k_nearest dist (map fst w) x k idx /\ row_votes w k idx row) X)
    as (p & E & HF).
  { intros x _. unfold knn_votes. rewrite Em. cbn [bind].
    assert (Hnear := Hq (map fst w) x). rewrite map_length in Hnear. specialize (Hnear Hkw).
    destruct (vote_fold n sh w (kn_win s) (Z.to_nat (m + 1)) (1 / IZR (Z.of_nat (length (query (map fst w) x (Z.of_nat k)))))%R
      Hr Hg) with (idx := query (map fst w) x (Z.of_nat k)) (acc := repeat 0%R (Z.to_nat (m + 1))) as (out & Eo & Lo & Ho).
    - intros c Hin. assert (In c cl) by (apply in_set_union; auto). specialize (Hm _ H). lia.
    - intros i Hi. destruct Hnear as (_ & _ & Hb & _). specialize (Hb i Hi). rewrite map_length in Hb. auto.
    - apply repeat_length.
    - exists out. split; [exact Eo|]. split.
      + intros ->. simpl in Lo. lia.
      + exists (query (map fst w) x (Z.of_nat k)). split; auto. split; auto. intros c. rewrite Ho, repeat_nth0.
        destruct Hnear as (Hl & _). rewrite Hl. rewrite <- INR_IZR_INZ. unfold Rdiv. lra. }
  rewrite E. cbn [bind]. eexists _, _. split; [reflexivity|]. simpl. auto.
Qed.

(** *** argmax *)
Definition first_max (l : list R) (c : nat) : Prop :=
  c < length l /\ (forall j, j < length l -> (nth j l 0 <= nth c l 0)%R) /\ (forall j, j < c -> (nth j l 0 < nth c l 0)%R).

Lemma argmax_from_ok (l : list R) : forall pre best,
  best < length pre -> first_max pre best ->
  first_max (pre ++ l) (argmax_from l (length pre) best (nth best pre 0%R)).
Proof.
  induction l as [|v r IH]; intros pre best Hb Hf; cbn [argmax_from].
  - rewrite app_nil_r. auto.
  - destruct Hf as (_ & H1 & H2).
    assert (Hpre : pre ++ v :: r = (pre ++ [v]) ++ r) by (rewrite <- app_assoc; reflexivity).
    assert (Hlen : length (pre ++ [v]) = S (length pre)) by (rewrite app_length; simpl; lia).
    cbn [nltb NumR]. destruct (Rltb (nth best pre 0%R) v) eqn:E.
    + apply Rltb_true in E. rewrite Hpre, <- Hlen.
      assert (Hv : nth (length pre) (pre ++ [v]) 0%R = v) by (rewrite app_nth2, Nat.sub_diag by lia; reflexivity).
      pose proof (IH (pre ++ [v]) (length pre)) as G. rewrite Hv in G. apply G; [lia|]. split; [lia|]. rewrite (app_nth2 pre [v]) with (n := length pre) by lia. rewrite Nat.sub_diag. simpl.
      assert (HH : forall j, j < length pre -> (nth j (pre ++ [v]) 0 < v)%R).
      { intros j Hj. rewrite app_nth1 by auto. specialize (H1 j Hj). lra. }
      split.
      * intros j Hj. rewrite app_length in Hj. simpl in Hj. destruct (Nat.eq_dec j (length pre)) as [->|Hne].
        -- rewrite app_nth2, Nat.sub_diag by lia. simpl. lra.
        -- specialize (HH j). assert (j < length pre) by lia. specialize (HH H). lra.
      * intros j Hj. apply HH. auto.
    + apply Rltb_false in E. rewrite Hpre, <- Hlen.
      replace (nth best pre 0%R) with (nth best (pre ++ [v]) 0%R) by (rewrite app_nth1 by auto; reflexivity).
      apply IH; [lia|]. split; [lia|]. split.
      * intros j Hj. rewrite (app_nth1 pre [v]) with (n := best) by auto. rewrite app_length in Hj. simpl in Hj.
        destruct (Nat.eq_dec j (length pre)) as [->|Hne].
        -- rewrite app_nth2, Nat.sub_diag by lia. simpl. lra.
        -- rewrite app_nth1 by lia. apply H1. lia.
      * intros j Hj. rewrite !app_nth1 by lia. apply H2. auto.
Qed.

Lemma np_argmax_ok (l : list R) : l <> [] -> exists c, np_argmax l = Ok c /\ first_max l c.
Proof.
  intros H. destruct l as [|v r]; [congruence|]. unfold np_argmax. eexists; split; [reflexivity|].
  apply (argmax_from_ok r [v] 0); simpl; auto. split; simpl; auto. split.
  - intros [|j] Hj; simpl; try lra. lia.
  - intros j Hj. lia.
Qed.

Lemma first_max_majority w k idx row c : 1 <= k -> row_votes w k idx row -> first_max row c ->
  majority vint w idx c.
Proof.
  intros Hk Hv (Hc & H1 & H2).
  assert (Hkk : (0 < INR k)%R) by (apply lt_0_INR; lia).
  assert (HI : forall a b, (INR a / INR k <= INR b / INR k)%R -> a <= b).
  { intros a b H. apply INR_le. apply Rmult_le_reg_r with (/ INR k)%R; auto. apply Rinv_0_lt_compat; auto. }
  assert (HI' : forall a b, (INR a / INR k < INR b / INR k)%R -> a < b).
  { intros a b H. apply INR_lt. apply Rmult_lt_reg_r with (/ INR k)%R; auto. apply Rinv_0_lt_compat; auto. }
  split.
  - intros c'. apply HI. rewrite <- !Hv. destruct (lt_dec c' (length row)) as [Hl|Hl]; auto.
    rewrite (nth_overflow row) with (n := c') by lia. rewrite Hv. apply Rmult_le_pos; [apply pos_INR|].
    apply Rlt_le, Rinv_0_lt_compat; auto.
  - intros c' Hc'. apply HI'. rewrite <- !Hv. auto.
Qed.

(** *** Histories of KNNClassifier *)
Definition kinv (n k : nat) (w : list (list V * list V)) sh (s : knn) : Prop :=
  kn_k s = Z.of_nat k /\ srep n sh w (kn_win s) /\ good_win w.

Lemma step_inv n k dist w sh s o rest :
  1 <= n -> 1 <= k ->
  (forall pts x, k <= length pts -> k_nearest dist pts x k (query pts x (Z.of_nat k))) ->
  kinv n k w sh s -> labels_ok vint o -> consistent sh (window_ops o ++ rest) ->
  exists s' sh', knn_step R vint query s o = Ok s' /\ kinv n k (wrun n w (window_ops o)) sh' s' /\ consistent sh' rest.
Proof.
  intros Hn Hk Hq (Ek & Hr & Hg) Hl Hc. destruct o as [rows classes|X|]; simpl in *.
  - rewrite wadds_pairs in Hc. unfold knn_fit.
    assert (Hr' : srep n sh w (kn_win (add_classes s classes))) by (destruct classes; exact Hr).
    destruct (add_rows_rep n rows sh w _ rest Hn Hr' Hc) as (s' & sh' & E & Hrep & Hc').
    rewrite E. eexists _, sh'. split; [reflexivity|]. split; auto.
    unfold kinv. simpl. split; [destruct classes; exact Ek|].
    rewrite wadds_pairs, wrun_adds by (destruct Hr as (_ & B & _); exact B). split; auto.
    apply good_lastn. apply Forall_app. split; auto. apply good_pairs; auto.
  - unfold knn_predict.
    destruct (le_lt_dec k (length w)) as [Hkw|Hkw].
    + destruct (proba_ok n k sh w s X dist Hk Ek Hr Hg Hkw Hq) as (p & s' & E & E1 & E2 & HF). rewrite E. cbn [bind].
      destruct (mapM_Ok (np_argmax (T := R)) (fun _ _ => True) p) as (l & El & _).
      { intros a Ha. apply In_nth_error in Ha. destruct Ha as (i & Hi).
        assert (a <> []).
        { clear -HF Hi. revert i Hi. induction HF; intros [|i] Hi; simpl in Hi; try discriminate.
          - injection Hi as <-. tauto. - eauto. }
        destruct (np_argmax_ok a H) as (c & Ec & _). eauto. }
      rewrite El. cbn [bind]. exists s', sh. split; auto. split; auto. unfold kinv. rewrite E1, E2. auto.
    + unfold knn_proba. rewrite (srep_size _ _ _ _ Hr), Ek.
      replace (Z.of_nat (length w) <? Z.of_nat k)%Z with true by (symmetry; apply Z.ltb_lt; lia). cbn [bind].
      destruct (mapM_Ok (np_argmax (T := R)) (fun _ _ => True) (map (fun _ : list V => [nofZ 0]) X)) as (l & El & _).
      { intros a Ha. apply in_map_iff in Ha. destruct Ha as (_ & <- & _). exists 0. auto. }
      rewrite El. cbn [bind]. exists s, sh. split; auto. split; auto. unfold kinv. auto.
  - eexists _, None. split; [reflexivity|]. split; auto. unfold kinv, knn_reset. simpl. split; auto.
    split; [|constructor]. destruct Hr as (A & _). repeat split; simpl; auto; lia.
Qed.

Lemma flat_app (a b : list (wop V)) n w : wrun n w (a ++ b) = wrun n (wrun n w a) b.
Proof. unfold wrun. apply fold_left_app. Qed.

Lemma run_inv n k dist ops : 1 <= n -> 1 <= k ->
  (forall pts x, k <= length pts -> k_nearest dist pts x k (query pts x (Z.of_nat k))) ->
  forall w sh s, kinv n k w sh s -> Forall (labels_ok vint) ops -> consistent sh (flat_map window_ops ops) ->
  exists s' sh', knn_run R vint query s ops = Ok s' /\ kinv n k (wrun n w (flat_map window_ops ops)) sh' s'.
Proof.
  intros Hn Hk Hq. induction ops as [|o r IH]; intros w sh s Hi Hl Hc; simpl in *.
  - exists s, sh. auto.
  - inversion Hl; subst.
    destruct (step_inv n k dist w sh s o _ Hn Hk Hq Hi H1 Hc) as (s1 & sh1 & E & Hi1 & Hc1).
    rewrite E. cbn [bind]. destruct (IH _ _ _ Hi1 H2 Hc1) as (s' & sh' & E' & Hi').
    exists s', sh'. split; auto. rewrite flat_app. exact Hi'.
Qed.

Lemma new_inv n k : kinv n k [] None (knn_new (Z.of_nat k) (Z.of_nat n)).
Proof. split; [reflexivity|]. split; [|constructor]. repeat split; simpl; auto; lia. Qed.

Lemma predict_ok n k dist w sh s X : 1 <= k ->
  (forall pts x, k <= length pts -> k_nearest dist pts x k (query pts x (Z.of_nat k))) ->
  kinv n k w sh s ->
  (length w < k -> knn_proba (T := R) vint query s X = Ok (map (fun _ => [0%R]) X, s)
                   /\ knn_predict (T := R) vint query s X = Ok (map (fun _ => 0) X, s))
  /\ (k <= length w -> exists probas preds s',
        knn_proba (T := R) vint query s X = Ok (probas, s') /\ knn_predict (T := R) vint query s X = Ok (preds, s')
        /\ Forall2 (fun x '(row, c) => exists idx, idx = query (map fst w) x (Z.of_nat k) /\ k_nearest dist (map fst w) x k idx
              /\ (forall c', nth c' row 0%R = (INR (votes_for vint w idx c') / INR k)%R)
              /\ majority vint w idx c) X (combine probas preds)).
Proof.
  intros Hk Hq (Ek & Hr & Hg). split.
  - intros Hw. assert (E : knn_proba (T := R) vint query s X = Ok (map (fun _ => [0%R]) X, s)).
    { unfold knn_proba. rewrite (srep_size _ _ _ _ Hr), Ek.
      replace (Z.of_nat (length w) <? Z.of_nat k)%Z with true by (symmetry; apply Z.ltb_lt; lia). reflexivity. }
    split; auto. unfold knn_predict. rewrite E. cbn [bind].
    assert (G : mapM (np_argmax (T := R)) (map (fun _ : list V => [0%R]) X) = Ok (map (fun _ => 0) X)).
    { clear. induction X; simpl; auto. simpl in IHX. rewrite IHX. reflexivity. }
    rewrite G. reflexivity.
  - intros Hkw. destruct (proba_ok n k sh w s X dist Hk Ek Hr Hg Hkw Hq) as (p & s' & E & E1 & E2 & HF).
    unfold knn_predict. rewrite E. cbn [bind].
    assert (G : exists l, mapM (np_argmax (T := R)) p = Ok l /\
       Forall2 (fun x '(row, c) => exists idx, idx = query (map fst w) x (Z.of_nat k) /\ k_nearest dist (map fst w) x k idx
              /\ (forall c', nth c' row 0%R = (INR (votes_for vint w idx c') / INR k)%R)
              /\ majority vint w idx c) X (combine p l)).
    { clear E. induction HF as [|x row X' p' (Hne & idx & Hidx & Hn & Hv) HF (l & El & IH)].
      - exists []. split; auto. constructor.
      - destruct (np_argmax_ok row Hne) as (c & Ec & Hm). simpl. rewrite Ec. cbn [bind]. rewrite El. cbn [bind].
        exists (c :: l). split; auto. simpl. constructor; auto. exists idx. split; auto. split; auto. split; auto.
        eapply first_max_majority; eauto. }
    destruct G as (l & El & HG). rewrite El. cbn [bind]. exists p, l, s'. auto.
Qed.

Lemma majority_unique w idx c c' : majority vint w idx c -> majority vint w idx c' -> c = c'.
Proof.
  intros (A & B) (A' & B'). destruct (lt_eq_lt_dec c c') as [[H|H]|H]; auto.
  - specialize (B' c H). specialize (A c'). lia.
  - specialize (B c' H). specialize (A' c). lia.
Qed.

Lemma same_votes n k dist w sh sh' s s' X : 1 <= k ->
  (forall pts x, k <= length pts -> k_nearest dist pts x k (query pts x (Z.of_nat k))) ->
  kinv n k w sh s -> kinv n k w sh' s' ->
  exists p p' l t t', knn_proba (T := R) vint query s X = Ok (p, t) /\ knn_proba (T := R) vint query s' X = Ok (p', t')
    /\ Forall2 (fun r r' => forall c, nth c r 0%R = nth c r' 0%R) p p'
    /\ knn_predict (T := R) vint query s X = Ok (l, t) /\ knn_predict (T := R) vint query s' X = Ok (l, t').
Proof.
  intros Hk Hq Hi Hi'. destruct (predict_ok n k dist w sh s X Hk Hq Hi) as (A & B).
  destruct (predict_ok n k dist w sh' s' X Hk Hq Hi') as (A' & B').
  destruct (le_lt_dec k (length w)) as [H|H].
  - destruct (B H) as (p & l & t & E1 & E2 & F). destruct (B' H) as (p' & l' & t' & E1' & E2' & F').
    assert (LP : length p = length l) by (unfold knn_predict in E2; rewrite E1 in E2; cbn [bind] in E2;
      destruct (mapM _ p) eqn:Em; cbn [bind] in E2; [|discriminate]; injection E2 as -> ; eapply mapM_len; eauto).
    assert (LP' : length p' = length l') by (unfold knn_predict in E2'; rewrite E1' in E2'; cbn [bind] in E2';
      destruct (mapM _ p') eqn:Em; cbn [bind] in E2'; [|discriminate]; injection E2' as -> ; eapply mapM_len; eauto).
    assert (G : Forall2 (fun r r' => forall c, nth c r 0%R = nth c r' 0%R) p p' /\ l = l').
    { clear E1 E2 E1' E2' A A' B B' Hi Hi'. revert p p' l l' LP LP' F F'. induction X as [|x X IH]; intros p p' l l' LP LP' F F'.
      - inversion F as [E|]. inversion F' as [E'|].
        destruct p, l; simpl in *; try discriminate. destruct p', l'; simpl in *; try discriminate. auto.
      - destruct p as [|r p], l as [|c l]; simpl in *; try discriminate; try (inversion F; fail).
        destruct p' as [|r' p'], l' as [|c' l']; simpl in *; try discriminate; try (inversion F'; fail).
        apply Forall2_cons_inv in F. destruct F as ((idx & -> & _ & V1 & M1) & F1).
        apply Forall2_cons_inv in F'. destruct F' as ((idx' & -> & _ & V2 & M2) & F2).
        destruct (IH p p' l l') as (G1 & ->); auto; try lia. split.
        + constructor; auto. intros d. rewrite V1, V2. reflexivity.
        + f_equal. eapply majority_unique; eauto. }
    destruct G as (G & ->). exists p, p', l', t, t'. auto 10.
  - destruct (A H) as (E1 & E2). destruct (A' H) as (E1' & E2').
    eexists _, _, _, _, _. split; [exact E1|]. split; [exact E1'|]. split; [|split; [exact E2|exact E2']].
    clear. induction X; simpl; constructor; auto.
Qed.
End P.

Lemma window_after_reset {V} n (ops ops' : list (kop V)) w :
  wrun n w (flat_map window_ops (ops ++ KReset :: ops')) = wrun n [] (flat_map window_ops ops').
Proof. rewrite flat_map_app. cbn [flat_map window_ops]. unfold wrun. rewrite !fold_left_app. reflexivity. Qed.

Lemma consistent_after_reset {V} (ops ops' : list (kop V)) : forall sh,
  consistent sh (flat_map window_ops (ops ++ KReset :: ops')) -> consistent None (flat_map window_ops ops').
Proof.
  intros sh. rewrite flat_map_app. generalize (flat_map window_ops ops) as l. revert sh.
  intros sh l. revert sh. induction l as [|o l IH]; intros sh H; simpl in *; auto.
  destruct o as [[x y]| |]; eauto. destruct sh as [[nf nt]|]; eauto. destruct H as (_ & _ & H). eauto.
Qed.

Lemma knn_reset_forgets (V : Type) (vint : V -> Z) query (dist : list V -> list V -> R) (n k : nat)
    (before ops : list (kop V)) (X : list (list V)) :
    1 <= n -> 1 <= k ->
    (forall pts x, k <= length pts -> k_nearest dist pts x k (query pts x (Z.of_nat k))) ->
    Forall (labels_ok vint) (before ++ KReset :: ops) -> consistent None (flat_map window_ops (before ++ KReset :: ops)) ->
    exists s s', knn_run R vint query (knn_new (Z.of_nat k) (Z.of_nat n)) (before ++ KReset :: ops) = Ok s
      /\ knn_run R vint query (knn_new (Z.of_nat k) (Z.of_nat n)) ops = Ok s'
      /\ combine (sw_features (kn_win s)) (sw_targets (kn_win s)) = combine (sw_features (kn_win s')) (sw_targets (kn_win s'))
      /\ exists p p' l t t', knn_proba (T := R) vint query s X = Ok (p, t) /\ knn_proba (T := R) vint query s' X = Ok (p', t')
         /\ Forall2 (fun r r' => forall c, nth c r 0%R = nth c r' 0%R) p p'
         /\ knn_predict (T := R) vint query s X = Ok (l, t) /\ knn_predict (T := R) vint query s' X = Ok (l, t').
Proof.
  intros Hn Hk Hq Hl Hc.
  destruct (run_inv vint query n k dist _ Hn Hk Hq [] None _ (new_inv vint n k) Hl Hc) as (s & sh & E & Hi).
  assert (Hl' : Forall (labels_ok vint) ops) by (apply Forall_app in Hl; destruct Hl as (_ & Hl); inversion Hl; auto).
  pose proof (consistent_after_reset before ops None Hc) as Hc'.
  destruct (run_inv vint query n k dist _ Hn Hk Hq [] None _ (new_inv vint n k) Hl' Hc') as (s' & sh' & E' & Hi').
  rewrite window_after_reset in Hi. exists s, s'. split; auto. split; auto.
  split; [|eapply same_votes; eauto].
  destruct Hi as (_ & Hr & _). destruct Hi' as (_ & Hr' & _).
  rewrite (srep_features _ _ _ _ Hr), (srep_targets _ _ _ _ Hr), (srep_features _ _ _ _ Hr'), (srep_targets _ _ _ _ Hr').
  reflexivity.
Qed.
