From Coq Require Import List ZArith Lia Bool.
From Verif Require Import Base.Py Base.Num Spec.Lists Spec.KswinSpec Model.Kswin Proofs.ListFacts.
Import ListNotations.
Local Open Scope Z_scope.

Section Kswin.
Context {T : Type} {N : Num T}.

Lemma slice_from_lastn (w : list T) (k : Z) :
  0 < k -> k <= Z.of_nat (length w) -> slice_from w (- k) = lastn (Z.to_nat k) w.
Proof.
  intros Hk Hl. unfold slice_from, slice_bound, lastn. destruct (- k <? 0) eqn:E; [|apply Z.ltb_ge in E; lia].
  f_equal. lia.
Qed.

(** success of a test implies the window was long enough *)
Lemma test_Ok choice ks (w : list T) st p : legal_choice choice ->
  (exists rnd, np_choice choice (slice_to w (- st)) st = Ok rnd /\ ks_2samp ks rnd (slice_from w (- st)) = Ok p) ->
  1 <= st /\ st < Z.of_nat (length w).
Proof.
  intros Hl (rnd & E1 & E2). unfold np_choice in E1.
  destruct (st <? 0) eqn:Es; [discriminate|]. apply Z.ltb_ge in Es.
  unfold slice_to, slice_bound in E1.
  destruct (Z.eq_dec st 0) as [->|Hn].
  - simpl in E1. inversion E1; subst. discriminate.
  - split; [lia|]. destruct (- st <? 0) eqn:Ez; [|apply Z.ltb_ge in Ez; lia].
    destruct (Z_lt_le_dec st (Z.of_nat (length w))) as [|Hge]; auto.
    replace (Z.to_nat (- st + Z.of_nat (length w))) with 0%nat in E1 by lia. simpl in E1.
    destruct (st =? 0) eqn:E0; [apply Z.eqb_eq in E0; lia|discriminate].
Qed.

Lemma test_can choice ks (w : list T) st : legal_choice choice ->
  1 <= st -> st < Z.of_nat (length w) ->
  exists rnd, np_choice choice (slice_to w (- st)) st = Ok rnd
    /\ ks_2samp ks rnd (slice_from w (- st)) = Ok (ks rnd (slice_from w (- st))).
Proof.
  intros Hl H1 H2. unfold np_choice. destruct (st <? 0) eqn:Es; [apply Z.ltb_lt in Es; lia|].
  assert (Hne : slice_to w (- st) <> []).
  { unfold slice_to, slice_bound. destruct (- st <? 0) eqn:Ez; [|apply Z.ltb_ge in Ez; lia].
    destruct w; [simpl in H2; lia|]. destruct (Z.to_nat (- st + Z.of_nat (length (t :: w)))) eqn:En; [lia|].
    discriminate. }
  pose proof (Hl (slice_to w (- st)) st ltac:(lia) Hne) as (Hlen & _).
  destruct (slice_to w (- st)) as [|a l] eqn:El; [congruence|].
  eexists. split; [reflexivity|].
  assert (Hf : slice_from w (- st) <> []).
  { rewrite slice_from_lastn by lia. intros E. apply (f_equal (@length T)) in E.
    rewrite lastn_length in E. simpl in E. lia. }
  unfold ks_2samp. destruct (choice (a :: l) st) eqn:Ec; [simpl in Hlen; lia|].
  destruct (slice_from w (- st)); [congruence|reflexivity].
Qed.

Variables (alpha : T) (w st : Z) (data : option (list T)).
Local Notation khist := (khist alpha w st data).

Definition data_list : list T := match data with Some l => l | None => [] end.

Lemma khist_params h s : khist h s ->
  ks_alpha s = alpha /\ ks_window_size s = w /\ ks_stat_size s = st /\ 0 <= w.
Proof.
  induction 1 as [s E|h s x choice ks s' H IH Hl E|h s H IH].
  - unfold kswin_init in E.
    destruct (nltb alpha n0 || nltb n1 alpha); [discriminate|].
    destruct (w <? 0) eqn:Ew; [discriminate|]. destruct (w <? st); [discriminate|].
    inversion E; subst; simpl. apply Z.ltb_ge in Ew. auto.
  - unfold kswin_add in E. destruct (ks_window_size s <=? _) eqn:El.
    + destruct (ks_window s) as [|y v]; [discriminate|].
      apply bind_Ok in E. destruct E as (rnd & _ & E). apply bind_Ok in E. destruct E as ((a & b) & _ & E).
      inversion E; subst; simpl. auto.
    + inversion E; subst; simpl. auto.
  - simpl. auto.
Qed.

(** one successful call *)
Lemma kswin_add_cases choice ks s x s' : legal_choice choice -> kswin_add choice ks s x = Ok s' ->
  (Z.of_nat (length (ks_window s)) < ks_window_size s /\ ks_window s' = ks_window s ++ [x] /\ ks_change s' = false)
  \/ (exists y v, ks_window s = y :: v /\ ks_window_size s <= Z.of_nat (length (ks_window s))
      /\ 1 <= ks_stat_size s < Z.of_nat (length v)
      /\ ((ks_change s' = false /\ ks_window s' = v ++ [x])
          \/ (ks_change s' = true /\ ks_window s' = lastn (Z.to_nat (ks_stat_size s)) v ++ [x]))).
Proof.
  intros Hl E. unfold kswin_add in E. destruct (ks_window_size s <=? Z.of_nat (length (ks_window s))) eqn:El.
  - right. apply Z.leb_le in El. destruct (ks_window s) as [|y v] eqn:Ew; [discriminate|].
    apply bind_Ok in E. destruct E as (rnd & E1 & E). apply bind_Ok in E. destruct E as ((a & b) & E2 & E).
    pose proof (test_Ok choice ks v (ks_stat_size s) (a, b) Hl (ex_intro _ rnd (conj E1 E2))) as Hs.
    exists y, v. repeat split; try lia.
    inversion E; subst; simpl. destruct (nleb b (ks_alpha s) && nltb _ a); [right|left]; split; auto.
    rewrite slice_from_lastn by lia. reflexivity.
  - left. apply Z.leb_gt in El. inversion E; subst; simpl. auto.
Qed.

Lemma kswin_window_proof h s : khist h s -> Z.of_nat (length data_list) <= w ->
  suffix_of (ks_window s) h /\ Z.of_nat (length (ks_window s)) <= w.
Proof.
  intros H Hd. induction H as [s E|h s x choice ks s' H IH Hl E|h s H IH].
  - unfold kswin_init in E.
    destruct (nltb alpha n0 || nltb n1 alpha); [discriminate|].
    destruct (w <? 0) eqn:Ew; [discriminate|]. destruct (w <? st); [discriminate|].
    inversion E; subst; simpl. split; auto. exists []. reflexivity.
  - destruct IH as ((pre & ->) & Hlen). pose proof (khist_params _ _ H) as (_ & Hw & Hst & _).
    pose proof (kswin_add_cases _ _ _ _ _ Hl E) as [(Hlt & -> & _)|(y & v & Ev & Hge & Hs & C)].
    + split; [exists pre; rewrite app_assoc; reflexivity|]. rewrite app_length. simpl. lia.
    + rewrite Ev in *. destruct C as [(_ & ->)|(_ & ->)].
      * split; [exists (pre ++ [y]); rewrite <- !app_assoc; reflexivity|]. rewrite app_length. simpl in *. lia.
      * split.
        -- exists (pre ++ [y] ++ butlastn (Z.to_nat (ks_stat_size s)) v).
           replace (y :: v) with ([y] ++ (butlastn (Z.to_nat (ks_stat_size s)) v ++ lastn (Z.to_nat (ks_stat_size s)) v))
             by (rewrite butlastn_lastn; reflexivity).
           rewrite <- !app_assoc. reflexivity.
        -- rewrite app_length, lastn_length. simpl in *. lia.
  - simpl. pose proof (khist_params _ _ H) as (_ & _ & _ & H0). split; [exists []; auto|]. simpl. lia.
Qed.

Lemma kswin_after_change_proof h s x choice ks s' :
  khist h s -> Z.of_nat (length data_list) <= w -> legal_choice choice -> kswin_add choice ks s x = Ok s' ->
  (ks_change s' = true ->
     ks_window s' = lastn (Z.to_nat st) h ++ [x] /\ w <= Z.of_nat (length h) /\ 1 <= st < Z.of_nat (length h))
  /\ (ks_change s' = false -> Z.of_nat (length (ks_window s)) < w -> ks_window s' = ks_window s ++ [x])
  /\ (ks_change s' = false -> Z.of_nat (length (ks_window s)) = w -> ks_window s' = tl (ks_window s) ++ [x]).
Proof.
  intros H Hd Hl E. destruct (kswin_window_proof _ _ H Hd) as ((pre & ->) & Hlen).
  pose proof (khist_params _ _ H) as (_ & Hw & Hst & _).
  pose proof (kswin_add_cases _ _ _ _ _ Hl E) as [(Hlt & E1 & E2)|(y & v & Ev & Hge & Hs & C)].
  - rewrite E1, E2. repeat split; try discriminate; auto; intros; lia.
  - rewrite Ev in *. destruct C as [(Ec & ->)|(Ec & ->)]; rewrite Ec; repeat split; try discriminate; auto.
    + intros. lia.
    + rewrite Hst in *. f_equal.
      replace (pre ++ y :: v) with ((pre ++ [y]) ++ v) by (rewrite <- app_assoc; reflexivity).
      unfold lastn. rewrite skipn_app, (skipn_all2 (pre ++ [y])) by (rewrite !app_length in *; simpl in *; lia).
      simpl. f_equal. rewrite !app_length. simpl. lia.
    + rewrite app_length in *. simpl in *. lia.
    + lia.
    + rewrite app_length. simpl in *. lia.
Qed.

(** long enough windows never raise *)
Lemma kswin_accepts_proof h s x choice ks :
  1 <= st -> st + 2 <= w -> khist h s -> legal_choice choice -> exists s', kswin_add choice ks s x = Ok s'.
Proof.
  intros H1 H2 H Hl. pose proof (khist_params _ _ H) as (_ & Hw & Hst & _).
  unfold kswin_add. rewrite Hw, Hst. destruct (w <=? Z.of_nat (length (ks_window s))) eqn:El; [|eauto].
  apply Z.leb_le in El. destruct (ks_window s) as [|y v] eqn:Ev; [simpl in El; lia|].
  simpl in El.
  destruct (test_can choice ks v st Hl H1 ltac:(lia)) as (rnd & E1 & E2).
  rewrite E1. cbn [bind]. rewrite E2. destruct (ks rnd _). cbn [bind]. eauto.
Qed.

(** all other accepted configurations raise once the window is full *)
Lemma kswin_add_full choice ks s x : legal_choice choice ->
  Z.of_nat (length (ks_window s)) = ks_window_size s ->
  ks_stat_size s < 1 \/ ks_window_size s < ks_stat_size s + 2 ->
  exists e, kswin_add choice ks s x = Raise e.
Proof.
  intros Hl Hlen Hbad. destruct (kswin_add choice ks s x) as [s'|e] eqn:E; [|eauto].
  pose proof (kswin_add_cases _ _ _ _ _ Hl E) as [(Hlt & _)|(y & v & Ev & _ & Hs & _)]; [lia|].
  rewrite Ev in *. simpl in *. lia.
Qed.

Lemma kfeed_fill choice ks l : forall s,
  Z.of_nat (length (ks_window s)) + Z.of_nat (length l) <= ks_window_size s ->
  exists s', kfeed choice ks s l = Ok s' /\ ks_window s' = ks_window s ++ l
    /\ ks_window_size s' = ks_window_size s /\ ks_stat_size s' = ks_stat_size s.
Proof.
  induction l as [|x l IH]; intros s H.
  - exists s. rewrite app_nil_r. simpl. auto.
  - simpl kfeed. unfold kswin_add.
    simpl in H. destruct (ks_window_size s <=? Z.of_nat (length (ks_window s))) eqn:E; [apply Z.leb_le in E; lia|].
    cbn [bind]. edestruct IH as (s' & E1 & E2 & E3 & E4); [|exists s'; repeat split; [exact E1|..]].
    + simpl. rewrite app_length. simpl. lia.
    + rewrite E2. simpl. rewrite <- app_assoc. reflexivity.
    + rewrite E3. reflexivity.
    + rewrite E4. reflexivity.
Qed.

Lemma kfeed_app choice ks (l1 l2 : list T) : forall s,
  kfeed choice ks s (l1 ++ l2) = (s' <- kfeed choice ks s l1 ;; kfeed choice ks s' l2).
Proof.
  induction l1 as [|x l1 IH]; intros s; simpl; auto.
  destruct (kswin_add choice ks s x); cbn [bind]; auto.
Qed.

Lemma kswin_raises_proof choice ks s l :
  kswin_init alpha w st None = Ok s -> legal_choice choice ->
  st < 1 \/ w < st + 2 -> w < Z.of_nat (length l) ->
  exists e, kfeed choice ks s l = Raise e.
Proof.
  intros E Hl Hbad Hlen. unfold kswin_init in E.
  destruct (nltb alpha n0 || nltb n1 alpha); [discriminate|].
  destruct (w <? 0) eqn:Ew; [discriminate|]. destruct (w <? st); [discriminate|].
  apply Z.ltb_ge in Ew.
  rewrite <- (firstn_skipn (Z.to_nat w) l), kfeed_app.
  assert (Hf : length (firstn (Z.to_nat w) l) = Z.to_nat w) by (rewrite firstn_length; lia).
  edestruct (kfeed_fill choice ks (firstn (Z.to_nat w) l) s) as (s' & E1 & E2 & E3 & E4).
  { inversion E; subst; simpl. lia. }
  rewrite E1. cbn [bind]. destruct (skipn (Z.to_nat w) l) as [|x r] eqn:Es.
  { apply (f_equal (@length T)) in Es. rewrite skipn_length in Es. simpl in Es. lia. }
  destruct (kswin_add_full choice ks s' x Hl) as (e & Ee).
  - rewrite E2, E3, app_length, Hf. inversion E; subst; simpl. lia.
  - rewrite E3, E4. inversion E; subst; simpl. lia.
  - exists e. cbn [kfeed]. rewrite Ee. reflexivity.
Qed.

Lemma kswin_init_accepts_proof d :
  (exists s, kswin_init alpha w st d = Ok s) <->
  (nltb alpha n0 = false /\ nltb n1 alpha = false /\ 0 <= w /\ st <= w).
Proof.
  unfold kswin_init. destruct (nltb alpha n0), (nltb n1 alpha); simpl;
    try (split; [intros (s & E)|intros (? & ? & _)]; discriminate).
  destruct (w <? 0) eqn:E1; [apply Z.ltb_lt in E1; split; [intros (s & E); discriminate|intros; lia]|].
  destruct (w <? st) eqn:E2; [apply Z.ltb_lt in E2; split; [intros (s & E); discriminate|intros; lia]|].
  apply Z.ltb_ge in E1, E2. split; eauto.
Qed.

End Kswin.
