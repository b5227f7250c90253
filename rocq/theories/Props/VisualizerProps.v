(** What the plots of the evaluators show. *)
From Coq Require Import List ZArith QArith Bool Lia Lqa.
From Verif Require Import Base.Py Spec.Lists Spec.BoundedFifo Model.FastBuffer Spec.FastBufferSpec Proofs.ListFacts Proofs.FastBufferProofs Model.Visualizer.
Import ListNotations.
Local Open Scope nat_scope.

(** ** Lines *)
Lemma set_line_length i l : forall ls, length (set_line i l ls) = length ls.
Proof. induction i as [|i IH]; intros [|x r]; cbn; auto. Qed.
Lemma set_line_nth i l : forall ls j, i < length ls -> nth_error (set_line i l ls) j = if Nat.eqb j i then Some l else nth_error ls j.
Proof.
  induction i as [|i IH]; intros [|x r] [|j] H; cbn in *; try lia; auto. apply IH. lia.
Qed.
Lemma append_some n data : length data = n -> forall k ls, k <= n -> length ls = n ->
  exists ls', fold_left (append_one data) (seq 0 k) (Ok ls) = Ok ls' /\ length ls' = n
    /\ forall i, i < n -> nth_error ls' i = if i <? k then Some (nth i ls [] ++ [nth i data 0%Q]) else nth_error ls i.
Proof.
  intros Hd. induction k as [|k IH]; intros ls Hk Hl.
  - exists ls. cbn. auto.
  - destruct (IH ls ltac:(lia) Hl) as (ls' & E & L & N). rewrite seq_S, fold_left_app, E. cbn [Nat.add fold_left append_one].
    assert (Nk : nth_error ls' k = Some (nth k ls [])).
    { rewrite N, Nat.ltb_irrefl by lia. apply nth_error_nth'. lia. }
    assert (Dk : nth_error data k = Some (nth k data 0%Q)) by (apply nth_error_nth'; lia).
    rewrite Nk, Dk. eexists. split; [reflexivity|]. rewrite set_line_length. split; [exact L|]. intros i Hi. rewrite set_line_nth by lia.
    destruct (Nat.eqb_spec i k) as [->|Ne]; [rewrite (proj2 (Nat.ltb_lt k (S k))) by lia; reflexivity|]. rewrite N by lia.
    destruct (Nat.ltb_spec i k), (Nat.ltb_spec i (S k)); auto; lia.
Qed.
Lemma append_values_ok n data ls : length data = n -> length ls = n ->
  exists ls', append_values n ls data = Ok ls' /\ length ls' = n /\ forall i, i < n -> nth i ls' [] = nth i ls [] ++ [nth i data 0%Q].
Proof.
  intros Hd Hl. destruct (append_some n data Hd n ls (le_n n) Hl) as (ls' & E & L & N). exists ls'. split; [exact E|]. split; [exact L|].
  intros i Hi. specialize (N i Hi). rewrite (proj2 (Nat.ltb_lt i n) Hi) in N. now apply nth_error_nth.
Qed.
Definition fits (n : nat) (e : event) : Prop := length (e_mean e) = n /\ length (e_current e) = n.

(** The clock of the drawing, apart from the rest *)
Lemma after_inv n metric ev : (forall k, fits n (ev k)) -> forall N, exists s, after n metric ev N = Ok s
  /\ v_ids s = map (fun k => e_id (ev k)) (seq 0 N)
  /\ length (v_mean s) = n /\ length (v_current s) = n
  /\ (forall i, i < n -> nth i (v_mean s) [] = map (fun k => nth i (e_mean (ev k)) 0%Q) (seq 0 N) /\ nth i (v_current s) [] = map (fun k => nth i (e_current (ev k)) 0%Q) (seq 0 N))
  /\ length (v_drawn s) = N.
Proof.
  intros F. induction N as [|N (s & E & I & Lm & Lc & V & D)].
  - exists (new_viz n). cbn. rewrite !repeat_length. repeat split; auto; intros; rewrite nth_repeat; reflexivity.
  - cbn [after]. rewrite E. unfold train_step. destruct (F N) as [Fm Fc].
    destruct (append_values_ok n (e_mean (ev N)) (v_mean s) Fm Lm) as (ms & Em & Lm' & Nm). destruct (append_values_ok n (e_current (ev N)) (v_current s) Fc Lc) as (cs & Ec & Lc' & Nc).
    rewrite Em, Ec. destruct (limits n metric ms cs) as [[lo hi] pad]. eexists. split; [reflexivity|]. cbn [v_ids v_mean v_current v_drawn].
    rewrite !seq_S, !map_app, I. cbn [map Nat.add]. split; [reflexivity|]. split; [exact Lm'|]. split; [exact Lc'|]. split.
    + intros i Hi. rewrite !map_app, Nm, Nc by exact Hi. destruct (V i Hi) as [-> ->]. auto.
    + rewrite app_length, D. cbn. lia.
Qed.

(** C384: whatever the calls, if each brings a value per model, the two lines of each model are the values of all calls in order over the sample ids of
    all calls in order. *)
Theorem plot_lines : forall n metric ev N, (forall k, length (e_mean (ev k)) = n /\ length (e_current (ev k)) = n) ->
  exists s, after n metric ev N = Ok s /\ v_ids s = map (fun k => e_id (ev k)) (seq 0 N)
    /\ forall i, i < n -> nth_error (v_mean s) i = Some (map (fun k => nth i (e_mean (ev k)) 0%Q) (seq 0 N))
                       /\ nth_error (v_current s) i = Some (map (fun k => nth i (e_current (ev k)) 0%Q) (seq 0 N)).
Proof.
  intros n metric ev N F. destruct (after_inv n metric ev F N) as (s & E & I & Lm & Lc & V & _). exists s. split; [exact E|]. split; [exact I|].
  intros i Hi. destruct (V i Hi) as [<- <-]. split; apply nth_error_nth'; lia.
Qed.

Lemma append_raise data e l : fold_left (append_one data) l (Raise e) = Raise e.
Proof. induction l; cbn; auto. Qed.
(** A call that brings fewer values than there are models is refused with a ValueError. *)
Theorem plot_short_call : forall n metric ev N s e, (forall k, length (e_mean (ev k)) = n /\ length (e_current (ev k)) = n) -> after n metric ev N = Ok s ->
  length (e_mean e) < n \/ length (e_current e) < n -> train_step n metric s e = Raise ValueError.
Proof.
  intros n metric ev N s e F E H. destruct (after_inv n metric ev F N) as (s' & E' & _ & Lm & Lc & _). rewrite E in E'. injection E' as <-.
  assert (Short : forall data ls, length data < n -> append_values n ls data = Raise ValueError).
  { intros data ls Hs. unfold append_values. replace n with (length data + S (n - length data - 1)) by lia. rewrite seq_app, fold_left_app. cbn [Nat.add seq fold_left].
    assert (Any : forall acc, (exists l, acc = Ok l) \/ acc = Raise ValueError -> append_one data acc (length data) = Raise ValueError).
    { intros acc [[l ->]| ->]; cbn; [|reflexivity]. rewrite (proj2 (nth_error_None data (length data)) (le_n _)). now destruct (nth_error l (length data)). }
    rewrite Any; [apply append_raise|]. generalize (seq 0 (length data)). intros is. assert (G : forall is acc, (exists l, acc = Ok l) \/ acc = Raise ValueError -> (exists l, fold_left (append_one data) is acc = Ok l) \/ fold_left (append_one data) is acc = Raise ValueError).
    { clear. induction is as [|i r IH]; intros acc Ha; cbn [fold_left]; [exact Ha|]. apply IH. destruct Ha as [[l ->]| ->]; cbn; [|now right]. destruct (nth_error l i), (nth_error data i); eauto. }
    apply G. left. now exists ls. }
  unfold train_step. destruct H as [H|H]; rewrite (Short _ _ H); [reflexivity|]. now destruct (append_values n (v_mean s) (e_mean e)).
Qed.

(** ** Drawing *)
Definition draws (s : viz) (k : nat) : Prop := nth_error (v_drawn s) k = Some true.
Definition silent (s : viz) (a b : nat) : Prop := forall m, a <= m < b -> ~ draws s m.
(** the frame counter and the time of the last drawing say when that was *)
Definition clock_ok (ev : nat -> event) (N : nat) (s : viz) : Prop :=
  (silent s 0 N /\ v_frames s = N /\ v_last s = 0%Q) \/ (exists j, j < N /\ draws s j /\ silent s (S j) N /\ N = S j + v_frames s /\ v_last s = e_time (ev j)).
Definition decided (ev : nat -> event) (N : nat) (s : viz) : Prop := forall k, k < N ->
  (silent s 0 k -> (draws s k <-> (e_time (ev k) > 1)%Q \/ k = 5))
  /\ (forall j, j < k -> draws s j -> silent s (S j) k -> (draws s k <-> (e_time (ev k) - e_time (ev j) > 1)%Q \/ k = j + 6)).
Lemma draw_test f t l : (Nat.eqb f 5 || negb (Qle_bool (t - l) 1)) = true <-> (t - l > 1)%Q \/ f = 5.
Proof.
  rewrite orb_true_iff, Nat.eqb_eq, negb_true_iff. split; intros [H|H]; auto; [left|right].
  - destruct (Qlt_le_dec 1 (t - l)) as [G|G]; [exact G|]. apply Qle_bool_iff in G. congruence.
  - destruct (Qle_bool (t - l) 1) eqn:G; [|reflexivity]. apply Qle_bool_iff in G. lra.
Qed.
Lemma draw_inv n metric ev : (forall k, fits n (ev k)) -> forall N s, after n metric ev N = Ok s -> clock_ok ev N s /\ decided ev N s.
Proof.
  intros F. induction N as [|N IH]; intros s' E'.
  - cbn in E'. injection E' as <-. split; [left; split; [intros m Hm; lia|auto]|intros k Hk; lia].
  - destruct (after_inv n metric ev F N) as (s & E & _ & Lm & Lc & _ & D). destruct (IH s E) as [C Dc]. clear IH. cbn [after] in E'. rewrite E in E'. unfold train_step in E'.
    destruct (F N) as [Fm Fc].
    destruct (append_values_ok n (e_mean (ev N)) (v_mean s) Fm Lm) as (ms & Em & _ & _). destruct (append_values_ok n (e_current (ev N)) (v_current s) Fc Lc) as (cs & Ec & _ & _).
    rewrite Em, Ec in E'. destruct (limits n metric ms cs) as [[lo hi] pad]. set (b := Nat.eqb (v_frames s) 5 || negb (Qle_bool (e_time (ev N) - v_last s) 1)) in E'. cbv zeta in E'.
    injection E' as <-. set (s' := mk_viz _ _ _ _ _ _ _ _). pose proof (draw_test (v_frames s) (e_time (ev N)) (v_last s)) as T. fold b in T.
    assert (Old : forall m, m < N -> (draws s' m <-> draws s m)) by (intros m Hm; unfold draws; cbn [v_drawn s']; rewrite nth_error_app1 by lia; reflexivity).
    assert (New : draws s' N <-> b = true).
    { unfold draws. cbn [v_drawn s']. rewrite nth_error_app2, D, Nat.sub_diag by lia. cbn. split; congruence. }
    assert (Sil : forall a m, m <= N -> (silent s' a m <-> silent s a m)).
    { intros a m Hm. unfold silent. split; intros H q Hq G; apply (H q Hq); apply Old; auto; lia. }
    split.
    + destruct b eqn:B.
      * right. exists N. split; [lia|]. split; [now apply New|]. split; [intros m Hm; lia|]. cbn. split; [lia|reflexivity].
      * assert (Nd : ~ draws s' N) by (rewrite New; discriminate). destruct C as [(C1 & C2 & C3)|(j & C1 & C2 & C3 & C4 & C5)].
        -- left. cbn. split; [|split; [lia|exact C3]]. intros m Hm. destruct (Nat.eq_dec m N) as [->|]; [exact Nd|]. rewrite Old by lia. apply C1. lia.
        -- right. exists j. cbn [v_frames v_last s']. split; [lia|]. split; [apply Old; auto|]. split; [|split; [lia|exact C5]].
           intros m Hm. destruct (Nat.eq_dec m N) as [->|]; [exact Nd|]. rewrite Old by lia. apply C3. lia.
    + intros k Hk. destruct (Nat.eq_dec k N) as [->|Ne].
      * split.
        -- rewrite Sil by lia. intros S0. destruct C as [(C1 & C2 & C3)|(j & C1 & C2 & _)]; [|exfalso; apply (S0 j); auto; lia].
           rewrite New, T, C2, C3. split; (intros [H|H]; [left; lra|right; exact H]).
        -- intros j Hj Dj Sj. rewrite Old in Dj by lia. rewrite Sil in Sj by lia. destruct C as [(C1 & _)|(j' & C1 & C2 & C3 & C4 & C5)]; [exfalso; apply (C1 j); auto; lia|].
           assert (j' = j) as ->. { destruct (Nat.lt_trichotomy j' j) as [H|[H|H]]; auto; exfalso; [apply (C3 j)|apply (Sj j')]; auto; lia. }
           rewrite New, T, C5. split; (intros [H|H]; [left; exact H|right; lia]).
      * assert (Hk' : k < N) by lia. destruct (Dc k Hk') as [D1 D2]. rewrite (Sil 0 k), (Old k) by lia. split; [exact D1|].
        intros j Hj Dj Sj. rewrite (Old k) by lia. apply D2; [exact Hj|apply (proj1 (Old j ltac:(lia))); exact Dj|apply (proj1 (Sil (S j) k ltac:(lia))); exact Sj].
Qed.

(** C385: a call draws the figure exactly if more than a second has passed since the last drawing, or it is the sixth call since then (before the first
    drawing the clock counts from 0); so there are never six calls in a row without a drawing. *)
Theorem plot_redraws : forall n metric ev N s, (forall k, length (e_mean (ev k)) = n /\ length (e_current (ev k)) = n) -> after n metric ev N = Ok s ->
  let draws k := nth_error (v_drawn s) k = Some true in
  (forall k, k < N -> (forall m, m < k -> ~ draws m) -> (draws k <-> (e_time (ev k) > 1)%Q \/ k = 5))
  /\ (forall j k, j < k < N -> draws j -> (forall m, j < m < k -> ~ draws m) -> (draws k <-> (e_time (ev k) - e_time (ev j) > 1)%Q \/ k = j + 6))
  /\ (forall k, k + 6 <= N -> exists m, k <= m < k + 6 /\ draws m).
Proof.
  intros n metric ev N s F E dr. destruct (draw_inv n metric ev F N s E) as [_ D].
  assert (P1 : forall k, k < N -> (forall m, m < k -> ~ dr m) -> (dr k <-> (e_time (ev k) > 1)%Q \/ k = 5)).
  { intros k Hk H. apply (proj1 (D k Hk)). intros m Hm. apply H. lia. }
  assert (P2 : forall j k, j < k < N -> dr j -> (forall m, j < m < k -> ~ dr m) -> (dr k <-> (e_time (ev k) - e_time (ev j) > 1)%Q \/ k = j + 6)).
  { intros j k Hk H1 H2. apply (proj2 (D k (proj2 Hk)) j); [lia|exact H1|]. intros m Hm. apply H2. lia. }
  split; [exact P1|]. split; [exact P2|]. intros k Hk.
  assert (Dec : forall m, {dr m} + {~ dr m}). { intros m. unfold dr. destruct (nth_error (v_drawn s) m) as [[|]|]; [left; reflexivity|right; discriminate|right; discriminate]. }
  assert (Last : forall K, (forall m, m < K -> ~ dr m) \/ exists j, j < K /\ dr j /\ forall m, j < m < K -> ~ dr m).
  { induction K as [|K [H|(j & H1 & H2 & H3)]].
    - left. intros m Hm. lia.
    - destruct (Dec K) as [d|d]; [right; exists K; split; [lia|]; split; [exact d|]; intros m Hm; lia|left]. intros m Hm. destruct (Nat.eq_dec m K) as [->|]; [exact d|apply H; lia].
    - destruct (Dec K) as [d|d]; right; [exists K; split; [lia|]; split; [exact d|]; intros m Hm; lia|]. exists j. split; [lia|]. split; [exact H2|].
      intros m Hm. destruct (Nat.eq_dec m K) as [->|]; [exact d|apply H3; lia]. }
  destruct (Last (k + 6)) as [H|(j & H1 & H2 & H3)].
  - exfalso. apply (H 5); [lia|]. apply P1; [lia| |right; reflexivity]. intros m Hm. apply H. lia.
  - destruct (le_lt_dec k j) as [G|G]; [exists j; split; [lia|exact H2]|]. exfalso. apply (H3 (j + 6)); [lia|]. apply (P2 j (j + 6)); [lia|exact H2| |right; reflexivity]. intros m Hm. apply H3. lia.
Qed.

(** ** Limits *)
Lemma min2_le a b : (min2 a b <= a /\ min2 a b <= b)%Q.
Proof. unfold min2. destruct (Qle_bool a b) eqn:H; [apply Qle_bool_iff in H; lra|]. destruct (Qlt_le_dec b a) as [G|G]; [lra|]. apply Qle_bool_iff in G. congruence. Qed.
Lemma max2_ge a b : (a <= max2 a b /\ b <= max2 a b)%Q.
Proof. unfold max2. destruct (Qle_bool a b) eqn:H; [apply Qle_bool_iff in H; lra|]. destruct (Qlt_le_dec b a) as [G|G]; [lra|]. apply Qle_bool_iff in G. congruence. Qed.
Definition visible (metric : kind) (lo hi v : Q) : Prop :=
  match metric with KappaTM => (lo <= v)%Q | Error => (v <= hi)%Q | Plain => True end.
Definition bounds_ok (metric : kind) (lo hi pad : Q) : Prop :=
  (lo <= 0 /\ 1 <= hi /\ 0 < pad)%Q.
Lemma limits_inv metric ms cs : forall k lo hi pad, fold_left (limit_step metric ms cs) (seq 0 k) (0, 1, 1#10)%Q = (lo, hi, pad) ->
  bounds_ok metric lo hi pad /\ forall i, i < k -> visible metric lo hi (newest_of ms i) /\ visible metric lo hi (newest_of cs i).
Proof.
  induction k as [|k IH]; intros lo hi pad E.
  - cbn in E. injection E as <- <- <-. split; [unfold bounds_ok; lra|intros; lia].
  - rewrite seq_S, fold_left_app in E. destruct (fold_left _ (seq 0 k) _) as [[lo0 hi0] pad0]. destruct (IH _ _ _ eq_refl) as [B V]. clear IH.
    cbn [Nat.add fold_left limit_step] in E. unfold bounds_ok in B.
    pose proof (min2_le (newest_of ms k) (newest_of cs k)) as M1. pose proof (min2_le (min2 (newest_of ms k) (newest_of cs k)) lo0) as M2.
    pose proof (max2_ge (newest_of ms k) (newest_of cs k)) as M3. pose proof (max2_ge (max2 (newest_of ms k) (newest_of cs k)) hi0) as M4.
    destruct metric; injection E as <- <- <-; cbn [visible] in *.
    + split; [unfold bounds_ok; lra|]. intros i Hi. destruct (Nat.eq_dec i k) as [->|]; [lra|]. destruct (V i ltac:(lia)). lra.
    + split; [unfold bounds_ok; lra|]. intros i Hi. destruct (Nat.eq_dec i k) as [->|]; [lra|]. destruct (V i ltac:(lia)). lra.
    + split; [exact B|]. auto.
Qed.
(** C386: after each call the newest values of all models, mean and current, lie within the limits of the axis, for the metrics the code knows to leave
    the range from 0 to 1: kappa T and kappa M (at most 1), the errors (at least 0); and for the others as long as they are in that range ... *)
Theorem plot_limits : forall n metric ev N s, (forall k, length (e_mean (ev k)) = n /\ length (e_current (ev k)) = n) -> after n metric ev (S N) = Ok s ->
  forall i v, i < n -> (v = nth i (e_mean (ev N)) 0 \/ v = nth i (e_current (ev N)) 0)%Q ->
  match metric with KappaTM => (v <= 1)%Q | Error => (0 <= v)%Q | Plain => (0 <= v <= 1)%Q end ->
  (v_low s < v < v_high s)%Q.
Proof.
  intros n metric ev N s' F E' i v Hi Hv Hm. destruct (after_inv n metric ev F N) as (s & E & _ & Lm & Lc & _ & _). cbn [after] in E'. rewrite E in E'. unfold train_step in E'.
  destruct (F N) as [Fm Fc].
  destruct (append_values_ok n (e_mean (ev N)) (v_mean s) Fm Lm) as (ms & Em & _ & Nm). destruct (append_values_ok n (e_current (ev N)) (v_current s) Fc Lc) as (cs & Ec & _ & Nc).
  rewrite Em, Ec in E'. destruct (limits n metric ms cs) as [[lo hi] pad] eqn:L. cbv zeta in E'. injection E' as <-. cbn [v_low v_high].
  destruct (limits_inv metric ms cs n lo hi pad L) as [B V]. unfold bounds_ok in B. destruct (V i Hi) as [V1 V2]. unfold newest_of in V1, V2. rewrite Nm, last_last in V1 by exact Hi. rewrite Nc, last_last in V2 by exact Hi.
  destruct metric; cbn [visible] in *; destruct Hv; subst v; lra.
Qed.
(** ... but kappa, precision and the like are treated as never negative, so a kappa of -1/2 is drawn below the axis; and the limits follow the newest
    values only, so an error of 100 that was shown before leaves the plot when the error falls to 2. *)
Theorem plot_limits_refuted :
  (exists s, after 1 Plain (fun k => mk_ev (Z.of_nat k) 0 [-(1#2)]%Q [-(1#2)]%Q) 1 = Ok s /\ (-(1#2) < v_low s)%Q)
  /\ (exists s, after 1 Error (fun k => mk_ev (Z.of_nat k) 0 [if Nat.eqb k 0 then 100 else 2]%Q [if Nat.eqb k 0 then 100 else 2]%Q) 2 = Ok s
        /\ v_mean s = [[100; 2]]%Q /\ (v_high s < 100)%Q).
Proof. split; eexists; (split; [vm_compute; reflexivity|]); [vm_compute; reflexivity|]. split; vm_compute; reflexivity. Qed.

(** ** Points *)
Section Points.
Context {P : Type}.
Lemma add_point_nth p (x : P) : forall cl k j, nth_error (add_point p x k cl) j = option_map (fun c => if (p =? Z.of_nat (k + j))%Z then fst (fb_add c [x]) else c) (nth_error cl j).
Proof.
  induction cl as [|c r IH]; intros k [|j]; cbn; auto; [now rewrite Nat.add_0_r|]. rewrite IH. now rewrite <- plus_n_Sm.
Qed.
Lemma add_point_length p (x : P) : forall cl k, length (add_point p x k cl) = length cl.
Proof. induction cl; intros; cbn; auto. Qed.
Lemma rep_add n (q : list P) c x : 1 <= n -> rep n q c -> rep n (lastn n (q ++ [x])) (fst (fb_add c [x])).
Proof.
  intros Hn R. pose proof (step_refines n q c (Add [x]) Hn R) as H. cbn in H. destruct (fb_add c [x]) as [c' r]. cbn in *. exact (proj1 H).
Qed.
Definition of_class (k : nat) (h : list (P * Z)) : list P := map fst (filter (fun c => (snd c =? Z.of_nat k)%Z) h).
Lemma points_inv t (h : list (P * Z)) : Forall (fun c => (0 <= snd c < Z.of_nat t)%Z) h ->
  length (points_after t h) = t * length h /\ forall k c, nth_error (points_after t h) k = Some c -> rep 100 (lastn 100 (of_class k h)) c.
Proof.
  induction h as [|[x p] h IH] using rev_ind; intros F.
  - cbn. split; [lia|]. intros [|k] c; discriminate.
  - apply Forall_app in F. destruct F as [F Fp]. destruct (IH F) as [L R]. clear IH. inversion Fp as [|? ? Hp _]; subst. cbn [snd] in Hp.
    unfold points_after in *. rewrite fold_left_app. cbn [fold_left]. unfold points_step at 1 3. cbn [fst snd]. split.
    + rewrite add_point_length, app_length, repeat_length, app_length. cbn [length]. rewrite L. lia.
    + intros k c. rewrite add_point_nth. cbn [Nat.add]. set (cl := fold_left _ h []) in *.
      destruct (nth_error (cl ++ repeat (fb_init 100 None) t) k) as [c0|] eqn:E; [|discriminate]. cbn [option_map].
      assert (R0 : rep 100 (lastn 100 (of_class k h)) c0).
      { destruct (lt_dec k (length cl)) as [G|G]; [rewrite nth_error_app1 in E by exact G; now apply R|].
        rewrite nth_error_app2 in E by lia. apply nth_error_In in E. apply repeat_spec in E. subst c0.
        assert (of_class k h = []) as ->.
        { unfold of_class. destruct (filter _ h) as [|[y q] r] eqn:Fi; [reflexivity|exfalso]. assert (In (y, q) (filter (fun c => (snd c =? Z.of_nat k)%Z) h)) as I by (rewrite Fi; left; reflexivity).
          apply filter_In in I. destruct I as [I J]. apply Z.eqb_eq in J. cbn [snd] in J. rewrite Forall_forall in F. specialize (F _ I). cbn [snd] in F.
          destruct h as [|e h]; [exact I|]. cbn [length] in L. nia. }
        apply (rep_init 100). }
      unfold of_class in *. rewrite filter_app, map_app. cbn [filter snd]. intros H. injection H as <-. destruct (p =? Z.of_nat k)%Z eqn:G; cbn [map fst]; [|now rewrite app_nil_r].
      pose proof (rep_add 100 _ c0 x ltac:(lia) R0) as R1. rewrite lastn_lastn_app in R1. exact R1.
Qed.
(** C387: if the classes are numbered 0, 1, ... up to the number of target values, the points shown for each class are the last 100 predicted as that
    class, in order ... *)
Theorem plot_points : forall (t : nat) (h : list (P * Z)) (k : nat), Forall (fun c => (0 <= snd c < Z.of_nat t)%Z) h ->
  scattered t h k = lastn 100 (map fst (filter (fun c => (snd c =? Z.of_nat k)%Z) h)).
Proof.
  intros t h k F. destruct (points_inv t h F) as [L R]. unfold scattered. destruct (nth_error (points_after t h) k) as [c|] eqn:E; [exact (proj1 (R k c E))|].
  apply nth_error_None in E. rewrite L in E. destruct (filter (fun c => (snd c =? Z.of_nat k)%Z) h) as [|[y q] r] eqn:Fi; [reflexivity|exfalso].
  assert (In (y, q) (filter (fun c => (snd c =? Z.of_nat k)%Z) h)) as I by (rewrite Fi; left; reflexivity).
  apply filter_In in I. destruct I as [I J]. apply Z.eqb_eq in J. cbn [snd] in J. rewrite Forall_forall in F. specialize (F _ I). cbn [snd] in F.
  destruct h as [|e h]; [exact I|]. cbn [length] in E. nia.
Qed.
(** ... but the number of buffers kept grows with every call, ... *)
Theorem plot_points_memory_refuted : forall (t : nat) (h : list (P * Z)), length (points_after t h) = t * length h.
Proof.
  intros t. induction h as [|c h IH] using rev_ind; [cbn; lia|]. unfold points_after in *. rewrite fold_left_app. cbn [fold_left]. unfold points_step at 1.
  rewrite add_point_length, app_length, repeat_length, app_length, IH. cbn [length]. lia.
Qed.
End Points.
(** ... and the points of other labels are lost: with the target values 1 and 2 the first point, predicted as 2, is never shown, the second one is. *)
Theorem plot_points_refuted : forall k, ~ In 10%Z (scattered 2 [(10, 2); (20, 2)]%Z k).
Proof. intros [|[|[|[|k]]]]; cbv; try tauto; [intros [H|H]; [discriminate|exact H]|]. destruct k; cbv; tauto. Qed.

Example plot_example : let ev k := mk_ev (Z.of_nat (100 * k)) (inject_Z (Z.of_nat k) * (1#10) + 5) [1#2; 1#4]%Q [1#3; 1#5]%Q in
  (forall k, length (e_mean (ev k)) = 2 /\ length (e_current (ev k)) = 2)
  /\ exists s, after 2 KappaTM ev 9 = Ok s /\ v_drawn s = [true; false; false; false; false; false; true; false; false].
Proof. cbv zeta. split; [intros; split; reflexivity|]. eexists. split; vm_compute; reflexivity. Qed.
Example points_example : Forall (fun c : Z * Z => (0 <= snd c < Z.of_nat 2)%Z) [(10, 0); (20, 1); (30, 0)]%Z /\ scattered 2 [(10, 0); (20, 1); (30, 0)]%Z 0 = [10; 30]%Z.
Proof. split; [repeat constructor; cbn; lia|vm_compute; reflexivity]. Qed.

Print Assumptions plot_lines. Print Assumptions plot_short_call. Print Assumptions plot_redraws. Print Assumptions plot_limits. Print Assumptions plot_limits_refuted.
Print Assumptions plot_points. Print Assumptions plot_points_memory_refuted. Print Assumptions plot_points_refuted.
