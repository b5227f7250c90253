From Coq Require Import List ZArith Lia.
From Verif Require Import Base.Py Spec.Lists Spec.WindowSpec Spec.SlidingWindowSpec Model.SlidingWindow Proofs.ListFacts.
Import ListNotations.

Section P.
Context {A : Type}.

Definition srep (n : nat) (sh : option (nat * nat)) (w : list (list A * list A)) (s : swin A) : Prop :=
  sw_wsize s = Z.of_nat n /\ length w <= n /\
  match sh with
  | None => w = [] /\ sw_X s = None /\ sw_y s = None /\ sw_inited s = false
  | Some (nf, nt) =>
      sw_nfeat s = Z.of_nat nf /\ sw_ntarg s = Z.of_nat nt /\ sw_inited s = true /\
      sw_X s = Some (mkND nf (map fst w)) /\ sw_y s = Some (mkND nt (map snd w))
  end.

Lemma lastn_snoc_full {B} n (w : list B) p : 1 <= n -> length w = n -> lastn n (w ++ [p]) = tl w ++ [p].
Proof.
  intros Hn Hw. rewrite lastn_app_l by (simpl; lia). f_equal. simpl.
  unfold lastn. replace (length w - (n - 1)) with 1 by lia. destruct w; reflexivity.
Qed.

Lemma map_tl {B C} (f : B -> C) l : map f (tl l) = tl (map f l).
Proof. destruct l; reflexivity. Qed.

Lemma sadd_rep n sh w s x y :
  1 <= n -> srep n sh w s ->
  match sh with None => True | Some (nf, nt) => length x = nf /\ length y = nt end ->
  exists s', sw_add s (row1 x) (row1 y) = (s', Ok tt) /\
    srep n (Some (length x, length y)) (lastn n (w ++ [(x, y)])) s'.
Proof.
  intros Hn (Hw & Hle & Hsh) Hc.
  assert (Hconf : exists s1, sw_configure s (row1 x) (row1 y) = s1 /\
            srep n (Some (length x, length y)) w s1).
  { destruct sh as [[nf nt]|].
    - destruct Hc as [<- <-]. destruct Hsh as (H1 & H2 & H3 & H4 & H5).
      exists s. unfold sw_configure. rewrite H3. split; auto. repeat split; auto.
    - destruct Hsh as (-> & H1 & H2 & H3).
      unfold sw_configure. rewrite H3. eexists; split; [reflexivity|].
      repeat split; simpl; auto; lia. }
  destruct Hconf as (s1 & Hs1 & Hw1 & _ & Hf & Ht & Hi & HX & Hy).
  unfold sw_add. rewrite Hs1. cbv zeta. rewrite Hf. cbn [nd_cols row1]. rewrite Z.eqb_refl. simpl negb. cbv iota.
  rewrite HX, Hy. unfold sw_size. rewrite HX. cbn [nd_rows]. rewrite map_length, Hw1.
  destruct (Z.of_nat (length w) =? Z.of_nat n)%Z eqn:E.
  - apply Z.eqb_eq in E. assert (Hlen : length w = n) by lia.
    rewrite lastn_snoc_full by auto.
    destruct w as [|p w]; [simpl in Hlen; lia|].
    unfold np_delete0, np_vstack. simpl. rewrite !Nat.eqb_refl.
    eexists; split; [reflexivity|].
    repeat split; simpl; auto; try (rewrite !app_length; simpl in *; lia);
      f_equal; f_equal; rewrite map_app; reflexivity.
  - apply Z.eqb_neq in E.
    rewrite lastn_all by (rewrite app_length; simpl; lia).
    unfold np_vstack. simpl. rewrite !Nat.eqb_refl.
    eexists; split; [reflexivity|].
    repeat split; simpl; auto; try (rewrite !app_length; simpl in *; lia);
      f_equal; f_equal; rewrite map_app; reflexivity.
Qed.

Lemma sdel_rep n sh w s : srep n sh w s -> srep n sh (tl w) (sw_delete_oldest s).
Proof.
  intros (Hw & Hle & Hsh). unfold sw_delete_oldest, sw_size.
  destruct sh as [[nf nt]|].
  - destruct Hsh as (H1 & H2 & H3 & H4 & H5). rewrite H4. simpl. rewrite map_length.
    destruct w as [|p w]; simpl in *.
    + repeat split; auto.
    + rewrite H5. repeat split; simpl; auto; lia.
  - destruct Hsh as (-> & H1 & H2 & H3). rewrite H1. simpl. repeat split; simpl; auto; lia.
Qed.

Lemma srun_rep n ops : forall sh w s,
  1 <= n -> srep n sh w s -> consistent sh ops ->
  let '(s', rs) := sw_run s (map to_sw_op ops) in
  (forall r, In r rs -> r = Ok tt) /\ exists sh', srep n sh' (wrun n w ops) s'.
Proof.
  induction ops as [|o ops IH]; intros sh w s Hn Hrep Hc; simpl.
  - split; [intros r []|]. eexists; eauto.
  - destruct o as [[x y]| |]; simpl in *.
    + assert (Hpre : match sh with None => True | Some (nf, nt) => length x = nf /\ length y = nt end).
      { destruct sh as [[nf nt]|]; auto. tauto. }
      destruct (sadd_rep n sh w s x y Hn Hrep Hpre) as (s1 & Hs & Hr). rewrite Hs.
      assert (Hc' : consistent (Some (length x, length y)) ops).
      { destruct sh as [[nf nt]|]; auto. destruct Hc as (-> & -> & Hc); auto. }
      specialize (IH _ _ _ Hn Hr Hc').
      destruct (sw_run s1 (map to_sw_op ops)). destruct IH as [I1 I2]. split; auto.
      intros r [<-|]; auto.
    + pose proof (sdel_rep _ _ _ _ Hrep) as Hr. specialize (IH _ _ _ Hn Hr Hc).
      destruct (sw_run _ (map to_sw_op ops)). destruct IH as [I1 I2]. split; auto.
      intros r [<-|]; auto.
    + assert (Hr : srep n None [] (sw_reset s)).
      { destruct Hrep as (Hw & _). repeat split; simpl; auto; lia. }
      specialize (IH _ _ _ Hn Hr Hc).
      destruct (sw_run _ (map to_sw_op ops)). destruct IH as [I1 I2]. split; auto.
      intros r [<-|]; auto.
Qed.
End P.

Lemma sliding_window_most_recent_proof :
  forall (A : Type) (n : nat) (ops : list (wop A)),
    1 <= n -> consistent None ops ->
    let '(s, outcomes) := sw_run (sw_init (Z.of_nat n)) (map to_sw_op ops) in
    (forall r, In r outcomes -> r = Ok tt)
    /\ combine (sw_features s) (sw_targets s) = wrun n [] ops
    /\ length (sw_features s) = length (sw_targets s)
    /\ sw_size s = Z.of_nat (length (wrun n [] ops))
    /\ (sw_size s <= Z.of_nat n)%Z.
Proof.
  intros A n ops Hn Hc.
  assert (H0 : srep n None [] (@sw_init A (Z.of_nat n))) by (repeat split; simpl; auto; lia).
  pose proof (srun_rep n ops None [] _ Hn H0 Hc) as H.
  destruct (sw_run _ (map to_sw_op ops)) as [s rs].
  destruct H as (H1 & sh & Hw & Hle & Hsh). split; auto.
  unfold sw_features, sw_targets, sw_size.
  destruct sh as [[nf nt]|].
  - destruct Hsh as (_ & _ & _ & -> & ->). simpl. rewrite !map_length.
    repeat split; auto; try lia.
    clear. induction (wrun n [] ops) as [|[a b] l IH]; simpl; f_equal; auto.
  - destruct Hsh as (-> & -> & -> & _). simpl. repeat split; auto; lia.
Qed.

Lemma wrun_adds {A} n (ps : list (list A * list A)) : forall w, length w <= n ->
  wrun n w (map WAdd ps) = lastn n (w ++ ps).
Proof.
  induction ps as [|p ps IH]; intros w Hw; simpl.
  - rewrite app_nil_r, lastn_all; auto.
  - unfold wrun in *. simpl. rewrite IH by (rewrite lastn_length; lia).
    rewrite lastn_lastn_app, <- app_assoc. reflexivity.
Qed.

Lemma sliding_window_last_samples_proof :
  forall (A : Type) (n nf nt : nat) (ps : list (list A * list A)),
    1 <= n -> (forall p, In p ps -> length (fst p) = nf /\ length (snd p) = nt) ->
    let s := fst (sw_run (sw_init (Z.of_nat n)) (map to_sw_op (map WAdd ps))) in
    combine (sw_features s) (sw_targets s) = lastn n ps.
Proof.
  intros A n nf nt ps Hn Hp s.
  assert (Hc : consistent None (map WAdd ps)).
  { destruct ps as [|[x y] ps]; simpl; auto.
    assert (G : forall l sh, sh = (length x, length y) -> (forall p, In p l -> In p ((x,y)::ps)) ->
      consistent (Some sh) (map WAdd l)).
    { induction l as [|[a b] l IH]; simpl; auto. intros sh -> Hin.
      destruct (Hp (x,y)) as [<- <-]; [left; auto|].
      destruct (Hp (a,b)) as [E1 E2]; [apply Hin; auto|]. simpl in *. auto 10. }
    apply G; auto. intros; right; auto. }
  pose proof (sliding_window_most_recent_proof A n (map WAdd ps) Hn Hc) as H.
  subst s. destruct (sw_run _ _) as [s rs]. simpl. destruct H as (_ & -> & _).
  rewrite wrun_adds by (simpl; lia). reflexivity.
Qed.

(** C04 *)
Lemma sliding_window_feature_mismatch_proof :
  forall (A : Type) (s : swin A) (X y : nd2 A),
    sw_inited s = true -> sw_nfeat s <> Z.of_nat (nd_cols X) ->
    sw_add s X y = (s, Raise ValueError).
Proof.
  intros A s X y Hi Hn. unfold sw_add, sw_configure. rewrite Hi.
  destruct (sw_nfeat s =? Z.of_nat (nd_cols X))%Z eqn:E; auto.
  apply Z.eqb_eq in E. contradiction.
Qed.
