From Coq Require Import List ZArith Lia.
From Verif Require Import Spec.Lists Spec.BoundedFifo Model.FastBuffer Spec.FastBufferSpec Proofs.ListFacts.
Import ListNotations.

Section Fb.
Context {A : Type}.
Implicit Types (s : fbuf A) (xs q : list A).

(** representation invariant for max_size = n *)
Definition rep (n : nat) (q : list A) (s : fbuf A) : Prop :=
  fb_buf s = q /\ fb_size s = Z.of_nat (length q) /\ fb_max s = Z.of_nat n /\ length q <= n.

Lemma butlastn_app_cons n q x xs :
  length q = n -> 1 <= n ->
  exists y q', q = y :: q' /\
    butlastn n (q ++ x :: xs) = y :: butlastn n ((q' ++ [x]) ++ xs).
Proof.
  intros Hq Hn. destruct q as [|y q']; [simpl in Hq; lia|].
  exists y, q'. split; [reflexivity|].
  unfold butlastn. rewrite <- app_assoc. simpl app.
  simpl length in *. rewrite app_length. simpl length.
  replace (S (length q' + S (length xs)) - n) with (S (length q' + S (length xs) - n)) by lia.
  rewrite firstn_cons. f_equal.
Qed.

Lemma add_loop_spec n xs : forall q s aux,
  1 <= n -> rep n q s -> n <= length q + length xs ->
  exists s', fb_add_loop s aux xs = (s', aux ++ map Some (butlastn n (q ++ xs)))
             /\ rep n (lastn n (q ++ xs)) s'.
Proof.
  induction xs as [|x xs IH]; intros q s aux Hn (Hb & Hs & Hm & Hle) Hlen; simpl in *.
  - assert (length q = n) by lia. rewrite app_nil_r.
    unfold butlastn. replace (length q - n) with 0 by lia. simpl. rewrite app_nil_r.
    exists s. split; auto. rewrite lastn_all by lia. repeat split; auto.
  - unfold fb_is_full. rewrite Hs, Hm.
    destruct (Z.of_nat (length q) =? Z.of_nat n)%Z eqn:E.
    + apply Z.eqb_eq in E. assert (Hq : length q = n) by lia.
      destruct (butlastn_app_cons n q x xs Hq Hn) as (y & q' & -> & Hbl).
      unfold fb_get_next. rewrite Hb.
      specialize (IH (q' ++ [x]) (mkFB (fb_size s - 1 + 1) (fb_max s) (q' ++ [x])) (aux ++ [Some y]) Hn).
      simpl in Hq.
      destruct IH as (s' & Hr & Hrep).
      { repeat split; simpl; auto; rewrite ?app_length; simpl in *; try lia. }
      { rewrite app_length; simpl; lia. }
      exists s'. simpl in Hbl. simpl. rewrite Hr, Hbl. simpl. rewrite <- app_assoc. split; [reflexivity|].
      replace (lastn n (y :: q' ++ x :: xs)) with (lastn n ((q' ++ [x]) ++ xs)); auto.
      rewrite <- app_assoc. simpl.
      change (y :: q' ++ x :: xs) with ([y] ++ (q' ++ x :: xs)).
      rewrite (lastn_app_r n [y]); auto. rewrite app_length; simpl. lia.
    + apply Z.eqb_neq in E.
      specialize (IH (q ++ [x]) (mkFB (fb_size s + 1) (fb_max s) (q ++ [x])) aux Hn).
      destruct IH as (s' & Hr & Hrep).
      { repeat split; simpl; auto; rewrite ?app_length; simpl; try lia. }
      { rewrite app_length; simpl; lia. }
      rewrite <- app_assoc in Hr, Hrep. simpl in Hr, Hrep.
      exists s'. rewrite Hb. split; auto.
Qed.

Lemma step_refines n q s o :
  1 <= n -> rep n q s ->
  let '(s', r) := fb_step s (to_op o) in
  let '(q', a) := step n q o in
  rep n q' s' /\ r = to_ret a.
Proof.
  intros Hn Hrep. destruct o as [xs| |]; simpl.
  - unfold fb_add. destruct Hrep as (Hb & Hs & Hm & Hle). rewrite Hs, Hm.
    destruct (Z.of_nat (length q) + Z.of_nat (length xs) <=? Z.of_nat n)%Z eqn:E.
    + apply Z.leb_le in E. rewrite app_length.
      assert (H: (length q + length xs <=? n) = true) by (apply Nat.leb_le; lia). rewrite H.
      simpl. split; auto. rewrite lastn_all by (rewrite app_length; lia).
      repeat split; simpl; rewrite ?app_length, ?Hb; auto; lia.
    + apply Z.leb_gt in E.
      destruct (add_loop_spec n xs q s [] Hn) as (s' & Hr & Hrep'); [repeat split; auto|lia|].
      rewrite Hr. split; auto. simpl.
      assert (H: (length (q ++ xs) <=? n) = false) by (apply Nat.leb_gt; rewrite app_length; lia).
      rewrite H. reflexivity.
  - destruct Hrep as (Hb & Hs & Hm & Hle). unfold fb_get_next. rewrite Hb.
    destruct q as [|x q]; simpl in *; repeat split; simpl; auto; try lia.
  - destruct Hrep as (Hb & Hs & Hm & Hle). repeat split; simpl; auto; lia.
Qed.

Lemma run_refines n ops : forall q s,
  1 <= n -> rep n q s ->
  let '(s', rs) := fb_run s (map to_op ops) in
  let '(q', as_) := run n q ops in
  rep n q' s' /\ rs = map to_ret as_.
Proof.
  induction ops as [|o ops IH]; intros q s Hn Hrep; simpl.
  - split; auto.
  - pose proof (step_refines n q s o Hn Hrep) as H1.
    destruct (fb_step s (to_op o)) as [s1 r1]. destruct (step n q o) as [q1 a1].
    destruct H1 as [H1 ->]. specialize (IH q1 s1 Hn H1).
    destruct (fb_run s1 (map to_op ops)) as [s2 r2]. destruct (run n q1 ops) as [q2 a2].
    destruct IH as [IH ->]. split; auto.
Qed.

Lemma rep_init n : rep n [] (fb_init (Z.of_nat n) None).
Proof. repeat split; simpl; auto; lia. Qed.

(** ** Conservation: everything that leaves plus what is stored is what was added. *)

Lemma step_conserves n q s o :
  1 <= n -> rep n q s ->
  leaves s (to_op o) ++ map Some (fb_buf (fst (fb_step s (to_op o))))
  = map Some (q ++ added [o]).
Proof.
  intros Hn Hrep. pose proof (step_refines n q s o Hn Hrep) as H.
  unfold leaves. destruct (fb_step s (to_op o)) as [s1 r] eqn:Es. simpl.
  destruct (step n q o) as [q1 a] eqn:Ea.
  destruct H as [(Hb & _) ->]. rewrite Hb.
  destruct o as [xs| |]; simpl in *; inversion Ea; subst; clear Ea.
  - rewrite app_nil_r. destruct (length (q ++ xs) <=? n) eqn:E; simpl.
    + apply Nat.leb_le in E. rewrite lastn_all; auto.
    + rewrite <- map_app, butlastn_lastn. reflexivity.
  - destruct q; simpl; rewrite ?app_nil_r; reflexivity.
  - destruct Hrep as (Hb' & _). rewrite Hb', !app_nil_r. reflexivity.
Qed.

Lemma run_conserves n ops : forall q s,
  1 <= n -> rep n q s ->
  all_leaves s (map to_op ops) ++ map Some (fb_buf (fst (fb_run s (map to_op ops))))
  = map Some (q ++ added ops).
Proof.
  induction ops as [|o ops IH]; intros q s Hn Hrep; simpl.
  - rewrite app_nil_r. destruct Hrep as (-> & _). reflexivity.
  - pose proof (step_refines n q s o Hn Hrep) as H1.
    pose proof (step_conserves n q s o Hn Hrep) as H2.
    destruct (fb_step s (to_op o)) as [s1 r1] eqn:E1. destruct (step n q o) as [q1 a1].
    destruct H1 as [H1 _]. specialize (IH q1 s1 Hn H1). simpl in *.
    destruct (fb_run s1 (map to_op ops)) as [s2 r2]. simpl in *.
    rewrite <- app_assoc, IH.
    destruct H1 as (Hb & _). rewrite Hb in H2.
    rewrite map_app, app_assoc, H2, <- map_app, <- app_assoc.
    destruct o; simpl; rewrite ?app_nil_r; reflexivity.
Qed.

(** Without pops and clears the abstract queue is the last n elements of the history. *)
Lemma run_adds_only n xss : forall q,
  length q <= n ->
  fst (run n q (map Add xss)) = lastn n (q ++ concat xss).
Proof.
  induction xss as [|xs xss IH]; intros q Hq; simpl.
  - rewrite app_nil_r, lastn_all; auto.
  - specialize (IH (lastn n (q ++ xs))).
    destruct (run n (lastn n (q ++ xs)) (map Add xss)) as [q2 a2]. simpl in *.
    rewrite IH by (rewrite lastn_length; lia).
    rewrite lastn_lastn_app, app_assoc. reflexivity.
Qed.
End Fb.

Lemma fast_buffer_is_bounded_fifo_proof :
  forall (A : Type) (max_size : nat) (ops : list (op A)),
    1 <= max_size ->
    let '(s, answers) := fb_run (fb_init (Z.of_nat max_size) None) (map to_op ops) in
    fb_buf s = fst (run max_size [] ops)
    /\ answers = map to_ret (snd (run max_size [] ops))
    /\ fb_size s = Z.of_nat (length (fb_buf s))
    /\ length (fb_buf s) <= max_size
    /\ (fb_is_full s = true <-> length (fb_buf s) = max_size)
    /\ (fb_is_empty s = true <-> fb_buf s = []).
Proof.
  intros A n ops Hn.
  pose proof (run_refines n ops [] _ Hn (rep_init n)) as H.
  destruct (fb_run _ (map to_op ops)) as [s rs]. destruct (run n [] ops) as [q as_]. simpl.
  destruct H as [(Hb & Hs & Hm & Hle) ->].
  unfold fb_is_full, fb_is_empty. rewrite Hb, Hs, Hm, !Z.eqb_eq.
  repeat split; auto; try lia; intros H.
  - destruct q; auto. simpl in H. lia.
  - rewrite H. reflexivity.
Qed.

Lemma fast_buffer_holds_most_recent_proof :
  forall (A : Type) (max_size : nat) (batches : list (list A)),
    1 <= max_size ->
    fb_buf (fst (fb_run (fb_init (Z.of_nat max_size) None) (map FAdd batches)))
    = lastn max_size (concat batches).
Proof.
  intros A n xss Hn.
  pose proof (fast_buffer_is_bounded_fifo_proof A n (map Add xss) Hn) as H.
  rewrite map_map in H. simpl in H.
  change (map (fun x => FAdd x) xss) with (map (@FAdd A) xss) in H.
  destruct (fb_run _ (map FAdd xss)) as [s rs]. simpl.
  destruct H as (-> & _). rewrite run_adds_only by (simpl; lia). reflexivity.
Qed.

Lemma fast_buffer_conserves_elements_proof :
  forall (A : Type) (max_size : nat) (ops : list (op A)),
    1 <= max_size ->
    all_leaves (fb_init (Z.of_nat max_size) None) (map to_op ops)
      ++ map Some (fb_buf (fst (fb_run (fb_init (Z.of_nat max_size) None) (map to_op ops))))
    = map Some (added ops).
Proof. intros A n ops Hn. exact (run_conserves n ops [] _ Hn (rep_init n)). Qed.

Lemma fb_run_cons_fst {A} (s : fbuf A) o ops :
  fst (fb_run s (o :: ops)) = fst (fb_run (fst (fb_step s o)) ops).
Proof. simpl. destruct (fb_step s o). simpl. destruct (fb_run f ops). reflexivity. Qed.

Lemma fast_buffer_zero_capacity_proof :
  forall n : nat, 1 <= n ->
    length (fb_buf (fst (fb_run (fb_init 0 None) (repeat (FAdd [tt]) n)))) = n.
Proof.
  intros n _.
  assert (S1 : forall s, fb_max s = 0%Z -> fb_size s = Z.of_nat (length (@fb_buf unit s)) ->
     let s' := fst (fb_step s (FAdd [tt])) in
     fb_max s' = 0%Z /\ fb_size s' = Z.of_nat (length (fb_buf s')) /\
     length (fb_buf s') = length (fb_buf s) + 1).
  { intros [sz mx b] Hm Hs. simpl in Hm, Hs. subst. unfold fb_step, fb_add. cbn [fb_size fb_max].
    destruct (Z.of_nat (length b) + Z.of_nat (length [tt]) <=? 0)%Z eqn:E;
      [apply Z.leb_le in E; simpl in E; lia|].
    cbn [fb_add_loop]. unfold fb_is_full. cbn [fb_size fb_max].
    destruct (Z.of_nat (length b) =? 0)%Z eqn:E2.
    - apply Z.eqb_eq in E2. destruct b; simpl in *; [|lia]. auto.
    - cbn. rewrite app_length. simpl. repeat split; lia. }
  assert (G : forall k s, fb_max s = 0%Z -> fb_size s = Z.of_nat (length (@fb_buf unit s)) ->
    length (fb_buf (fst (fb_run s (repeat (FAdd [tt]) k)))) = length (fb_buf s) + k).
  { induction k; intros s Hm Hs; [simpl; lia|].
    cbn [repeat]. rewrite fb_run_cons_fst.
    destruct (S1 s Hm Hs) as (H1 & H2 & H3).
    rewrite IHk, H3 by auto. lia. }
  rewrite G; reflexivity.
Qed.
