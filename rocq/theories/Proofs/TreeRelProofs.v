(** When the leaves and tests of two Hoeffding trees behave alike, so do the trees. *)
From Coq Require Import List ZArith Bool Lia Permutation.
From Verif Require Import Base.Py Base.Num Base.Dict Model.TreeSkeleton Spec.TreeSpec Spec.TreeRelSpec Proofs.TreeProofs.
Import ListNotations.

Section RR.
Variable strict : bool.
Lemma rrel_bind {A A' B B'} (RA : A -> A' -> Prop) (RB : B -> B' -> Prop) m m' f f' :
  rrel strict RA m m' -> (forall a a', RA a a' -> rrel strict RB (f a) (f' a')) -> rrel strict RB (bind m f) (bind m' f').
Proof.
  intros H F. destruct m as [a|e], m' as [a'|e']; cbn [bind]; cbn in H; auto.
  - cbn. destruct (f a); cbn; auto. intros Hs. rewrite Hs in H. discriminate.
  - cbn. destruct (f' a'); cbn; auto. intros Hs. rewrite Hs in H. discriminate.
Qed.
Lemma rrel_raise {A B} (R : A -> B -> Prop) e : rrel strict R (Raise e) (Raise e).
Proof. cbn. auto. Qed.
Lemma rrel_mono {A B} (R R' : A -> B -> Prop) m m' : (forall a b, R a b -> R' a b) -> rrel strict R m m' -> rrel strict R' m m'.
Proof. intros H. destruct m, m'; cbn; auto. Qed.
Lemma rrel_eq {A} (m : res A) : rrel strict eq m m.
Proof. destruct m; cbn; auto. Qed.
Lemma rrel_ok {A B} (R : A -> B -> Prop) m m' a b : rrel strict R m m' -> m = Ok a -> m' = Ok b -> R a b.
Proof. intros H -> ->. exact H. Qed.
End RR.
Lemma rrel_strict {A B} (R : A -> B -> Prop) m m' a : rrel true R m m' -> m = Ok a -> exists b, m' = Ok b /\ R a b.
Proof. intros H ->. destruct m' as [b|e]; cbn in H; [eauto|discriminate]. Qed.
Lemma rrel_strict' {A B} (R : A -> B -> Prop) m m' b : rrel true R m m' -> m' = Ok b -> exists a, m = Ok a /\ R a b.
Proof. intros H ->. destruct m as [a|e]; cbn in H; [eauto|discriminate]. Qed.

Section Rel.
Context {X X' Y Y' T L L' I I' S S' E E' : Type} {N : Num T}.
Variables (O : ops X Y T L I S E) (O' : ops X' Y' T L' I' S' E') (cfg : config T) (sz : sizes T L I S E) (sz' : sizes T L' I' S' E') (strict : bool).
Variables (RX : X -> X' -> Prop) (RY : Y -> Y' -> Prop).
Variables (RL : L -> L' -> Prop) (RI : I -> I' -> Prop) (RS : S -> S' -> Prop) (RE : E -> E' -> Prop).
Local Notation rr := (rrel strict).
Local Notation nrel := (nrel RL RI RS RE).
Local Notation trel := (trel RL RI RS RE (T := T)).
Local Notation chrel := (Forall2 (fun a b => fst a = fst b /\ nrel (snd a) (snd b))).

(** The leaves and tests behave alike. *)
Record alike : Prop := mk_alike {
  k_new : RL (o_new O) (o_new O');
  k_child : forall l l' d d', RL l l' -> RS d d' -> RL (o_child O l d) (o_child O' l' d');
  k_stop : forall l l', RL l l' -> RI (o_stop O l) (o_stop O' l');
  k_start : forall i i', RI i i' -> RL (o_start O i) (o_start O' i');
  k_learn : forall l l' x x' y y' w, RL l l' -> RX x x' -> RY y y' -> rr RL (o_learn O l x y w) (o_learn O' l' x' y' w);
  k_learn_inactive : forall i i' x x' y y' w, RI i i' -> RX x x' -> RY y y' -> rr RI (o_learn_inactive O i x y w) (o_learn_inactive O' i' x' y' w);
  k_due : forall l l', RL l l' -> o_due O l = o_due O' l';
  k_decide : forall l l', RL l l' -> rr (drel RL RS RE) (o_decide O l) (o_decide O' l');
  k_stats : forall l l', RL l l' -> RS (o_stats O l) (o_stats O' l');
  k_branch : forall t t' x x', RE t t' -> RX x x' -> rr eq (o_branch O t x) (o_branch O' t' x');
  k_multiway : forall t t', RE t t' -> o_multiway O t = o_multiway O' t';
  k_add : forall t t' x x', RE t t' -> RX x x' -> rr (fun a b => RE (fst a) (fst b) /\ snd a = snd b) (o_add O t x) (o_add O' t' x');
  k_max : forall t t', RE t t' -> o_max O t = o_max O' t';
  k_before : forall d e m m' n n', nrel m m' -> nrel n n' -> o_before O (d, m) (e, n) = o_before O' (d, m') (e, n');
  k_sizes : (forall w, c_period_due cfg w = false) \/ ((forall l l', RL l l' -> z_active sz l = z_active sz' l') /\ (forall i i', RI i i' -> z_inactive sz i = z_inactive sz' i')
            /\ forall s s', trel s s' -> z_tree sz s = z_tree sz' s') }.
Hypothesis K : alike.

Lemma nrel_dget ch ch' b : chrel ch ch' -> match dget ch b, dget ch' b with Some c, Some c' => nrel c c' | None, None => True | _, _ => False end.
Proof. induction 1 as [|[k c] [k' c'] ch ch' [Hk Hc] _ IH]; cbn [dget]; auto. cbn in Hk, Hc. subst k'. destruct (Z.eqb k b); auto. Qed.
Lemma nrel_dset ch ch' b c c' : chrel ch ch' -> nrel c c' -> chrel (dset ch b c) (dset ch' b c').
Proof. intros H Hc. induction H as [|[k d] [k' d'] ch ch' [Hk Hd] F IH]; cbn [dset]; [repeat constructor; auto|]. cbn in Hk, Hd. subst k'. destruct (Z.eqb k b); constructor; auto. Qed.
Lemma nrel_ind' (P : node L I S E -> node L' I' S' E' -> Prop) : (forall l l', RL l l' -> P (Active l) (Active l')) -> (forall i i', RI i i' -> P (Inactive i) (Inactive i')) ->
  (forall te te' st st' ch ch', RE te te' -> RS st st' -> chrel ch ch' -> Forall2 (fun a b => fst a = fst b /\ P (snd a) (snd b)) ch ch' -> P (Split te st ch) (Split te' st' ch')) ->
  forall t t', nrel t t' -> P t t'.
Proof.
  intros HA HI HS. induction t as [l|i|te st ch IH] using node_rect'; intros t' H; inversion H; subst; auto. apply HS; auto.
  match goal with F : chrel ch _ |- _ => clear H; revert F end. generalize ch'. induction ch as [|[k c] ch IHc]; intros ch2 F; inversion F as [|? [k' c'] ? ch2' [Hk Hc] F']; subst; constructor; inversion IH; subst; auto.
Qed.

Lemma rel_route t t' x x' : nrel t t' -> RX x x' -> rr (fun a b => fst a = fst b /\ match snd a, snd b with Some n, Some n' => nrel n n' | None, None => True | _, _ => False end) (route O t x) (route O' t' x').
Proof.
  intros H Hx. revert t t' H. apply nrel_ind'; [intros l l' Hl|intros i i' Hi|intros te te' st st' ch ch' He Hs Hc IH]; cbn [route]; [cbn; split; auto; now constructor..|].
  eapply rrel_bind; [apply (k_branch K); eauto|]. intros b ? <-. destruct (0 <=? b)%Z; [|cbn; split; auto; now constructor].
  clear Hc. induction IH as [|[k c] [k' c'] ch ch' [Hk Hc] F IHc]; [cbn; auto|]. cbn in Hk, Hc. subst k'. destruct (Z.eqb k b); [|exact IHc].
  eapply rrel_bind; [exact Hc|]. intros [p n] [p' n'] [Hp Hn]. cbn in *. subst p'. auto.
Qed.
Lemma rel_update p : forall t t' f f', nrel t t' -> (forall n n', nrel n n' -> rr nrel (f n) (f' n')) -> rr nrel (update_at t p f) (update_at t' p f').
Proof.
  induction p as [|b p IH]; intros t t' f f' H Hf; cbn [update_at]; [auto|]. destruct H as [| |te te' st st' ch ch' He Hs Hc]; try apply rrel_raise.
  pose proof (nrel_dget _ _ b Hc) as Hd. destruct (dget ch b), (dget ch' b); try contradiction; [|apply rrel_raise]. eapply rrel_bind; [apply IH; eauto|]. intros a a' Ha. cbn. constructor; auto. now apply nrel_dset.
Qed.
Lemma rel_set t t' b n n' : nrel t t' -> nrel n n' -> rr nrel (set_child O t b n) (set_child O' t' b n').
Proof.
  intros H Hn. destruct H as [| |te te' st st' ch ch' He Hs Hc]; cbn [set_child]; try apply rrel_raise. rewrite (k_max K _ _ He). destruct (_ && _); [apply rrel_raise|]. cbn. constructor; auto. now apply nrel_dset.
Qed.
Lemma rel_replace t t' p n n' : nrel t t' -> nrel n n' -> rr nrel (replace_at O t p n) (replace_at O' t' p n').
Proof. intros H Hn. destruct p as [|b q]; cbn [replace_at]; [exact Hn|]. apply rel_update; auto. intros. now apply rel_set. Qed.

Local Notation lrel := (Forall2 (fun a b => fst a = fst b /\ nrel (snd a) (snd b))).
Lemma rel_learning t t' : nrel t t' -> Forall2 (fun (a : list Z * _) b => fst a = fst b /\ nrel (snd a) (snd b)) (learning_nodes t) (learning_nodes t').
Proof.
  intros H. revert t t' H. apply nrel_ind'; [intros l l' Hl|intros i i' Hi|intros te te' st st' ch ch' He Hs Hc IH]; cbn [learning_nodes]; [repeat constructor; auto..|].
  assert (Le : length ch = length ch') by (clear -Hc; induction Hc; cbn; congruence). rewrite Le. clear Hc Le.
  set (sub := (fix go (l : list (Z * node L I S E)) : list (Z * list (list Z * node L I S E)) := match l with [] => [] | (k, c) :: r => (k, learning_nodes c) :: go r end) ch).
  set (sub' := (fix go (l : list (Z * node L' I' S' E')) : list (Z * list (list Z * node L' I' S' E')) := match l with [] => [] | (k, c) :: r => (k, learning_nodes c) :: go r end) ch').
  assert (D : forall j, match dget sub j, dget sub' j with Some ns, Some ns' => Forall2 (fun (a : list Z * _) b => fst a = fst b /\ nrel (snd a) (snd b)) ns ns' | None, None => True | _, _ => False end).
  { intros j. subst sub sub'. induction IH as [|[k c] [k' c'] ch ch' [Hk Hc] F IHc]; cbn [dget]; auto. cbn in Hk, Hc. subst k'. destruct (Z.eqb k j); auto. }
  generalize (seq 0 (length ch')). intros js. induction js as [|j js IHj]; cbn [flat_map]; [constructor|]. apply Forall2_app; auto. specialize (D (Z.of_nat j)).
  destruct (dget sub (Z.of_nat j)) as [ns|], (dget sub' (Z.of_nat j)) as [ns'|]; try contradiction; [|constructor]. clear -D. induction D as [|[p n] [p' n'] ns ns' [Hp Hn] D IHD]; cbn [map]; constructor; auto. cbn in *. subst p'. auto.
Qed.
Lemma rel_sort {A B} (R : A -> B -> Prop) (bf : A -> A -> bool) (bf' : B -> B -> bool) l l' : (forall a a' b b', R a a' -> R b b' -> bf a b = bf' a' b') -> Forall2 R l l' -> Forall2 R (sort_stable bf l) (sort_stable bf' l').
Proof.
  intros Hb F. unfold sort_stable. induction F as [|a a' l l' Ha F IH]; cbn [fold_right]; [constructor|]. clear F. revert IH. generalize (fold_right (insert_stable bf) [] l) (fold_right (insert_stable bf') [] l'). intros s s' F.
  induction F as [|b b' s s' H F IH]; cbn [insert_stable]; [repeat constructor; auto|]. rewrite (Hb a a' b b' Ha H). destruct (bf' a' b'); constructor; auto.
Qed.

Lemma rel_root s s' : trel s s' -> rr nrel (root_of s) (root_of s').
Proof. intros [R]. unfold root_of. destruct (t_root s), (t_root s'); try contradiction; auto. apply rrel_raise. Qed.
Lemma rel_with s s' r r' a b c : trel s s' -> nrel r r' -> trel (with_root s r a b c) (with_root s' r' a b c).
Proof. intros [] Hr. constructor; cbn; auto; congruence. Qed.
Lemma rel_deactivate s s' p l l' : trel s s' -> RL l l' -> rr trel (deactivate O s p l) (deactivate O' s' p l').
Proof.
  intros H Hl. unfold deactivate. eapply rrel_bind; [apply rel_root; eauto|]. intros r r' Hr. eapply rrel_bind; [apply rel_replace; eauto; constructor; apply (k_stop K); eauto|]. intros a a' Ha. cbn. now apply rel_with.
Qed.
Lemma rel_activate s s' p i i' : trel s s' -> RI i i' -> rr trel (activate O s p i) (activate O' s' p i').
Proof.
  intros H Hl. unfold activate. eapply rrel_bind; [apply rel_root; eauto|]. intros r r' Hr. eapply rrel_bind; [apply rel_replace; eauto; constructor; apply (k_start K); eauto|]. intros a a' Ha. cbn. now apply rel_with.
Qed.
Lemma rel_deactivate_all l l' : Forall2 (fun (a : list Z * _) b => fst a = fst b /\ nrel (snd a) (snd b)) l l' -> forall s s', trel s s' -> rr trel (deactivate_all O s l) (deactivate_all O' s' l').
Proof.
  induction 1 as [|[p n] [p' n'] l l' [Hp Hn] F IH]; intros s s' H; cbn [deactivate_all]; [exact H|]. cbn in Hp, Hn. subst p'. destruct Hn as [a a' Ha|i i' Hi|]; auto. eapply rrel_bind; [apply rel_deactivate; eauto|]. auto.
Qed.
Lemma rel_activate_all l l' : Forall2 (fun (a : list Z * _) b => fst a = fst b /\ nrel (snd a) (snd b)) l l' -> forall s s', trel s s' -> rr trel (activate_all O s l) (activate_all O' s' l').
Proof.
  induction 1 as [|[p n] [p' n'] l l' [Hp Hn] F IH]; intros s s' H; cbn [activate_all]; [exact H|]. cbn in Hp, Hn. subst p'. destruct Hn as [a a' Ha|i i' Hi|]; auto. eapply rrel_bind; [apply rel_activate; eauto|]. auto.
Qed.
Lemma Forall2_firstn {A B} (R : A -> B -> Prop) n : forall l l', Forall2 R l l' -> Forall2 R (firstn n l) (firstn n l').
Proof. induction n as [|n IH]; intros l l' F; cbn; [constructor|]. destruct F; constructor; auto. Qed.
Lemma Forall2_skipn {A B} (R : A -> B -> Prop) n : forall l l', Forall2 R l l' -> Forall2 R (skipn n l) (skipn n l').
Proof. induction n as [|n IH]; intros l l' F; cbn; [auto|]. destruct F; auto. Qed.
Lemma rel_max_active s s' n : trel s s' -> forall k m, max_active cfg s n m k = max_active cfg s' n m k.
Proof. intros [R]. induction k as [|k IH]; intros m; cbn [max_active]; auto. unfold active_bytes. rewrite tr_asize, tr_isize, tr_overhead, IH. reflexivity. Qed.
Lemma rel_enforce s s' : trel s s' -> rr trel (enforce O cfg s) (enforce O' cfg s').
Proof.
  intros H. unfold enforce. cbv zeta. pose proof H as [R]. rewrite tr_asize, tr_inactive, tr_isize, tr_overhead. destruct (_ && c_stop cfg); [constructor; auto; cbn; congruence|].
  set (f := match t_root s with Some r => learning_nodes r | None => [] end). set (f' := match t_root s' with Some r => learning_nodes r | None => [] end).
  assert (F : Forall2 (fun (a : list Z * _) b => fst a = fst b /\ nrel (snd a) (snd b)) f f'). { subst f f'. destruct (t_root s), (t_root s'); try contradiction; [now apply rel_learning|constructor]. }
  match goal with |- context [sort_stable ?b f] => set (bf := b) end. match goal with |- context [sort_stable ?b f'] => set (bf' := b) end.
  assert (FS : Forall2 (fun (a : list Z * _) b => fst a = fst b /\ nrel (snd a) (snd b)) (sort_stable bf f) (sort_stable bf' f')).
  { apply rel_sort; auto. intros [p n] [p' n'] [q m] [q' m'] [A B] [C D]. cbn in A, B, C, D. subst p' q'. unfold bf, bf'. cbn [fst snd]. now apply (k_before K). }
  assert (Le : length (sort_stable bf f) = length (sort_stable bf' f')) by (clear -FS; induction FS; cbn; congruence). rewrite Le, (rel_max_active s s' _ H). set (cut := (_ - _)%nat).
  eapply rrel_bind; [apply rel_deactivate_all; [apply Forall2_firstn; exact FS|exact H]|]. intros a a' Ha. apply rel_activate_all; auto. now apply Forall2_skipn.
Qed.
Lemma rel_estimate s s' : (forall l l', RL l l' -> z_active sz l = z_active sz' l') -> (forall i i', RI i i' -> z_inactive sz i = z_inactive sz' i') -> (forall s s', trel s s' -> z_tree sz s = z_tree sz' s') -> trel s s' -> rr trel (estimate O cfg sz s) (estimate O' cfg sz' s').
Proof.
  intros KA KI KT H. unfold estimate. cbv zeta. pose proof H as [R].
  set (f := match t_root s with Some r => map snd (learning_nodes r) | None => [] end). set (f' := match t_root s' with Some r => map snd (learning_nodes r) | None => [] end).
  assert (F : Forall2 nrel f f'). { subst f f'. destruct (t_root s), (t_root s'); try contradiction; [|constructor]. apply rel_learning in R. induction R as [|? ? ? ? [_ Hn] _ IH]; cbn; constructor; auto. }
  assert (A : forall a, fold_left (fun a n => match n with Active l => (a + z_active sz l)%num | _ => a end) f a = fold_left (fun a n => match n with Active l => (a + z_active sz' l)%num | _ => a end) f' a).
  { induction F as [|n n' l l' Hn _ IH]; intros a; cbn [fold_left]; auto. rewrite <- IH. destruct Hn; auto. rewrite (KA _ _ H0). reflexivity. }
  assert (B : forall a, fold_left (fun a n => match n with Inactive l => (a + z_inactive sz l)%num | _ => a end) f a = fold_left (fun a n => match n with Inactive l => (a + z_inactive sz' l)%num | _ => a end) f' a).
  { clear A. induction F as [|n n' l l' Hn _ IH]; intros a; cbn [fold_left]; auto. rewrite <- IH. destruct Hn; auto. rewrite (KI _ _ H0). reflexivity. }
  rewrite A, B, tr_active, tr_inactive, tr_asize, tr_isize.
  eapply rrel_bind; [apply rrel_eq|]. intros ae ? <-. eapply rrel_bind; [apply rrel_eq|]. intros ie ? <-.
  set (s1 := mk_tree (t_root s) _ _ _ _ _ _ _ _). set (s1' := mk_tree (t_root s') _ _ _ _ _ _ _ _).
  assert (H1 : trel s1 s1') by (subst s1 s1'; constructor; cbn; auto; congruence). rewrite (KT _ _ H1).
  eapply rrel_bind; [apply rrel_eq|]. intros oh ? <-.
  set (s2 := mk_tree (t_root s) _ _ _ _ _ _ _ _). set (s2' := mk_tree (t_root s') _ _ _ _ _ _ _ _).
  assert (H2 : trel s2 s2') by (subst s2 s2'; constructor; cbn; auto; congruence). destruct (_ <? _)%num; [now apply rel_enforce|exact H2].
Qed.
Lemma rel_add_children ds ds' : Forall2 RS ds ds' -> forall t t' l l' i, nrel t t' -> RL l l' -> rr nrel (add_children O t l i ds) (add_children O' t' l' i ds').
Proof.
  induction 1 as [|d d' ds ds' Hd F IH]; intros t t' l l' i Ht Hl; cbn [add_children]; [exact Ht|]. eapply rrel_bind; [apply rel_set; [exact Ht|constructor; apply (k_child K); eauto]|]. intros a a' Ha. apply IH; auto.
Qed.
Lemma rel_apply s s' p d d' : trel s s' -> drel RL RS RE d d' -> rr trel (apply_decision O cfg s p d) (apply_decision O' cfg s' p d').
Proof.
  intros H Hd. destruct d as [l|l|l te ds], d' as [l'|l'|l' te' ds']; cbn in Hd; try contradiction; cbn [apply_decision].
  - eapply rrel_bind; [apply rel_root; eauto|]. intros r r' Hr. eapply rrel_bind; [apply rel_update; eauto; intros; cbn; constructor; auto|]. intros a a' Ha. cbn. now apply rel_with.
  - eapply rrel_bind; [apply rel_deactivate; eauto|]. intros a a' Ha. now apply rel_enforce.
  - destruct Hd as (Hl & He & Hds). eapply rrel_bind; [apply rel_add_children; [exact Hds|constructor; auto; apply (k_stats K); auto|exact Hl]|]. intros n n' Hn. eapply rrel_bind; [apply rel_root; eauto|]. intros r r' Hr.
    eapply rrel_bind; [apply rel_replace; eauto|]. intros a a' Ha. assert (Le : length ds = length ds') by (clear -Hds; induction Hds; cbn; congruence). rewrite Le. apply rel_enforce. now apply rel_with.
Qed.
Lemma rel_found s s' p n n' x x' y y' w : trel s s' -> nrel n n' -> RX x x' -> RY y y' -> rr trel (learn_found O cfg s p n x y w) (learn_found O' cfg s' p n' x' y' w).
Proof.
  intros H Hn Hx Hy. destruct Hn as [l l' Hl|i i' Hi|te te' st st' ch ch' He Hs Hc]; cbn [learn_found].
  - eapply rrel_bind; [apply (k_learn K); eauto|]. intros a a' Ha. eapply rrel_bind; [apply rel_root; eauto|]. intros r r' Hr. eapply rrel_bind; [apply rel_update; eauto; intros; cbn; constructor; auto|]. intros t t' Ht. cbv zeta.
    rewrite (k_due K _ _ Ha), (tr_growth _ _ _ _ _ _ H). destruct (_ && _); [|cbn; now apply rel_with]. eapply rrel_bind; [apply (k_decide K); eauto|]. intros d d' Hd. apply rel_apply; auto. now apply rel_with.
  - eapply rrel_bind; [apply (k_learn_inactive K); eauto|]. intros a a' Ha. eapply rrel_bind; [apply rel_root; eauto|]. intros r r' Hr. eapply rrel_bind; [apply rel_update; eauto; intros; cbn; constructor; auto|]. intros t t' Ht. cbn. now apply rel_with.
  - rewrite (k_multiway K _ _ He). destruct (o_multiway O' te'); [|exact H]. eapply rrel_bind; [apply (k_add K); eauto|]. intros [t b] [t' b'] [A B]. cbn in A, B. subst b'.
    eapply rrel_bind; [apply (k_learn K); eauto; apply (k_new K)|]. intros a a' Ha. eapply rrel_bind; [apply rel_root; eauto|]. intros r r' Hr.
    eapply rrel_bind; [apply rel_update; eauto; intros; apply rel_set; constructor; auto|]. intros u u' Hu. cbn. now apply rel_with.
Qed.
Lemma rel_fit_one s s' x x' y y' w : trel s s' -> RX x x' -> RY y y' -> rr trel (fit_one O cfg sz s x y w) (fit_one O' cfg sz' s' x' y' w).
Proof.
  intros H Hx Hy. unfold fit_one.
  set (sr := match t_root s with Some r => (s, r) | None => _ end). set (sr' := match t_root s' with Some r => (s', r) | None => _ end).
  assert (G : trel (fst sr) (fst sr') /\ nrel (snd sr) (snd sr')).
  { pose proof H as [R]. subst sr sr'. destruct (t_root s) as [r|] eqn:Er, (t_root s') as [r'|] eqn:Er'; try contradiction; cbn [fst snd]; [split; auto|]. split; [constructor; cbn; auto; try congruence|]; constructor; apply (k_new K). }
  destruct sr as [s0 r], sr' as [s0' r']. cbn [fst snd] in G. destruct G as [G0 Hr]. eapply rrel_bind; [apply rel_route; eauto|]. intros [p n] [p' n'] [Hp Hn]. cbn [fst snd] in Hp, Hn. subst p'.
  eapply rrel_bind with (RA := trel).
  - destruct n as [n|], n' as [n'|]; try contradiction; [now apply rel_found|]. eapply rrel_bind; [apply rel_replace; eauto; constructor; apply (k_new K)|]. intros a a' Ha. apply rel_found; auto; [now apply rel_with|constructor; apply (k_new K)].
  - intros a a' Ha. rewrite (tr_weight _ _ _ _ _ _ Ha). destruct (k_sizes K) as [D|(KA & KI & KT)]; [rewrite D; exact Ha|]. destruct (c_period_due cfg _); [now apply rel_estimate|exact Ha].
Qed.
Theorem rel_fit s s' x x' y y' w : trel s s' -> RX x x' -> RY y y' -> rr trel (fit_weighted O cfg sz s x y w) (fit_weighted O' cfg sz' s' x' y' w).
Proof.
  intros H Hx Hy. unfold fit_weighted. destruct (w =? n0)%num; [exact H|]. apply rel_fit_one; auto. destruct H. constructor; cbn; auto. congruence.
Qed.
Lemma rel_answering s s' x x' : trel s s' -> RX x x' -> rr (fun a b => match a, b with Some n, Some n' => nrel n n' | None, None => True | _, _ => False end) (answering O s x) (answering O' s' x').
Proof.
  intros [R] Hx. unfold answering. destruct (t_root s) as [r|], (t_root s') as [r'|]; try contradiction; [|exact Logic.I]. eapply rrel_bind; [apply rel_route; eauto|]. intros [p n] [p' n'] [Hp Hn]. cbn [fst snd] in Hp, Hn. subst p'.
  destruct n as [n|], n' as [n'|]; try contradiction; [exact Hn|]. generalize (removelast p). intros q. revert r r' R. induction q as [|b q IH]; intros r r' R; [exact R|].
  destruct R as [| |te te' st st' ch ch' He Hs Hc]; try apply rrel_raise. pose proof (nrel_dget _ _ b Hc) as Hd. destruct (dget ch b), (dget ch' b); try contradiction; [|apply rrel_raise]. auto.
Qed.
Lemma rel_new : trel (tree_new (T := T)) tree_new.
Proof. constructor; cbn; auto. Qed.
End Rel.
