(** An adaptive tree that has no alternate tree learns as the tree without detectors does. *)
From Coq Require Import List ZArith Bool Lia Permutation.
From Verif Require Import Base.Py Base.Num Base.Dict Model.TreeSkeleton Model.AdaTree Spec.AdaSpec Spec.TreeSpec Proofs.TreeProofs Proofs.AdaProofs.
Import ListNotations.
Local Open Scope Z_scope.

Lemma dget_F2 {A B} (R : A -> B -> Prop) l m b : Forall2 (fun x y => fst x = fst y /\ R (snd x) (snd y)) l m ->
  match dget l b, dget m b with Some x, Some y => R x y | None, None => True | _, _ => False end.
Proof.
  induction 1 as [|[k u] [k' v] l m [E0 H0] F IH]; cbn [dget]; auto. cbn in E0, H0. subst k'. destruct (k =? b); auto.
Qed.
Lemma dset_F2 {A B} (R : A -> B -> Prop) l m b u v : Forall2 (fun x y => fst x = fst y /\ R (snd x) (snd y)) l m -> R u v ->
  Forall2 (fun x y => fst x = fst y /\ R (snd x) (snd y)) (dset l b u) (dset m b v).
Proof.
  intros H Huv. induction H as [|[k a] [k' c] l m [E0 H0] F IH]; cbn [dset]; [repeat constructor; auto|]. cbn in E0, H0. subst k'. destruct (k =? b); constructor; auto.
Qed.

Section Sim.
Context {X Y T L I S E W P X' L' I' : Type} {N : Num T}.
Variable O : aops X Y T L I S E W P.
Variable O' : ops X' Y T L' I' S E.
Variables (tinv : E -> nat -> Prop) (linv : L -> Prop) (iinv : I -> Prop).
Variables (lrel : L -> L' -> Prop) (xrel : X -> X' -> Prop) (okw : X -> Y -> T -> Prop).
Local Notation anode := (anode L I S E W).
Local Notation node := (node L' I' S E).

(** The same tests, statistics and branches, related leaves, no alternate trees and no inactive leaves *)
Inductive sim : anode -> node -> Prop :=
| sim_leaf l m : lrel l m -> sim (ALeaf l) (Active m)
| sim_split te st wt ch ch' : Forall2 (fun a b => fst a = fst b /\ sim (snd a) (snd b)) ch ch' -> sim (ASplit te st wt None ch) (Split te st ch').

Hypothesis Hbr : forall te x x', xrel x x' -> a_branch O te x = o_branch O' te x'.
Hypothesis Hnew : lrel (a_new O) (o_new O').
Hypothesis Hlearn : forall l m x x' y w l', lrel l m -> xrel x x' -> a_learn O l x y w = Ok l' -> exists m', o_learn O' m x' y w = Ok m' /\ lrel l' m'.
Hypothesis Hdue : forall l m, lrel l m -> a_due O l = o_due O' m.
Hypothesis Hdecide : forall l m d, lrel l m -> a_decide O l = Ok d ->
  match d with
  | Keep l2 => exists m2, o_decide O' m = Ok (Keep m2) /\ lrel l2 m2
  | NullWins l2 => a_restart O l2 = None
  | SplitOn l2 te ds => exists m2, o_decide O' m = Ok (SplitOn m2 te ds) /\ a_stats O l2 = o_stats O' m2 /\ forall d, In d ds -> lrel (a_child O l2 d) (o_child O' m2 d)
  end.
Hypothesis Hmx : forall te, a_max O te = o_max O' te.
Hypothesis Hmax : forall te n b, tinv te n -> b < Z.of_nat n -> (0 <=? o_max O' te) && (o_max O' te <=? b) = false.
Hypothesis Hgrow : forall te x x' b te' b', xrel x x' -> a_grows O te b = true -> a_add O te x = Ok (te', b') -> o_multiway O' te = true /\ o_add O' te x' = Ok (te', b').
Hypothesis Hstay : forall te b, a_grows O te b = false -> b < 0 -> o_multiway O' te = false.
Hypothesis Hfirst : forall x y w l, okw x y w -> a_learn O (a_new O) x y w = Ok l -> a_due O l = false.
Hypothesis Hbranch : forall te n x b, tinv te n -> a_branch O te x = Ok b -> b < Z.of_nat n.
Hypothesis Hadd : forall te n x b te' b', tinv te n -> a_branch O te x = Ok b -> b < 0 -> a_grows O te b = true -> a_add O te x = Ok (te', b') -> b' = Z.of_nat n /\ tinv te' (Datatypes.S n).

(** What the tree without detectors does with the node it finds *)
Inductive hstep (x : X') (y : Y) (w : T) : node -> node -> Z -> Z -> Prop :=
| h_idle l l1 : o_learn O' l x y w = Ok l1 -> o_due O' l1 = false -> hstep x y w (Active l) (Active l1) 0 0
| h_keep l l1 l2 : o_learn O' l x y w = Ok l1 -> o_due O' l1 = true -> o_decide O' l1 = Ok (Keep l2) -> hstep x y w (Active l) (Active l2) 0 0
| h_split l l1 l2 te ds m : o_learn O' l x y w = Ok l1 -> o_due O' l1 = true -> o_decide O' l1 = Ok (SplitOn l2 te ds) ->
    add_children O' (Split te (o_stats O' l2) []) l2 0 ds = Ok m -> hstep x y w (Active l) m 1 (Z.of_nat (length ds) - 1)
| h_new te st ch te' b l1 m : o_multiway O' te = true -> o_add O' te x = Ok (te', b) -> o_learn O' (o_new O') x y w = Ok l1 ->
    set_child O' (Split te' st ch) b (Active l1) = Ok m -> hstep x y w (Split te st ch) m 0 1
| h_none te st ch : o_multiway O' te = false -> hstep x y w (Split te st ch) (Split te st ch) 0 0.

Fixpoint fits (t : node) (p : list Z) : Prop :=
  match p with
  | [] => True
  | b :: q => match t with
              | Split te _ ch => (0 <=? o_max O' te) && (o_max O' te <=? b) = false /\ match dget ch b with Some c => fits c q | None => False end
              | _ => False
              end
  end.
Lemma replace_fits p : forall (t : node) n, fits t p -> replace_at O' t p n = update_at t p (fun _ => Ok n).
Proof.
  induction p as [|b q IH]; intros t n H; [reflexivity|]. cbn [fits] in H. destruct t as [l|i|te st ch]; try contradiction. destruct H as [H1 H2]. destruct (dget ch b) as [c|] eqn:Ec; [|contradiction].
  destruct q as [|b2 q].
  - cbn [replace_at removelast last update_at set_child]. rewrite H1, Ec. reflexivity.
  - specialize (IH c n H2). unfold replace_at in *. change (removelast (b :: b2 :: q)) with (b :: removelast (b2 :: q)). change (last (b :: b2 :: q) 0%Z) with (last (b2 :: q) 0%Z).
    assert (U : forall pp f, update_at (Split te st ch) (b :: pp) f = (c' <- update_at c pp f ;; Ok (Split te st (dset ch b c')))) by (intros; cbn [update_at]; rewrite Ec; reflexivity).
    rewrite !U, IH. reflexivity.
Qed.
Lemma fits_update p : forall (t t' : node) f, update_at t p f = Ok t' -> fits t p -> fits t' p.
Proof.
  induction p as [|b q IH]; intros t t' f H F; [exact Logic.I|]. cbn [update_at fits] in *. destruct t as [l|i|te st ch]; try discriminate. destruct F as [F1 F2]. destruct (dget ch b) as [c|] eqn:Ec; [|discriminate].
  apply bind_Ok in H as (c' & U & H). injection H as <-. split; [exact F1|]. rewrite dget_dset, Z.eqb_refl. eauto.
Qed.
Lemma add_children_eq ds : forall te st (ch : list (Z * node)) l, dkeys ch = map Z.of_nat (seq 0 (length ch)) ->
  (forall b, b < Z.of_nat (length ch + length ds) -> (0 <=? o_max O' te) && (o_max O' te <=? b) = false) ->
  add_children O' (Split te st ch) l (Z.of_nat (length ch)) ds = Ok (Split te st (ch ++ combine (map Z.of_nat (seq (length ch) (length ds))) (map (fun d => Active (o_child O' l d)) ds))).
Proof.
  induction ds as [|d ds IH]; intros te st ch l K M; cbn [add_children length seq map combine]; [rewrite app_nil_r; reflexivity|]. cbn [set_child]. rewrite M by (cbn [length]; lia). cbn [bind].
  rewrite dset_fresh by (rewrite keys_contiguous by auto; lia). set (ch1 := ch ++ _). assert (LA : length ch1 = Datatypes.S (length ch)) by (unfold ch1; rewrite app_length; cbn; lia).
  replace (Z.of_nat (length ch) + 1) with (Z.of_nat (length ch1)) by lia. rewrite IH.
  - rewrite LA. unfold ch1. rewrite <- app_assoc. reflexivity.
  - rewrite LA, seq_S. unfold ch1, dkeys in *. rewrite !map_app, K. reflexivity.
  - intros b Hb. apply M. cbn [length]. lia.
Qed.
Lemma count_zero c : AdaTree.count c 0 0 0 0 0 0 = c. Proof. destruct c. unfold AdaTree.count. cbn. f_equal; lia. Qed.

Lemma sim_learn t : forall linked x x' y w c t' over c' r, awf tinv linv iinv t -> xrel x x' -> okw x y w -> sim t r -> alearn O linked t x y w c = Ok (t', over, c') ->
  k_alternate c' = k_alternate c -> k_inactive c' = k_inactive c ->
  exists p n m r' dd da, route O' r x' = Ok (p, Some n) /\ hstep x' y w n m dd da /\ fits r p /\ update_at r p (fun _ => Ok m) = Ok r' /\
    sim (match over with Some u => u | None => t' end) r' /\ c' = AdaTree.count c da 0 dd 0 0 0 /\ (is_asplit t = true -> over = None).
Proof.
  induction t as [l|i|te st wt alt ch IHa IHc] using anode_ind'; intros linked x x' y w c t' over c' r Wt Hx Hw Hs H KA KI.
  - inversion Hs as [? m Hl|]; subst. cbn [alearn] in H. apply aleaf_learn_inv in H as (l' & -> & St). inversion St as [l1 E1 E2|l1 l2 E1 E2 E3|l1 l2 l3 E1 E2 E3 E4 E5|l1 l2 E1 E2 E3 E4|l1 l2 te ds n E1 E2 E3 E4]; subst;
      destruct (Hlearn _ _ _ _ _ _ _ Hl Hx E1) as (m1 & F1 & Hl1); rewrite (Hdue _ _ Hl1) in E2; try (pose proof (Hdecide _ _ _ Hl1 E3) as HD; cbn in HD).
    + exists [], (Active m), (Active m1), (Active m1), 0, 0. rewrite count_zero. split; [reflexivity|]. split; [constructor 1; auto|]. split; [exact Logic.I|]. split; [reflexivity|]. split; [constructor; auto|]. split; [reflexivity|discriminate].
    + destruct HD as (m2 & F3 & Hl2). exists [], (Active m), (Active m2), (Active m2), 0, 0. rewrite count_zero. split; [reflexivity|]. split; [econstructor 2; eauto|]. split; [exact Logic.I|]. split; [reflexivity|]. split; [constructor; auto|]. split; [reflexivity|discriminate].
    + congruence.
    + cbn in KI. lia.
    + destruct HD as (m2 & F3 & Es & Hc). set (r' := Split te (o_stats O' m2) (combine (map Z.of_nat (seq 0 (length ds))) (map (fun d => Active (o_child O' m2 d)) ds)) : node).
      exists [], (Active m), r', r', 1, (Z.of_nat (length ds) - 1). split; [reflexivity|]. split.
      { econstructor 3; eauto. refine (add_children_eq ds te (o_stats O' m2) [] m2 eq_refl _). unfold asplit in E4. intros b Hb. cbn in Hb. rewrite <- Hmx.
        destruct ((0 <=? a_max O te) && (a_max O te <? Z.of_nat (length ds))) eqn:EM; [discriminate|]. destruct (Z.leb_spec 0 (a_max O te)); cbn [andb] in *; [|reflexivity]. apply Z.ltb_ge in EM. apply Z.leb_gt. lia. }
      split; [exact Logic.I|]. split; [reflexivity|]. split; [|split; [reflexivity|discriminate]]. apply asplit_inv in E4 as ->. rewrite Es. unfold r'. constructor. clear - Hc.
      generalize (map Z.of_nat (seq 0 (length ds))). induction ds as [|d ds IH]; intros [|k ks]; cbn; constructor; [split; [reflexivity|]; constructor; apply Hc; now left|]. apply IH. intros; apply Hc; now right.
  - inversion Hs.
  - inversion Hs as [|? ? ? ? ch0 F]; subst. pose proof Wt as Wt0. apply (alearn_split_inv O tinv linv iinv Hbranch) in H; [|exact Wt].
    destruct H as (found & p & wt2 & changed & vd & c1 & alt' & over1 & c2 & te' & ch' & _ & _ & _ & E4 & E5 & E6 & ->).
    inversion Wt as [| |? ? ? ? ? K TI FW A1]; subst.
    (* the alternate trees *)
    assert (Q : alt' = None /\ over1 = None /\ c2 = c).
    { assert (M2 : k_alternate c2 <= k_alternate c').
      { inversion E6 as [b n n' s c3 F1 F2 F3|b te2 b2 l' rr c3 F1 F2 F3 F4 F5 F6|b F1 F2 F3 F4]; subst; [|apply leaf_step_alternate in F6; cbn in F6; lia|lia].
        refine (alearn_alternate O tinv linv iinv Hbranch n _ _ _ _ _ _ _ _ _ F3). exact (Forall_dget (fun c => awf tinv linv iinv c) _ _ _ FW F2). }
      unfold judge in E4. destruct changed.
      - injection E4 as <- <-. exfalso. inversion E5 as [l' rr c3 S1|Z1|v1 Z1 Z2|l l' rr c3 Z1 S1|l l' rr c3 Z1 S1]; subst; try discriminate; [|destruct Z2; discriminate]. apply leaf_step_alternate in S1. cbn in S1. lia.
      - injection E4 as <- <-. inversion E5; subst; try discriminate. auto. }
    destruct Q as (-> & -> & ->). pose proof (dget_F2 sim ch ch0) as G. inversion E6 as [b n n' s c3 F1 F2 F3|b te2 b2 l' rr c3 F1 F2 F3 F4 F5 F6|b F1 F2 F3 F4]; subst.
    + specialize (G b F). rewrite F2 in G. destruct (dget ch0 b) as [m0|] eqn:D0; [|contradiction]. assert (Hb : 0 <= b).
      { apply dget_In in F2. assert (Hi : In b (dkeys ch)) by (unfold dkeys; apply in_map_iff; exists (b, n); auto). rewrite K in Hi. apply in_map_iff in Hi as (j & <- & _). lia. }
      pose proof (Hbranch _ _ _ _ TI F1) as Hlt. rewrite (Hbr _ _ _ Hx) in F1.
      assert (IHn : forall n0, dget ch b = Some n0 -> forall linked x x' y w c t' over c' r, awf tinv linv iinv n0 -> xrel x x' -> okw x y w -> sim n0 r -> alearn O linked n0 x y w c = Ok (t', over, c') ->
        k_alternate c' = k_alternate c -> k_inactive c' = k_inactive c ->
        exists p n m r' dd da, route O' r x' = Ok (p, Some n) /\ hstep x' y w n m dd da /\ fits r p /\ update_at r p (fun _ => Ok m) = Ok r' /\
          sim (match over with Some u => u | None => t' end) r' /\ c' = AdaTree.count c da 0 dd 0 0 0 /\ (is_asplit n0 = true -> over = None)).
      { intros n0 Hn0. apply dget_In in Hn0. rewrite Forall_forall in IHc. apply (IHc _ Hn0). }
      destruct (IHn n F2 _ _ _ _ _ _ _ _ _ _ (Forall_dget (fun c => awf tinv linv iinv c) _ _ _ FW F2) Hx Hw G F3 KA KI) as (p0 & n0 & m & r' & dd & da & R1 & R2 & R3 & R4 & R5 & R6 & _).
      exists (b :: p0), n0, m, (Split te' st (dset ch0 b r')), dd, da. split; [rewrite route_split, F1; cbn [bind]; rewrite (proj2 (Z.leb_le 0 b) Hb), D0, R1; reflexivity|].
      split; [exact R2|]. split; [cbn [fits]; rewrite D0; split; [exact (Hmax _ _ _ TI Hlt)|exact R3]|]. split; [cbn [update_at]; rewrite D0, R4; reflexivity|]. split; [|split; [exact R6|auto]].
      constructor. apply dset_F2; auto.
    + specialize (G b F). rewrite F3 in G. destruct (dget ch0 b) eqn:D0; [contradiction|]. destruct (Hadd _ _ _ _ _ _ TI F1 F2 F4 F5) as [-> TI']. destruct (Hgrow _ _ _ _ _ _ Hx F4 F5) as [G1 G2].
      assert (QQ : rr = None /\ c' = AdaTree.count c 1 0 0 0 0 0 /\ exists m1, o_learn O' (o_new O') x' y w = Ok m1 /\ lrel l' m1).
      { inversion F6 as [l1 E1 E2|l1 l2 E1 E2 E3|l1 l2 l3 E1 E2 E3 E4' E5'|l1 l2 E1 E2 E3 E4'|l1 l2 te3 ds n E1 E2 E3 E4']; subst; try (rewrite (Hfirst _ _ _ _ Hw E1) in E2; discriminate). split; [reflexivity|]. split; [reflexivity|]. apply (Hlearn _ _ _ _ _ _ _ Hnew Hx E1). }
      destruct QQ as (-> & -> & m1 & L1 & L2). rewrite (Hbr _ _ _ Hx) in F1.
      exists [], (Split te st ch0), (Split te' st (dset ch0 (Z.of_nat (length ch)) (Active m1))), (Split te' st (dset ch0 (Z.of_nat (length ch)) (Active m1))), 0, 1.
      split; [rewrite route_split, F1; cbn [bind]; rewrite (proj2 (Z.leb_gt 0 b) F2); reflexivity|]. split.
      { econstructor 4; eauto. cbn [set_child]. rewrite (Hmax _ _ (Z.of_nat (length ch)) TI') by lia. reflexivity. }
      split; [exact Logic.I|]. split; [reflexivity|]. split; [|split; [reflexivity|auto]]. constructor. apply dset_F2; [exact F|]. constructor. exact L2.
    + specialize (G b F). rewrite F3 in G. rewrite (Hbr _ _ _ Hx) in F1. exists [], (Split te' st ch0), (Split te' st ch0), (Split te' st ch0), 0, 0. rewrite count_zero.
      split; [rewrite route_split, F1; cbn [bind]; rewrite (proj2 (Z.leb_gt 0 b) F2); reflexivity|]. split; [constructor 5; exact (Hstay _ _ F4 F2)|]. split; [exact Logic.I|]. split; [reflexivity|]. split; [|auto]. constructor. exact F.
Qed.

(** Without a new alternate tree no leaf comes back to life. *)
Lemma calm_learn t : forall x y w c t' over c', awf tinv linv iinv t -> okw x y w -> alternates t = [] -> alearn O true t x y w c = Ok (t', over, c') -> k_alternate c' = k_alternate c ->
  alternates (match over with Some n => n | None => t' end) = [] /\ k_inactive c <= k_inactive c' /\ (is_asplit t = true -> over = None).
Proof.
  induction t as [l|i|te st wt alt ch IHa IHc] using anode_ind'; intros x y w c t' over c' Wt Hw A0 H K0.
  - cbn [alearn] in H. apply aleaf_learn_inv in H as (l' & -> & St). split; [apply leaf_grown in St as [S1 S2]; exact S1|]. split; [|discriminate]. destruct St; cbn; lia.
  - discriminate.
  - apply (alearn_split_inv O tinv linv iinv Hbranch) in H; [|exact Wt].
    destruct H as (found & p & wt' & changed & v & c1 & alt' & over1 & c2 & te' & ch' & _ & _ & _ & J & AS & RS & ->).
    rewrite alternates_split in A0. apply app_eq_nil in A0 as [Ea Ec]. assert (alt = None) as -> by (destruct alt; [discriminate|reflexivity]). clear Ea.
    inversion Wt as [| |? ? ? ? ? K TI F A]; subst.
    assert (M : k_alternate c2 <= k_alternate c').
    { destruct RS as [b n n' s c3 Eb D El|b te' b' l' r c3 Eb Hb D Eg E1 St|b Eb Hb D Eg]; [|apply leaf_step_alternate in St; cbn [AdaTree.count k_alternate] in St; lia|lia].
      refine (alearn_alternate O tinv linv iinv Hbranch n _ _ _ _ _ _ _ _ _ El). exact (Forall_dget (fun c => awf tinv linv iinv c) _ _ _ F D). }
    cbn [judge] in J. destruct changed.
    { exfalso. injection J as <- <-. inversion AS as [l' rr c3 S1|Z1|v1 Z1 Z2|l l' rr c3 Z1 S1|l l' rr c3 Z1 S1]; subst; try discriminate; [|destruct Z2; discriminate]. apply leaf_step_alternate in S1. cbn in S1. lia. }
    injection J as <- <-. assert (alt' = None /\ over1 = None /\ c2 = c) as (-> & -> & ->) by (inversion AS; subst; auto; discriminate). clear AS. rewrite alts_nil in Ec.
    destruct RS as [b n n' s c3 Eb D El|b te' b' l' r c3 Eb Hb D Eg E1 St|b Eb Hb D Eg].
    + cbn [andb] in El. rewrite Forall_forall in IHc. pose proof (dget_In _ _ _ D) as Hin. pose proof (Forall_dget (fun c => awf tinv linv iinv c) _ _ _ F D) as Wn.
      destruct (IHc _ Hin _ _ _ _ _ _ _ Wn Hw (Forall_dget (fun n => alternates n = []) _ _ _ Ec D) El K0) as (A1 & A2 & _). cbn [snd] in *. split; [|split; [exact A2|reflexivity]].
      rewrite alternates_split. cbn [app]. rewrite alts_nil. apply (Forall_dset' (fun n => alternates n = [])); auto.
    + assert (r = None /\ c3 = AdaTree.count c 1 0 0 0 0 0) as [-> ->] by (inversion St; subst; auto; rewrite (Hfirst _ _ _ _ Hw ltac:(eassumption)) in *; discriminate).
      split; [|split; [cbn; lia|reflexivity]]. rewrite alternates_split. cbn [app]. rewrite alts_nil. apply (Forall_dset' (fun n => alternates n = [])); auto.
    + split; [|split; [lia|reflexivity]]. rewrite alternates_split. cbn [app]. rewrite alts_nil. exact Ec.
Qed.

(** ** The whole step of the tree without detectors *)
Variables (cfg : config T) (sz : sizes T L' I' S E).
Lemma sim_all_active t : forall r, sim t r -> forall pn, In pn (learning_nodes r) -> is_inactive (snd pn) = false.
Proof.
  induction t as [l|i|te st wt alt ch IHa IHc] using anode_ind'; intros r Hs pn Hin; inversion Hs as [? m Hl|? ? ? ? ch0 F]; subst.
  - destruct Hin as [<-|[]]. reflexivity.
  - cbn [learning_nodes] in Hin. apply in_flat_map in Hin as (j & _ & Hin). match type of Hin with context [dget ?s _] => set (sub := s) in Hin end.
    destruct (dget sub (Z.of_nat j)) as [ns|] eqn:D; [|destruct Hin]. apply in_map_iff in Hin as (qn & <- & Hin). cbn [snd].
    assert (Q : exists c, dget ch0 (Z.of_nat j) = Some c /\ ns = learning_nodes c).
    { unfold sub in D. clear - D. induction ch0 as [|[k0 c0] ch0 IH]; [discriminate|]. cbn [dget] in *. destruct (k0 =? Z.of_nat j); [injection D as <-; eauto|auto]. }
    destruct Q as (c0 & Dc & ->). pose proof (dget_F2 sim ch ch0 (Z.of_nat j) F) as G. rewrite Dc in G. destruct (dget ch (Z.of_nat j)) as [a0|] eqn:Da; [|contradiction].
    apply dget_In in Da. rewrite Forall_forall in IHc. exact (IHc _ Da _ G _ Hin).
Qed.
Lemma sim_enforce t r s : sim t r -> t_root s = Some r -> room cfg s -> enforce O' cfg s = Ok s.
Proof.
  intros Hs Er [R1 R2]. unfold enforce. rewrite R1, andb_false_r, Er. cbv zeta. set (f := sort_stable _ _). rewrite max_active_all by auto. rewrite Nat.add_0_l, Nat.sub_diag. cbn [firstn skipn deactivate_all bind].
  assert (A : Forall (fun pn => is_inactive (snd pn) = false) f).
  { apply Forall_forall. intros pn Hin. eapply Permutation_in in Hin; [|symmetry; apply sort_stable_perm]. exact (sim_all_active _ _ Hs _ Hin). }
  clearbody f. clear - A. revert A. induction f as [|[p n] f IH]; intros A; [reflexivity|]. inversion A as [|? ? B C]; subst. cbn [activate_all]. destruct n; [apply IH, C|discriminate|apply IH, C].
Qed.
Lemma hstep_fit s r x y w p n m r' dd da t' : t_root s = Some r -> t_growth s = true -> room cfg s -> c_period_due cfg (t_weight s) = false ->
  route O' r x = Ok (p, Some n) -> hstep x y w n m dd da -> fits r p -> update_at r p (fun _ => Ok m) = Ok r' -> sim t' r' ->
  fit_one O' cfg sz s x y w = Ok (with_root s r' dd da 0).
Proof.
  intros Er Eg Rm Pd Rt Hh Ft Up Hs. unfold fit_one. rewrite Er, Rt. cbn [bind]. destruct (route_found O' _ _ _ _ Rt) as [Na _].
  assert (G : learn_found O' cfg s p n x y w = Ok (with_root s r' dd da 0)); [|rewrite G; cbn [bind]; cbn [with_root t_weight]; rewrite Pd; reflexivity].
  destruct Hh as [l l1 E1 E2|l l1 l2 E1 E2 E3|l l1 l2 te ds m E1 E2 E3 E4|te st ch te' b l1 m E1 E2 E3 E4|te st ch E1]; cbn [learn_found]; rewrite ?E1, ?Er; cbn [bind root_of]; unfold root_of; rewrite ?Er; cbn [bind].
  - rewrite Up. cbn [bind]. rewrite Eg, E2. reflexivity.
  - destruct (update_const p r _ Na (Active l1)) as (r1 & U1). rewrite U1. cbn [bind]. rewrite Eg, E2, E3. cbn [andb bind apply_decision root_of with_root t_root].
    destruct (update_at_inv p _ _ _ U1) as (n1 & n2 & _ & _ & Nb & _). destruct (update_const p r1 _ Nb (Active l2)) as (r2 & U2). rewrite U2. pose proof (update_twice p _ _ _ _ _ U1 U2) as U3. rewrite Up in U3. injection U3 as <-.
    cbn [bind]. unfold with_root. cbn. rewrite !Z.add_0_r. reflexivity.
  - destruct (update_const p r _ Na (Active l1)) as (r1 & U1). rewrite U1. cbn [bind]. rewrite Eg, E2, E3. cbn [andb bind apply_decision]. rewrite E4. cbn [bind root_of with_root t_root].
    destruct (update_at_inv p _ _ _ U1) as (n1 & n2 & _ & _ & Nb & _). destruct (update_const p r1 _ Nb m) as (r2 & U2). rewrite (replace_fits p r1 m (fits_update p _ _ _ U1 Ft)), U2.
    pose proof (update_twice p _ _ _ _ _ U1 U2) as U3. rewrite Up in U3. injection U3 as <-. cbn [bind]. rewrite (sim_enforce t' r'); [|exact Hs|reflexivity|exact Rm]. unfold with_root. cbn. rewrite !Z.add_0_r. reflexivity.
  - rewrite E2. cbn [bind]. rewrite ?E3. cbn [bind]. rewrite ?Er. cbn [bind].
    rewrite (update_at_const p r (fun _ => set_child O' (Split te' st ch) b (Active l1)) _ m Na E4), Up. reflexivity.
  - f_equal. destruct s as [rt d a i0 is as0 ov gr we]. cbn in Er. subst rt. unfold with_root. cbn. rewrite !Z.add_0_r. f_equal. f_equal. clear - Up Na. revert r r' Up Na. induction p as [|b p IH]; intros r r' Up Na; cbn in *.
    + injection Na as ->. congruence.
    + destruct r as [?|?|te0 st0 ch0]; try discriminate. destruct (dget ch0 b) as [c|] eqn:D; [|discriminate]. apply bind_Ok in Up as (c' & U & Q). injection Q as <-. rewrite <- (IH _ _ U Na). f_equal.
      clear - D. induction ch0 as [|[k0 c0] ch0 IH]; [discriminate|]. cbn [dget dset] in *. destruct (Z.eqb_spec k0 b) as [->|]; [congruence|]. f_equal. auto.
Qed.
(** Routing *)
Lemma sim_route t x x' : xrel x x' -> forall r, sim t r ->
  match route O' r x' with
  | Raise e => aroute O t x = Raise e
  | Ok (_, Some m) => exists n, aroute O t x = Ok (Some n) /\ sim n m
  | Ok (_, None) => aroute O t x = Ok None
  end.
Proof.
  intros Hx. induction t as [l|i|te st wt alt ch IHa IHc] using anode_ind'; intros r Hs; inversion Hs as [? m Hl|? ? ? ? ch0 F]; subst.
  - cbn. eauto.
  - rewrite route_split, aroute_split, (Hbr _ _ _ Hx). destruct (o_branch O' te x') as [b|e]; [|reflexivity]. cbn [bind]. destruct (0 <=? b); [|eauto].
    pose proof (dget_F2 sim ch ch0 b F) as G. destruct (dget ch b) as [a|] eqn:Da, (dget ch0 b) as [c0|] eqn:Dc; try contradiction; [|reflexivity].
    apply dget_In in Da. rewrite Forall_forall in IHc. specialize (IHc _ Da _ G). cbn [snd] in IHc. destruct (route O' c0 x') as [[p [m|]]|e]; exact IHc.
Qed.
End Sim.
