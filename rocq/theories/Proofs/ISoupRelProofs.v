(** Two multi-target trees side by side: related statistics and models stay related. *)
From Coq Require Import List ZArith Bool.
From Verif Require Import Base.Py Base.Num Base.Dict Model.Suggestion Model.Adwin Model.Knn Model.SplitCriteria Model.TargetStats Model.Ebst Model.NominalObs Model.SplitTests Model.TreeSkeleton Model.HoeffdingTree Model.HoeffdingRegressor Model.ISoup
  Spec.TreeSpec Spec.TreeRelSpec Spec.ISoupSpec Proofs.TreeProofs Proofs.TreeRelProofs Proofs.HoeffdingProofs.
Import ListNotations.

Section Rel.
Context {T : Type} {N : Num T} (key : T -> Z) (cfg : htr_config T) (n : nat) (M M' : model T) (strict : bool).
Local Notation st := (stat T nat).
Local Notation sug := (suggestion (option (htest T)) (list (option st)) T).
Variables (RS : st -> st -> Prop) (RY : (nat -> T) -> (nat -> T) -> Prop) (RX : minst T -> minst T -> Prop) (RP : M_T M -> M_T M' -> Prop).
Hypothesis HW : forall s s', RS s s' -> st_w s = st_w s'.
Hypothesis Hadd : forall a a' b b', RS a a' -> RS b b' -> RS (s_add a b) (s_add a' b').
Hypothesis Hsub : forall a a' b b', RS a a' -> RS b b' -> RS (s_sub a b) (s_sub a' b').
Hypothesis Hzero : RS s_zero s_zero.
Hypothesis Hone : forall y y' w, RY y y' -> RS (s_one y w) (s_one y' w).
Hypothesis Hupd : forall y y' w, RY y y' -> RS (mkS w (fun i => y i * w)%num (fun i => y i * y i * w)%num) (mkS w (fun i => y' i * w)%num (fun i => y' i * y' i * w)%num).
Hypothesis Hmerit : forall pre pre' post post', RS pre pre' -> Forall2 RS post post' -> mmerit n pre post = mmerit n pre' post'.
Hypothesis HX : forall i i', RX i i' -> mi_x i = mi_x i'.
Hypothesis Pnew : RP (M_new M) (M_new M').
Hypothesis Pchild : forall p p', RP p p' -> RP (M_child M p) (M_child M' p').
Hypothesis Plearn : forall p p' s s' i i' y y' w, RP p p' -> RS s s' -> RX i i' -> RY y y' -> rrel strict RP (M_learn M p s i y w) (M_learn M' p' s' i' y' w).

Definition orel (a b : option st) : Prop := match a, b with Some a, Some b => RS a b | None, None => True | _, _ => False end.
Fixpoint brel (a b : bst T nat) : Prop :=
  match a, b with Leaf, Leaf => True | Node v s l r, Node v' s' l' r' => v = v' /\ RS s s' /\ brel l l' /\ brel r r' | _, _ => False end.
Definition direl (a b : list (Z * st)) : Prop := Forall2 (fun p q => fst p = fst q /\ RS (snd p) (snd q)) a b.
Definition obrel (a b : mobs T) : Prop := match a, b with MNum a, MNum b => brel a b | MNom a, MNom b => direl a b | MNull, MNull => True | _, _ => False end.
Definition osrel (a b : list (Z * mobs T)) : Prop := Forall2 (fun p q => fst p = fst q /\ obrel (snd p) (snd q)) a b.
Definition lrel (l : mleaf M) (l' : mleaf M') : Prop := orel (ml_stats _ l) (ml_stats _ l') /\ osrel (ml_obs _ l) (ml_obs _ l') /\ ml_last _ l = ml_last _ l' /\ RP (ml_model _ l) (ml_model _ l').
Definition irel (l : minactive M) (l' : minactive M') : Prop := orel (mn_stats _ l) (mn_stats _ l') /\ RP (mn_model _ l) (mn_model _ l').

(** ** Dictionaries *)
Section D.
Context {V : Type} (R : V -> V -> Prop).
Let dr (a b : list (Z * V)) : Prop := Forall2 (fun p q => fst p = fst q /\ R (snd p) (snd q)) a b.
Lemma dr_keys a b : dr a b -> dkeys a = dkeys b.
Proof. induction 1 as [|[k v] [k' v'] a b [E _] _ IH]; cbn; [reflexivity|]. cbn in E. subst. now f_equal. Qed.
Lemma dr_get a b k : dr a b -> match dget a k, dget b k with Some v, Some v' => R v v' | None, None => True | _, _ => False end.
Proof. induction 1 as [|[k0 v] [k' v'] a b [E F] _ IH]; cbn; [exact Logic.I|]. cbn in E, F. subst. destruct (Z.eqb k' k); auto. Qed.
Lemma dr_set a b k v v' : dr a b -> R v v' -> dr (dset a k v) (dset b k v').
Proof.
  intros H Hv. induction H as [|[k0 u] [k' u'] a b [E F] H IH]; cbn; [constructor; [split; auto|constructor]|]. cbn in E, F. subst. destruct (Z.eqb k' k); constructor; cbn; auto.
Qed.
Lemma dr_mem a b k : dr a b -> dmem a k = dmem b k.
Proof. intros H. pose proof (dr_get _ _ k H) as G. unfold dmem. destruct (dget a k), (dget b k); auto; contradiction. Qed.
Lemma dr_insert a b x y : dr a b -> fst x = fst y -> R (snd x) (snd y) -> dr (dinsert x a) (dinsert y b).
Proof.
  intros H E F. induction H as [|p q a b [E' F'] H IH]; cbn; [constructor; [split; auto|constructor]|]. rewrite E, E'. destruct (_ <=? _)%Z; repeat (constructor; auto).
Qed.
Lemma dr_sort a b : dr a b -> dr (dsort a) (dsort b).
Proof. unfold dsort. induction 1 as [|p q a b [E F] _ IH]; cbn; [constructor|]. now apply dr_insert. Qed.
End D.
Lemma F2_map_in {A B C} (R : B -> C -> Prop) (f : A -> B) (g : A -> C) l : (forall a, In a l -> R (f a) (g a)) -> Forall2 R (map f l) (map g l).
Proof. induction l as [|a l IH]; cbn; intros H; constructor; auto. Qed.

(** ** Observers *)
Lemma brel_insert v y y' w t : forall t', RY y y' -> brel t t' -> brel (bst_insert v y w t) (bst_insert v y' w t').
Proof.
  induction t as [|v0 s l IHl r IHr]; intros [|v0' s' l' r'] Hy H; cbn in H; try contradiction; cbn [bst_insert].
  - cbn. repeat split; auto.
  - destruct H as (<- & Hs & Hl & Hr). destruct (v =? v0)%num; [|destruct (v <? v0)%num]; cbn; repeat split; auto.
Qed.
Lemma obrel_update o o' v y y' w : RY y y' -> obrel o o' -> obrel (mobs_update key o v y w) (mobs_update key o' v y' w).
Proof.
  intros Hy. destruct o as [t|d|], o' as [t'|d'|]; cbn [mobs_update obrel]; try contradiction; auto; [now apply brel_insert|]. intros H. unfold nr_update.
  pose proof (dr_get RS _ _ (key v) H) as G. destruct (dget d (key v)), (dget d' (key v)); try contradiction; [apply (dr_set RS); auto|apply (dr_sort RS), (dr_set RS); auto].
Qed.
Lemma osrel_update y y' w x : forall o o' i, RY y y' -> osrel o o' -> osrel (update_mobs key cfg o i x y w) (update_mobs key cfg o' i x y' w).
Proof.
  induction x as [|v x IH]; intros o o' i Hy H; cbn [update_mobs]; auto. apply IH; auto. apply (dr_set obrel); auto. apply obrel_update; auto.
  pose proof (dr_get obrel _ _ i H) as G. destruct (dget o i), (dget o' i); try contradiction; auto. unfold mobs_new. destruct (r_nominal cfg i); cbn; auto. constructor.
Qed.
Definition esrel (a b : esug T nat) : Prop :=
  sg_test a = sg_test b /\ sg_merit a = sg_merit b /\ match sg_dists a, sg_dists b with Some (x, y), Some (x', y') => RS x x' /\ RS y y' | None, None => True | _, _ => False end.
Section Pre.
Variables pre pre' : st.
Hypothesis Hpre : RS pre pre'.
Lemma merit2 a a' b b' : RS a a' -> RS b b' -> mmerit n pre [a; b] = mmerit n pre' [a'; b'].
Proof. intros. apply Hmerit; auto. Qed.
Lemma find_best_rel t : forall t' c c' a a', brel t t' -> esrel c c' -> RS a a' ->
  esrel (fst (find_best (fun a b => mmerit n pre [a; b]) pre t c a)) (fst (find_best (fun a b => mmerit n pre' [a; b]) pre' t' c' a'))
  /\ RS (snd (find_best (fun a b => mmerit n pre [a; b]) pre t c a)) (snd (find_best (fun a b => mmerit n pre' [a; b]) pre' t' c' a')).
Proof.
  induction t as [|v s l IHl r IHr]; intros [|v' s' l' r'] c c' a a' H Hc Ha; cbn in H; try contradiction; cbn [find_best]; [auto|]. destruct H as (<- & Hs & Hl & Hr).
  destruct (IHl l' c c' a a' Hl Hc Ha) as [A B]. destruct (find_best _ pre l c a) as [c1 a1], (find_best _ pre' l' c' a') as [c1' a1']. cbn [fst snd] in A, B.
  rewrite (merit2 (s_add s a1) (s_add s' a1') (s_sub pre (s_add s a1)) (s_sub pre' (s_add s' a1'))) by auto. set (m := mmerit n pre' _).
  set (c2 := if mgt m (sg_merit c1) then mkSug (Some v) (Some (s_add s a1, s_sub pre (s_add s a1))) m else c1). set (c2' := if mgt m (sg_merit c1') then mkSug (Some v) (Some (s_add s' a1', s_sub pre' (s_add s' a1'))) m else c1').
  assert (C2 : esrel c2 c2'). { clearbody m. unfold c2, c2'. destruct A as (A1 & A2 & A3). rewrite A2. unfold esrel. destruct (mgt m (sg_merit c1')); cbn; auto 8. }
  clearbody c2 c2'. clear m. destruct r as [|v1 s1 l1 r1], r' as [|v1' s1' l1' r1']; cbn in Hr; try contradiction; [auto|].
  destruct (IHr (Node v1' s1' l1' r1') c2 c2' (s_add a1 s) (s_add a1' s') Hr C2 ltac:(auto)) as [D F]. set (r := Node v1 s1 l1 r1) in *. set (r' := Node v1' s1' l1' r1') in *.
  destruct (find_best _ pre r c2 _) as [c3 a3], (find_best _ pre' r' c2' _) as [c3' a3']. cbn [fst snd] in *. split; auto. pose proof C2 as (_ & E1 & _). pose proof D as (_ & E2 & _). rewrite E1, E2. destruct (mgt _ _); auto.
Qed.
Lemma ebst_best_rel t t' : brel t t' -> rrel strict esrel (ebst_best (fun a b => mmerit n pre [a; b]) pre t) (ebst_best (fun a b => mmerit n pre' [a; b]) pre' t').
Proof.
  intros H. pose proof H as H0. destruct t, t'; cbn in H; try contradiction; [apply rrel_raise|]. cbn [ebst_best]. apply find_best_rel; auto. repeat split; auto.
Qed.
Lemma remove_bad_rel ratio sdr e t : forall t' a a', brel t t' -> RS a a' ->
  rrel strict (fun u u' => brel (fst (fst u)) (fst (fst u')) /\ snd (fst u) = snd (fst u') /\ RS (snd u) (snd u'))
    (remove_bad (fun a b => mmerit n pre [a; b]) pre ratio sdr e t a) (remove_bad (fun a b => mmerit n pre' [a; b]) pre' ratio sdr e t' a').
Proof.
  induction t as [|v s l IHl r IHr]; intros [|v' s' l' r'] a a' H Ha; cbn in H; try contradiction; cbn [remove_bad]; [repeat split; auto|]. destruct H as (<- & Hs & Hl & Hr).
  eapply rrel_bind; [apply IHl; eauto|]. intros [[l2 b] a1] [[l2' b'] a1'] (A & B & C). cbn [fst snd] in A, B, C. subst b'.
  eapply rrel_bind with (RA := fun u u' => brel (fst (fst u)) (fst (fst u')) /\ snd (fst u) = snd (fst u') /\ RS (snd u) (snd u')).
  - destruct b; [|cbn; auto]. pose proof Hr as Hr0. destruct r, r'; cbn in Hr; try contradiction; [cbn; auto|]. eapply rrel_bind; [apply IHr; [exact Hr0|auto]|].
    intros [[q2 b2] a2] [[q2' b2'] a2'] (D & E & F). cbn [fst snd] in *. subst. cbn. auto.
  - intros [[r2 b2] a2] [[r2' b2'] a2'] (D & E & F). cbn [fst snd] in *. subst b2'. destruct b2; [|cbn; auto 8].
    rewrite (merit2 (s_add s a2) (s_add s' a2') (s_sub pre (s_add s a2)) (s_sub pre' (s_add s' a2'))) by auto. eapply rrel_bind; [apply rrel_eq|]. intros q ? <-. destruct q; cbn; auto 8.
Qed.
Lemma ebst_prune_rel ratio sdr e t t' : brel t t' -> rrel strict brel (ebst_prune (fun a b => mmerit n pre [a; b]) pre ratio sdr e t) (ebst_prune (fun a b => mmerit n pre' [a; b]) pre' ratio sdr e t').
Proof.
  intros H. pose proof H as H0. destruct t, t'; cbn in H; try contradiction; [apply rrel_raise|]. cbn [ebst_prune]. eapply rrel_bind; [apply remove_bad_rel; eauto|]. intros [[a b] c] [[a' b'] c'] (A & _). exact A.
Qed.

(** ** Suggestions *)
Definition sgrel (a b : sug) : Prop := sg_test a = sg_test b /\ sg_merit a = sg_merit b /\ Forall2 orel (sg_dists a) (sg_dists b).
Definition osg (a b : option sug) : Prop := match a, b with Some a, Some b => sgrel a b | None, None => True | _, _ => False end.
Definition nsg (a b : suggestion (ntest) (list st) T) : Prop := sg_test a = sg_test b /\ sg_merit a = sg_merit b /\ Forall2 RS (sg_dists a) (sg_dists b).
Definition onsg (a b : option (suggestion ntest (list st) T)) : Prop := match a, b with Some a, Some b => nsg a b | None, None => True | _, _ => False end.
Lemma keep_best_rel a a' b b' : onsg a a' -> nsg b b' -> onsg (keep_best a b) (keep_best a' b').
Proof.
  intros A B. unfold keep_best. destruct a as [a|], a' as [a'|]; try contradiction; auto. cbn in A. pose proof A as (_ & E1 & _). pose proof B as (_ & E2 & _). rewrite E1, E2. destruct (mgt _ _); auto.
Qed.
Lemma nr_best_rel d d' : direl d d' -> onsg (nr_best (mmerit n pre) pre (r_binary cfg) d) (nr_best (mmerit n pre') pre' (r_binary cfg) d').
Proof.
  intros H. unfold nr_best. cbv zeta. rewrite (dr_keys RS _ _ (dr_sort RS _ _ H)). generalize (dkeys (dsort d')). intros vs0.
  assert (Q : forall k, RS (match dget d k with Some s => s | None => s_zero end) (match dget d' k with Some s => s | None => s_zero end)).
  { intros k. pose proof (dr_get RS _ _ k H) as G. destruct (dget d k), (dget d' k); try contradiction; auto. }
  match goal with |- onsg (fold_left ?f _ ?a0) (fold_left ?g _ ?b0) => assert (G : onsg a0 b0); [|assert (L : forall vs a b, onsg a b -> onsg (fold_left f vs a) (fold_left g vs b)); [|now apply L]] end.
  { destruct (r_binary cfg); [exact Logic.I|]. split; [reflexivity|]. cbn [sg_merit sg_dists]. assert (F2 : Forall2 RS (map (fun k => match dget d k with Some s => s | None => s_zero end) vs0) (map (fun k => match dget d' k with Some s => s | None => s_zero end) vs0)) by (apply F2_map_in; auto). split; auto. }
  clear G. induction vs as [|v vs IH]; intros a b G; cbn [fold_left]; auto. apply IH. apply keep_best_rel; auto. split; [reflexivity|]. cbn [sg_merit sg_dists]. split; [apply Hmerit; auto|]; repeat constructor; auto.
Qed.
Lemma best_of_rel i o o' : obrel o o' -> rrel strict osg (mbest_of cfg n pre i o) (mbest_of cfg n pre' i o').
Proof.
  destruct o as [t|d|], o' as [t'|d'|]; cbn [obrel mbest_of]; try contradiction; intros H; [| |exact Logic.I].
  - eapply rrel_bind; [apply ebst_best_rel; exact H|]. intros s s' (A & B & C). cbn. unfold sgrel. rewrite A. destruct (sg_test s') as [v|]; [|cbn; repeat split; auto; repeat constructor]. destruct (sg_dists s) as [[x y]|], (sg_dists s') as [[x' y']|]; try contradiction; cbn; (split; [|split]; auto).
    constructor; [apply C|constructor; [apply C|constructor]].
  - pose proof (nr_best_rel _ _ H) as G. cbn. destruct (nr_best _ pre _ d) as [s|], (nr_best _ pre' _ d') as [s'|]; try contradiction; auto. destruct G as (A & B & C). cbn. rewrite A. repeat split; cbn; auto.
    clear - C. induction C; cbn; constructor; auto.
Qed.
Lemma mapM_rel {A A' B B'} (RA : A -> A' -> Prop) (RB : B -> B' -> Prop) (f : A -> res B) (g : A' -> res B') l l' :
  (forall a a', RA a a' -> rrel strict RB (f a) (g a')) -> Forall2 RA l l' -> rrel strict (Forall2 RB) (mapM f l) (mapM g l').
Proof.
  intros H F. induction F as [|a a' l l' Ha F IH]; cbn [mapM]; [constructor|]. eapply rrel_bind; [apply H; eauto|]. intros b b' Hb. eapply rrel_bind; [exact IH|]. intros r r' Hr. cbn. now constructor.
Qed.
Lemma suggestions_rel l l' : osrel (ml_obs _ l) (ml_obs _ l') -> rrel strict (Forall2 sgrel) (msuggestions cfg n M l pre) (msuggestions cfg n M' l' pre').
Proof.
  intros H. unfold msuggestions. eapply rrel_bind; [eapply mapM_rel; [|exact H]|].
  - intros [i o] [i' o'] [E F]. cbn [fst snd] in *. subst i'. apply best_of_rel. exact F.
  - intros bs bs' F. cbn. apply Forall2_app.
    + destruct (r_no_preprune cfg); repeat constructor. cbn. apply Hmerit; auto.
    + clear H. induction F as [|a b bs bs' Hab F IH]; cbn; [constructor|]. apply Forall2_app; auto. destruct a, b; cbn in Hab; try contradiction; repeat constructor; apply Hab.
Qed.
Lemma insert_rel le (s s' : sug) l l' : (forall a a' b b', sgrel a a' -> sgrel b b' -> le a b = le a' b') -> sgrel s s' -> Forall2 sgrel l l' -> Forall2 sgrel (insert_stable le s l) (insert_stable le s' l').
Proof. intros H Hs F. induction F as [|a b l l' Hab F IH]; cbn; [repeat constructor; apply Hs|]. rewrite (H _ _ _ _ Hs Hab). destruct (le s' b); constructor; auto. Qed.
Lemma sort_rel le l l' : (forall a a' b b', sgrel a a' -> sgrel b b' -> le a b = le a' b') -> Forall2 sgrel l l' -> Forall2 sgrel (sort_stable le l) (sort_stable le l').
Proof. intros H F. unfold sort_stable. induction F as [|a b l l' Hab F IH]; cbn; [constructor|]. now apply insert_rel. Qed.
Lemma ratio_rel a a' b b' : sgrel a a' -> sgrel b b' -> mmerit_ratio pre a b = mmerit_ratio pre' a' b'.
Proof.
  assert (P : forall s s', sgrel s s' -> mpy_merit pre s = mpy_merit pre' s').
  { intros s s' (A & _ & C). unfold mpy_merit. rewrite A. destruct (sg_test s'); [|cbn; now rewrite (HW _ _ Hpre)]. clear A. induction C as [|x y l l' Hxy C IH]; cbn; [reflexivity|]. rewrite IH. f_equal. destruct x, y; cbn in Hxy; try contradiction; cbn; auto. now rewrite (HW _ _ Hxy). }
  intros A B. unfold mmerit_ratio. rewrite (P _ _ A), (P _ _ B). unfold mmerit_of. destruct A as (_ & -> & _), B as (_ & -> & _). reflexivity.
Qed.
Lemma poor_rel best best' ratio bound l l' : sgrel best best' -> Forall2 sgrel l l' -> mpoor_atts pre best ratio bound l = mpoor_atts pre' best' ratio bound l'.
Proof.
  intros B F. induction F as [|a b l l' Hab F IH]; cbn [mpoor_atts]; [reflexivity|]. rewrite IH, (ratio_rel _ _ _ _ Hab B). destruct Hab as (-> & _). reflexivity.
Qed.
Lemma manage_rel l l' r s e : lrel l l' -> rrel strict lrel (mmanage n M l pre r s e) (mmanage n M' l' pre' r s e).
Proof.
  intros (A & B & C & D). unfold mmanage. eapply rrel_bind with (RA := osrel); [eapply mapM_rel; [|exact B]|].
  - intros [i o] [i' o'] [E F]. cbn [fst snd] in *. subst i'. eapply rrel_bind with (RA := obrel); [|intros x y Hxy; cbn; auto].
    destruct o as [t|d|], o' as [t'|d'|]; cbn in F; try contradiction; [|exact F|exact Logic.I]. eapply rrel_bind; [apply ebst_prune_rel; exact F|]. intros x y Hxy. exact Hxy.
  - intros o o' Ho. cbn. repeat split; auto.
Qed.
End Pre.
Lemma disable_rel p : forall l l', lrel l l' -> lrel (fold_left (mdisable M) p l) (fold_left (mdisable M') p l').
Proof.
  induction p as [|a p IH]; intros l l' H; cbn [fold_left]; auto. apply IH. destruct H as (A & B & C & D). unfold mdisable. rewrite (dr_mem obrel _ _ a B). destruct (dmem _ a); repeat split; cbn; auto.
  apply (dr_set obrel); auto. exact Logic.I.
Qed.
Lemma weight_rel a b : orel a b -> m_weight a = m_weight b. Proof. destruct a, b; cbn; try contradiction; auto. Qed.
Lemma rev_rel {A B} (R : A -> B -> Prop) l l' : Forall2 R l l' -> Forall2 R (rev l) (rev l').
Proof. induction 1; cbn; [constructor|]. apply Forall2_app; auto. Qed.
Lemma touched_rel l l' : lrel l l' -> lrel (mk_mleaf M (ml_stats _ l) (ml_obs _ l) (m_weight (ml_stats _ l)) (ml_model _ l)) (mk_mleaf M' (ml_stats _ l') (ml_obs _ l') (m_weight (ml_stats _ l')) (ml_model _ l')).
Proof. intros (A & B & C & D). repeat split; cbn; auto. now apply weight_rel. Qed.
Lemma decide_rel l l' : lrel l l' -> rrel strict (drel lrel orel eq) (mdecide cfg n M l) (mdecide cfg n M' l').
Proof.
  intros H. pose proof H as (A & B & C & D). unfold mdecide. cbv zeta. destruct (ml_stats M l) as [pre|] eqn:Es, (ml_stats M' l') as [pre'|] eqn:Es'; cbn in A; try contradiction; [|apply rrel_raise].
  eapply rrel_bind; [apply suggestions_rel; eauto|]. intros bs bs' F.
  set (le := fun a b : sug => negb (mgt (sg_merit a) (sg_merit b))). assert (F1 : Forall2 sgrel (sort_stable le bs) (sort_stable le bs')).
  { apply sort_rel; auto. intros a a' b b' (_ & E1 & _) (_ & E2 & _). unfold le. now rewrite E1, E2. }
  set (ss := sort_stable le bs) in *. set (ss' := sort_stable le bs') in *. clearbody ss ss'. clear F. pose proof (rev_rel _ _ _ F1) as F2.
  assert (Tk : forall best best', sgrel best best' -> drel lrel orel eq (match sg_test best with None => NullWins l | Some te => SplitOn l te (sg_dists best) end) (match sg_test best' with None => NullWins l' | Some te => SplitOn l' te (sg_dists best') end)).
  { intros b b' (E1 & _ & E2). rewrite E1. destruct (sg_test b'); cbn; auto. }
  destruct F2 as [|best best' r r' Hb F2]; [cbn; pose proof (touched_rel _ _ H) as G; now rewrite Es, Es' in *|]. destruct F2 as [|second second' r r' Hs F2]; [cbn; now apply Tk|].
  rewrite (HW _ _ A). eapply rrel_bind; [apply rrel_eq|]. intros bound ? <-. assert (Eb : mmerit_of best = mmerit_of best') by (unfold mmerit_of; destruct Hb as (_ & -> & _); auto). assert (E2 : mmerit_of second = mmerit_of second') by (unfold mmerit_of; destruct Hs as (_ & -> & _); auto).
  rewrite Eb, E2. destruct (_ && (_ || _)); [cbn; now apply Tk|].
  eapply rrel_bind with (RA := eq).
  { destruct (r_poor cfg); [|reflexivity]. rewrite (ratio_rel _ _ A _ _ _ _ Hs Hb). eapply rrel_bind; [apply rrel_eq|]. intros q ? <-. rewrite (poor_rel _ _ A best best' q bound ss ss' Hb F1). apply rrel_eq. }
  intros poor ? <-. pose proof (disable_rel poor _ _ H) as Hd. destruct (_ && _).
  - eapply rrel_bind; [apply manage_rel; eauto|]. intros m m' Hm. cbn. now apply touched_rel.
  - cbn. now apply touched_rel.
Qed.
Lemma stats_rel s s' y y' w : RY y y' -> orel s s' -> RS (mstats_add s y w) (mstats_add s' y' w).
Proof. intros Hy. unfold mstats_add. destruct s, s'; cbn; try contradiction; auto. Qed.
Variables (sz : sizes T (mleaf M) (minactive M) (option st) (htest T)) (sz' : sizes T (mleaf M') (minactive M') (option st) (htest T)).
Hypothesis Quiet : forall w, c_period_due (r_memory cfg) w = false.
Lemma multi_alike : alike (mt_ops key cfg n M) (mt_ops key cfg n M') (r_memory cfg) sz sz' strict RX RY lrel irel orel eq.
Proof.
  constructor; cbn [o_new o_child o_stop o_start o_learn o_learn_inactive o_due o_decide o_stats o_branch o_multiway o_add o_max o_before mt_ops].
  - repeat split; auto. constructor.
  - intros l l' d d' (A & B & C & D) Hd. repeat split; cbn; auto; [constructor|now apply weight_rel].
  - intros l l' (A & B & C & D). split; auto.
  - intros i i' (A & D). repeat split; cbn; auto; [constructor|now apply weight_rel].
  - intros l l' x x' y y' w (A & B & C & D) Hx Hy. unfold mleaf_learn. cbv zeta. pose proof (stats_rel _ _ _ _ w Hy A) as S. eapply rrel_bind; [apply Plearn; eauto|]. intros p p' Hp. cbn. repeat split; cbn; auto.
    rewrite (HX _ _ Hx). now apply osrel_update.
  - intros i i' x x' y y' w (A & D) Hx Hy. unfold minactive_learn. cbv zeta. pose proof (stats_rel _ _ _ _ w Hy A) as S. eapply rrel_bind; [apply Plearn; eauto|]. intros p p' Hp. cbn. split; cbn; auto.
  - intros l l' (A & B & C & D). now rewrite (weight_rel _ _ A), C.
  - apply decide_rel.
  - intros l l' H. apply H.
  - intros t ? x x' <- Hx. rewrite (HX _ _ Hx). apply rrel_eq.
  - intros t ? <-. reflexivity.
  - intros t ? x x' <- Hx. rewrite (HX _ _ Hx). destruct (ht_add key t (mi_x x')) as [[t' b]|]; cbn; auto.
  - intros t ? <-. reflexivity.
  - reflexivity.
  - left. exact Quiet.
Qed.

(** ** Whole histories *)
Variables (RG : msums T -> msums T -> Prop) (RM : msample T -> msample T -> Prop).
Hypothesis HMx : forall r r', RM r r' -> ms_x r = ms_x r' /\ RY (ms_y r) (ms_y r').
Hypothesis HG : forall g g' r r' w, RG g g' -> RM r r' -> RG (msums_add g (ms_x r) (ms_y r) w) (msums_add g' (ms_x r') (ms_y r') w).
Hypothesis HG0 : RG msums_new msums_new.
Hypothesis HI : forall g g' r r', RG g g' -> RM r r' -> RX (mk_minst (ms_x r) g (ms_draw r) (ms_draw2 r)) (mk_minst (ms_x r') g' (ms_draw r') (ms_draw2 r')).
Definition mrel (s : mt M) (s' : mt M') : Prop := trel lrel irel orel eq (mt_tree _ s) (mt_tree _ s') /\ RG (mt_sums _ s) (mt_sums _ s') /\ mt_set _ s = mt_set _ s'.
Definition evrel (e e' : mt_event T) : Prop := match e, e' with MFit rows ws, MFit rows' ws' => Forall2 RM rows rows' /\ ws = ws' | MReset, MReset => True | _, _ => False end.
Lemma rows_rel rows rows' : Forall2 RM rows rows' -> forall ws s s', mrel s s' -> rrel strict mrel (mt_rows key cfg n M sz s rows ws) (mt_rows key cfg n M' sz' s' rows' ws).
Proof.
  induction 1 as [|r r' rows rows' Hr F IH]; intros ws s s' H; cbn [mt_rows]; [exact H|]. destruct ws as [|w ws]; [exact H|].
  eapply rrel_bind with (RA := mrel); [|intros a b Hab; now apply IH]. unfold mt_one. destruct (w =? n0)%num; [exact H|]. cbv zeta. destruct H as (H1 & H2 & H3).
  pose proof (HG _ _ _ _ w H2 Hr) as G. eapply rrel_bind; [apply (rel_fit _ _ _ _ _ _ _ _ _ _ _ _ multi_alike); [exact H1|apply HI; eauto|apply HMx; exact Hr]|].
  intros a b Hab. repeat split; cbn; auto; apply Hab.
Qed.
Lemma F2_len {A B} (R : A -> B -> Prop) l l' : Forall2 R l l' -> length l = length l'. Proof. induction 1; cbn; auto. Qed.
Lemma mrel_new : mrel (mt_new M) (mt_new M'). Proof. split; [apply rel_new|]. split; auto. Qed.
Lemma run_rel es es' : Forall2 evrel es es' -> forall s s', mrel s s' -> rrel strict mrel (mt_run key cfg n M sz s es) (mt_run key cfg n M' sz' s' es').
Proof.
  induction 1 as [|e e' es es' He F IH]; intros s s' H; cbn [mt_run]; [exact H|]. eapply rrel_bind with (RA := mrel); [|intros a b Hab; now apply IH]. destruct H as (H1 & H2 & H3).
  destruct e as [rows ws|], e' as [rows' ws'|]; cbn in He; try contradiction; cbn [mt_step]; [|split; [apply rel_new|split; auto]]. destruct He as [Hr <-]. unfold mt_fit. cbv zeta. rewrite (F2_len _ _ _ Hr). destruct (Nat.eqb _ _); [|apply rrel_raise].
  apply rows_rel; auto. split; auto.
Qed.

(** ** Predictions *)
Variables (RV : (nat -> option T) -> (nat -> option T) -> Prop) (x : list T).
Hypothesis HQ : forall g g', RG g g' -> RX (mk_minst x g (fun _ _ => n0) (fun _ _ => n0)) (mk_minst x g' (fun _ _ => n0) (fun _ _ => n0)).
Hypothesis Pvalue : forall p p' s s' g g', RP p p' -> orel s s' -> RG g g' -> rrel strict RV (M_value M p s g x) (M_value M' p' s' g' x).
Hypothesis Pmean : forall d d', orel d d' -> RV (m_mean d) (m_mean d').
Lemma value_rel s s' : mrel s s' -> rrel strict (fun a b => exists f f', RV f f' /\ a = map f (seq 0 n) /\ b = map f' (seq 0 n)) (mt_value key cfg n M s x) (mt_value key cfg n M' s' x).
Proof.
  intros (H1 & H2 & _). unfold mt_value. pose proof (tr_root _ _ _ _ _ _ H1) as R. destruct (t_root _) as [r|], (t_root (mt_tree M' s')) as [r'|]; try contradiction; [|apply rrel_raise].
  eapply rrel_bind; [apply (rel_route _ _ _ _ _ _ _ _ _ _ _ _ multi_alike); [exact R|apply HQ; exact H2]|]. intros [p u] [p' u'] [_ Hu]. cbn [fst snd] in Hu.
  eapply rrel_bind with (RA := RV); [|intros f f' Hf; cbn; eauto].
  destruct u as [u|], u' as [u'|]; try contradiction; [|apply rrel_raise]. destruct Hu as [l l' (A & _ & _ & D)|i i' (A & D)|te te' d d' ch ch' _ Hd _].
  - now apply Pvalue.
  - now apply Pvalue.
  - cbn. now apply Pmean.
Qed.
End Rel.
