(** Half-space trees. *)
From Coq Require Import List ZArith Reals Bool Lia Lra.
From Verif Require Import Base.Py Base.Num Model.Adwin Model.Knn Model.HalfSpaceTrees Spec.Lists Spec.HalfSpaceSpec Proofs.ListFacts Proofs.KnnProofs.
From Verif Require Proofs.WindowedProofs.
Import ListNotations.
Local Open Scope nat_scope.

Section Mass.
Context {T G : Type} {N : Num T}.
Lemma goes_mass x b t : forall p y, goes (update_mass x b t) p y = goes (T := T) t p y.
Proof.
  induction t as [c r|a v c r lt IHl rt IHr]; intros p y; destruct p as [|d p]; cbn [update_mass goes]; try reflexivity; destruct (nltb v (col x a)); cbn [goes]; try reflexivity; destruct d; cbn [eqb]; rewrite ?IHl, ?IHr; reflexivity.
Qed.
Lemma at_mass x b t : forall p n', at_path (update_mass x b t) p = Some n' -> exists n, at_path t p = Some n /\
  ref_of n' = (if b && goes (T := T) t p x then S (ref_of n) else ref_of n) /\ cur_of n' = (if negb b && goes t p x then S (cur_of n) else cur_of n).
Proof.
  induction t as [c r|a v c r lt IHl rt IHr]; intros p n' H; destruct p as [|d p]; cbn [update_mass at_path goes] in *.
  - injection H as <-. eexists; split; [reflexivity|]. destruct b; split; reflexivity.
  - discriminate.
  - eexists; split; [reflexivity|]. unfold col in H. destruct (nltb v _); injection H as <-; destruct b; split; reflexivity.
  - unfold col in H. destruct (nltb v (nth a x n0)) eqn:E; cbn [at_path] in H; destruct d; cbn [eqb andb].
    + apply IHr in H. exact H.
    + exists n'. rewrite !andb_false_r. auto.
    + exists n'. rewrite !andb_false_r. auto.
    + apply IHl in H. exact H.
Qed.
Lemma renew c r : (if negb (Nat.eqb r 0) || negb (Nat.eqb c 0) then c else r) = c /\ (if negb (Nat.eqb c 0) then 0 else c) = 0.
Proof. destruct c, r; cbn; auto. Qed.
Lemma goes_model t : forall p y, goes (update_model t) p y = goes (T := T) t p y.
Proof. induction t as [c r|a v c r lt IHl rt IHr]; intros p y; destruct p as [|d p]; cbn [update_model goes]; try reflexivity. destruct d; rewrite ?IHl, ?IHr; reflexivity. Qed.
Lemma at_model t : forall p n', at_path (update_model t) p = Some n' -> exists n, at_path (T := T) t p = Some n /\ ref_of n' = cur_of n /\ cur_of n' = 0.
Proof.
  induction t as [c r|a v c r lt IHl rt IHr]; intros p n' H; destruct p as [|d p]; cbn [update_model at_path] in *; [|discriminate| |].
  - injection H as <-. eexists; split; [reflexivity|]. cbn [ref_of cur_of]. apply renew.
  - injection H as <-. eexists; split; [reflexivity|]. cbn [ref_of cur_of]. apply renew.
  - destruct d; [apply IHr in H|apply IHl in H]; exact H.
Qed.
(** *** The windows *)
Lemma div_snoc w n : 0 < w -> 0 < n -> (n mod w <> 0 -> n / w = (n - 1) / w) /\ (n mod w = 0 -> n / w = S ((n - 1) / w) /\ n = S ((n - 1) / w) * w).
Proof.
  intros W Hn. pose proof (Nat.div_mod n w ltac:(lia)) as D. pose proof (Nat.mod_upper_bound n w ltac:(lia)) as U. set (q := n / w) in *. set (r := n mod w) in *. split; intros Hr.
  - apply (Nat.div_unique (n - 1) w q (r - 1)); lia.
  - assert (Hq : q <> 0) by (intros ->; lia). assert (E : (n - 1) / w = q - 1) by (symmetry; apply (Nat.div_unique (n - 1) w (q - 1) (w - 1)); [lia|]; destruct q; [lia|]; cbn [Nat.sub]; rewrite Nat.sub_0_r; lia). rewrite E. split; [lia|]. replace (S (q - 1)) with q by lia. lia.
Qed.
Lemma window_same {A} w (xs : list A) x : 0 < w -> xs <> [] -> length xs mod w <> 0 ->
  if Nat.ltb (length xs) w then reference w (xs ++ [x]) = reference w xs ++ [x] /\ latest w (xs ++ [x]) = latest w xs /\ latest w xs = []
  else reference w (xs ++ [x]) = reference w xs /\ latest w (xs ++ [x]) = latest w xs ++ [x].
Proof.
  intros W Ne M. assert (Ln : 0 < length xs) by (destruct xs; [congruence|cbn; lia]). destruct (div_snoc w (length xs) W Ln) as [D _]. specialize (D M). unfold reference, latest. rewrite app_length. cbn [length]. replace (length xs + 1 - 1) with (length xs) by lia. rewrite D.
  pose proof (Nat.div_mod (length xs - 1) w ltac:(lia)) as Dm. pose proof (Nat.mod_upper_bound (length xs - 1) w ltac:(lia)) as Um. set (q := (length xs - 1) / w) in *.
  pose proof (Nat.div_mod (length xs) w ltac:(lia)) as Dl. rewrite D in Dl. pose proof (Nat.mod_upper_bound (length xs) w ltac:(lia)) as Ul.
  destruct (Nat.ltb_spec (length xs) w) as [Hl|Hl].
  - assert (q = 0) by (destruct q; [reflexivity|cbn in Dl; lia]). destruct q; [|lia]. destruct xs; [congruence|]. auto.
  - destruct q as [|[|q]]; [lia| |].
    + split; [|rewrite skipn_app; replace (1 * w + 1 - length xs) with 0 by lia; reflexivity]. rewrite skipn_app, firstn_app, skipn_length. replace (1 - (length xs - w)) with 0 by lia. cbn [firstn]. apply app_nil_r.
    + split; [|rewrite skipn_app; replace (S (S q) * w + 1 - length xs) with 0 by (cbn in *; lia); reflexivity]. rewrite skipn_app, firstn_app, skipn_length. replace (w - (length xs - (S q * w + 1))) with 0 by (cbn in *; lia). cbn [firstn]. apply app_nil_r.
Qed.
Lemma window_new {A} w (xs : list A) x : 0 < w -> length xs mod w = 0 -> xs <> [] ->
  w <= length xs /\ reference w (xs ++ [x]) = latest w xs ++ [x] /\ latest w (xs ++ [x]) = [].
Proof.
  intros W M Ne. assert (Ln : 0 < length xs) by (destruct xs; [congruence|cbn; lia]). destruct (div_snoc w (length xs) W Ln) as [_ D]. destruct (D M) as [D1 D2]. unfold reference, latest. rewrite app_length. cbn [length]. replace (length xs + 1 - 1) with (length xs) by lia. rewrite D1. set (q := (length xs - 1) / w) in *.
  split; [cbn in D2; lia|]. split; [|apply skipn_all2; rewrite app_length; cbn [length]; lia]. destruct q as [|q].
  - assert (E : length xs = w) by lia. rewrite skipn_app, <- E, skipn_all, Nat.sub_diag. reflexivity.
  - rewrite skipn_app. replace (S q * w + 1 - length xs) with 0 by (cbn in *; lia). cbn [skipn]. apply firstn_all2. rewrite app_length, skipn_length. cbn [length]. cbn in D2 |- *. lia.
Qed.
Lemma reference_length {A} w (xs : list A) : 0 < w -> length (reference w xs) <= w.
Proof.
  intros W. unfold reference. pose proof (Nat.div_mod (length xs - 1) w ltac:(lia)) as Dm. pose proof (Nat.mod_upper_bound (length xs - 1) w ltac:(lia)) as Um. destruct ((length xs - 1) / w) as [|[|q]].
  - destruct xs; cbn [tl length] in *; lia.
  - rewrite firstn_length. lia.
  - rewrite firstn_length. lia.
Qed.
Lemma count_snoc {A} (f : A -> bool) l x : count f (l ++ [x]) = if f x then S (count f l) else count f l.
Proof. unfold count. rewrite filter_app, app_length. cbn [filter]. destruct (f x); cbn [length]; lia. Qed.
Lemma count_ext {A} (f g : A -> bool) l : (forall x, f x = g x) -> count f l = count g l.
Proof. intros H. unfold count. f_equal. apply filter_ext. exact H. Qed.
Lemma count_le {A} (f : A -> bool) l : count f l <= length l.
Proof. unfold count. induction l as [|x l IH]; [auto|]. cbn [filter]. destruct (f x); cbn [length]; lia. Qed.

(** *** The masses count the instances of the windows *)
Definition counted (w : nat) (xs : list (list T)) (t : tree T) : Prop :=
  forall p n, at_path t p = Some n -> ref_of n = count (goes t p) (reference w xs) /\ cur_of n = count (goes t p) (latest w xs).
Variables (w n_est : nat).
Hypothesis W : 0 < w.
Definition learn (x : list T) (k : nat) (t : tree T) : tree T :=
  let t' := update_mass x (Nat.ltb k w) t in if Nat.eqb (k mod w) 0 then update_model t' else t'.
Lemma learn_counted xs x t : counted w xs t -> counted w (xs ++ [x]) (learn x (length xs) t).
Proof.
  intros C p n' H. unfold learn in *. cbv zeta in *. destruct xs as [|x0 xs0] eqn:Ex.
  - cbn [length app] in *. destruct (Nat.ltb_spec 0 w); [|lia]. rewrite Nat.mod_0_l in * by lia. cbn [Nat.eqb] in *. rewrite (count_ext _ (goes t p)) by (intros; rewrite goes_model, goes_mass; reflexivity). rewrite (count_ext _ (goes t p) (latest w [x])) by (intros; rewrite goes_model, goes_mass; reflexivity).
    apply at_model in H. destruct H as (n1 & H & -> & ->). apply at_mass in H. destruct H as (n & H & _ & ->). cbn [negb andb]. destruct (C p n H) as [_ ->]. unfold reference, latest. cbn [length Nat.sub]. rewrite Nat.div_0_l by lia. auto.
  - rewrite <- Ex in *. assert (Ne : xs <> []) by congruence. destruct (Nat.eqb_spec (length xs mod w) 0) as [M|M].
    + destruct (window_new w xs x W M Ne) as (Wl & -> & ->). destruct (Nat.ltb_spec (length xs) w); [lia|]. rewrite (count_ext _ (goes t p)) by (intros; rewrite goes_model, goes_mass; reflexivity). rewrite (count_ext _ (goes t p) []) by (intros; rewrite goes_model, goes_mass; reflexivity).
      apply at_model in H. destruct H as (n1 & H & -> & ->). apply at_mass in H. destruct H as (n & H & _ & ->). cbn [negb andb]. rewrite count_snoc. destruct (C p n H) as [_ <-]. split; [destruct (goes t p x); reflexivity|reflexivity].
    + pose proof (window_same w xs x W Ne M) as E. rewrite (count_ext _ (goes t p)) by (intros; rewrite goes_mass; reflexivity). rewrite (count_ext _ (goes t p) (latest w (xs ++ [x]))) by (intros; rewrite goes_mass; reflexivity).
      apply at_mass in H. destruct H as (n & H & -> & ->). destruct (C p n H) as [Cr Cc]. destruct (Nat.ltb (length xs) w); cbn [negb andb].
      * destruct E as (-> & -> & _). rewrite count_snoc, <- Cr, <- Cc. split; [destruct (goes t p x); reflexivity|reflexivity].
      * destruct E as (-> & ->). rewrite count_snoc, <- Cr, <- Cc. split; [reflexivity|destruct (goes t p x); reflexivity].
Qed.
Lemma learn_full x k t : forall d, full d (learn x k t) <-> full d t.
Proof.
  assert (Fm : forall t d, full d (update_model t) <-> full (T := T) d t) by (clear; induction t as [c r|a v c r lt IHl rt IHr]; intros [|d]; cbn [update_model full]; [reflexivity..|]; rewrite IHl, IHr; reflexivity).
  assert (Fu : forall b t d, full d (update_mass x b t) <-> full (T := T) d t).
  { clear. intros b; induction t as [c r|a v c r lt IHl rt IHr]; intros [|d]; cbn [update_mass full]; try reflexivity; destruct (nltb v (col x a)); cbn [full]; try reflexivity; rewrite ?IHl, ?IHr; reflexivity. }
  intros d. unfold learn. cbv zeta. destruct (Nat.eqb _ 0); rewrite ?Fm, Fu; reflexivity.
Qed.
Lemma fit_one_ok x s s' : fit_one w n_est x s = Ok s' -> firstn n_est (h_ens s') = map (learn x (h_seen s)) (firstn n_est (h_ens s)) /\ length (h_ens s') = length (h_ens s) /\ h_seen s' = S (h_seen s) /\ h_learning s' = (if Nat.ltb w (h_seen s) then false else h_learning s).
Proof.
  unfold fit_one. destruct (Nat.eqb_spec w 0); [lia|]. intros H. injection H as <-. cbn [h_ens h_seen h_learning].
  set (u := map (update_mass x (Nat.ltb (h_seen s) w)) (firstn n_est (h_ens s))). assert (Lu : length u = Nat.min n_est (length (h_ens s))) by (unfold u; rewrite map_length, firstn_length; reflexivity).
  assert (Ff : forall v : list (tree T), length v = Nat.min n_est (length (h_ens s)) -> firstn n_est (v ++ skipn n_est (h_ens s)) = v).
  { intros v Lv. destruct (Nat.le_gt_cases n_est (length (h_ens s))) as [Hl|Hl]; [rewrite firstn_app; replace (n_est - length v) with 0 by lia; rewrite firstn_O, app_nil_r; apply firstn_all2; lia|rewrite skipn_all2 by lia; rewrite app_nil_r; apply firstn_all2; lia]. }
  assert (Fs : forall v : list (tree T), length v = Nat.min n_est (length (h_ens s)) -> skipn n_est (v ++ skipn n_est (h_ens s)) = skipn n_est (h_ens s)).
  { intros v Lv. destruct (Nat.le_gt_cases n_est (length (h_ens s))) as [Hl|Hl]; [rewrite skipn_app; replace (n_est - length v) with 0 by lia; rewrite skipn_all2 by lia; reflexivity|rewrite (skipn_all2 (h_ens s)) by lia; rewrite app_nil_r; apply skipn_all2; lia]. }
  repeat split.
  - destruct (Nat.eqb (h_seen s mod w) 0) eqn:E.
    + rewrite (Ff u Lu), (Fs u Lu), Ff by (rewrite map_length; exact Lu). unfold u. rewrite map_map. apply map_ext. intros t. unfold learn. cbv zeta. rewrite E. reflexivity.
    + rewrite (Ff u Lu). unfold u. apply map_ext. intros t. unfold learn. cbv zeta. rewrite E. reflexivity.
  - destruct (Nat.eqb (h_seen s mod w) 0); [rewrite (Ff u Lu), (Fs u Lu)|]; rewrite app_length, ?map_length, Lu, skipn_length; lia.
  - destruct (h_learning s), (Nat.ltb w (h_seen s)); reflexivity.
Qed.
Variable P : tree T -> Prop.
Hypothesis Pl : forall x k t, P t -> P (learn x k t).
Definition hst_ok (xs : list (list T)) (s : hst T) : Prop :=
  h_seen s = length xs /\ Forall (fun t => counted w xs t /\ P t) (firstn n_est (h_ens s)) /\ h_learning s = negb (Nat.ltb (S w) (length xs)) /\ (xs <> [] -> n_est <= length (h_ens s)).
Lemma fit_one_inv x xs s s' : hst_ok xs s -> n_est <= length (h_ens s) -> fit_one w n_est x s = Ok s' -> hst_ok (xs ++ [x]) s' /\ n_est <= length (h_ens s').
Proof.
  intros (E1 & F & E2 & _) Ge H. apply fit_one_ok in H. destruct H as (H1 & H2 & H3 & H4). split; [|lia]. split; [rewrite H3, E1, app_length; cbn [length]; lia|]. split; [|split; [|intros _; lia]].
  - rewrite H1. apply Forall_map. eapply Forall_impl; [|exact F]. intros t [C Fu]. split; [rewrite E1; apply learn_counted; exact C|apply Pl; exact Fu].
  - rewrite H4, E1, E2, app_length. cbn [length]. destruct (Nat.ltb_spec w (length xs)), (Nat.ltb_spec (S w) (length xs)), (Nat.ltb_spec (S w) (length xs + 1)); cbn [negb]; try reflexivity; lia.
Qed.
Lemma fit_rows_inv rows : forall xs s s', hst_ok xs s -> n_est <= length (h_ens s) -> fit_rows w n_est rows s = Ok s' -> hst_ok (xs ++ rows) s' /\ n_est <= length (h_ens s').
Proof.
  induction rows as [|x rows IH]; intros xs s s' I Ge H; cbn [fit_rows] in H; [injection H as <-; rewrite app_nil_r; auto|]. apply bind_Ok in H; destruct H as [s1 [H1 H]]. eapply fit_one_inv in H1; eauto. destruct H1 as [I1 G1]. eapply IH in H; eauto. rewrite <- app_assoc in H. exact H.
Qed.
Variables (uniform : G -> T * G) (randint : nat -> G -> nat * G) (seed : G) (depth : nat).
Fixpoint fresh (t : tree T) : Prop := match t with Leaf c r => c = 0 /\ r = 0 | Node _ _ c r lt rt => c = 0 /\ r = 0 /\ fresh lt /\ fresh rt end.
Lemma build_shape nf d : forall mins maxs g t m g', build (T := T) randint d nf mins maxs g = Ok (t, m, g') -> full d t /\ fresh t.
Proof.
  induction d as [|d IH]; intros mins maxs g t m g' H; cbn [build] in H; [injection H as <- _ _; cbn; auto|]. destruct (Nat.leb nf 1); [discriminate|]. destruct (randint (nf - 1) g) as [a g1]. cbv zeta in H.
  apply bind_Ok in H; destruct H as [[[l m1] g2] [H1 H]]. apply bind_Ok in H; destruct H as [[[r m2] g3] [H2 H]]. injection H as <- _ _. apply IH in H1, H2. cbn [full fresh]. intuition.
Qed.
Lemma fresh_counted t : fresh t -> counted w [] t.
Proof.
  intros F p. revert t F. assert (E : reference w (@nil (list T)) = [] /\ latest w (@nil (list T)) = []) by (unfold reference, latest; cbn [length Nat.sub]; rewrite Nat.div_0_l by lia; auto). intros t F n H. rewrite (proj1 E), (proj2 E). cbn [count filter length]. unfold count; cbn [filter length].
  revert t F H. induction p as [|b p IH]; intros t F H; cbn [at_path] in H; [injection H as <-; destruct t; cbn in F |- *; intuition|]. destruct t as [c r|a v c r lt rt]; [discriminate|]. cbn [fresh] in F. destruct b; (eapply IH; [|exact H]); apply F.
Qed.
Lemma build_trees_ok nf k : forall g ts g', build_trees uniform randint depth k nf g = Ok (ts, g') -> length ts = k /\ Forall (fun t => full (depth - 1) t /\ fresh t) ts /\ (0 < k -> 0 < depth).
Proof.
  induction k as [|k IH]; intros g ts g' H; cbn [build_trees] in H; [injection H as <- _; repeat split; [constructor|lia]|]. destruct (work_space uniform nf g) as [[mins maxs] g1]. apply bind_Ok in H; destruct H as [[[t m] g2] [H1 H]]. apply bind_Ok in H; destruct H as [[ts2 g3] [H2 H]]. injection H as <- _.
  apply IH in H2. destruct H2 as (L & F & _). cbn [length]. unfold build_tree in H1. destruct depth as [|dp]; [discriminate|]. apply build_shape in H1. replace (S dp - 1) with dp in * by lia. repeat split; [lia|constructor; assumption|lia].
Qed.
Variable nf : nat.
Hypothesis Pb : forall g ts g', build_trees uniform randint depth n_est nf g = Ok (ts, g') -> Forall P ts.
Lemma hst_fit_inv rows xs s s' : hst_ok xs s -> hst_partial_fit uniform randint seed w depth n_est rows nf s = Ok s' -> hst_ok (xs ++ rows) s' /\ n_est <= length (h_ens s').
Proof.
  intros I H. unfold hst_partial_fit in H. apply bind_Ok in H; destruct H as [s1 [H1 H]]. destruct I as (E1 & F & E2 & Ge).
  assert (I1 : hst_ok xs s1 /\ n_est <= length (h_ens s1)).
  { destruct (Nat.eqb_spec (h_seen s) 0) as [Z|Z].
    - apply bind_Ok in H1; destruct H1 as [[ts g] [H1 H2]]. injection H2 as <-. pose proof (Pb _ _ _ H1) as Pt. apply build_trees_ok in H1. destruct H1 as (Lt & Ft & _). cbn [h_ens h_seen h_learning]. assert (xs = []) by (destruct xs; [reflexivity|cbn in E1; lia]). subst xs.
      split; [|rewrite app_length; lia]. split; [exact E1|]. split; [|split; [exact E2|congruence]]. cbn [h_ens]. rewrite firstn_app. apply Forall_app. split; [exact F|]. rewrite Forall_forall in *. intros t Ht. assert (In t ts) by (rewrite <- (firstn_skipn (n_est - length (h_ens s)) ts); apply in_or_app; left; exact Ht). clear Ht. rename H0 into Ht. split; [apply fresh_counted; apply (Ft t Ht)|apply (Pt t Ht)].
    - injection H1 as <-. assert (xs <> []) by (intros ->; cbn in E1; lia). split; [split; [exact E1|]; auto|auto]. }
  destruct I1 as [I1 G1]. eapply fit_rows_inv; eauto.
Qed.
Lemma hst_run_inv bs : forall xs s s', hst_ok xs s -> hst_run uniform randint seed w depth n_est nf bs s = Ok s' -> hst_ok (xs ++ concat bs) s' /\ (bs <> [] \/ n_est <= length (h_ens s) -> n_est <= length (h_ens s')).
Proof.
  induction bs as [|b bs IH]; intros xs s s' I H; cbn [hst_run concat] in *; [injection H as <-; rewrite app_nil_r; split; [exact I|intros [?|?]; [congruence|assumption]]|]. apply bind_Ok in H; destruct H as [s1 [H1 H]]. eapply hst_fit_inv in H1; eauto. destruct H1 as [I1 G1]. eapply IH in H; eauto. destruct H as [H1 H2]. rewrite <- app_assoc in H1. auto.
Qed.
Lemma hst_init_ok : hst_ok [] hst_init.
Proof. split; [reflexivity|]. split; [cbn [h_ens hst_init]; rewrite firstn_nil; constructor|]. split; [reflexivity|congruence]. Qed.
End Mass.
(** Over the reals *)
Section Reals.
Local Open Scope R_scope.
Lemma pow2_R k : pow2 k = 2 ^ k.
Proof. induction k as [|k IH]; cbn [pow2 pow]; [reflexivity|]. rewrite IH. reflexivity. Qed.
Lemma nat_R r : @nofZ R NumR (Z.of_nat r) = INR r.
Proof. symmetry. apply INR_IZR_INZ. Qed.
Lemma score_scored limit t x : forall d, exists p node, goes t p x = true /\ at_path t p = Some node /\ (is_leaf node \/ (ref_of node <= limit)%nat) /\
    (forall q r n, p = q ++ r -> r <> [] -> at_path t q = Some n -> (limit < ref_of n)%nat) /\ score (T := R) limit t d x = INR (ref_of node) * 2 ^ (d + length p).
Proof.
  assert (Z : forall (t : tree R) d, (is_leaf t \/ (ref_of t <= limit)%nat) -> score limit t d x = INR (ref_of t) * 2 ^ d -> exists p node, goes t p x = true /\ at_path t p = Some node /\ (is_leaf node \/ (ref_of node <= limit)%nat) /\
    (forall q r n, p = q ++ r -> r <> [] -> at_path t q = Some n -> (limit < ref_of n)%nat) /\ score (T := R) limit t d x = INR (ref_of node) * 2 ^ (d + length p)).
  { intros t0 d Hs E. exists [], t0. repeat split; [exact Hs| |cbn [length]; rewrite Nat.add_0_r; exact E]. intros q r n Hq Hr. destruct q, r; try discriminate; congruence. }
  induction t as [c r|a v c r lt IHl rt IHr]; intros d.
  - apply Z; [left; exact I|]. cbn [score ref_of]. rewrite pow2_R, nat_R. reflexivity.
  - destruct (Nat.leb_spec r limit) as [Hr|Hr].
    + apply Z; [right; exact Hr|]. cbn [score ref_of]. destruct (Nat.leb_spec r limit); [|lia]. rewrite pow2_R, nat_R. reflexivity.
    + cbn [score]. destruct (Nat.leb_spec r limit); [lia|]. unfold col. destruct (nltb v (nth a x n0)) eqn:E.
      * destruct (IHr (S d)) as (p & n & G1 & G2 & G3 & G4 & G5). exists (true :: p), n. cbn [goes at_path length]. rewrite E. cbn [eqb andb]. repeat split; try assumption; [|rewrite G5; f_equal; f_equal; lia]. intros q r0 m Hq Hne Ha. destruct q as [|b q]; cbn [app at_path] in *; [injection Ha as <-; exact Hr|]. injection Hq as <- Hq. eapply G4; eauto.
      * destruct (IHl (S d)) as (p & n & G1 & G2 & G3 & G4 & G5). exists (false :: p), n. cbn [goes at_path length]. rewrite E. cbn [eqb andb]. repeat split; try assumption; [|rewrite G5; f_equal; f_equal; lia]. intros q r0 m Hq Hne Ha. destruct q as [|b q]; cbn [app at_path] in *; [injection Ha as <-; exact Hr|]. injection Hq as <- Hq. eapply G4; eauto.
Qed.
Lemma full_path (t : tree R) : forall h p n, full h t -> at_path t p = Some n -> (length p <= h)%nat.
Proof.
  induction t as [c r|a v c r lt IHl rt IHr]; intros h p n F H; destruct p as [|b p]; cbn [at_path length] in *; try lia; [discriminate|]. destruct h as [|h]; cbn [full] in F; [contradiction|]. destruct b; [apply (IHr h) in H|apply (IHl h) in H]; try tauto; lia.
Qed.
Lemma counted_le w xs (t : tree R) p n : (0 < w)%nat -> counted w xs t -> at_path t p = Some n -> (ref_of n <= w)%nat.
Proof. intros W C H. destruct (C p n H) as [-> _]. pose proof (count_le (goes t p) (reference w xs)). pose proof (reference_length w xs W). lia. Qed.
Lemma score_range w depth limit xs (t : tree R) x : (0 < w)%nat -> (0 < depth)%nat -> counted w xs t -> full (depth - 1) t ->
  0 <= score limit t 1 x / (INR w * 2 ^ depth) <= 1.
Proof.
  intros W D C F. destruct (score_scored limit t x 1) as (p & n & _ & H & _ & _ & ->). pose proof (full_path t _ p n F H) as Lp. pose proof (counted_le w xs t p n W C H) as Lr.
  assert (P2 : 0 < 2 ^ depth) by (apply pow_lt; lra). assert (PW : 0 < INR w) by (apply lt_0_INR; exact W). assert (Pd : 0 < INR w * 2 ^ depth) by (apply Rmult_lt_0_compat; assumption).
  assert (P3 : 0 < 2 ^ (1 + length p)) by (apply pow_lt; lra). assert (P4 : 2 ^ (1 + length p) <= 2 ^ depth) by (apply Rle_pow; [lra|lia]). pose proof (pos_INR (ref_of n)) as P5. apply le_INR in Lr. split.
  - apply Rmult_le_pos; [apply Rmult_le_pos; lra|left; apply Rinv_0_lt_compat; exact Pd].
  - apply (Rmult_le_reg_r (INR w * 2 ^ depth)); [exact Pd|]. unfold Rdiv. rewrite Rmult_assoc, Rinv_l, Rmult_1_r, Rmult_1_l by lra. apply Rmult_le_compat; lra.
Qed.
Lemma Rmean_snoc l x : l <> [] -> Rmean (l ++ [x]) = Rmean l + (x - Rmean l) / INR (S (length l)).
Proof.
  intros Hn. unfold Rmean. rewrite app_length. cbn [length]. assert (0 < INR (length l)) by (apply lt_0_INR; destruct l; [congruence|cbn; lia]). replace (length l + 1)%nat with (S (length l)) by lia. rewrite S_INR.
  assert (E : Rsum (l ++ [x]) = Rsum l + x) by (clear; induction l as [|y l IH]; cbn [app Rsum fold_right] in *; [unfold Rsum; cbn; lra|unfold Rsum in *; cbn [fold_right] in *; lra]). rewrite E. field. lra.
Qed.
Lemma running_mean_R ps : forall qs, qs <> [] -> running_mean (T := R) (length qs) (Rmean (map fst qs), Rmean (map snd qs)) ps = (Rmean (map fst (qs ++ ps)), Rmean (map snd (qs ++ ps))).
Proof.
  induction ps as [|p ps IH]; intros qs Hn; cbn [running_mean]; [rewrite app_nil_r; reflexivity|]. rewrite (app_assoc qs [p] ps : qs ++ p :: ps = (qs ++ [p]) ++ ps), <- (IH (qs ++ [p])) by (destruct qs; discriminate).
  rewrite app_length. cbn [length]. replace (length qs + 1)%nat with (S (length qs)) by lia. f_equal. rewrite !map_app. cbn [map].
  assert (Hf : map fst qs <> []) by (destruct qs; [congruence|discriminate]). assert (Hs : map snd qs <> []) by (destruct qs; [congruence|discriminate]).
  rewrite !Rmean_snoc by assumption. rewrite !map_length. cbn [fst snd]. replace (Z.of_nat (length qs) + 1)%Z with (Z.of_nat (S (length qs))) by lia. rewrite nat_R. reflexivity.
Qed.
Lemma mean_range l : l <> [] -> Forall (fun v => 0 <= v <= 1) l -> 0 <= Rmean l <= 1.
Proof.
  intros Hn F. assert (E : 0 <= Rsum l <= INR (length l)). { clear Hn. induction F as [|x l Hx F IH]; [unfold Rsum; cbn; lra|]. change (length (x :: l)) with (S (length l)). rewrite S_INR. unfold Rsum in *. cbn [fold_right]. lra. }
  assert (0 < INR (length l)) by (apply lt_0_INR; destruct l; [congruence|cbn; lia]). unfold Rmean. split.
  - apply Rmult_le_pos; [lra|left; apply Rinv_0_lt_compat; assumption].
  - apply (Rmult_le_reg_r (INR (length l))); [assumption|]. unfold Rdiv. rewrite Rmult_assoc, Rinv_l, Rmult_1_r, Rmult_1_l by lra. lra.
Qed.
Lemma mean_compl {A} (f : A -> R) l : l <> [] -> Rmean (map (fun t => 1 - (1 - f t)) l) = 1 - Rmean (map (fun t => 1 - f t) l).
Proof.
  intros Hn. unfold Rmean. rewrite !map_length. assert (0 < INR (length l)) by (apply lt_0_INR; destruct l; [congruence|cbn; lia]).
  assert (E : Rsum (map (fun t => 1 - (1 - f t)) l) = INR (length l) - Rsum (map (fun t => 1 - f t) l)). { clear. induction l as [|a l IH]; [unfold Rsum; cbn; lra|]. change (length (a :: l)) with (S (length l)). rewrite S_INR. unfold Rsum in *. cbn [map fold_right]. rewrite IH. lra. }
  rewrite E. field. lra.
Qed.
Lemma normalize_one a : 0 <= a <= 1 -> normalize2 (T := R) (1 - a, a) = (1 - a, a).
Proof.
  intros H. unfold normalize2, nabs. cbn [fst snd nltb nadd nsub neqb ndiv n0 NumR nofZ]. unfold n0. cbn [nofZ NumR].
  destruct (Rltb (1 - a) 0) eqn:E1; [rcase; lra|]. destruct (Rltb a 0) eqn:E2; [rcase; lra|]. destruct (Reqb (1 - a + a) 0) eqn:E3; [reflexivity|]. f_equal; field; lra.
Qed.
Lemma mean_const {A} (f : A -> R) c l : l <> [] -> (forall t, In t l -> f t = c) -> Rmean (map f l) = c.
Proof.
  intros Hn F. unfold Rmean. rewrite map_length. assert (0 < INR (length l)) by (apply lt_0_INR; destruct l; [congruence|cbn; lia]).
  assert (E : Rsum (map f l) = INR (length l) * c). { clear -F. induction l as [|a l IH]; [unfold Rsum; cbn; lra|]. change (length (a :: l)) with (S (length l)). rewrite S_INR. unfold Rsum in *. cbn [map fold_right]. rewrite IH by (intros; apply F; right; assumption). rewrite (F a) by (left; reflexivity). lra. }
  rewrite E. field. lra.
Qed.
Lemma proba_row_R w depth n_est limit xs s x : (0 < w)%nat -> (0 < depth)%nat -> (0 < n_est)%nat -> (n_est <= length (h_ens s))%nat ->
  hst_ok w n_est (full (T := R) (depth - 1)) xs s ->
  let a := if (length xs <=? S w)%nat then 1 / 2 else Rmean (map (fun t => 1 - score limit t 1 x / (INR w * 2 ^ depth)) (firstn n_est (h_ens s))) in
  proba_row w depth n_est limit s x = (1 - a, a) /\ 0 <= a <= 1.
Proof.
  intros W D Ne Le (E1 & F & E2 & _). set (ts := firstn n_est (h_ens s)) in *. assert (Ht : ts <> []) by (intros E; assert (length ts = n_est) by (unfold ts; rewrite firstn_length; lia); rewrite E in *; cbn in *; lia).
  cbv zeta. unfold proba_row. fold ts. assert (El : h_learning s = (length xs <=? S w)%nat) by (rewrite E2; destruct (Nat.ltb_spec (S w) (length xs)), (Nat.leb_spec (length xs) (S w)); cbn [negb]; try reflexivity; lia). rewrite El.
  set (mx := (nofZ (Z.of_nat w) * pow2 depth)%num). assert (Mx : mx = INR w * 2 ^ depth) by (unfold mx; rewrite nat_R, pow2_R; reflexivity).
  set (f := fun t => score limit t 1 x / (INR w * 2 ^ depth)).
  set (a := if (length xs <=? S w)%nat then 1 / 2 else Rmean (map (fun t => 1 - f t) ts)).
  assert (Ra : 0 <= a <= 1). { unfold a. destruct (length xs <=? S w)%nat; [lra|]. apply mean_range; [destruct ts; [congruence|discriminate]|]. apply Forall_map. rewrite Forall_forall in F |- *. intros t Hi. destruct (F t Hi) as [C Fu]. pose proof (score_range w depth limit xs t x W D C Fu). unfold f. lra. }
  split; [|exact Ra]. set (ps := map (tree_proba limit (length xs <=? S w)%nat mx x) ts).
  assert (E : forall p q, ps = p :: q -> running_mean (T := R) 1 p q = (1 - a, a)).
  { intros p q Ep. replace p with (Rmean (map fst [p]), Rmean (map snd [p])) by (destruct p; unfold Rmean, Rsum; cbn; f_equal; field). etransitivity; [exact (running_mean_R q [p] ltac:(discriminate))|]. cbn [app]. rewrite <- Ep. unfold ps. rewrite !map_map. unfold tree_proba, a. destruct (length xs <=? S w)%nat; cbn [fst snd].
    - rewrite !(mean_const _ (1 / 2)) by (try assumption; intros; reflexivity). f_equal; lra.
    - rewrite Mx. cbv zeta. cbn [fst snd]. change ((Rmean (map (fun t => 1 - (1 - f t)) ts), Rmean (map (fun t => 1 - f t) ts)) = (1 - Rmean (map (fun t => 1 - f t) ts), Rmean (map (fun t => 1 - f t) ts))). rewrite mean_compl by assumption. reflexivity. }
  destruct ps as [|p q] eqn:Ep; [exfalso; apply Ht; unfold ps in Ep; apply map_eq_nil in Ep; exact Ep|]. rewrite (E p q eq_refl). apply normalize_one. exact Ra.
Qed.
(** *** The trees *)
Lemma set_nth_at (l : list R) a v i : (a < length l)%nat -> nth i (set_nth l a v) 0 = set_at (fun j => nth j l 0) a v i.
Proof.
  intros H. unfold set_at. rewrite set_nth_nth by exact H. rewrite Nat.eqb_sym. reflexivity.
Qed.
Lemma cuts_ext t : forall lo hi lo' hi', (forall i, lo i = lo' i) -> (forall i, hi i = hi' i) -> cuts lo hi t -> cuts lo' hi' t.
Proof.
  induction t as [c r|a v c r lt IHl rt IHr]; intros lo hi lo' hi' El Eh H; cbn [cuts] in *; [exact I|]. destruct H as (H1 & H2 & H3). rewrite <- El, <- Eh. split; [exact H1|]. split; [eapply IHl; [| |exact H2]|eapply IHr; [| |exact H3]]; intros i; unfold set_at; rewrite ?El, ?Eh; auto.
Qed.
Context {G : Type} (randint : nat -> G -> nat * G).
Hypothesis below : forall k g, (0 < k)%nat -> (fst (randint k g) < k)%nat.
Lemma build_cuts nf d : forall lo mins maxs g t m g', build (T := R) randint d nf mins maxs g = Ok (t, m, g') -> length mins = nf -> length maxs = nf ->
  (forall i, (i < nf)%nat -> lo i <= nth i mins 0 < nth i maxs 0) ->
  splits_below (nf - 1) t /\ cuts lo (fun i => nth i maxs 0) t /\ length m = nf /\ (forall i, (i < nf)%nat -> nth i mins 0 <= nth i m 0 < nth i maxs 0).
Proof.
  induction d as [|d IH]; intros lo mins maxs g t m g' H Lm Lx R0; cbn [build] in H.
  - injection H as <- <- _. cbn [splits_below cuts]. repeat split; try assumption; [lra|]. destruct (R0 i H); lra.
  - destruct (Nat.leb_spec nf 1) as [Hn|Hn]; [discriminate|]. pose proof (below (nf - 1) g ltac:(lia)) as Ha. destruct (randint (nf - 1) g) as [a g1]. cbn [fst] in Ha. cbv zeta in H. set (p := ((nth a mins n0 + nth a maxs n0) / nofZ 2)%num) in *.
    apply bind_Ok in H; destruct H as [[[l m1] g2] [H1 H]]. apply bind_Ok in H; destruct H as [[[r m2] g3] [H2 H]]. injection H as <- <- _.
    assert (Pr : nth a mins 0 < p < nth a maxs 0). { destruct (R0 a ltac:(lia)) as [_ Q]. change p with ((nth a mins 0 + nth a maxs 0) / 2). lra. }
    assert (Q1 : forall i, (i < nf)%nat -> lo i <= nth i mins 0 < nth i (set_nth maxs a p) 0). { intros i Hi. rewrite set_nth_at by lia. unfold set_at. destruct (R0 i Hi). destruct (Nat.eqb_spec i a) as [->|]; lra. }
    destruct (IH lo _ _ _ _ _ _ H1 Lm ltac:(rewrite set_nth_len; exact Lx) Q1) as (S1 & C1 & L1 & M1).
    assert (Q2 : forall i, (i < nf)%nat -> set_at lo a p i <= nth i (set_nth m1 a p) 0 < nth i maxs 0). { intros i Hi. rewrite set_nth_at by lia. specialize (M1 i Hi). rewrite set_nth_at in M1 by lia. specialize (R0 i Hi). unfold set_at in *. destruct (Nat.eqb_spec i a) as [->|]; lra. }
    destruct (IH (set_at lo a p) _ _ _ _ _ _ H2 ltac:(rewrite set_nth_len; exact L1) Lx Q2) as (S2 & C2 & L2 & M2).
    cbn [splits_below cuts]. split; [auto|]. split; [|split; [exact L2|]].
    + destruct (R0 a ltac:(lia)) as [R1 _]. split; [lra|]. split; [|exact C2]. eapply cuts_ext; [| |exact C1]; [reflexivity|]. intros i. apply set_nth_at. lia.
    + intros i Hi. specialize (M2 i Hi). rewrite set_nth_at in M2 by lia. specialize (M1 i Hi). rewrite set_nth_at in M1 by lia. specialize (R0 i Hi). unfold set_at in *. destruct (Nat.eqb_spec i a) as [->|]; lra.
Qed.
Lemma work_range_unit lo hi : work_range lo hi -> lo <= 0 /\ 1 <= hi.
Proof. intros (u & U & -> & ->). pose proof (Rmax_l u (1 - u)). pose proof (Rmax_r u (1 - u)). lra. Qed.
Variable uniform : G -> R * G.
Hypothesis unit : forall g, 0 <= fst (uniform g) < 1.
Lemma work_space_R n : forall g mins maxs g', work_space uniform n g = (mins, maxs, g') -> length mins = n /\ length maxs = n /\ forall i, (i < n)%nat -> work_range (nth i mins 0) (nth i maxs 0).
Proof.
  induction n as [|n IH]; intros g mins maxs g' H; cbn [work_space] in H; [injection H as <- <- _; repeat split; lia|]. pose proof (unit g) as U. destruct (uniform g) as [sq g1]. cbn [fst] in U. destruct (work_space uniform n g1) as [[mi ma] g2] eqn:E. apply IH in E. destruct E as (L1 & L2 & B).
  injection H as <- <- _. cbn [length]. repeat split; try lia. intros [|i] Hi; cbn [nth]; [|apply B; lia]. exists sq. split; [exact U|]. unfold py_max; cbn [nltb nsub nmul nadd n1 NumR nofZ]; unfold n1; cbn [nofZ NumR]. unfold Rmax. destruct (Rltb sq (1 - sq)) eqn:C; rcase; destruct (Rle_dec sq (1 - sq)); split; lra.
Qed.
Variables (depth nf : nat).
Definition shaped (t : tree R) : Prop :=
  full (depth - 1) t /\ splits_below (nf - 1) t /\ exists lo hi : nat -> R, (forall i, (i < nf)%nat -> work_range (lo i) (hi i)) /\ cuts lo hi t.
Lemma build_trees_shaped k : forall g ts g', build_trees uniform randint depth k nf g = Ok (ts, g') -> Forall shaped ts.
Proof.
  induction k as [|k IH]; intros g ts g' H; [cbn [build_trees] in H; injection H as <- _; constructor|]. pose proof (build_trees_ok 1 Nat.lt_0_1 uniform randint g depth nf (S k) g ts g' H) as (_ & Fs & _). cbn [build_trees] in H. destruct (work_space uniform nf g) as [[mins maxs] g1] eqn:Ew. apply work_space_R in Ew. destruct Ew as (L1 & L2 & B). apply bind_Ok in H; destruct H as [[[t m] g2] [H1 H]]. apply bind_Ok in H; destruct H as [[ts2 g3] [H2 H]]. injection H as <- _.
  constructor; [|eapply IH; eauto]. inversion Fs as [|? ? [Fu _] _]; subst. split; [exact Fu|]. unfold build_tree in H1. destruct depth as [|dp]; [discriminate|]. eapply (build_cuts nf dp (fun i => nth i mins 0)) in H1; try assumption; [|intros i Hi; destruct (work_range_unit _ _ (B i Hi)); lra]. destruct H1 as (S1 & C1 & _). split; [exact S1|]. exists (fun i => nth i mins 0), (fun i => nth i maxs 0). auto.
Qed.
Lemma splits_learn w x q t k : splits_below k (learn (T := R) w x q t) <-> splits_below k t.
Proof.
  assert (Fm : forall t, splits_below k (update_model t) <-> splits_below (T := R) k t) by (clear; induction t as [c r|a v c r lt IHl rt IHr]; cbn [update_model splits_below]; [reflexivity|]; rewrite IHl, IHr; reflexivity).
  assert (Fu : forall b t, splits_below k (update_mass x b t) <-> splits_below (T := R) k t).
  { clear. intros b; induction t as [c r|a v c r lt IHl rt IHr]; cbn [update_mass splits_below]; try reflexivity; destruct (nltb v (col x a)); cbn [splits_below]; rewrite ?IHl, ?IHr; reflexivity. }
  unfold learn. cbv zeta. destruct (Nat.eqb _ 0); rewrite ?Fm, Fu; reflexivity.
Qed.
Lemma cuts_learn w x q t : forall lo hi, cuts lo hi t -> cuts lo hi (learn (T := R) w x q t).
Proof.
  assert (Fm : forall t lo hi, cuts lo hi t -> cuts lo hi (update_model t)) by (clear; induction t as [c r|a v c r lt IHl rt IHr]; intros lo hi H; cbn [update_model cuts] in *; [exact I|]; destruct H as (H1 & H2 & H3); auto).
  assert (Fu : forall b t lo hi, cuts lo hi t -> cuts lo hi (update_mass x b t)).
  { clear. intros b; induction t as [c r|a v c r lt IHl rt IHr]; intros lo hi H; cbn [update_mass cuts] in *; [exact I|]; destruct H as (H1 & H2 & H3); destruct (nltb v (col x a)); cbn [cuts]; auto. }
  intros lo hi H. unfold learn. cbv zeta. destruct (Nat.eqb _ 0); [apply Fm|]; apply Fu; exact H.
Qed.
Lemma shaped_learn w x q t : shaped t -> shaped (learn w x q t).
Proof. intros (F & S1 & lo & hi & B & C). split; [apply learn_full; exact F|]. split; [apply splits_learn; exact S1|]. exists lo, hi. split; [exact B|apply cuts_learn; exact C]. Qed.
End Reals.
Section Fails.
Context {T G : Type} {N : Num T} (uniform : G -> T * G) (randint : nat -> G -> nat * G) (seed : G) (w depth n_est : nat).
Lemma build_total nf d : (2 <= nf \/ d = 0) -> forall mins maxs g, exists r, build (T := T) randint d nf mins maxs g = Ok r.
Proof.
  induction d as [|d IH]; intros Hn mins maxs g; cbn [build]; [eauto|]. assert (2 <= nf) by lia. destruct (Nat.leb_spec nf 1); [lia|]. destruct (randint (nf - 1) g) as [a g1]. cbv zeta.
  destruct (IH ltac:(lia) mins (set_nth maxs a (ndiv (nadd (nth a mins n0) (nth a maxs n0)) (nofZ 2))) g1) as [[[l m1] g2] E1]. rewrite E1. cbn [bind].
  destruct (IH ltac:(lia) (set_nth m1 a (ndiv (nadd (nth a mins n0) (nth a maxs n0)) (nofZ 2))) maxs g2) as [[[r m2] g3] E2]. rewrite E2. cbn [bind]. eauto.
Qed.
Lemma build_trees_total nf k : (0 < depth) -> (2 <= nf \/ depth = 1) -> forall g, exists r, build_trees uniform randint depth k nf g = Ok r.
Proof.
  intros D Hn. induction k as [|k IH]; intros g; cbn [build_trees]; [eauto|]. destruct (work_space uniform nf g) as [[mins maxs] g1]. unfold build_tree. destruct depth as [|dp] eqn:Ed; [lia|]. destruct (build_total nf dp ltac:(lia) mins maxs g1) as [[[t m] g2] E]. rewrite E. cbn [bind]. destruct (IH g2) as [[ts g3] E2]. rewrite E2. cbn [bind]. eauto.
Qed.
Lemma fit_rows_total rows : 0 < w -> forall s : hst T, exists s', fit_rows w n_est rows s = Ok s'.
Proof. intros W. induction rows as [|x rows IH]; intros s; cbn [fit_rows]; [eauto|]. unfold fit_one at 1. destruct (Nat.eqb_spec w 0); [lia|]. cbn [bind]. apply IH. Qed.
Lemma hst_run_total nf bs : 0 < w -> 0 < depth -> (2 <= nf \/ depth = 1) -> forall s, exists s', hst_run uniform randint seed w depth n_est nf bs s = Ok s'.
Proof.
  intros W D Hn. induction bs as [|b bs IH]; intros s; cbn [hst_run]; [eauto|]. unfold hst_partial_fit. destruct (Nat.eqb (h_seen s) 0).
  - destruct (build_trees_total nf n_est D Hn seed) as [[ts g] E]. rewrite E. cbn [bind]. match goal with |- context [fit_rows w n_est b ?st] => destruct (fit_rows_total b W st) as [s2 E2] end. rewrite E2. cbn [bind]. apply IH.
  - cbn [bind]. destruct (fit_rows_total b W s) as [s2 E2]. rewrite E2. cbn [bind]. apply IH.
Qed.
End Fails.
Lemma score_ext {T} {N : Num T} limit k (t : tree T) : forall d x y, splits_below k t -> (forall i, i < k -> nth i x n0 = nth i y n0) -> score limit t d x = score limit t d y.
Proof. induction t as [c r|a v c r lt IHl rt IHr]; intros d x y S1 E; cbn [score splits_below] in *; [reflexivity|]. unfold col. rewrite (E a) by tauto. destruct (Nat.leb r limit); [reflexivity|]. destruct (nltb v (nth a y n0)); [apply IHr|apply IHl]; tauto. Qed.
