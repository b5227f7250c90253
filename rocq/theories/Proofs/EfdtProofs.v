(** Proofs about the extremely fast decision tree. *)
From Coq Require Import List ZArith Bool Lia Permutation.
From Verif Require Import Base.Py Base.Num Base.Dict Model.Suggestion Model.Adwin Model.Knn Model.NaiveBayes Model.GaussianObs Model.NominalObs Model.SplitTests
  Model.SplitCriteria Model.TreeSkeleton Model.HoeffdingTree Model.Efdt Spec.TreeSpec Spec.EfdtSpec Proofs.TreeProofs Proofs.HoeffdingProofs.
Import ListNotations.
Local Open Scope Z_scope.

Section Proofs.
Context {T : Type} {N : Num T}.
Variables (k : T) (phi : T -> T) (key : T -> Z) (cfg : ht_config T) (min_re : T) (sz : sizes T (leaf T) (list (Z * T)) (esplit T) (htest T)).
Local Notation enode := (node (leaf T) (list (Z * T)) (esplit T) (htest T)).
Local Notation etree := (tree T (leaf T) (list (Z * T)) (esplit T) (htest T)).
Local Notation O := (efdt_ops k key cfg).

(** ** The walk *)
Definition go_down (growth : bool) (te : htest T) (st : esplit T) (ch : list (Z * enode)) (x : list T) (y : Z) (w : T) : res (enode * (Z * Z) * bool) :=
  b <- ht_branch key te x ;;
  if (0 <=? b)%Z then
    match dget ch b with
    | None => Ok (Split te st ch, (0, 0)%Z, false)
    | Some n => ' (n', d, e) <- process k phi key cfg min_re growth n x y w ;; Ok (Split te st (dset ch b n'), d, e)
    end
  else Ok (Split te st ch, (0, 0)%Z, false).
Lemma process_split growth te st ch x y w : process k phi key cfg min_re growth (Split te st ch) x y w =
  (obs <- update_observers key (h_nominal cfg) (es_obs st) 0 x y w ;;
   let stats := update_stats (es_stats st) y w in
   let st' := mk_es stats obs (es_seen st) in
   v <- (if (min_re <=? vsum stats - es_seen st)%num then reconsider k phi cfg te stats obs else Ok Stay) ;;
   let c := count_nodes (Split te st ch) in
   match v with
   | Kill => Ok (Active (mk_leaf stats obs n0 n0 n0), (- fst c, 1 - snd c)%Z, true)
   | Resplit te' ds => Ok (new_split te' stats obs ds, (1 - fst c, Z.of_nat (length ds) - snd c)%Z, true)
   | Retest te' => go_down growth te' st' ch x y w
   | Stay => go_down growth te st' ch x y w
   end).
Proof.
  cbn [process]. destruct (update_observers _ _ _ _ _ _ _) as [obs|e]; [|reflexivity]. cbn [bind]. cbv zeta.
  destruct (if (min_re <=? _)%num then _ else _) as [v|e]; [|reflexivity]. cbn [bind].
  assert (D : forall te', (b <- ht_branch key te' x ;;
     (if (0 <=? b)%Z then
       (fix look (l : list (Z * enode)) : res (enode * (Z * Z) * bool) :=
          match l with
          | [] => Ok (Split te' (mk_es (update_stats (es_stats st) y w) obs (es_seen st)) ch, (0, 0)%Z, false)
          | (i, n) :: r => if (i =? b)%Z then ' (n', d, e) <- process k phi key cfg min_re growth n x y w ;; Ok (Split te' (mk_es (update_stats (es_stats st) y w) obs (es_seen st)) (dset ch b n'), d, e) else look r
          end) ch
     else Ok (Split te' (mk_es (update_stats (es_stats st) y w) obs (es_seen st)) ch, (0, 0)%Z, false)))
     = go_down growth te' (mk_es (update_stats (es_stats st) y w) obs (es_seen st)) ch x y w).
  { intros te'. unfold go_down. destruct (ht_branch key te' x) as [b|e]; [|reflexivity]. cbn [bind]. destruct (0 <=? b)%Z; [|reflexivity].
    set (Done := Ok (Split te' (mk_es (update_stats (es_stats st) y w) obs (es_seen st)) ch, (0, 0)%Z, false)).
    set (K := fun n => ' (n', d, e) <- process k phi key cfg min_re growth n x y w ;; Ok (Split te' (mk_es (update_stats (es_stats st) y w) obs (es_seen st)) (dset ch b n'), d, e)).
    change ((fix look (l : list (Z * enode)) : res (enode * (Z * Z) * bool) := match l with [] => Done | (i, n) :: r => if (i =? b)%Z then K n else look r end) ch = match dget ch b with None => Done | Some n => K n end).
    clearbody Done K. induction ch as [|[i n] ch IH]; [reflexivity|]. cbn [dget]. destruct (i =? b)%Z; [reflexivity|exact IH]. }
  destruct v; try reflexivity; apply D.
Qed.

(** ** The statistics of the root *)
Definition same_root (r r' : enode) : Prop := kept r = kept r' /\ is_split r = is_split r'.
Lemma same_root_refl r : same_root r r. Proof. now split. Qed.
Lemma same_root_trans a b c : same_root a b -> same_root b c -> same_root a c. Proof. unfold same_root. intuition congruence. Qed.
Lemma update_below b q (f : enode -> res enode) r r' : update_at r (b :: q) f = Ok r' -> same_root r r' /\ is_split r = true.
Proof.
  cbn [update_at]. destruct r as [| |te st ch]; try discriminate. destruct (dget ch b) as [c|]; [|discriminate]. intros H. apply bind_Ok in H as (c' & _ & H). injection H as <-. repeat split.
Qed.
Lemma replace_below p n r r' : replace_at O r p n = Ok r' -> (p = [] /\ r' = n) \/ (is_split r = true /\ same_root r r').
Proof.
  destruct p as [|b q]; cbn [replace_at]; [intros [= <-]; auto|]. destruct (removelast (b :: q)) as [|b' q'] eqn:E.
  - cbn [update_at]. unfold set_child. destruct r as [| |te st ch]; try discriminate. destruct (_ && _); [discriminate|]. intros [= <-]. right. repeat split.
  - intros H. apply update_below in H as [A B]. auto.
Qed.
(** The places [] in a list of leaves speak of the root. *)
Definition at_root (r : enode) (l : list (list Z * enode)) : Prop := forall n, In ([], n) l -> is_split r = false /\ is_split n = false /\ kept n = kept r.
Lemma at_root_same r r' l : same_root r r' -> at_root r l -> at_root r' l.
Proof. intros [A B] H n Hin. destruct (H n Hin) as (C & D & F). repeat split; congruence. Qed.
Lemma at_root_tail r a l : at_root r (a :: l) -> at_root r l. Proof. intros H n Hin. apply H. now right. Qed.
Lemma deactivate_all_root l : forall s r s', t_root s = Some r -> at_root r l -> deactivate_all O s l = Ok s' -> exists r', t_root s' = Some r' /\ same_root r r'.
Proof.
  induction l as [|[p n] l IH]; intros s r s' Er A H; cbn [deactivate_all] in H; [injection H as <-; exists r; split; auto; apply same_root_refl|].
  destruct n as [a|i|te st ch].
  - apply bind_Ok in H as (s1 & H1 & H). unfold deactivate, root_of in H1. rewrite Er in H1. cbn [bind] in H1. apply bind_Ok in H1 as (r1 & R1 & H1). injection H1 as <-.
    assert (S : same_root r r1).
    { apply replace_below in R1 as [[-> ->]|[_ S]]; auto. destruct (A _ (or_introl eq_refl)) as (B & _ & C). split; cbn in *; auto. }
    destruct (IH (with_root s r1 0 (-1) 1) r1 s' eq_refl) as (r2 & E2 & S2); auto; [eapply at_root_same; eauto; eapply at_root_tail; eauto|].
    exists r2. split; auto. eapply same_root_trans; eauto.
  - eapply IH; eauto. eapply at_root_tail; eauto.
  - eapply IH; eauto. eapply at_root_tail; eauto.
Qed.
Lemma activate_all_root l : forall s r s', t_root s = Some r -> at_root r l -> activate_all O s l = Ok s' -> exists r', t_root s' = Some r' /\ same_root r r'.
Proof.
  induction l as [|[p n] l IH]; intros s r s' Er A H; cbn [activate_all] in H; [injection H as <-; exists r; split; auto; apply same_root_refl|].
  destruct n as [a|i|te st ch].
  - eapply IH; eauto. eapply at_root_tail; eauto.
  - apply bind_Ok in H as (s1 & H1 & H). unfold activate, root_of in H1. rewrite Er in H1. cbn [bind] in H1. apply bind_Ok in H1 as (r1 & R1 & H1). injection H1 as <-.
    assert (S : same_root r r1).
    { apply replace_below in R1 as [[-> ->]|[_ S]]; auto. destruct (A _ (or_introl eq_refl)) as (B & _ & C). split; cbn in *; auto. }
    destruct (IH (with_root s r1 0 1 (-1)) r1 s' eq_refl) as (r2 & E2 & S2); auto; [eapply at_root_same; eauto; eapply at_root_tail; eauto|].
    exists r2. split; auto. eapply same_root_trans; eauto.
  - eapply IH; eauto. eapply at_root_tail; eauto.
Qed.
Lemma learning_root r : at_root r (learning_nodes r).
Proof.
  intros n H. destruct r as [l|i|te st ch]; cbn [learning_nodes] in H; [destruct H as [[= <-]|[]]; auto|destruct H as [[= <-]|[]]; auto|].
  exfalso. apply in_flat_map in H as (i & _ & H). destruct (dget _ _) as [ns|]; [|contradiction]. apply in_map_iff in H as (pn & E & _). discriminate.
Qed.
Lemma In_firstn {A} (a : A) n l : In a (firstn n l) -> In a l. Proof. rewrite <- (firstn_skipn n l) at 2. intros. apply in_app_iff. auto. Qed.
Lemma In_skipn {A} (a : A) n l : In a (skipn n l) -> In a l. Proof. rewrite <- (firstn_skipn n l) at 2. intros. apply in_app_iff. auto. Qed.
Lemma enforce_root mem s r s' : t_root s = Some r -> enforce O mem s = Ok s' -> exists r', t_root s' = Some r' /\ same_root r r'.
Proof.
  intros Er H. unfold enforce in H. destruct (_ && _); [injection H as <-; exists r; split; [exact Er|apply same_root_refl]|]. rewrite Er in H. cbv zeta in H.
  set (f := sort_stable _ _) in H. assert (A : at_root r f).
  { intros n Hin. apply (learning_root r n). eapply Permutation_in; [symmetry; apply sort_stable_perm|exact Hin]. }
  clearbody f. apply bind_Ok in H as (s1 & H1 & H2).
  destruct (deactivate_all_root _ _ _ _ Er (fun n Hin => A n (In_firstn _ _ _ Hin)) H1) as (r1 & E1 & S1).
  destruct (activate_all_root _ _ _ _ E1 (at_root_same _ _ _ S1 (fun n Hin => A n (In_skipn _ _ _ Hin))) H2) as (r2 & E2 & S2).
  exists r2. split; auto. eapply same_root_trans; eauto.
Qed.
Lemma estimate_root mem s r s' : t_root s = Some r -> estimate O mem sz s = Ok s' -> exists r', t_root s' = Some r' /\ same_root r r'.
Proof.
  intros Er H. unfold estimate in H. rewrite Er in H. cbv zeta in H. apply bind_Ok in H as (ae & _ & H). apply bind_Ok in H as (ie & _ & H). apply bind_Ok in H as (oh & _ & H).
  destruct (_ <? _)%num; [|injection H as <-; exists r; split; [reflexivity|apply same_root_refl]].
  eapply enforce_root in H; [exact H|reflexivity].
Qed.
Lemma leaf_learn_stats l x y w l' : leaf_learn k key cfg l x y w = Ok l' -> lf_stats l' = update_stats (lf_stats l) y w.
Proof. unfold leaf_learn. intros H. apply bind_Ok in H as ([mc nb] & _ & H). apply bind_Ok in H as (obs & _ & H). now injection H as <-. Qed.
Lemma sort_root s r x y w s' : t_root s = Some r -> sort_into_leaf k key cfg sz s r x y w = Ok s' ->
  exists r', t_root s' = Some r' /\ is_split r' = is_split r /\ kept r' = if is_split r then kept r else update_stats (kept r) y w.
Proof.
  intros Er H. unfold sort_into_leaf in H. apply bind_Ok in H as ([p n] & R & H). apply bind_Ok in H as (s1 & H1 & H2).
  assert (A : exists r1, t_root s1 = Some r1 /\ is_split r1 = is_split r /\ kept r1 = if is_split r then kept r else update_stats (kept r) y w).
  { destruct r as [l|i|te st ch].
    - cbn [route] in R. injection R as <- <-. apply bind_Ok in H1 as (l' & L & H1). cbn [update_at bind] in H1. injection H1 as <-. eexists. split; [reflexivity|]. split; [reflexivity|]. exact (leaf_learn_stats _ _ _ _ _ L).
    - cbn [route] in R. injection R as <- <-. cbn [update_at bind] in H1. injection H1 as <-. eexists. repeat split.
    - assert (D : (p = [] /\ n = Some (Split te st ch)) \/ exists b q, p = b :: q).
      { rewrite route_split in R. apply bind_Ok in R as (b & _ & R). destruct (0 <=? b)%Z; [|injection R as <- <-; auto]. right.
        destruct (dget ch b); [|injection R as <- <-; eauto]. apply bind_Ok in R as ([q m] & _ & R). injection R as <- <-. eauto. }
      destruct D as [[-> ->]|(b & q & ->)]; [injection H1 as <-; eauto|].
      assert (K : forall r1, same_root (Split te st ch) r1 -> is_split r1 = is_split (Split te st ch) /\ kept r1 = kept (Split te st ch)) by (intros r1 [A B]; split; congruence).
      change (is_split (Split te st ch)) with true in *. cbv iota.
      destruct n as [[l|d|te2 st2 ch2]|].
      + apply bind_Ok in H1 as (l' & L & H1). apply bind_Ok in H1 as (r1 & U & H1). injection H1 as <-. apply update_below in U as [U _]. exists r1. split; [reflexivity|]. apply K, U.
      + apply bind_Ok in H1 as (r1 & U & H1). injection H1 as <-. apply update_below in U as [U _]. exists r1. split; [reflexivity|]. apply K, U.
      + injection H1 as <-. exists (Split te st ch). auto.
      + apply bind_Ok in H1 as (l' & L & H1). apply bind_Ok in H1 as (r1 & U & H1). injection H1 as <-. apply replace_below in U as [[U _]|[_ U]]; [discriminate|]. exists r1. split; [reflexivity|]. apply K, U. }
  destruct A as (r1 & E1 & A1 & A2). destruct (c_period_due _ _); [|injection H2 as <-; eauto].
  destruct (estimate_root _ _ _ _ E1 H2) as (r2 & E2 & B1 & B2). exists r2. repeat split; congruence.
Qed.
Lemma process_root g t x y w t' d e : process k phi key cfg min_re g t x y w = Ok (t', d, e) ->
  kept t' = if is_split t then update_stats (kept t) y w else kept t.
Proof.
  destruct t as [l|i|te st ch].
  - cbn [process]. destruct (_ && _); [|intros [= <- _ _]; reflexivity]. intros H. apply bind_Ok in H as ([[te ds]|] & _ & H); injection H as <- _ _; reflexivity.
  - intros [= <- _ _]. reflexivity.
  - rewrite process_split. intros H. apply bind_Ok in H as (obs & _ & H). cbv zeta in H. apply bind_Ok in H as (v & _ & H). cbn [is_split kept].
    assert (D : forall te', go_down g te' (mk_es (update_stats (es_stats st) y w) obs (es_seen st)) ch x y w = Ok (t', d, e) -> kept t' = update_stats (es_stats st) y w).
    { intros te' D. unfold go_down in D. apply bind_Ok in D as (b & _ & D). destruct (0 <=? b); [|injection D as <- _ _; reflexivity].
      destruct (dget ch b); [|injection D as <- _ _; reflexivity]. apply bind_Ok in D as ([[n' d'] e'] & _ & D). injection D as <- _ _. reflexivity. }
    destruct v; try (injection H as <- _ _; reflexivity); eapply D; eauto.
Qed.
Lemma one_root s x y w s' : efdt_one k phi key cfg min_re sz s x y w = Ok s' ->
  exists r', t_root s' = Some r' /\ kept r' = update_stats (match t_root s with Some r => kept r | None => [] end) y w.
Proof.
  intros H. unfold efdt_one in H.
  set (s0r := match t_root s with Some r => (s, r) | None => _ end) in H.
  assert (E : t_root (fst s0r) = Some (snd s0r) /\ kept (snd s0r) = match t_root s with Some r => kept r | None => [] end) by (unfold s0r; destruct (t_root s) eqn:E; cbn; auto).
  destruct s0r as [s0 r0]. cbn [fst snd] in E. destruct E as [E0 K0]. rewrite <- K0.
  apply bind_Ok in H as (s1 & H1 & H). destruct (sort_root _ _ _ _ _ _ E0 H1) as (r1 & E1 & Sp & K1). unfold root_of in H. rewrite E1 in H. cbn [bind] in H.
  apply bind_Ok in H as ([[r2 d] e] & H2 & H). apply process_root in H2. rewrite Sp, K1 in H2.
  assert (K2 : kept r2 = update_stats (kept r0) y w) by (destruct (is_split r0); exact H2).
  destruct e; [|injection H as <-; exists r2; auto].
  destruct (enforce_root _ (with_root s1 r2 (fst d) (snd d) 0) r2 _ eq_refl H) as (r3 & E3 & [K3 _]). exists r3. split; auto. congruence.
Qed.

(** A run keeps the statistics of the samples at the root. *)
Definition sums (l : list (Z * T)) : list (Z * T) := fold_left (fun d yw => update_stats d (fst yw) (snd yw)) l [].
Definition root_holds (s : etree) (l : list (Z * T)) : Prop := match t_root s with None => l = [] | Some r => l <> [] /\ kept r = sums l end.
Lemma rows_hold ws' rows : forall s l s', root_holds s l -> efdt_rows k phi key cfg min_re sz s rows ws' = Ok s' ->
  root_holds s' (l ++ filter (fun yw => negb (snd yw =? n0)%num) (combine (map snd rows) ws')).
Proof.
  revert ws'. induction rows as [|[x y] rows IH]; intros ws' s l s' H E; cbn [efdt_rows] in E.
  - injection E as <-. cbn. rewrite app_nil_r. exact H.
  - destruct ws' as [|w ws']; [discriminate|]. apply bind_Ok in E as (s1 & E1 & E). unfold efdt_weighted in E1. cbn [map snd combine filter].
    destruct (w =? n0)%num eqn:Ew; cbn [negb].
    + injection E1 as <-. eapply IH; eauto.
    + apply one_root in E1 as (r1 & Er1 & K1). cbn [t_root] in K1.
      replace (l ++ (y, w) :: filter _ _) with ((l ++ [(y, w)]) ++ filter (fun yw => negb (snd yw =? n0)%num) (combine (map snd rows) ws')) by (now rewrite <- app_assoc).
      eapply IH; [|exact E]. unfold root_holds. rewrite Er1. split; [destruct l; discriminate|]. rewrite K1. unfold sums. rewrite fold_left_app. cbn [fold_left fst snd].
      unfold root_holds in H. destruct (t_root s) as [r|]; [destruct H as [_ ->]; reflexivity|subst l; reflexivity].
Qed.
Lemma taught_used rows ws u : weights_used (length rows) ws = Ok u -> forall s s', efdt_rows k phi key cfg min_re sz s rows u = Ok s' ->
  filter (fun yw => negb (snd yw =? n0)%num) (combine (map snd rows) u) = taught rows ws.
Proof.
  intros H s s' E. unfold weights_used, taught in *. f_equal. destruct (Nat.eqb_spec (length rows) 1) as [L|L].
  - injection H as <-. destruct rows as [|[x y] [|]]; try discriminate. cbn [map snd]. destruct ws as [[|w ws]|]; cbn; auto. discriminate E.
  - assert (U : u = repeat (weight_of_all ws) (length rows)) by (destruct ws as [[|w ws]|]; cbn in *; try discriminate; now injection H as <-).
    subst u. clear. induction rows as [|[x y] rows IH]; [reflexivity|]. cbn [length repeat map snd combine]. now rewrite IH.
Qed.
Lemma run_root es : forall s l s', root_holds (ef_tree s) l -> efdt_run k phi key cfg min_re sz s es = Ok s' ->
  root_holds (ef_tree s') (fold_left (fun acc e => match e with EFit rows _ ws => acc ++ taught rows ws | EClear => [] end) es l).
Proof.
  induction es as [|e es IH]; intros s l s' H R; cbn [efdt_run] in R; [injection R as <-; exact H|]. apply bind_Ok in R as (s1 & R1 & R). cbn [fold_left].
  destruct e as [rows c ws|]; cbn [efdt_do] in R1.
  - unfold efdt_fit in R1. apply bind_Ok in R1 as (u & U & R1). apply bind_Ok in R1 as (t & F & R1). injection R1 as <-. eapply IH; [|exact R]. cbn [ef_tree].
    rewrite <- (taught_used _ _ _ U _ _ F). eapply (rows_hold u rows); eauto.
  - injection R1 as <-. eapply IH; [|exact R]. reflexivity.
Qed.

(** ** Counters, when every split has two branches and no leaf is switched off *)
Definition plain (o : cobs T) : Prop := match o with CNom _ => False | _ => True end.
Definition obs_ok (obs : list (Z * cobs T)) : Prop := h_binary cfg = true \/ (forall i, h_nominal cfg i = false) /\ Forall (fun io => plain (snd io)) obs.
Definition two (te : htest T) : Prop := match te with TMulti _ => False | _ => True end.
Inductive ewf : enode -> Prop :=
| ewf_leaf l : obs_ok (lf_obs l) -> ewf (Active l)
| ewf_split te st c0 c1 : two te -> obs_ok (es_obs st) -> ewf c0 -> ewf c1 -> ewf (Split te st [(0, c0); (1, c1)]).

Lemma two_lt te x b : two te -> ht_branch key te x = Ok b -> b < 2.
Proof.
  destruct te as [t|a v|t]; cbn [two ht_branch]; try contradiction; intros _ H.
  - unfold num_branch in H. destruct (no_attribute _ _); [injection H as <-; lia|]. apply bind_Ok in H as (v & _ & H). destruct (v =? _)%num; [destruct (nt_equal t)|destruct (v <? _)%num]; injection H as <-; lia.
  - destruct (no_attribute _ _); [injection H as <-; lia|]. apply bind_Ok in H as (u & _ & H). destruct (_ =? _)%Z; injection H as <-; lia.
Qed.
Lemma Forall_dset {V} (P : V -> Prop) (d : list (Z * V)) i v : Forall (fun kv => P (snd kv)) d -> P v -> Forall (fun kv => P (snd kv)) (dset d i v).
Proof. intros F Pv. induction F as [|[j u] d Pu F IH]; cbn [dset]; [constructor; auto|]. destruct (j =? i)%Z; constructor; auto. Qed.
Lemma update_observers_ok y w : forall x obs i obs', obs_ok obs -> update_observers key (h_nominal cfg) obs i x y w = Ok obs' -> obs_ok obs'.
Proof.
  induction x as [|a x IH]; intros obs i obs' K H; cbn [update_observers] in H; [injection H as <-; auto|].
  apply bind_Ok in H as (o' & E & H). eapply IH; [|exact H]. destruct K as [K|[K F]]; [now left|right]. split; auto. apply Forall_dset; auto.
  assert (P : plain (match dget obs i with Some o => o | None => co_new (h_nominal cfg i) end)).
  { destruct (dget obs i) as [o|] eqn:Ed; [apply dget_In in Ed; rewrite Forall_forall in F; exact (F _ Ed)|rewrite K; exact Logic.I]. }
  destruct (match dget obs i with Some o => o | None => _ end) as [g|m|]; cbn [co_update] in E; [|contradiction|injection E as <-; exact Logic.I].
  apply bind_Ok in E as (g' & _ & E). injection E as <-. exact Logic.I.
Qed.
Lemma leaf_learn_ok l x y w l' : obs_ok (lf_obs l) -> leaf_learn k key cfg l x y w = Ok l' -> obs_ok (lf_obs l').
Proof. unfold leaf_learn. intros K H. apply bind_Ok in H as ([mc nb] & _ & H). apply bind_Ok in H as (obs & E & H). injection H as <-. eapply update_observers_ok; eauto. Qed.

(** Candidates have two branches. *)
Local Notation sug := (suggestion (option (htest T)) (list (list (Z * T))) T).
Definition pair_sug (s : sug) : Prop := match sg_test s with Some te => two te /\ length (sg_dists s) = 2%nat | None => False end.
Lemma best_of_two pre i o s : h_binary cfg = true \/ plain o -> best_of k phi cfg pre i o = Ok (Some s) -> pair_sug s.
Proof.
  intros K. destruct o as [g|m|]; cbn [best_of]; [| |discriminate].
  - intros H. apply bind_Ok in H as ([b|] & E & H); [|discriminate]. injection H as <-. repeat split.
  - destruct K as [K|[]]. unfold no_best. rewrite K. cbv zeta. rewrite fold_keep. intros H. destruct (fold_left keep_best _ _) as [b|] eqn:E; [|discriminate]. injection H as <-.
    apply keep_best_in in E as [E|E]; [|discriminate]. apply in_map_iff in E as (a & <- & _). split; [exact Logic.I|apply no_binary_length].
Qed.
Lemma candidates_two pre obs bs : obs_ok obs -> candidates k phi cfg pre obs = Ok bs -> Forall pair_sug bs.
Proof.
  intros K H. unfold candidates in H. apply bind_Ok in H as (rs & E & H). injection H as <-. apply Forall_forall. intros s Hs.
  eapply Permutation_in in Hs; [|symmetry; apply sort_stable_perm]. apply in_flat_map in Hs as ([s'|] & Hin & Hs); [|contradiction]. destruct Hs as [->|[]].
  destruct (mapM_in _ _ _ E _ Hin) as ([i o] & Hio & Eb). cbn [fst snd] in Eb. eapply best_of_two; [|exact Eb].
  destruct K as [K|[_ F]]; [now left|right]. rewrite Forall_forall in F. exact (F _ Hio).
Qed.
Lemma rev_head {A} (l : list A) a r : rev l = a :: r -> In a l.
Proof. intros H. apply in_rev. rewrite H. now left. Qed.
Lemma attempt_two l te ds : obs_ok (lf_obs l) -> attempt k phi cfg l = Ok (Some (te, ds)) -> two te /\ length ds = 2%nat.
Proof.
  unfold attempt. intros K H. destruct (leaf_pure l); [discriminate|]. apply bind_Ok in H as (bs & E & H). destruct (rev bs) as [|b r] eqn:Er; [discriminate|].
  apply bind_Ok in H as (bound & _ & H). pose proof (candidates_two _ _ _ K E) as F. rewrite Forall_forall in F. specialize (F _ (rev_head _ _ _ Er)). unfold pair_sug in F.
  destruct (sg_test b) as [te'|]; [|contradiction]. destruct (_ || _); [|discriminate]. injection H as <- <-. exact F.
Qed.
Lemma reconsider_two te stats obs v : obs_ok obs -> reconsider k phi cfg te stats obs = Ok v ->
  match v with Resplit te' ds => two te' /\ length ds = 2%nat | Retest te' => two te' | _ => True end.
Proof.
  unfold reconsider. intros K H. destruct (pure stats); [injection H as <-; exact Logic.I|]. apply bind_Ok in H as (bs & E & H). destruct (rev bs) as [|b r] eqn:Er; [injection H as <-; exact Logic.I|].
  apply bind_Ok in H as (bound & _ & H). pose proof (candidates_two _ _ _ K E) as F. rewrite Forall_forall in F. specialize (F _ (rev_head _ _ _ Er)). unfold pair_sug in F.
  destruct (gap_gt _ _ _); [injection H as <-; exact Logic.I|]. destruct (find _ _); [|discriminate]. destruct (sg_test b) as [te'|]; [|discriminate]. injection H as <-.
  destruct (_ || _); [|exact Logic.I]. destruct (_ =? _)%Z; [apply F|exact F].
Qed.

Lemma count_two (f : enode -> bool) te st (c0 c1 : enode) : count f (Split te st [(0, c0); (1, c1)]) = ((if f (Split te st [(0, c0); (1, c1)]) then 1 else 0) + count f c0 + count f c1).
Proof. rewrite count_split. unfold count_all. cbn [map fold_right snd]. lia. Qed.
Lemma count_nodes_right (t : enode) : ewf t -> count_nodes t = (count is_split t, count is_active t) /\ count is_inactive t = 0.
Proof.
  induction 1 as [l K|te st c0 c1 Tw K W0 [IH0 Z0] W1 [IH1 Z1]]; [split; reflexivity|].
  rewrite !count_two. cbn [count_nodes length seq fold_left Z.of_nat dget fst snd]. change (0 =? 0) with true. cbv iota. cbn [fst snd].
  rewrite IH0, IH1, Z0, Z1. cbn [fst snd is_split is_active is_inactive]. split; [reflexivity|lia].
Qed.
Lemma dget_two (c0 c1 : enode) b : 0 <= b -> b < 2 -> (b = 0 /\ dget [(0, c0); (1, c1)] b = Some c0 /\ (forall c, dset [(0, c0); (1, c1)] b c = [(0, c); (1, c1)])) \/ (b = 1 /\ dget [(0, c0); (1, c1)] b = Some c1 /\ (forall c, dset [(0, c0); (1, c1)] b c = [(0, c0); (1, c)])).
Proof. intros A B. assert (C : b = 0 \/ b = 1) by lia. destruct C as [-> | ->]; [left|right]; repeat split. Qed.
Lemma new_split_two te stats obs ds : two te -> obs_ok obs -> length ds = 2%nat ->
  ewf (new_split te stats obs ds) /\ count is_split (new_split te stats obs ds) = 1 /\ count is_active (new_split te stats obs ds) = 2.
Proof.
  intros Tw K L. destruct ds as [|d0 [|d1 [|]]]; try discriminate. unfold new_split. cbn [length seq map combine Z.of_nat].
  assert (E : obs_ok []) by (destruct K as [K|[K _]]; [left|right]; auto). split; [constructor; auto; constructor; exact E|]. split; reflexivity.
Qed.

Lemma process_counts g x y w : forall t t' d e, ewf t -> process k phi key cfg min_re g t x y w = Ok (t', d, e) ->
  ewf t' /\ count is_split t' = count is_split t + fst d /\ count is_active t' = count is_active t + snd d.
Proof.
  intros t t' d e W. revert t' d e. induction W as [l K|te st c0 c1 Tw K W0 IH0 W1 IH1]; intros t' d e H.
  - cbn [process] in H. destruct (_ && _).
    + apply bind_Ok in H as ([[te ds]|] & A & H); injection H as <- <- _.
      * destruct (attempt_two _ _ _ K A) as [Tw L]. destruct (new_split_two te (lf_stats l) (lf_obs l) ds Tw K L) as (W & -> & ->). rewrite L. repeat split; auto.
      * repeat split. constructor. exact K.
    + injection H as <- <- _. repeat split. now constructor.
  - rewrite process_split in H. apply bind_Ok in H as (obs & Eo & H). cbv zeta in H. pose proof (update_observers_ok _ _ _ _ _ _ K Eo) as K'. apply bind_Ok in H as (v & V & H).
    assert (V' : match v with Resplit te' ds => two te' /\ length ds = 2%nat | Retest te' => two te' | _ => True end).
    { destruct (_ <=? _)%num; [eapply reconsider_two; eauto|injection V as <-; exact Logic.I]. }
    assert (CN := count_nodes_right (Split te st [(0, c0); (1, c1)]) (ewf_split _ _ _ _ Tw K W0 W1)). destruct CN as [CN _]. rewrite CN in H. cbn [fst snd] in H.
    assert (D : forall te', two te' -> go_down g te' (mk_es (update_stats (es_stats st) y w) obs (es_seen st)) [(0, c0); (1, c1)] x y w = Ok (t', d, e) ->
      ewf t' /\ count is_split t' = count is_split (Split te st [(0, c0); (1, c1)]) + fst d /\ count is_active t' = count is_active (Split te st [(0, c0); (1, c1)]) + snd d).
    { clear H V V'. intros te' Tw' D. unfold go_down in D. apply bind_Ok in D as (b & Eb & D). destruct (Z.leb_spec 0 b) as [Lb|Lb].
      - destruct (dget_two c0 c1 b Lb (two_lt _ _ _ Tw' Eb)) as [(-> & Eg & Es)|(-> & Eg & Es)]; rewrite Eg in D; apply bind_Ok in D as ([[n' d'] e'] & P & D); rewrite Es in D; injection D as <- <- <-.
        + destruct (IH0 _ _ _ P) as (A & B & C). rewrite !count_two, B, C. cbn [is_split is_active]. split; [constructor; auto|lia].
        + destruct (IH1 _ _ _ P) as (A & B & C). rewrite !count_two, B, C. cbn [is_split is_active]. split; [constructor; auto|lia].
      - injection D as <- <- <-. rewrite !count_two. cbn [is_split is_active fst snd]. split; [constructor; auto|lia]. }
    clear CN. set (cs := count is_split (Split te st _)) in *. set (ca := count is_active (Split te st _)) in *. clearbody cs ca.
    destruct v as [| |te' ds|te'].
    + now apply (D te).
    + remember (1 - ca) as da eqn:Eda. remember (- cs) as dc eqn:Edc. injection H as <- <- <-. cbn [fst snd]. split; [constructor; exact K'|]. rewrite (count_leaf is_split), (count_leaf is_active) by reflexivity. cbn [is_split is_active]. lia.
    + remember (Z.of_nat (length ds) - ca) as da eqn:Eda. remember (1 - cs) as dc eqn:Edc. injection H as <- <- <-. cbn [fst snd]. destruct V' as [Tw' L]. destruct (new_split_two te' (update_stats (es_stats st) y w) obs ds Tw' K' L) as (W & -> & ->). rewrite L in Eda. split; auto. lia.
    + now apply (D te').
Qed.
Lemma ewf_route t x p n : ewf t -> route O t x = Ok (p, n) -> exists m, n = Some m /\ node_at t p = Some m /\ ewf m.
Proof.
  intros W. revert p n. induction W as [l K|te st c0 c1 Tw K W0 IH0 W1 IH1]; intros p n R.
  - injection R as <- <-. eexists. repeat split. now constructor.
  - rewrite route_split in R. apply bind_Ok in R as (b & Eb & R). destruct (Z.leb_spec 0 b) as [Lb|Lb]; [|injection R as <- <-; eexists; repeat split; constructor; auto].
    destruct (dget_two c0 c1 b Lb (two_lt _ _ _ Tw Eb)) as [(-> & Eg & Es)|(-> & Eg & Es)]; rewrite Eg in R; apply bind_Ok in R as ([q m] & R1 & R); injection R as <- <-; cbn [node_at]; rewrite Eg; eauto.
Qed.
Lemma ewf_update p : forall t f t' l, ewf t -> update_at t p f = Ok t' -> node_at t p = Some (Active l) -> (forall n', f (Active l) = Ok n' -> ewf n') -> ewf t'.
Proof.
  induction p as [|b p IH]; intros t f t' l W H Hn F; cbn [update_at node_at] in *.
  - injection Hn as ->. eauto.
  - destruct W as [l0 K|te st c0 c1 Tw K W0 W1]; [discriminate|]. destruct (dget [(0, c0); (1, c1)] b) as [c|] eqn:Ec; [|discriminate]. apply bind_Ok in H as (c' & U & H). injection H as <-.
    assert (B : b = 0 \/ b = 1) by (cbn [dget] in Ec; destruct (Z.eqb_spec 0 b); [auto|]; destruct (Z.eqb_spec 1 b); [auto|discriminate]).
    destruct B as [-> | ->]; cbn in Ec; injection Ec as ->; cbn [dset]; [change (0 =? 0) with true|change (0 =? 1) with false; change (1 =? 1) with true]; cbv iota; constructor; auto; refine (IH _ _ _ _ _ U Hn F); assumption.
Qed.
(** Without inactive leaves, nothing is switched on or off while there is room. *)
Lemma enforce_same s r : t_root s = Some r -> ewf r -> t_inactive s = 0 -> room (h_memory cfg) s -> enforce O (h_memory cfg) s = Ok s.
Proof.
  intros Er W I0 [R1 R2]. unfold enforce. rewrite R1, andb_false_r, Er. cbv zeta. set (f := sort_stable _ _). rewrite max_active_all by auto. rewrite Nat.add_0_l, Nat.sub_diag. cbn [firstn skipn deactivate_all bind].
  assert (A : Forall (fun pn => is_inactive (snd pn) = false) f).
  { apply Forall_forall. intros pn Hin. eapply Permutation_in in Hin; [|symmetry; apply sort_stable_perm]. revert pn Hin. clear - W.
    induction W as [l K|te st c0 c1 Tw K W0 IH0 W1 IH1]; intros pn H; cbn [learning_nodes] in H; [destruct H as [<-|[]]; reflexivity|].
    apply in_flat_map in H as (i & Hi & H). destruct (dget _ _) as [ns|] eqn:E; [|contradiction]. apply in_map_iff in H as (qn & <- & H). cbn [snd].
    cbn [length seq] in Hi. destruct Hi as [<-|[<-|[]]]; cbn in E; injection E as <-; auto. }
  clearbody f. clear - A. revert A. induction f as [|[p n] f IH]; intros A; [reflexivity|]. inversion A as [|? ? B C]; subst. cbn [activate_all]. destruct n; [apply IH, C|discriminate|apply IH, C].
Qed.

Definition counted (s : etree) : Prop := counters_right s /\ t_inactive s = 0 /\ match t_root s with Some r => ewf r | None => True end.
Definition roomy (s : etree) : Prop := room (h_memory cfg) s.
Lemma room_with s r a b c : roomy s -> roomy (with_root s r a b c). Proof. intros [A B]. split; auto. Qed.
Hypothesis Htwo : two_branches cfg.
Hypothesis Hdue : forall w, c_period_due (h_memory cfg) w = false.
Lemma obs_nil : obs_ok []. Proof. destruct Htwo as [H|H]; [left|right]; auto. Qed.
Lemma sort_counted s r x y w s' : counted s -> t_root s = Some r -> sort_into_leaf k key cfg sz s r x y w = Ok s' -> counted s' /\ (roomy s -> roomy s').
Proof.
  intros (C & I0 & W) Er H. unfold counters_right in C. rewrite Er in C, W. unfold sort_into_leaf in H. apply bind_Ok in H as ([p n] & R & H). apply bind_Ok in H as (s1 & H1 & H).
  rewrite Hdue in H. injection H as <-. destruct (ewf_route _ _ _ _ W R) as (m & -> & Hn & Wm). destruct Wm as [l K|te st c0 c1 Tw K W0 W1].
  - apply bind_Ok in H1 as (l' & L & H1). apply bind_Ok in H1 as (r1 & U & H1). injection H1 as <-. split; [|apply room_with].
    assert (W1 : ewf r1). { eapply ewf_update; eauto. intros n' [= <-]. constructor. eapply leaf_learn_ok; eauto. }
    destruct (update_at_inv _ _ _ _ U) as (n1 & n1' & A1 & A2 & _ & A4). rewrite Hn in A1. injection A1 as <-. injection A2 as <-.
    split; [|split; [cbn; lia|exact W1]]. unfold counters_right. cbn [with_root t_root t_decision t_active t_inactive].
    rewrite (A4 _ (kind_split)), (A4 _ (kind_active)), (A4 _ (kind_inactive)).
    rewrite !(count_leaf _ (Active l)), !(count_leaf _ (Active l')) by reflexivity. cbn [is_split is_active is_inactive]. lia.
  - injection H1 as <-. split; auto. repeat split; auto; unfold counters_right; rewrite Er; auto; apply C.
Qed.
Lemma one_counted s x y w s' : counted s -> roomy s -> efdt_one k phi key cfg min_re sz s x y w = Ok s' -> counted s' /\ roomy s'.
Proof.
  intros C Rm H. unfold efdt_one in H. set (s0r := match t_root s with Some r => (s, r) | None => _ end) in H.
  assert (E : t_root (fst s0r) = Some (snd s0r) /\ counted (fst s0r) /\ roomy (fst s0r)).
  { unfold s0r. destruct (t_root s) eqn:Er; cbn [fst snd]; [auto|]. split; [reflexivity|]. destruct C as (C & I0 & _). unfold counters_right in C. rewrite Er in C. split; [|exact Rm].
    repeat split; cbn; try apply C; auto. constructor. apply obs_nil. }
  destruct s0r as [s0 r0]. cbn [fst snd] in E. destruct E as (E0 & C0 & R0). clear C Rm.
  apply bind_Ok in H as (s1 & H1 & H). destruct (sort_counted _ _ _ _ _ _ C0 E0 H1) as [C1 R1]. specialize (R1 R0). unfold root_of in H. destruct (t_root s1) as [r1|] eqn:E1; [|discriminate]. cbn [bind] in H.
  apply bind_Ok in H as ([[r2 d] e] & H2 & H). destruct C1 as (Ct & I1 & W1). rewrite E1 in W1. unfold counters_right in Ct. rewrite E1 in Ct. destruct (process_counts _ _ _ _ _ _ _ _ W1 H2) as (W2 & A & B).
  assert (G : counted (with_root s1 r2 (fst d) (snd d) 0) /\ roomy (with_root s1 r2 (fst d) (snd d) 0)).
  { split; [|now apply room_with]. unfold counted, counters_right. cbn [with_root t_root t_decision t_active t_inactive]. destruct (count_nodes_right _ W2) as [_ ->]. split; [lia|split; [lia|exact W2]]. }
  destruct e; [|injection H as <-; exact G]. rewrite (enforce_same (with_root s1 r2 (fst d) (snd d) 0) r2 eq_refl W2) in H; [injection H as <-; exact G| |apply G]. cbn. lia.
Qed.
Lemma rows_counted rows : forall ws s s', counted s -> roomy s -> efdt_rows k phi key cfg min_re sz s rows ws = Ok s' -> counted s' /\ roomy s'.
Proof.
  induction rows as [|[x y] rows IH]; intros ws s s' C Rm H; cbn [efdt_rows] in H; [injection H as <-; auto|]. destruct ws as [|w ws]; [discriminate|]. apply bind_Ok in H as (s1 & H1 & H).
  unfold efdt_weighted in H1. destruct (w =? n0)%num; [injection H1 as <-; eauto|]. apply one_counted in H1 as [C1 R1]; eauto.
Qed.
Lemma run_counted es : roomy tree_new -> forall s s', counted (ef_tree s) -> roomy (ef_tree s) -> efdt_run k phi key cfg min_re sz s es = Ok s' -> counted (ef_tree s').
Proof.
  intros R0. induction es as [|e es IH]; intros s s' C Rm R; cbn [efdt_run] in R; [injection R as <-; exact C|]. apply bind_Ok in R as (s1 & R1 & R). destruct e as [rows c ws|]; cbn [efdt_do] in R1.
  - unfold efdt_fit in R1. apply bind_Ok in R1 as (u & U & R1). apply bind_Ok in R1 as (t & F & R1). injection R1 as <-. destruct (rows_counted _ _ _ _ C Rm F) as [C1 R1]. refine (IH _ _ _ _ R); assumption.
  - injection R1 as <-. eapply IH; [| |exact R]; [repeat split|exact R0].
Qed.
End Proofs.
