(** Lemmas about Naive Bayes. *)
From Coq Require Import List ZArith Bool Lia Reals Lra Permutation.
From Verif Require Import Base.Py Base.Num Base.Dict Spec.Lists Spec.ObserverSpec Spec.NominalSpec Spec.CriteriaSpec Spec.NaiveBayesSpec
  Model.Adwin Model.GaussianObs Model.NominalObs Model.SplitCriteria Model.Knn Model.NaiveBayes
  Proofs.ListFacts Proofs.GaussianProofs Proofs.NominalProofs Proofs.CriteriaProofs Proofs.KnnProofs.
Import ListNotations.
Local Open Scope R_scope.

(** ** Observers of one column *)
Notation colobs := (option R * Z * R)%type.
Definition keyed (key : R -> Z) (col : list colobs) : list (option Z * Z * R) :=
  map (fun p => (option_map key (fst (fst p)), snd (fst p), snd p)) col.
Definition coinv (key : R -> Z) (nominal : bool) (col : list colobs) (o : cobs R) : Prop :=
  (forall p, In p col -> 0 <= snd p) /\
  match o with
  | CNum g => nominal = false /\ goinv col g
  | CNom m => nominal = true /\ ninv (present_cells (keyed key col)) (no_dist m)
  | CNull => False
  end.
Lemma co_new_ok key nominal : coinv key nominal [] (co_new nominal).
Proof. split; [intros p []|]. destruct nominal; cbn; split; auto; [apply ninv_nil|apply goinv_new]. Qed.
Lemma co_update_ok key nominal col o x c w : coinv key nominal col o -> 0 <= w ->
  exists o', co_update key o x c w = Ok o' /\ coinv key nominal (col ++ [(Some x, c, w)]) o'.
Proof.
  intros (NN & I) Hw.
  assert (NN' : forall p, In p (col ++ [(Some x, c, w)]) -> 0 <= snd p).
  { intros p Hp. apply in_app_or in Hp as [Hp|[<-|[]]]; auto. }
  destruct o as [g|m|]; cbn [co_update].
  - destruct I as [E I]. destruct (go_update_ok col g (Some x) c w I Hw) as (g' & -> & I'). exists (CNum g'). cbn [bind]. split; [reflexivity|]. split; [exact NN'|]. split; assumption.
  - destruct I as [E I]. eexists. split; [reflexivity|]. split; auto. split; auto.
    apply (no_update_ok _ _ (Some (key x)) c w) in I. unfold keyed, present_cells in *. rewrite map_app, flat_map_app. exact I.
  - destruct I.
Qed.

Lemma of_class_keyed key c col :
  map (fun p => (key (fst p), snd p)) (of_class c col)
  = map (fun x => (snd (fst x), snd x)) (filter (fun x => Z.eqb (fst (fst x)) c) (present_cells (keyed key col))).
Proof.
  induction col as [|[[v c'] w] col IH]; auto. cbn. destruct v as [v|]; cbn; auto.
  destruct (Z.eqb c' c); cbn; [f_equal|]; auto.
Qed.
Lemma laplace_ok key col m a c : (forall p, In p col -> 0 <= snd p) -> ninv (present_cells (keyed key col)) (no_dist m) ->
  no_probability m a c = Ok (laplace key col a c).
Proof.
  intros NN I. set (P := present_cells (keyed key col)) in *.
  assert (NP : forall x, In x P -> 0 <= snd x).
  { intros [[c' a'] w'] Hx. unfold P, present_cells, keyed in Hx. apply in_flat_map in Hx as (y & H1 & H2).
    apply in_map_iff in H1 as ([[v c''] w''] & <- & H1). cbn in H2. destruct v as [v|]; cbn in H2; [|destruct H2].
    destruct H2 as [[= <- <- <-]|[]]. exact (NN _ H1). }
  unfold laplace. rewrite of_class_keyed. fold P.
  set (L := filter (fun x : cell => Z.eqb (fst (fst x)) c) P).
  assert (HV : forall v, In v (nodup Z.eq_dec (map fst (map (fun x : cell => (snd (fst x), snd x)) L))) <-> exists w, In (c, v, w) P).
  { intros v. rewrite nodup_In, map_map, in_map_iff. unfold L. split.
    - intros ([[c' v'] w] & <- & Hx). apply filter_In in Hx as [Hx E]. apply Z.eqb_eq in E. cbn in *. subst. eauto.
    - intros (w & Hw). exists (c, v, w). split; auto. apply filter_In. split; auto. apply Z.eqb_refl. }
  destruct (no_probability_ok P m c a I NP) as [(A & ->)|(vs & W & ND & NE & V & EW & _ & _ & ->)].
  - destruct (nodup _ _) as [|v l] eqn:E; auto. destruct (proj1 (HV v) (or_introl eq_refl)) as (w & Hw). destruct (A _ Hw). reflexivity.
  - assert (PL : length vs = length (nodup Z.eq_dec (map fst (map (fun x : cell => (snd (fst x), snd x)) L)))).
    { apply Permutation_length, NoDup_Permutation; auto; [apply NoDup_nodup|]. intros v. rewrite V. symmetry. apply HV. }
    rewrite PL. set (vals := nodup _ _) in *. destruct vals as [|v l] eqn:Ev.
    { destruct vs; [congruence|discriminate]. }
    f_equal. f_equal.
    + f_equal. unfold weight_of, cell_is.
      replace (filter (fun p : Z * R => Z.eqb (fst p) a) (map (fun x : cell => (snd (fst x), snd x)) L))
        with (map (fun x : cell => (snd (fst x), snd x)) (filter (fun x : cell => Z.eqb (fst (fst x)) c && Z.eqb (snd (fst x)) a) P)).
      2: { unfold L. clear. induction P as [|[[c' a'] w] P IH]; auto. cbn. destruct (Z.eqb c' c); cbn; auto. destruct (Z.eqb a' a); cbn; [f_equal|]; auto. }
      rewrite map_map. cbn [snd]. destruct (filter (fun x : cell => Z.eqb (fst (fst x)) c && Z.eqb (snd (fst x)) a) P); reflexivity.
    + f_equal. rewrite map_map. cbn [snd]. unfold weight_of in EW. fold L in EW. destruct L; [discriminate|]. now injection EW as <-.
Qed.

Definition col_likelihood (k : R) (key : R -> Z) (nominal : bool) (col : list colobs) (a : R) (c : Z) : R :=
  if nominal then laplace key col (key a) c else match of_class c col with [] => 0 | obs => normal_density k obs a end.
Lemma co_prob_ok k key nominal col o a c : k > 0 -> coinv key nominal col o ->
  co_prob k key o a c = Ok (col_likelihood k key nominal col a c).
Proof.
  intros Hk (NN & I). unfold col_likelihood. destruct o as [g|m|]; cbn [co_prob]; [| |destruct I].
  - destruct I as [-> I]. unfold go_probability. destruct (of_class c col) as [|p l] eqn:Ec.
    + destruct (gi_none _ _ I c Ec) as (-> & _). reflexivity.
    + destruct (gi_some _ _ I c ltac:(congruence)) as (g' & mn & mx & -> & _ & _ & Ig & _). rewrite Ec in Ig. apply g_density_R; auto.
  - destruct I as [-> I]. now apply laplace_ok.
Qed.

(** ** Observers of all columns *)
Section Obs.
Variables (key : R -> Z) (nominal : Z -> bool).
Definition oinv (cols : nat -> list colobs) (obs : list (Z * cobs R)) : Prop :=
  forall j, match cols j with
            | [] => dget obs (Z.of_nat j) = None
            | _ => exists o, dget obs (Z.of_nat j) = Some o /\ coinv key (nominal (Z.of_nat j)) (cols j) o
            end.
Lemma oinv_ext cols cols' obs : (forall j, cols j = cols' j) -> oinv cols obs -> oinv cols' obs.
Proof. intros E H j. rewrite <- E. apply H. Qed.
Definition add_cell (X : list R) (y : Z) (w : R) (j : nat) : list colobs :=
  match nth_error X j with Some v => [(Some v, y, w)] | None => [] end.
Lemma update_observers_ok y w : 0 <= w -> forall X i cols obs, oinv cols obs ->
  exists obs', update_observers key nominal obs (Z.of_nat i) X y w = Ok obs'
    /\ oinv (fun j => cols j ++ (if Nat.leb i j then add_cell X y w (j - i) else [])) obs'.
Proof.
  intros Hw. induction X as [|x r IH]; intros i cols obs H; cbn [update_observers].
  - exists obs. split; auto. eapply oinv_ext; [|exact H]. intros j. unfold add_cell.
    destruct (j - i)%nat; destruct (Nat.leb i j); cbn; now rewrite app_nil_r.
  - assert (O : coinv key (nominal (Z.of_nat i)) (cols i) match dget obs (Z.of_nat i) with Some o => o | None => co_new (nominal (Z.of_nat i)) end).
    { pose proof (H i) as Hi. destruct (cols i) as [|p l] eqn:E.
      - rewrite Hi. apply co_new_ok.
      - destruct Hi as (o & -> & Io). rewrite <- E in *. exact Io. }
    destruct (co_update_ok _ _ _ _ x y w O Hw) as (o' & -> & O'). cbn [bind].
    destruct (IH (Datatypes.S i) (fun j => if Nat.eqb j i then cols i ++ [(Some x, y, w)] else cols j) (dset obs (Z.of_nat i) o')) as (obs' & E & I').
    { intros j. destruct (Nat.eqb_spec j i) as [->|Nj].
      - destruct (cols i ++ [(Some x, y, w)]) eqn:Ec; [destruct (cols i); discriminate|]. rewrite <- Ec in *.
        exists o'. split; auto. rewrite dget_dset, Z.eqb_refl. reflexivity.
      - specialize (H j). rewrite dget_dset. replace (Z.of_nat i =? Z.of_nat j)%Z with false; [exact H|]. symmetry. apply Z.eqb_neq. lia. }
    replace (Z.of_nat i + 1)%Z with (Z.of_nat (Datatypes.S i)) by lia. exists obs'. split; auto. eapply oinv_ext; [|exact I'].
    intros j. cbv beta. destruct (Nat.eqb_spec j i) as [->|Nj].
    + rewrite Nat.sub_diag, Nat.leb_refl. replace (Nat.leb (Datatypes.S i) i) with false by (symmetry; apply Nat.leb_gt; lia). rewrite app_nil_r. reflexivity.
    + destruct (Nat.leb_spec i j) as [L|L].
      * replace (Nat.leb (Datatypes.S i) j) with true by (symmetry; apply Nat.leb_le; lia). replace (j - i)%nat with (Datatypes.S (j - Datatypes.S i)) by lia. reflexivity.
      * replace (Nat.leb (Datatypes.S i) j) with false by (symmetry; apply Nat.leb_gt; lia). reflexivity.
Qed.
Lemma column_snoc h X y w j : column (h ++ [(X, y, w)]) j = column h j ++ add_cell X y w j.
Proof. unfold column. rewrite flat_map_app. cbn [flat_map]. rewrite app_nil_r. unfold add_cell. reflexivity. Qed.
Lemma observe_ok h obs X y w : 0 <= w -> oinv (column h) obs ->
  exists obs', update_observers key nominal obs 0 X y w = Ok obs' /\ oinv (column (h ++ [(X, y, w)])) obs'.
Proof.
  intros Hw H. destruct (update_observers_ok y w Hw X 0 _ _ H) as (obs' & E & I). exists obs'. split; auto.
  eapply oinv_ext; [|exact I]. intros j. cbv beta. rewrite column_snoc, Nat.sub_0_r. reflexivity.
Qed.
Lemma oinv_nil : oinv (column []) []. Proof. intros j. reflexivity. Qed.

Lemma nb_attributes_ok k cols obs c : k > 0 -> oinv cols obs -> forall X i v,
  nb_attributes k key obs (Z.of_nat i) X c v =
  Ok (v * fold_right Rmult 1 (map (fun j => match cols (i + j)%nat with [] => 1 | _ => col_likelihood k key (nominal (Z.of_nat (i + j))) (cols (i + j)%nat) (nth j X 0) c end) (seq 0 (length X)))).
Proof.
  intros Hk H. induction X as [|x r IH]; intros i v; cbn [nb_attributes].
  - cbn. now rewrite Rmult_1_r.
  - cbn [length seq map fold_right nth]. rewrite Nat.add_0_r, <- seq_shift, map_map.
    replace (Z.of_nat i + 1)%Z with (Z.of_nat (Datatypes.S i)) by lia.
    assert (EX : forall j, (i + Datatypes.S j)%nat = (Datatypes.S i + j)%nat) by (intros; lia).
    pose proof (H i) as Hi. destruct (cols i) as [|p l] eqn:E.
    + rewrite Hi, IH. f_equal. rewrite Rmult_1_l. f_equal. f_equal. apply map_ext. intros j. now rewrite EX.
    + destruct Hi as (o & -> & Io). rewrite (co_prob_ok _ _ _ _ _ _ _ Hk Io). cbn [bind]. cbv zeta.
      cbn [neqb NumR nmul]. rewrite (proj2 (Reqb_true _ _) eq_refl), IH. f_equal. rewrite Rmult_assoc. f_equal. f_equal. f_equal. apply map_ext. intros j. now rewrite EX.
Qed.
End Obs.

(** ** Weights of the labels *)
Definition wget (h : list sample) (c : Z) : option R :=
  match filter (fun s => Z.eqb (snd (fst s)) c) h with [] => None | l => Some (Rsum (map snd l)) end.
Definition dinv (h : list sample) (d : list (Z * R)) : Prop :=
  NoDup (dkeys d) /\ Rsum (dvals d) = total_weight h /\ forall c, dget d c = wget h c.
Lemma wget_snoc h X y w c : wget (h ++ [(X, y, w)]) c =
  if Z.eqb y c then Some (match wget h c with Some v => v + w | None => w end) else wget h c.
Proof.
  unfold wget. rewrite filter_app. cbn [filter fst snd]. destruct (Z.eqb y c); [|now rewrite app_nil_r].
  destruct (filter _ h) as [|s l]; cbn; [now rewrite Rplus_0_r|]. f_equal. rewrite map_app, Rsum_app. cbn. lra.
Qed.
Lemma dinv_nil : dinv [] []. Proof. repeat split; auto. constructor. Qed.
Lemma Rsum_dset_old (d : list (Z * R)) c v v' : dget d c = Some v -> Rsum (dvals (dset d c v')) = Rsum (dvals d) - v + v'.
Proof.
  intros E. revert E. induction d as [|[k0 x] d IH]; [discriminate|]. cbn [dset dget]. destruct (Z.eqb k0 c) eqn:Ek; intros E; cbn [dvals map snd Rsum].
  - injection E as ->. unfold dvals. lra.
  - unfold dvals in IH. rewrite IH by auto. lra.
Qed.
Lemma Rsum_dset_new (d : list (Z * R)) c v' : dget d c = None -> Rsum (dvals (dset d c v')) = Rsum (dvals d) + v'.
Proof. intros E. rewrite dset_new by now apply dget_None. unfold dvals. rewrite map_app, Rsum_app. cbn. lra. Qed.
Lemma total_snoc h X y w : total_weight (h ++ [(X, y, w)]) = total_weight h + w.
Proof. unfold total_weight. rewrite map_app, Rsum_app. cbn. lra. Qed.
Lemma dinv_add h d X y w : dinv h d ->
  dinv (h ++ [(X, y, w)]) (match dget d y with Some v => dset d y (v + w) | None => dset d y w end).
Proof.
  intros (A & B & C). split; [|split].
  - destruct (dget d y); now apply NoDup_dset.
  - rewrite total_snoc, <- B. destruct (dget d y) as [v|] eqn:E; [rewrite (Rsum_dset_old _ _ _ _ E)|rewrite Rsum_dset_new by auto]; lra.
  - intros c. rewrite wget_snoc. destruct (dget d y) as [v|] eqn:E; rewrite dget_dset; destruct (Z.eqb_spec y c) as [<-|]; auto.
    + rewrite <- C, E. reflexivity.
    + rewrite <- C, E. reflexivity.
Qed.
Lemma wget_label h c : (exists v, wget h c = Some v) <-> has_label h c.
Proof.
  unfold wget, has_label. split.
  - intros (v & E). destruct (filter _ h) as [|[[X y] w] l] eqn:F; [discriminate|].
    assert (Hin : In (X, y, w) (filter (fun s : sample => Z.eqb (snd (fst s)) c) h)) by (rewrite F; now left).
    apply filter_In in Hin as [Hin E']. apply Z.eqb_eq in E'. cbn in E'. subst. eauto.
  - intros (X & w & Hin). destruct (filter _ h) as [|s l] eqn:F; [|eauto].
    assert (Hf : In (X, c, w) (filter (fun s : sample => Z.eqb (snd (fst s)) c) h)) by (apply filter_In; split; auto; apply Z.eqb_refl).
    rewrite F in Hf. destruct Hf.
Qed.
Lemma wget_weight h c v : wget h c = Some v -> label_weight h c = v.
Proof. unfold wget, label_weight. destruct (filter _ h); [discriminate|]. now intros [= <-]. Qed.
Lemma dkeys_label h d c : dinv h d -> (In c (dkeys d) <-> has_label h c).
Proof. intros (_ & _ & C). rewrite <- dget_Some, C. apply wget_label. Qed.

(** ** The classifier *)
Record nbinv (key : R -> Z) (h : list sample) (s : nb R) : Prop := {
  ni_dist : dinv h (nb_dist s);
  ni_obs : oinv key (nb_nominal s) (column h) (nb_obs s);
  ni_pos : forall p, In p h -> 0 < snd p }.

Lemma nb_learn_ok key h s X y w : nbinv key h s -> 0 < w ->
  exists s', nb_learn key s X y w = Ok s' /\ nbinv key (h ++ [(X, y, w)]) s' /\ nb_classes s' = nb_classes s /\ nb_nominal s' = nb_nominal s.
Proof.
  intros [A B C] Hw. unfold nb_learn. cbv zeta. destruct (observe_ok key (nb_nominal s) h (nb_obs s) X y w) as (obs' & -> & I); [lra|auto|].
  cbn [bind]. eexists. split; [reflexivity|]. split; [|split; reflexivity]. split; cbn [nb_dist nb_obs nb_nominal]; auto.
  - apply (dinv_add h _ X y w) in A. exact A.
  - intros p Hp. apply in_app_or in Hp as [Hp|[<-|[]]]; auto.
Qed.
Definition weighted (l : list sample) : list sample := filter (fun s => if Req_EM_T (snd s) 0 then false else true) l.
Lemma nb_rows_ok key : forall rows ws h s, length ws = length rows -> Forall (fun w => 0 <= w) ws -> nbinv key h s ->
  exists s', nb_rows key s rows ws = Ok s' /\ nbinv key (h ++ weighted (combine rows ws)) s' /\ nb_classes s' = nb_classes s /\ nb_nominal s' = nb_nominal s.
Proof.
  induction rows as [|[X y] rows IH]; intros ws h s HL HW HI; destruct ws as [|w ws]; try discriminate; cbn [nb_rows combine].
  - exists s. cbn. rewrite app_nil_r. auto.
  - inversion HW as [|? ? Hw HW']; subst. injection HL as HL. unfold weighted. cbn [filter snd]. cbn [neqb NumR]. unfold Reqb, n0. cbn [nofZ NumR].
    destruct (Req_EM_T w 0) as [E|E].
    + cbn [bind]. apply IH; auto.
    + destruct (nb_learn_ok key h s X y w HI) as (s1 & -> & I1 & C1 & N1); [lra|]. cbn [bind].
      destruct (IH ws _ s1 HL HW' I1) as (s2 & E2 & I2 & C2 & N2). exists s2. split; auto. rewrite <- app_assoc in I2. cbn [app] in I2.
      split; [exact I2|]. split; congruence.
Qed.
Definition cls_ok (c : option labels) : Prop := match c with None | Some (PyList (_ :: _)) => True | _ => False end.
Lemma nb_fit_ok key h s f : nbinv key h s -> call_ok f -> given_ok f -> cls_ok (nb_classes s) ->
  exists s', nb_fit key s (fst (fst f)) (snd (fst f)) (snd f) = Ok s' /\ nbinv key (h ++ call_samples f) s'
    /\ nb_classes s' = match nb_classes s with Some c => Some c | None => snd (fst f) end /\ nb_nominal s' = nb_nominal s.
Proof.
  destruct f as [[rows cl] ws]. intros I (Hw & Hy) Hc Hs. cbn [fst snd] in *. unfold given_ok in Hc. cbn [fst snd] in Hc. unfold nb_fit.
  assert (E : (b <- match nb_classes s with None => Ok false | Some c => truth c end ;;
     Ok (match cl with Some c => if b then s else mk_nb (nb_dist s) (nb_obs s) (Some c) (nb_nominal s) | None => s end))
    = Ok (mk_nb (nb_dist s) (nb_obs s) (match nb_classes s with Some c => Some c | None => cl end) (nb_nominal s))).
  { destruct s as [d o c n]. cbn in *. destruct c as [[[|c0 c]|c]|]; cbn in *; try contradiction; destruct cl as [[[|c1 cl]|cl]|]; cbn; try contradiction; reflexivity. }
  destruct (match nb_classes s with None => Ok false | Some c => truth c end) as [b|e]; [|discriminate]. cbn [bind] in *. injection E as E. rewrite E. clear E.
  set (s0 := mk_nb (nb_dist s) (nb_obs s) (match nb_classes s with Some c => Some c | None => cl end) (nb_nominal s)).
  set (ws0 := match ws with Some ws => ws | None => map (fun _ => 1) rows end).
  assert (EW : match ws with Some ws => ws | None => repeat n1 (length rows) end = ws0).
  { unfold ws0. destruct ws; auto. unfold n1. cbn. clear. induction rows; cbn; [reflexivity|now f_equal]. }
  cbv zeta. rewrite EW. assert (HL : length ws0 = length rows). { unfold ws0. destruct ws; [apply Hw|apply map_length]. }
  rewrite (proj2 (Nat.eqb_eq _ _) (eq_sym HL)).
  assert (HN : Forall (fun w => 0 <= w) ws0). { unfold ws0. destruct ws; [apply Hw|]. rewrite Forall_map. apply Forall_forall. intros; lra. }
  assert (I0 : nbinv key h s0) by (destruct I as [A B C]; split; auto).
  destruct (nb_rows_ok key rows ws0 h s0 HL HN I0) as (s' & -> & I' & C' & N'). exists s'. auto.
Qed.
Lemma nb_run_ok key : forall calls h s, nbinv key h s -> Forall call_ok calls -> Forall given_ok calls -> cls_ok (nb_classes s) ->
  exists s', fit_run key s calls = Ok s' /\ nbinv key (h ++ flat_map call_samples calls) s'
    /\ nb_classes s' = match nb_classes s with Some c => Some c | None => first_given calls end /\ nb_nominal s' = nb_nominal s.
Proof.
  induction calls as [|f calls IH]; intros h s I H1 H2 H3.
  - exists s. cbn. rewrite app_nil_r. destruct (nb_classes s); auto.
  - inversion H1; inversion H2; subst. destruct (nb_fit_ok key h s f I) as (s1 & E1 & I1 & C1 & N1); auto.
    assert (H3' : cls_ok (nb_classes s1)).
    { rewrite C1. destruct (nb_classes s); auto. }
    destruct (IH _ s1 I1) as (s2 & E2 & I2 & C2 & N2); auto. exists s2. unfold fit_run. cbn [fold_left flat_map]. destruct f as [[rows cl] ws]. cbn [bind].
    cbn [fst snd] in E1. rewrite E1. rewrite app_assoc. split; [exact E2|]. split; auto. split; [|congruence].
    rewrite C2, C1. cbn [fst snd first_given]. destruct (nb_classes s); auto; destruct cl; auto.
Qed.

(** ** Prediction *)
Lemma total_pos h : (forall p, In p h -> 0 < snd p) -> h <> [] -> 0 < total_weight h.
Proof.
  intros H. destruct h as [|p h]; [congruence|]. intros _. unfold total_weight. cbn [map Rsum]. pose proof (H p (or_introl eq_refl)).
  assert (0 <= Rsum (map snd h)); [|lra]. apply Rsum_nonneg. intros x Hx. apply in_map_iff in Hx as (q & <- & Hq). left. apply H. now right.
Qed.
Lemma mapM_map {A B} (f : A -> res B) (g : A -> B) l : (forall a, In a l -> f a = Ok (g a)) -> mapM f l = Ok (map g l).
Proof. induction l as [|a l IH]; intros H; cbn [mapM map]; auto. rewrite H by now left. rewrite IH by (intros; apply H; now right). reflexivity. Qed.

Lemma nb_votes_ok k key h s X : k > 0 -> nbinv key h s -> h <> [] ->
  nb_votes k key X (nb_dist s) (nb_obs s) = Ok (map (fun c => (c, nb_score k key (nb_nominal s) h X c)) (dkeys (nb_dist s))).
Proof.
  intros Hk [A B C] Hne. unfold nb_votes. cbv zeta. rewrite vsum_weight. unfold weight.
  destruct A as (ND & SW & G). unfold dvals in SW. rewrite SW. pose proof (total_pos h C Hne) as TP.
  assert (E : match nb_dist s with [] => true | _ => false end = false).
  { destruct (nb_dist s); auto. cbn in SW. lra. }
  rewrite E. cbn [neqb NumR orb]. unfold n0. cbn [nofZ NumR]. unfold Reqb. destruct (Req_EM_T (total_weight h) 0); [lra|].
  rewrite (mapM_map _ (fun cw => (fst cw, nb_score k key (nb_nominal s) h X (fst cw)))).
  - unfold dkeys. rewrite map_map. reflexivity.
  - intros [c w] Hc. cbn [fst snd]. rewrite (nb_attributes_ok key (nb_nominal s) k (column h) (nb_obs s) c Hk B X 0). cbn [bind]. f_equal. f_equal. unfold nb_score.
    assert (EW : label_weight h c = w) by (apply wget_weight; rewrite <- G; now apply In_dget). rewrite EW. cbn [ndiv NumR]. f_equal.
Qed.
Lemma fold_set_ok (votes : list (Z * R)) g : forall acc, NoDup (dkeys votes) -> (forall c, In c (dkeys votes) -> (0 <= c < Z.of_nat (length acc))%Z) ->
  exists row, foldM (fun row kv => py_set row (fst kv) (g (snd kv))) votes acc = Ok row /\ length row = length acc
    /\ forall c, nth c row 0 = match dget votes (Z.of_nat c) with Some v => g v | None => nth c acc 0 end.
Proof.
  induction votes as [|[c v] votes IH]; intros acc ND H; cbn [foldM].
  - exists acc. auto.
  - cbn [fst snd]. inversion ND as [|? ? N1 N2]; subst. cbn [dkeys map fst] in *. pose proof (H c (or_introl eq_refl)) as Hc.
    rewrite py_set_in by auto. cbn [bind]. destruct (IH (set_nth acc (Z.to_nat c) (g v))) as (row & E & L & Q); auto.
    { intros c' H'. rewrite set_nth_len. apply H. now right. }
    exists row. split; auto. rewrite set_nth_len in L. split; auto. intros j. rewrite Q. cbn [dget].
    destruct (Z.eqb_spec c (Z.of_nat j)) as [->|Nj].
    + replace (dget votes (Z.of_nat j)) with (@None R) by (symmetry; now apply dget_None).
      rewrite set_nth_nth by lia. rewrite Nat2Z.id, Nat.eqb_refl. reflexivity.
    + destruct (dget votes (Z.of_nat j)); auto. rewrite set_nth_nth by lia. replace (Nat.eqb (Z.to_nat c) j) with false; auto. symmetry. apply Nat.eqb_neq. lia.
Qed.
Lemma zmax_in l : forall m, zmax l = Ok m -> In m l.
Proof.
  destruct l as [|a l]; [discriminate|]. cbn [zmax]. intros m [= <-]. revert a. induction l as [|b l IH]; intros a; cbn [fold_left]; [now left|].
  destruct (IH (Z.max a b)) as [E|E]; [|right; now right]. rewrite <- E. destruct (Z.max_spec a b) as [[_ ->]|[_ ->]]; [right; now left|now left].
Qed.
Lemma Rsum_perm (l m : list R) : Permutation l m -> Rsum l = Rsum m.
Proof. induction 1; cbn; lra. Qed.
Lemma labels_seen_in h c : In c (labels_seen h) <-> has_label h c.
Proof.
  unfold labels_seen. rewrite nodup_In, in_map_iff. unfold has_label. split.
  - intros ([[X y] w] & <- & H). eauto.
  - intros (X & w & H). exists (X, c, w). auto.
Qed.
Lemma dget_map_keys (f : Z -> R) ks c : dget (map (fun c => (c, f c)) ks) c = if in_dec Z.eq_dec c ks then Some (f c) else None.
Proof.
  induction ks as [|k0 ks IH]; cbn [map dget]; [reflexivity|]. destruct (Z.eqb_spec k0 c) as [->|N].
  - destruct (in_dec Z.eq_dec c (c :: ks)) as [_|N]; auto. destruct N. now left.
  - rewrite IH. destruct (in_dec Z.eq_dec c ks) as [i|n], (in_dec Z.eq_dec c (k0 :: ks)) as [i'|n']; auto.
    + destruct n'. now right.
    + destruct i' as [->|]; congruence.
Qed.
Definition class_list (cl : option labels) (h : list sample) : list Z := match cl with Some c => labels_of c | None => labels_seen h end.
Lemma proba_row_ok cl h (score : Z -> R) ks : NoDup ks -> (forall c, In c ks <-> has_label h c) -> ks <> [] ->
  (forall c, has_label h c -> (0 <= c)%Z /\ exists m, In m (class_list cl h) /\ (c <= m)%Z) ->
  exists row, proba_row cl (map (fun c => (c, score c)) ks) = Ok row /\ posterior_row score (labels_seen h) row
    /\ width_of (class_list cl h) (length row).
Proof.
  intros ND HK NE HL. unfold proba_row. cbv zeta. set (votes := map (fun c => (c, score c)) ks).
  assert (DK : dkeys votes = ks) by (unfold votes, dkeys; rewrite map_map; apply map_id). rewrite DK.
  assert (PS : Permutation ks (labels_seen h)).
  { apply NoDup_Permutation; auto; [apply NoDup_nodup|]. intros c. now rewrite HK, labels_seen_in. }
  assert (SUM : vsum votes = Rsum (map score (labels_seen h))).
  { rewrite vsum_weight. unfold weight, votes. rewrite map_map. cbn [snd]. apply Rsum_perm, Permutation_map, PS. }
  rewrite SUM. set (total := Rsum (map score (labels_seen h))).
  assert (CL : forall c, In c (match cl with Some c => labels_of c | None => ks end) <-> In c (class_list cl h)).
  { intros c. destruct cl; [reflexivity|]. cbn. rewrite HK, labels_seen_in. reflexivity. }
  set (l := match cl with Some c => labels_of c | None => ks end) in *.
  assert (Ex : exists c0, In c0 ks) by (destruct ks as [|c0 ?]; [congruence|exists c0; now left]).
  destruct Ex as (c0 & Hc0). apply HK in Hc0.
  destruct (HL c0 Hc0) as (P0 & m0 & M0 & M1). apply CL in M0.
  destruct (zmax_ok l m0 M0) as (m & Em & MX). pose proof (zmax_in l m Em) as Mm. rewrite Em. cbn [bind].
  destruct (fold_set_ok votes (fun v => if neqb total n0 then n0 else ndiv v total) (repeat n0 (Z.to_nat (m + 1)))) as (row & E & L & Q).
  - rewrite DK; auto.
  - rewrite DK, repeat_length. intros c Hc. apply HK in Hc. destruct (HL c Hc) as (Pc & mc & Mc & Lc). apply CL, MX in Mc. lia.
  - exists row. rewrite repeat_length in L. split; [exact E|]. split.
    + unfold posterior_row. cbv zeta. fold total. intros c. rewrite Q. unfold votes. rewrite dget_map_keys. cbn [neqb ndiv NumR]. unfold Reqb, n0. cbn [nofZ NumR]. fold total. rewrite repeat_nth0.
      destruct (in_dec Z.eq_dec (Z.of_nat c) ks) as [i|n], (in_dec Z.eq_dec (Z.of_nat c) (labels_seen h)) as [i'|n']; auto.
      * destruct (Req_EM_T total 0); reflexivity.
      * destruct n'. now apply labels_seen_in, HK.
      * destruct n. now apply HK, labels_seen_in.
    + rewrite L. pose proof (MX _ M0). split.
      * intros c Hc. apply CL, MX in Hc. lia.
      * apply CL. replace (Z.of_nat (Z.to_nat (m + 1)) - 1)%Z with m by lia. auto.
Qed.

Lemma nb_proba_ok k key h s Xs : k > 0 -> nbinv key h s ->
  (forall c, has_label h c -> (0 <= c)%Z /\ exists m, In m (class_list (nb_classes s) h) /\ (c <= m)%Z) ->
  exists P, nb_proba k key s Xs = Ok P /\
    Forall2 (fun X row => if match h with [] => true | _ => false end then row = [0]
               else posterior_row (nb_score k key (nb_nominal s) h X) (labels_seen h) row /\ width_of (class_list (nb_classes s) h) (length row)) Xs P.
Proof.
  intros Hk I HL. unfold nb_proba. pose proof (ni_dist _ _ _ I) as D. destruct h as [|p h'] eqn:Eh.
  - assert (E : nb_dist s = []). { destruct (nb_dist s) as [|[c v] d] eqn:E; auto. destruct D as (_ & _ & G). specialize (G c). cbn in G. now rewrite Z.eqb_refl in G. }
    rewrite E. eexists. split; [reflexivity|]. clear. induction Xs; cbn; constructor; auto.
  - rewrite <- Eh in *. assert (NE : h <> []) by congruence.
    assert (Hl : exists c, has_label h c). { subst h. destruct p as [[X y] w]. exists y, X, w. now left. }
    destruct (nb_dist s) as [|q d] eqn:Ed.
    { destruct Hl as (c & Hc). apply (dkeys_label h [] c D) in Hc. destruct Hc. }
    rewrite <- Ed in *. replace (match h with [] => true | _ => false end) with false by (subst h; reflexivity).
    apply mapM_Ok. intros X _. rewrite (nb_votes_ok k key h s X Hk I NE). cbn [bind].
    apply proba_row_ok; auto; [apply D|intros c; now apply dkeys_label|]. rewrite Ed. discriminate.
Qed.
Lemma argmax_rows (P : list (list R)) : Forall (fun r => r <> []) P -> exists l, mapM np_argmax P = Ok l /\ Forall2 first_greatest P l.
Proof.
  intros H. apply mapM_Ok. intros r Hr. rewrite Forall_forall in H. destruct (np_argmax_ok r (H r Hr)) as (c & E & F). exists c. split; auto.
Qed.

Lemma nb_reach key (nominal : option (list Z)) s0 calls : nb_new (option_map PyList nominal) = Ok s0 -> Forall call_ok calls -> Forall given_ok calls ->
  let h := flat_map call_samples calls in
  exists s, fit_run key s0 calls = Ok s /\ nbinv key h s /\ nb_classes s = first_given calls
    /\ (forall i, nb_nominal s i = match nominal with Some l => existsb (Z.eqb i) l | None => false end)
    /\ (forall c, has_label h c -> (0 <= c)%Z).
Proof.
  intros E0 H1 H2 h.
  assert (S0 : nb_dist s0 = [] /\ nb_obs s0 = [] /\ nb_classes s0 = None /\ forall i, nb_nominal s0 i = match nominal with Some l => existsb (Z.eqb i) l | None => false end).
  { unfold nb_new in E0. destruct nominal as [[|x l]|]; cbn in E0; injection E0 as <-; auto. }
  destruct S0 as (D0 & O0 & C0 & N0).
  assert (I0 : nbinv key [] s0).
  { split; [rewrite D0; apply dinv_nil|rewrite O0; apply oinv_nil|intros p []]. }
  destruct (nb_run_ok key calls [] s0 I0 H1 H2) as (s & E & I & C & N); [rewrite C0; exact Logic.I|]. rewrite C0 in C. cbn [app] in I. fold h in I.
  exists s. split; auto. split; auto. split; auto. split; [intros i; rewrite N; apply N0|].
  intros c (X & w & Hin). unfold h in Hin. apply in_flat_map in Hin as (f & Hf & Hin). rewrite Forall_forall in H1. specialize (H1 f Hf).
  destruct f as [[rows cl] ws]. destruct H1 as [_ Hy]. unfold call_samples in Hin. apply filter_In in Hin as [Hin _]. apply in_combine_l in Hin.
  rewrite Forall_forall in Hy. exact (Hy _ Hin).
Qed.
Lemma py_set_out {A} (l : list A) c v : (Z.of_nat (length l) <= c)%Z -> py_set l c v = Raise IndexError.
Proof.
  intros H. unfold py_set, py_index. replace (0 <=? c)%Z with true by (symmetry; apply Z.leb_le; lia).
  replace (c <? Z.of_nat (length l))%Z with false by (symmetry; apply Z.ltb_ge; lia). replace (c <? 0)%Z with false by (symmetry; apply Z.ltb_ge; lia). reflexivity.
Qed.
Lemma fold_set_raises (votes : list (Z * R)) (g : R -> R) c : forall acc : list R, (forall c, In c (dkeys votes) -> (0 <= c)%Z) -> In c (dkeys votes) -> (Z.of_nat (length acc) <= c)%Z ->
  foldM (fun row kv => py_set row (fst kv) (g (snd kv))) votes acc = Raise IndexError.
Proof.
  induction votes as [|[c0 v] votes IH]; intros acc H Hin HL; [destruct Hin|]. cbn [foldM fst snd].
  destruct (Z_lt_le_dec c0 (Z.of_nat (length acc))) as [L|L].
  - rewrite py_set_in by (split; auto; apply H; now left). cbn [bind]. destruct Hin as [E|Hin]; [cbn in E; lia|].
    apply IH; [intros c' H'; apply H; now right|exact Hin|now rewrite set_nth_len].
  - rewrite py_set_out by auto. reflexivity.
Qed.
Lemma proba_row_raises cl (score : Z -> R) ks c : In c ks -> (forall m, In m (labels_of cl) -> (0 <= m < c)%Z) -> labels_of cl <> [] -> (forall c, In c ks -> (0 <= c)%Z) ->
  proba_row (Some cl) (map (fun c => (c, score c)) ks) = Raise IndexError.
Proof.
  intros Hc HM NE HN. unfold proba_row. cbv zeta. set (votes := map (fun c => (c, score c)) ks).
  assert (DK : dkeys votes = ks) by (unfold votes, dkeys; rewrite map_map; apply map_id).
  destruct (labels_of cl) as [|m0 l] eqn:El; [congruence|]. rewrite <- El in *.
  destruct (zmax_ok (labels_of cl) m0) as (m & Em & _); [rewrite El; now left|]. pose proof (HM _ (zmax_in _ _ Em)). rewrite Em. cbn [bind].
  apply (fold_set_raises votes (fun v => if neqb (vsum votes) n0 then n0 else ndiv v (vsum votes)) c); rewrite ?DK; auto. rewrite repeat_length. lia.
Qed.
