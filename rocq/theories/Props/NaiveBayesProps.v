(** Naive Bayes. *)
From Coq Require Import List ZArith QArith Reals Bool Lia Lra.
From Verif Require Import Base.Py Base.Num Base.Dict Spec.Lists Spec.ObserverSpec Spec.NominalSpec Spec.NaiveBayesSpec
  Model.Knn Model.NaiveBayes Proofs.NaiveBayesProofs.
Import ListNotations.
Local Open Scope R_scope.

(** C118: after any sequence of partial_fit calls (weights not negative, labels not negative, classes given, if at all, as
    a list that covers the labels), each row of predict_proba holds the posterior given by Bayes' rule for the samples that
    have a weight: prior of the label times the product over the columns of the normal density or Laplace estimate of the
    value in the samples of that label, normalised.  predict returns the first label of greatest posterior. *)
Theorem naive_bayes_posterior : forall (k : R) (key : R -> Z) (nominal : option (list Z)) s0 (calls : list fit_call) (Xs : list (list R)),
  let isnom i := match nominal with Some l => existsb (Z.eqb i) l | None => false end in
  let h := flat_map call_samples calls in
  let known := match first_given calls with Some c => labels_of c | None => labels_seen h end in
  k > 0 -> nb_new (option_map PyList nominal) = Ok s0 -> Forall call_ok calls -> Forall given_ok calls ->
  (forall c, has_label h c -> exists m, In m known /\ (c <= m)%Z) ->
  exists s P l, fit_run key s0 calls = Ok s /\ nb_proba k key s Xs = Ok P /\ nb_predict k key s Xs = Ok l
    /\ (h = [] -> P = map (fun _ => [0]) Xs)
    /\ (h <> [] -> Forall2 (fun X row => posterior_row (nb_score k key isnom h X) (labels_seen h) row /\ width_of known (length row)) Xs P)
    /\ Forall2 first_greatest P l.
Proof.
  intros k key nominal s0 calls Xs isnom h known Hk E0 H1 H2 H3.
  destruct (nb_reach key nominal s0 calls E0 H1 H2) as (s & E & I & C & N & NNeg). fold h in I, NNeg.
  destruct (nb_proba_ok k key h s Xs Hk I) as (P & EP & HP).
  { intros c Hc. split; auto. rewrite C. destruct (H3 c Hc) as (m & M & L). exists m. split; auto. }
  destruct (argmax_rows P) as (l & El & Hl).
  { clear - HP H3 NNeg C. induction HP as [|X row Xs P Hr HP IH]; constructor; auto. destruct h as [|[[X0 y] w] h']; cbn in Hr; [subst; discriminate|].
    assert (Hy : has_label ((X0, y, w) :: h') y) by (exists X0, w; now left).
    destruct (H3 y Hy) as (m & Hm & Lm). specialize (NNeg y Hy). destruct Hr as [_ [W1 _]]. unfold class_list in W1. rewrite C in W1.
    intros ->. specialize (W1 m Hm). cbn in W1. lia. }
  exists s, P, l. split; auto. split; auto. split; [unfold nb_predict; rewrite EP; exact El|]. split; [|split; auto].
  - intros Eh. rewrite Eh in HP. cbn in HP. clear - HP. induction HP; cbn; [reflexivity|]. now rewrite H, IHHP.
  - intros Nh.
    assert (EN : forall X c, nb_score k key (nb_nominal s) h X c = nb_score k key isnom h X c).
    { intros X c. unfold nb_score. f_equal. f_equal. apply map_ext. intros i. unfold likelihood. rewrite N. reflexivity. }
    replace (match h with [] => true | _ => false end) with false in HP by (destruct h; [congruence|reflexivity]).
    clear - HP EN C. unfold class_list in HP. rewrite C in HP. induction HP as [|X row Xs P [Hr Hw] HP IH]; constructor; auto.
    split; [|exact Hw]. unfold posterior_row in *. cbv zeta in *. intros c. rewrite (Hr c), EN. rewrite (map_ext _ _ (EN X)). reflexivity.
Qed.
Print Assumptions naive_bayes_posterior.

(** A case: two labels, a nominal column and a numeric one, two calls, a zero weight. *)
Example naive_bayes_posterior_applies :
  let calls : list fit_call := [([([1; 2], 0%Z); ([0; 5], 1%Z)], None, Some [1; 2]); ([([1; 7], 1%Z); ([4; 4], 7%Z)], Some (PyList [0; 1]%Z), Some [1; 0])] in
  Forall call_ok calls /\ Forall given_ok calls
  /\ (forall c, has_label (flat_map call_samples calls) c -> exists m, In m [0; 1]%Z /\ (c <= m)%Z)
  /\ flat_map call_samples calls = [([1; 2], 0%Z, 1); ([0; 5], 1%Z, 2); ([1; 7], 1%Z, 1)].
Proof.
  intros calls. assert (E : flat_map call_samples calls = [([1; 2], 0%Z, 1); ([0; 5], 1%Z, 2); ([1; 7], 1%Z, 1)]).
  { cbn. repeat (destruct (Req_EM_T _ _); try lra). reflexivity. }
  rewrite E. split; [|split; [|split; auto]].
  - unfold calls. repeat first [apply Forall_cons | apply Forall_nil | apply conj | reflexivity]; cbn; try lra; lia.
  - unfold calls. repeat constructor.
  - intros c (X & w & [H|[H|[H|[]]]]); injection H as _ <- _; [exists 0%Z|exists 1%Z|exists 1%Z]; cbn; split; auto; lia.
Qed.

(** C119 (refuted): once classes were passed as a numpy array of more than one element, no later call of partial_fit
    succeeds, whatever its arguments. *)
Theorem naive_bayes_array_classes_refuted : forall {T} `{Num T} (key : T -> Z) s rows a b c ws s',
  nb_classes s = None -> nb_fit key s rows (Some (NdArray (a :: b :: c))) ws = Ok s' ->
  forall rows' cl' ws', nb_fit key s' rows' cl' ws' = Raise ValueError.
Proof.
  intros T N key s rows a b c ws s' E0 E rows' cl' ws'. unfold nb_fit in E. rewrite E0 in E. cbn [bind] in E. cbv zeta in E.
  destruct (Nat.eqb _ _); [|discriminate].
  assert (G : forall rows ws s s', nb_rows key s rows ws = Ok s' -> nb_classes s' = nb_classes s).
  { clear. induction rows as [|[X y] rows IH]; intros ws s s' E; destruct ws as [|w ws]; cbn [nb_rows] in E; try (now injection E as <-).
    apply bind_Ok in E as (s1 & E1 & E2). apply IH in E2. rewrite E2. destruct (neqb w n0); [now injection E1 as <-|].
    unfold nb_learn in E1. cbv zeta in E1. apply bind_Ok in E1 as (o & _ & E1). now injection E1 as <-. }
  apply G in E. cbn [nb_classes] in E. unfold nb_fit. rewrite E. reflexivity.
Qed.
Print Assumptions naive_bayes_array_classes_refuted.
(** The first call does succeed. *)
Example naive_bayes_array_classes_applies : exists s',
  nb_fit (T := Q) (fun _ => 0%Z) (mk_nb [] [] None (fun _ => false)) [([1%Q], 0%Z)] (Some (NdArray [0; 1]%Z)) None = Ok s'.
Proof. vm_compute. eexists. reflexivity. Qed.

(** The same for the constructor: nominal_attributes as an array of more than one element. *)
Theorem naive_bayes_array_nominal_refuted : forall {T} `{Num T} a b c, nb_new (T := T) (Some (NdArray (a :: b :: c))) = Raise ValueError.
Proof. reflexivity. Qed.
(** An array that holds only the attribute 0 is taken for no nominal attributes. *)
Theorem naive_bayes_array_zero_refuted : exists s, nb_new (T := R) (Some (NdArray [0%Z])) = Ok s /\ nb_nominal s 0 = false
  /\ exists s', nb_new (T := R) (Some (PyList [0%Z])) = Ok s' /\ nb_nominal s' 0 = true.
Proof. eexists. split; [reflexivity|]. split; [reflexivity|]. eexists. split; reflexivity. Qed.

(** C120 (refuted): once a sample whose label is greater than every given class was learned, every prediction raises
    IndexError, for every sample. *)
Theorem naive_bayes_unlisted_label_refuted : forall (k : R) (key : R -> Z) (nominal : option (list Z)) s0 (calls : list fit_call) X Xs cl c,
  let h := flat_map call_samples calls in
  k > 0 -> nb_new (option_map PyList nominal) = Ok s0 -> Forall call_ok calls -> Forall given_ok calls ->
  first_given calls = Some cl -> has_label h c -> (forall m, In m (labels_of cl) -> (0 <= m < c)%Z) ->
  exists s, fit_run key s0 calls = Ok s /\ nb_proba k key s (X :: Xs) = Raise IndexError /\ nb_predict k key s (X :: Xs) = Raise IndexError.
Proof.
  intros k key nominal s0 calls X Xs cl c h Hk E0 H1 H2 HG HC HM.
  destruct (nb_reach key nominal s0 calls E0 H1 H2) as (s & E & I & C & N & NN). fold h in I, NN. exists s. split; auto.
  assert (Q : nb_proba k key s (X :: Xs) = Raise IndexError).
  { unfold nb_proba. assert (D : In c (dkeys (nb_dist s))) by (apply (dkeys_label h); auto; apply I).
    destruct (nb_dist s) as [|q d] eqn:Ed; [destruct D|]. rewrite <- Ed in *. cbn [mapM].
    assert (NE : h <> []) by (destruct HC as (X0 & w & HC); destruct h; [destruct HC|discriminate]).
    rewrite (nb_votes_ok k key h s X Hk I NE). cbn [bind]. rewrite C, HG.
    rewrite (proba_row_raises cl _ _ c); auto.
    { intros El. assert (G : given_ok ([], Some cl, None)).
      { clear - HG H2. induction calls as [|[[rows [c0|]] ws] calls IH]; cbn in HG; [discriminate| |].
        - injection HG as ->. inversion H2; auto.
        - inversion H2; auto. }
      unfold given_ok in G. cbn in G. destruct cl as [[|]|]; try contradiction. discriminate. }
    intros c' Hc'. apply NN. apply (dkeys_label h _ _ (ni_dist _ _ _ I)). exact Hc'. }
  split; auto. unfold nb_predict. rewrite Q. reflexivity.
Qed.
Print Assumptions naive_bayes_unlisted_label_refuted.
Example naive_bayes_unlisted_label_applies :
  let calls : list fit_call := [([([1], 0%Z); ([1], 2%Z)], Some (PyList [0; 1]%Z), None)] in
  Forall call_ok calls /\ Forall given_ok calls /\ first_given calls = Some (PyList [0; 1]%Z) /\ has_label (flat_map call_samples calls) 2%Z.
Proof.
  intros calls. split; [|split; [|split]].
  - unfold calls. repeat first [apply Forall_cons | apply Forall_nil | apply conj | exact I]; cbn; lia.
  - repeat constructor.
  - reflexivity.
  - exists [1], 1. cbn. destruct (Req_EM_T 1 0); [lra|]. right. now left.
Qed.
