(** How the leaves of a Hoeffding tree answer does not change the tree that grows. *)
From Coq Require Import List ZArith QArith Floats Bool.
From Verif Require Import Base.Py Base.Num Base.NumFloat Base.Dict Model.TargetStats Model.TreeSkeleton Model.HoeffdingTree Model.HoeffdingRegressor Spec.TreeSpec Spec.TreeRelSpec Spec.TreeTwinSpec Spec.HoeffdingSpec Spec.HoeffdingRegressorSpec
  Proofs.TreeRelProofs Proofs.TreeTwinProofs Props.HoeffdingProps Props.HoeffdingRegressorProps.
Import ListNotations.

Section Any.
Context {T : Type} {N : Num T}.
(** C308: two HoeffdingTreeClassifiers with the same arguments but leaf_prediction and nb_threshold, taught the same, are the same
    tree: the same tests at the same places, the same statistics and observers in the leaves, the same counters.  remove_poor_atts
    must be off (or both use Naive Bayes, whose leaves disable nothing) and no memory estimate fall due. *)
Theorem ht_prediction_same_tree : forall k phi key (cfg cfg' : ht_config T) sz sz' es s s', same_but_prediction cfg cfg' ->
  h_poor cfg = false \/ h_kind cfg <> MC /\ h_kind cfg' <> MC -> (forall w, c_period_due (h_memory cfg) w = false) ->
  ht_run k phi key cfg sz ht_new es = Ok s -> ht_run k phi key cfg' sz' ht_new es = Ok s' -> same_tree s s'.
Proof.
  intros k phi key cfg cfg' sz sz' es s s' C P Q H H'. apply (rrel_ok false _ _ _ _ _ (twin_run k phi key cfg cfg' sz sz' false C P ltac:(discriminate) Q es ht_new ht_new ltac:(split; [apply rel_new|reflexivity])) H H').
Qed.
(** ... and with 'mc' and 'nb' training succeeds or raises alike. *)
Theorem ht_mc_nb_alike : forall k phi key (cfg cfg' : ht_config T) sz sz' es, same_but_prediction cfg cfg' -> h_poor cfg = false -> h_kind cfg <> NBA -> h_kind cfg' <> NBA ->
  (forall w, c_period_due (h_memory cfg) w = false) ->
  match ht_run k phi key cfg sz ht_new es, ht_run k phi key cfg' sz' ht_new es with Ok s, Ok s' => same_tree s s' | Raise e, Raise e' => e = e' | _, _ => False end.
Proof.
  intros k phi key cfg cfg' sz sz' es C P K K' Q. pose proof (twin_run k phi key cfg cfg' sz sz' true C (or_introl P) (fun _ => conj K K') Q es ht_new ht_new ltac:(split; [apply rel_new|reflexivity])) as R.
  destruct (ht_run k phi key cfg sz ht_new es), (ht_run k phi key cfg' sz' ht_new es); cbn in R; auto; discriminate.
Qed.
(** C309: the same for HoeffdingTreeRegressors with mean and with perceptron leaves, remove_poor_atts on or off. *)
Theorem htr_prediction_same_tree : forall key int_of (cfg cfg' : htr_config T) sz sz' es s s', same_but_model cfg cfg' ->
  (forall w, c_period_due (r_memory cfg) w = false) ->
  htr_run key int_of cfg sz htr_new es = Ok s -> htr_run key int_of cfg' sz' htr_new es = Ok s' -> same_rtree s s'.
Proof.
  intros key int_of cfg cfg' sz sz' es s s' C Q H H'. apply (rrel_ok false _ _ _ _ _ (rtwin_run key int_of cfg cfg' sz sz' false C ltac:(discriminate) Q es htr_new htr_new ltac:(split; [apply rel_new|reflexivity])) H H').
Qed.
End Any.

(** The tree of [ht_example], with majority class and with adaptive Naive Bayes leaves: both split once, and they answer differently. *)
Definition twin_cfg : ht_config float := @mk_ht float 4%float (@gini float NumF) 0.5%float 0.5%float false false false NBA 0%float (fun _ => true) (@mk_cfg float 1000000%float false (fun _ => false)).
Definition twin_events : list (ht_event float) := [HFit ex_rows None None; HFit [([0%float], 1%Z); ([0%float], 1%Z)] None None].
Example ht_twin_example : same_but_prediction ex_cfg twin_cfg /\ exists s s',
  @ht_run float NumF 1%float (fun x => x) ex_key ex_cfg ex_sizes (@ht_new float NumF) twin_events = Ok s /\ @ht_run float NumF 1%float (fun x => x) ex_key twin_cfg ex_sizes (@ht_new float NumF) twin_events = Ok s'
  /\ t_decision (ht_tree s) = 1%Z /\ t_decision (ht_tree s') = 1%Z
  /\ @ht_votes float NumF 1%float (fun x => x) ex_key ex_cfg s [0%float] = Ok [(0%Z, 2%float); (1%Z, 2%float)]
  /\ @ht_votes float NumF 1%float (fun x => x) ex_key twin_cfg s' [0%float] = Ok [(0%Z, 0%float); (1%Z, 0.5%float)].
Proof. split; [repeat split|]. do 2 eexists. repeat (split; [vm_compute; reflexivity|]). vm_compute. reflexivity. Qed.
(** A regressor with two attributes, with mean and with perceptron leaves: both split at the tenth sample and answer differently. *)
Definition rtwin_cfg (kind : reg_kind) : htr_config Q := mk_htr 10%Q (1#10)%Q 100%Q false false false kind (fun _ => false) (1#50)%Q (1#1000)%Q true true (mk_cfg 1000%Q false (fun _ => false)).
Definition rtwin_row (i : nat) : sample Q := ([inject_Z (Z.of_nat i); 1%Q], if Nat.ltb i 5 then 1%Q else 3%Q, fun _ => 1%Q).
Definition rtwin_events : list (htr_event Q) := [RFit (map rtwin_row (seq 0 10)) None].
Example htr_twin_example : same_but_model (rtwin_cfg Mean) (rtwin_cfg Perceptron) /\ exists s s',
  htr_run rq_key rq_int (rtwin_cfg Mean) rq_sizes htr_new rtwin_events = Ok s /\ htr_run rq_key rq_int (rtwin_cfg Perceptron) rq_sizes htr_new rtwin_events = Ok s'
  /\ t_decision (hr_tree s) = 1%Z /\ t_decision (hr_tree s') = 1%Z /\ htr_predict rq_key rq_int (rtwin_cfg Mean) s [[0%Q; 1%Q]] <> htr_predict rq_key rq_int (rtwin_cfg Perceptron) s' [[0%Q; 1%Q]].
Proof. split; [repeat split|]. do 2 eexists. repeat (split; [vm_compute; reflexivity|]). vm_compute. discriminate. Qed.
Print Assumptions ht_prediction_same_tree. Print Assumptions ht_mc_nb_alike. Print Assumptions htr_prediction_same_tree.
