(** Proofs about the configuration and the output file of evaluators. *)
From Coq Require Import List ZArith Bool Lia Permutation.
From Verif Require Import Base.Py Base.Num Model.EvalOutput Spec.EvalOutputSpec.
Import ListNotations.

Lemma mem_in l m : mem l m = true <-> In m l.
Proof. unfold mem. destruct (in_dec metric_eq_dec m l); split; intros; auto; discriminate. Qed.
Lemma subset_all a b : subset a b = true <-> Forall (fun m => In m b) a.
Proof. unfold subset. rewrite forallb_forall, Forall_forall. split; intros H m I; apply mem_in; auto. Qed.
Lemma reordered_in ms m : In m (reordered ms) <-> In m ms.
Proof.
  unfold reordered. rewrite in_app_iff, !filter_In. destruct (no_plot m) eqn:E; simpl; intuition discriminate.
Qed.
Lemma reordered_forall P ms : Forall P (reordered ms) <-> Forall P ms.
Proof. rewrite !Forall_forall. split; intros H m I; apply H, reordered_in; auto. Qed.
Lemma filter_subseq {A} (p : A -> bool) l : subseq (filter p l) l.
Proof. induction l; simpl; [constructor|]. destruct (p a); constructor; auto. Qed.
Lemma reordered_perm ms : Permutation ms (reordered ms).
Proof.
  unfold reordered. induction ms; simpl; [constructor|]. destruct (no_plot a); simpl.
  - eapply perm_trans; [apply perm_skip, IHms|]. apply Permutation_middle.
  - apply perm_skip, IHms.
Qed.
Lemma same_inter_false a b c : same_inter a b c = false <-> Exists (fun m => mem b m <> mem c m) a.
Proof.
  unfold same_inter. induction a; simpl; [split; [discriminate|intros H; inversion H]|].
  rewrite andb_false_iff, IHa, Exists_cons, Bool.eqb_false_iff. tauto.
Qed.
Lemma plot_known m : In m PLOT_TYPES \/ exists n, m = Unknown n.
Proof. destruct m; [left; simpl; tauto ..|right; eauto]. Qed.

Section Fields.
Context {T : Type} {N : Num T} (me : measured T).
Lemma nth_each n (f : nat -> T) i : i < n -> nth_error (each n f) i = Some (f i).
Proof.
  intros H. unfold each. rewrite nth_error_map.
  rewrite (nth_error_nth' _ 0) by (rewrite seq_length; auto). rewrite seq_nth; auto.
Qed.
Lemma item_each n (f : nat -> T) i : i < n -> item (each n f) i = Ok (f i).
Proof. intros H. unfold item. rewrite nth_each; auto. Qed.
Lemma for_models_ok (f : nat -> res (list T)) g k i :
  (forall j, i <= j < i + k -> f j = Ok (g j)) -> for_models k i f = Ok (flat_map g (seq i k)).
Proof.
  revert i. induction k; intros i H; simpl; auto.
  rewrite H by lia. simpl. rewrite IHk by (intros; apply H; lia). reflexivity.
Qed.
Lemma flat_single {A B} (g : A -> B) l : flat_map (fun i => [g i]) l = map g l.
Proof. induction l; simpl; congruence. Qed.
Lemma map_flat {A B C} (h : B -> C) (g : A -> list B) l : map h (flat_map g l) = flat_map (fun i => map h (g i)) l.
Proof. induction l; simpl; auto. rewrite map_app, IHl. reflexivity. Qed.

Lemma look_update t n fe ms b m : update_metrics me t n fe ms = Ok b -> In m ms -> exists e, look b m = Ok e /\ metric_entry me t n fe m = Ok e.
Proof.
  revert b. induction ms as [|m0 ms IH]; intros b H I; [destruct I|]. simpl in H.
  destruct (metric_entry me t n fe m0) as [e0|] eqn:E0; [|discriminate]. simpl in H.
  destruct (update_metrics me t n fe ms) as [b0|] eqn:E1; [|discriminate]. simpl in H. inversion H; subst b.
  unfold look. simpl. destruct (metric_eq_dec m0 m) as [->|D]; [exists e0; auto|].
  destruct I as [->|I]; [congruence|]. destruct (IH b0 eq_refl I) as (e & L & X). exists e. split; auto.
Qed.
Lemma fields_of_metric t n fe b id m e :
  look b m = Ok e -> metric_entry me t n fe m = Ok e ->
  metric_fields n b m = Ok (map (meaning me n id (nofZ (-1)%Z)) (metric_columns n m)).
Proof.
  intros L E. unfold metric_fields.
  destruct m; cbn [metric_entry] in E; rewrite ?L; cbn [bind];
  repeat match type of E with (if ?c then _ else _) = _ => destruct c; try discriminate end;
  try discriminate; injection E as <-; cbn [metric_columns map]; auto;
  rewrite ?map_flat, ?map_map.
  all: try (apply for_models_ok; intros j J; rewrite !item_each by lia; reflexivity).
  - erewrite for_models_ok with (g := fun j => [me_pred me j]) by (intros j J; rewrite item_each by lia; reflexivity).
    cbn [bind]. rewrite flat_single. reflexivity.
  - erewrite for_models_ok with (g := fun j => [me_size me j]) by (intros j J; rewrite item_each by lia; reflexivity).
    rewrite flat_single. reflexivity.
Qed.
Lemma fields_ok n b id ms :
  (forall m, In m ms -> metric_fields n b m = Ok (map (meaning me n id (nofZ (-1)%Z)) (metric_columns n m))) ->
  fields n b ms = Ok (map (meaning me n id (nofZ (-1)%Z)) (flat_map (metric_columns n) ms)).
Proof.
  induction ms; intros H; simpl; auto. rewrite H by (left; auto). simpl.
  rewrite IHms by (intros; apply H; right; auto). simpl. rewrite map_app. reflexivity.
Qed.
Lemma update_total t n fe ms : (forall m, In m ms -> exists e, metric_entry me t n fe m = Ok e) -> exists b, update_metrics me t n fe ms = Ok b.
Proof.
  induction ms; intros H; simpl; [eauto|]. destruct (H a (or_introl eq_refl)) as [e E]. rewrite E. simpl.
  destruct IHms as [b B]; [intros; apply H; right; auto|]. rewrite B. simpl. eauto.
Qed.
End Fields.

Section File.
Context {L : Type} (size : L -> Z) (limit : Z).
Hypothesis pos : forall l, (0 < size l)%Z.
Lemma total_app a b : total size (a ++ b) = (total size a + total size b)%Z.
Proof. unfold total. induction a; simpl; lia. Qed.
Lemma total_zero a : (total size a <= 0)%Z -> a = [].
Proof.
  destruct a; auto. unfold total. simpl. intros H.
  assert (forall r, (0 <= fold_right Z.add 0 (map size r))%Z) as P by (induction r; simpl; [lia|specialize (pos a0); lia]).
  specialize (P a). specialize (pos l). lia.
Qed.
(** The state between two events of a run that began with [top] and reported [ls] *)
Definition fgood (top ls : list L) (s : ofile) : Prop :=
  exists w, ls = w ++ o_buf s /\ o_file s = top ++ w /\ o_size s = total size (o_buf s) /\ ((o_size s <= limit)%Z \/ length (o_buf s) <= 1).
Lemma flush_good top ls s : fgood top ls s -> fgood top ls (flush s) /\ o_buf (flush s) = [].
Proof.
  intros (w & E & F & S & B). unfold flush. destruct (0 <? o_size s)%Z eqn:Z0.
  - simpl. split; auto. exists ls. simpl. rewrite app_nil_r, F, <- app_assoc, <- E. repeat split; auto.
  - apply Z.ltb_ge in Z0. rewrite S in Z0. apply total_zero in Z0. split; auto. exists w; auto.
Qed.
Lemma line_good top ls s l : fgood top ls s -> fgood top (ls ++ [l]) (fstep size limit s (FLine l)).
Proof.
  intros H. simpl. destruct (limit <? size l + o_size s)%Z eqn:C.
  - destruct (flush_good _ _ _ H) as [(w & E & F & S & B) Z0]. exists w. simpl. rewrite Z0 in *. rewrite S.
    rewrite app_nil_r in E. subst w. unfold total. simpl. repeat split; auto. lia.
  - apply Z.ltb_ge in C. destruct H as (w & E & F & S & B). exists w. simpl. rewrite total_app, E, app_assoc. unfold total at 2. simpl.
    repeat split; auto; try lia.
Qed.
Lemma lines_good top ls ls0 s : fgood top ls0 s -> fgood top (ls0 ++ ls) (frun size limit s (map FLine ls)).
Proof.
  revert ls0 s. induction ls; intros ls0 s H; simpl; [rewrite app_nil_r; auto|].
  replace (ls0 ++ a :: ls) with ((ls0 ++ [a]) ++ ls) by (rewrite <- app_assoc; reflexivity).
  apply IHls. apply line_good; auto.
Qed.
Definition clean (s : ofile (L := L)) : Prop := o_buf s = [] /\ o_size s = 0%Z.
Lemma init_good top s : clean s -> fgood top [] (fstep size limit s (FInit top)).
Proof. intros [A B]. exists []. simpl. rewrite A, B, app_nil_r. repeat split; auto. Qed.
Lemma evaluation_good top ls s : clean s ->
  let s' := frun size limit s (evaluation top ls) in o_file s' = top ++ ls /\ clean s'.
Proof.
  intros C. unfold evaluation, frun. simpl. rewrite fold_left_app. simpl.
  pose proof (lines_good top ls [] _ (init_good top s C)) as G. apply flush_good in G.
  destruct G as [(w & E & F & S & B) Z0]. unfold frun in *. simpl in *. rewrite Z0 in *. rewrite app_nil_r in E. subst w.
  repeat split; auto.
Qed.
Lemma evaluations_clean runs s : clean s -> clean (frun size limit s (flat_map (fun r => evaluation (fst r) (snd r)) runs)).
Proof.
  revert s. induction runs; intros s C; simpl; auto. unfold frun. rewrite fold_left_app. apply IHruns. apply evaluation_good; auto.
Qed.
End File.
