(** The errors the leaves of the adaptive regression tree monitor. *)
From Coq Require Import List ZArith Bool Reals Lra Lia.
From Verif Require Import Base.Py Base.Num Base.Dict Model.Suggestion Model.Adwin Model.TargetStats Model.Ebst Model.NominalObs Model.SplitTests Model.SplitCriteria Model.Knn Model.TreeSkeleton Model.HoeffdingTree
  Model.HoeffdingRegressor Model.AdaTree Model.HoeffdingAdaptive Model.HoeffdingAdaptiveRegressor Model.ForestRegressor Spec.Lists Spec.ForestRegressorSpec Spec.AdaSpec Spec.HatrSpec
  Proofs.TreeProofs Proofs.HoeffdingProofs Proofs.HoeffdingRegressorProofs Proofs.AdaProofs Proofs.HatrProofs Proofs.ForestRegressorProofs.
Import ListNotations.
Local Open Scope Z_scope.

Section Errors.
Context {T A G : Type} {N : Num T}.
Variables (key : T -> Z) (int_of : T -> Z) (cfg : htr_config T) (bootstrap : bool) (D : det T A) (g_new : G) (poisson : G -> Z * G) (uniform : G -> nat -> list T * G).
Local Notation O := (hatr_ops key int_of cfg bootstrap D g_new poisson uniform).
Local Notation one := (hatr_one key int_of cfg bootstrap D g_new poisson uniform).
Local Notation run := (hatr_run key int_of cfg bootstrap D g_new poisson uniform hatr_init).
Local Notation erred := (erred key int_of cfg bootstrap D g_new poisson uniform).

Definition er_ok (l : arleaf T A G) : Prop := ar_ok l /\ exists es, erred l es.
Lemma er_new s p : er_ok (ar_new D g_new s p). Proof. split; [apply rkeys_new|]. eexists. constructor. Qed.
Lemma er_learn l x y w l' : er_ok l -> a_learn O l x y w = Ok l' -> er_ok l'.
Proof.
  intros [H (es & He)] E. split; [exact (hatr_learn key int_of cfg bootstrap D g_new poisson uniform _ _ _ _ _ H E)|].
  pose proof E as E'. apply ar_learn_inv in E' as (p & v & ch & ws & E1 & _). eexists. exact (erred_learn _ _ _ _ _ _ _ _ l es x y w p l' He E1 E).
Qed.
Lemma er_decide l d : er_ok l -> a_decide O l = Ok d ->
  match d with
  | Keep l' => er_ok l'
  | NullWins l' => er_ok l' /\ dead_ok (a_stop O l') /\ (forall l'', a_restart O l' = Some l'' -> er_ok l'')
  | SplitOn l' te ds => er_ok l' /\ test_ok te (length ds) /\ forall d, In d ds -> er_ok (a_child O l' d)
  end.
Proof.
  intros [H (es & He)] E. pose proof (hatr_decide key int_of cfg bootstrap D g_new poisson uniform _ _ H E) as K. destruct d as [l'|l'|l' te ds].
  - split; [exact K|]. exists es. eapply erred_attempt; [exact He|]. eexists. split; [exact E|reflexivity].
  - destruct K as (K1 & K2 & _). split; [|split; [exact K2|discriminate]]. split; [exact K1|]. exists es. eapply erred_attempt; [exact He|]. eexists. split; [exact E|reflexivity].
  - destruct K as (K1 & K2 & _). split; [|split; [exact K2|intros d _; apply er_new]]. split; [exact K1|]. exists es. eapply erred_attempt; [exact He|]. eexists. split; [exact E|reflexivity].
Qed.
Local Notation rnode := (anode (arleaf T A G) unit (option (stat T unit)) (htest T) (welford T * A)).
Definition er_wf (t : rnode) : Prop := awf test_ok er_ok dead_ok t.
Lemma er_learn_wf t linked x y w c t' over c' : er_wf t -> alearn O linked t x y w c = Ok (t', over, c') -> er_wf t' /\ forall n, over = Some n -> er_wf n.
Proof. apply alearn_wf; [exact (hatr_branch key int_of cfg bootstrap D g_new poisson uniform)|exact (hatr_add key int_of cfg bootstrap D g_new poisson uniform)|apply er_new|exact er_learn|exact er_decide]. Qed.
Lemma er_run os s t : run os = Ok s -> hatr_root s = Some t -> er_wf t.
Proof.
  intros H. revert t. revert H. apply (hatr_run_inv key int_of cfg bootstrap D g_new poisson uniform (fun s => forall t, hatr_root s = Some t -> er_wf t)).
  - intros s0 x y w s1 H0 H. apply one_cases in H as [[_ ->]|(_ & _ & r & c & r' & over & E1 & E2 & E3)]; [exact H0|]. intros t Et; rewrite E2 in Et; injection Et as <-.
    assert (Wr : er_wf r) by (destruct E3 as [[E3 _]|(_ & -> & _)]; [auto|constructor; apply er_new]). destruct (er_learn_wf _ _ _ _ _ _ _ _ _ Wr E1) as [W1 W2]. destruct over; auto.
  - intros _ s0 _ t. discriminate.
  - intros t. discriminate.
Qed.
Lemma er_leaves (t : rnode) l : er_wf t -> In l (all_leaves t) -> er_ok l.
Proof.
  intros W Hin. unfold all_leaves in Hin. apply in_flat_map in Hin as (n & Hn & Hl). apply in_app_iff in Hn.
  assert (M : forall n, In n (main_nodes t) -> er_wf n).
  { clear - W. intros n. induction t as [l|i|te s0 wt alt ch _ IHc] using anode_ind'; intros [<-|Hn]; try exact W; try destruct Hn. inversion W as [| |? ? ? ? ? K TI F A1]; subst. clear W K TI A1.
    induction ch as [|[k0 c] ch IH]; [destruct Hn|]. inversion F; inversion IHc; subst. apply in_app_iff in Hn as [Hn|Hn]; auto. }
  destruct n as [l0|i|te s0 wt alt ch]; [|destruct Hl|destruct Hl]. destruct Hl as [->|[]]. destruct Hn as [Hn|Hn].
  - specialize (M _ Hn). inversion M; subst. assumption.
  - unfold alternates in Hn. apply in_flat_map in Hn as (m & Hm & Ha). specialize (M _ Hm). destruct m as [?|?|te s0 wt [a|] ch]; [destruct Ha|destruct Ha| |destruct Ha]. destruct Ha as [Ha|[]].
    inversion M as [| |? ? ? ? ? K TI F A1]; subst. destruct (A1 _ eq_refl) as (l1 & Q & Hl1). injection Q as ->. exact Hl1.
Qed.

(** Welford's update is that of the forests. *)
Definition wf_of (w : norm T) : welford T := mk_wf (w_k w) (Some (w_M w)) (Some (w_S w)).
Lemma norm_error_some w y p : norm_error (wf_of w) y (Some p) = (wf_of (snd (ForestRegressor.normalize (nabs (y - p)%num) w)), fst (ForestRegressor.normalize (nabs (y - p)%num) w)).
Proof. unfold norm_error, wf_of, ForestRegressor.normalize. cbn [wf_n wf_mean wf_sq]. destruct (w_k w + 1 =? 1); reflexivity. Qed.
Lemma rwatch_told vs a v a' ch : told D vs a -> rwatch D a v = Ok (a', ch) -> told D (vs ++ [v]) a'.
Proof. intros H E. unfold rwatch in E. apply bind_Ok in E as ([a1 c1] & E & Q). injection Q as <- _. econstructor; eauto. Qed.
Lemma ar_decide_same (l : arleaf T A G) d : ar_decide int_of cfg l = Ok d -> match d with Keep l' | NullWins l' | SplitOn l' _ _ => @eq (welford T) (ar_wf l') (ar_wf l) /\ @eq A (ar_det l') (ar_det l) end.
Proof. unfold ar_decide. intros E. apply bind_Ok in E as (d0 & _ & Q). injection Q as <-. destruct d0; auto. Qed.
(** The scores as the code computes them *)
Fixpoint nscores (w : norm T) (es : list T) : list T := match es with [] => [] | e :: r => fst (ForestRegressor.normalize e w) :: nscores (snd (ForestRegressor.normalize e w)) r end.
Lemma nscores_snoc es e : forall w, nscores w (es ++ [e]) = nscores w es ++ [fst (ForestRegressor.normalize e (fold_left (fun w x => snd (ForestRegressor.normalize x w)) es w))].
Proof. induction es as [|a es IH]; intros w; cbn [nscores app fold_left]; [reflexivity|]. rewrite IH. reflexivity. Qed.
Lemma erred_told l es : erred l es -> forall ds, es = map Some ds -> ar_wf l = wf_of (norm_after ds) /\ told D (nscores norm_new ds) (ar_det l).
Proof.
  induction 1 as [s p|l es x y w p l' He IH Ep El|l es l' He IH (d & Ed & Hd)]; intros ds Eds.
  - destruct ds; [|discriminate]. split; [reflexivity|constructor].
  - destruct ds as [|d0 ds _] using rev_ind; [destruct es; discriminate|]. rewrite map_app in Eds. apply app_inj_tail in Eds as [-> Q]. destruct p as [p|]; [|discriminate]. injection Q as <-.
    destruct (IH ds eq_refl) as [I1 I2]. apply ar_learn_inv in El as (p' & v & ch & ws & F1 & F2 & F3 & _). rewrite Ep in F1. injection F1 as <-.
    rewrite I1, norm_error_some in F2. injection F2 as F2 F4. rewrite norm_after_snoc, <- F2. split; [reflexivity|]. rewrite nscores_snoc. eapply rwatch_told; [exact I2|]. rewrite <- F4 in F3. exact F3.
  - destruct (IH ds Eds) as [I1 I2]. pose proof (ar_decide_same _ _ Ed) as K. destruct d; subst l'; destruct K as [-> ->]; auto.
Qed.
(** With mean leaves every error is a number. *)
Lemma erred_mean l es : r_kind cfg = Mean -> erred l es -> exists ds, es = map Some ds.
Proof.
  intros Hk. induction 1 as [s p|l es x y w p l' He (ds & ->) Ep El|l es l' He IH _]; [exists []; reflexivity| |exact IH].
  unfold ar_value in Ep. rewrite Hk in Ep. injection Ep as <-. eexists (ds ++ [_]). rewrite map_app. reflexivity.
Qed.
End Errors.

Local Open Scope R_scope.
Lemma nscores_right es : nscores norm_new es = scores es.
Proof.
  unfold scores. assert (G : forall seen, nscores (norm_after seen) es = scores_after seen es); [|exact (G [])].
  induction es as [|e es IH]; intros seen; cbn [nscores scores_after]; [reflexivity|]. rewrite norm_scored, <- norm_after_snoc, IH. reflexivity.
Qed.
Lemma scores_nth es : forall seen n v, nth_error (scores_after seen es) n = Some v -> exists e, nth_error es n = Some e /\ v = scored (seen ++ firstn n es) e.
Proof.
  induction es as [|e es IH]; intros seen n v H; [destruct n; discriminate|]. destruct n as [|n]; cbn in H.
  - injection H as <-. exists e. split; [reflexivity|]. cbn. rewrite app_nil_r. reflexivity.
  - destruct (IH _ _ _ H) as (e0 & E0 & ->). exists e0. split; [exact E0|]. cbn. rewrite <- app_assoc. reflexivity.
Qed.
