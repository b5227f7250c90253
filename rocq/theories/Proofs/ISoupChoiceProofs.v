(** Faded errors of the adaptive leaves of the multi-target trees. *)
From Coq Require Import List ZArith Bool Reals Lra Lia.
From Verif Require Import Base.Py Base.Num Model.TargetStats Model.Knn Model.TreeSkeleton Model.HoeffdingTree Model.HoeffdingRegressor Model.ISoup Spec.ISoupChoiceSpec.
Import ListNotations.
Local Open Scope R_scope.

Lemma nabs_R (x : R) : @nabs R NumR x = Rabs x.
Proof.
  unfold nabs. change (@nltb R NumR) with Rltb. change (@n0 R NumR) with 0. destruct (Rltb x 0) eqn:E.
  - apply Rltb_true in E. rewrite Rabs_left by lra. cbn. lra.
  - apply Rltb_false in E. rewrite Rabs_right by lra. reflexivity.
Qed.
Lemma fading_snoc ds d : fading (ds ++ [d]) = match fading ds, d with Some e, Some d => Some (95 / 100 * e + d) | _, _ => None end.
Proof.
  induction ds as [|c r IH]; cbn [app fading].
  - destruct d; cbn; [f_equal; lra|reflexivity].
  - rewrite IH, app_length, Nat.add_1_r. destruct c as [c|]; [|reflexivity]. destruct (fading r); [|reflexivity]. destruct d; [|reflexivity]. cbn [pow]. f_equal. ring.
Qed.
Lemma fade_fading ds t v : fade (fading ds) t v = fading (ds ++ [match t, v with Some t, Some v => Some (Rabs (t - v)) | _, _ => None end]).
Proof.
  rewrite fading_snoc. unfold fade. destruct (fading ds); [|reflexivity]. destruct t, v; try reflexivity. now rewrite nabs_R.
Qed.
Lemma off_app pred j a b : misses pred j (a ++ b) = misses pred j a ++ misses pred j b. Proof. apply map_app. Qed.
Lemma off_cons pred j k ks : misses pred j (k :: ks) = misses pred j [k] ++ misses pred j ks. Proof. reflexivity. Qed.

Section Life.
Variables (int_of : R -> Z) (cfg : htr_config R) (n : nat).
Lemma a_times s i y ratio : forall k m em ep m' em' ep', times k (a_update n s (mi_sums i) (mi_x i) y ratio) (m, em, ep) = Ok (m', em', ep') ->
  exists ks, a_passes n s i y ratio m ks m' /\ length ks = k /\ forall j ds es, em j = fading ds -> ep j = fading es -> em' j = fading (ds ++ misses k_mean j ks) /\ ep' j = fading (es ++ misses k_perceptron j ks).
Proof.
  induction k as [|k IH]; intros m em ep m' em' ep' H; cbn [times] in H.
  - injection H as <- <- <-. exists []. split; [constructor|]. split; [reflexivity|]. intros j ds es Hd He. cbn. rewrite !app_nil_r. auto.
  - apply bind_Ok in H as ([[m1 em1] ep1] & E & H). unfold a_update in E. apply bind_Ok in E as (xn & En & E). apply bind_Ok in E as (_u & _ & E). injection E as <- <- <-.
    destruct (IH _ _ _ _ _ _ H) as (ks & P & L & Q). eexists. split; [apply (a_pass n s i y ratio m xn ks m' En P)|]. split; [cbn; now rewrite L|]. intros j ds es Hd He.
    rewrite (off_cons k_mean), (off_cons k_perceptron), !app_assoc. apply Q; rewrite ?Hd, ?He; apply fade_fading.
Qed.
Definition a_errors (a : adaptive) (ls : list look) : Prop := forall j, ad_m a j = fading (misses k_mean j ls) /\ ad_p a j = fading (misses k_perceptron j ls).
Lemma a_life_learn a s i y w a' : (exists ls, a_lived int_of cfg n a ls /\ a_errors a ls) -> a_learn int_of cfg n a s i y w = Ok a' -> exists ls, a_lived int_of cfg n a' ls /\ a_errors a' ls.
Proof.
  intros (ls & Hl & He) H. pose proof H as H0. unfold a_learn in H. apply bind_Ok in H as (ratio & Er & H). apply bind_Ok in H as ([[m em] ep] & Et & H). injection H as <-.
  destruct (a_times _ _ _ _ _ _ _ _ _ _ _ Et) as (ks & P & L & Q). exists (ls ++ ks). split; [econstructor; eauto|]. intros j. destruct (He j) as [A B]. cbn [ad_m ad_p]. rewrite !off_app. apply Q; auto.
Qed.
Lemma s_times s i y ratio : forall k c em ep es c' em' ep' es',
  times k (sa_update n s (mi_sums i) (mi_x i) y ratio) (fst c, snd c, em, ep, es) = Ok (fst c', snd c', em', ep', es') ->
  exists ks, s_passes n s i y ratio c ks c' /\ length ks = k /\ forall j ds es0 fs, em j = fading ds -> ep j = fading es0 -> es j = fading fs ->
    em' j = fading (ds ++ misses k_mean j ks) /\ ep' j = fading (es0 ++ misses k_perceptron j ks) /\ es' j = fading (fs ++ misses k_stacked j ks).
Proof.
  induction k as [|k IH]; intros [m m2] em ep es [m' m2'] em' ep' es' H; cbn [times fst snd] in H.
  - injection H as <- <- <- <- <-. exists []. split; [constructor|]. split; [reflexivity|]. intros j ds es0 fs Hd He Hf. cbn. rewrite !app_nil_r. auto.
  - apply bind_Ok in H as ([[[[m1 m21] em1] ep1] es1] & E & H). unfold sa_update in E. apply bind_Ok in E as (xn & En & E). apply bind_Ok in E as (_u & _ & E). injection E as <- <- <- <- <-.
    destruct (IH (_, _) _ _ _ (m', m2') _ _ _ H) as (ks & P & L & Q). eexists. split; [apply (s_pass n s i y ratio m m2 xn ks _ En P)|]. split; [cbn; now rewrite L|]. intros j ds es0 fs Hd He Hf.
    rewrite (off_cons k_mean), (off_cons k_perceptron), (off_cons k_stacked), !app_assoc. apply Q; rewrite ?Hd, ?He, ?Hf; apply fade_fading.
Qed.
Definition s_errors (a : stacked) (ls : list look) : Prop :=
  forall j, sa_m a j = fading (misses k_mean j ls) /\ sa_p a j = fading (misses k_perceptron j ls) /\ sa_s a j = fading (misses k_stacked j ls).
Lemma s_life_learn a s i y w a' : (exists ls, s_lived int_of cfg n a ls /\ s_errors a ls) -> sa_learn int_of cfg n a s i y w = Ok a' -> exists ls, s_lived int_of cfg n a' ls /\ s_errors a' ls.
Proof.
  intros (ls & Hl & He) H. pose proof H as H0. unfold sa_learn in H. apply bind_Ok in H as (ratio & Er & H). destruct (s_start n (sa_w a) i) as [m0 m20] eqn:Es.
  apply bind_Ok in H as ([[[[m m2] em] ep] es] & Et & H). injection H as <-.
  destruct (s_times _ _ _ _ _ (m0, m20) _ _ _ (m, m2) _ _ _ Et) as (ks & P & L & Q). exists (ls ++ ks). rewrite <- Es in P. split; [econstructor; eauto|].
  intros j. destruct (He j) as (A & B & C). cbn [sa_m sa_p sa_s]. rewrite !off_app. apply Q; auto.
Qed.
End Life.

(** The choice among three *)
Lemma choice3 a b c mean p sp :
  (a <= b -> a <= c -> ~ (a = b /\ b = c) -> sa_choice (Some a) (Some b) (Some c) mean p sp = mean) /\
  (a = b -> b = c -> sa_choice (Some a) (Some b) (Some c) mean p sp = p) /\
  (b < a -> b < c -> sa_choice (Some a) (Some b) (Some c) mean p sp = p) /\
  (c < a -> c <= b -> sa_choice (Some a) (Some b) (Some c) mean p sp = sp).
Proof.
  assert (LT : forall u v, u < v -> @nltb R NumR u v = true) by (intros; now apply Rltb_true).
  assert (GE : forall u v, v <= u -> @nltb R NumR u v = false) by (intros; now apply Rltb_false).
  assert (EQ : forall u v, u = v -> @neqb R NumR u v = true) by (intros; now apply Reqb_true).
  assert (NE : forall u v, u <> v -> @neqb R NumR u v = false) by (intros; now apply Reqb_false).
  unfold sa_choice, argmin3, eq_opt. repeat split.
  - intros H1 H2 H3. rewrite (GE b a), (GE c a) by lra. destruct (Req_dec a b) as [E|E]; [|now rewrite (NE a b)].
    rewrite (EQ a b) by auto. destruct (Req_dec b c) as [E'|E']; [destruct H3; auto|now rewrite (NE b c)].
  - intros -> ->. rewrite !(GE c c) by lra. rewrite (EQ c c) by auto. reflexivity.
  - intros H1 H2. rewrite (LT b a), (GE c b), (NE b c) by lra. reflexivity.
  - intros H1 H2. destruct (Rlt_dec b a) as [E|E].
    + rewrite (LT b a) by auto. destruct (Rlt_dec c b) as [E'|E']; [now rewrite (LT c b)|]. rewrite (GE c b), (EQ b c) by lra. reflexivity.
    + rewrite (GE b a), (LT c a) by lra. reflexivity.
Qed.
