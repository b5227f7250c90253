(** Keeping the best suggestion keeps the first one of maximal merit. *)
From Coq Require Import List Reals Lra Bool.
From Verif Require Import Base.Num Spec.ObserverSpec Model.Suggestion.
Import ListNotations.
Local Open Scope R_scope.

Lemma mgt_true (a b : option R) : mgt a b = true <-> ~ merit_le a b.
Proof.
  destruct a as [x|], b as [y|]; cbn; split; intros H; try easy; try tauto.
  - rcase. lra.
  - apply Rltb_true. lra.
Qed.
Lemma mgt_false (a b : option R) : mgt a b = false <-> merit_le a b.
Proof.
  destruct a as [x|], b as [y|]; cbn; split; intros H; try easy; try tauto.
  - now rcase.
  - now apply Rltb_false.
Qed.
Lemma merit_le_refl a : merit_le a a. Proof. destruct a; cbn; lra. Qed.
Lemma merit_le_trans a b c : merit_le a b -> merit_le b c -> merit_le a c.
Proof. destruct a, b, c; cbn; intros; try tauto; lra. Qed.
Lemma merit_total a b : merit_le a b \/ merit_le b a.
Proof. destruct a, b; cbn; auto. lra. Qed.

Section Best.
Context {A D : Type}.
Notation sug := (suggestion A D R).
Lemma keep_best_ok (l : list sug) : l <> [] -> exists pre s post, l = pre ++ s :: post /\ fold_left keep_best l None = Some s
  /\ (forall x, In x l -> merit_le (sg_merit x) (sg_merit s)) /\ (forall x, In x pre -> ~ merit_le (sg_merit s) (sg_merit x)).
Proof.
  induction l as [|x l IH] using rev_ind; [congruence|]. intros _. rewrite fold_left_app. cbn [fold_left].
  destruct l as [|y l'].
  - exists [], x, []. cbn. split; auto. split; auto. split; [|intros ? []]. intros ? [<-|[]]. apply merit_le_refl.
  - destruct (IH ltac:(discriminate)) as (pre & s & post & E & F & Mx & Fi). rewrite F. cbn [keep_best].
    destruct (mgt (sg_merit x) (sg_merit s)) eqn:G.
    + apply mgt_true in G. exists (y :: l'), x, []. split; auto. split; auto. split.
      * intros z Hz. apply in_app_or in Hz. destruct Hz as [Hz|[<-|[]]]; [|apply merit_le_refl].
        eapply merit_le_trans; [apply Mx; exact Hz|]. destruct (merit_total (sg_merit s) (sg_merit x)); auto. contradiction.
      * intros z Hz C. apply G. eapply merit_le_trans; [exact C|]. apply Mx. exact Hz.
    + apply mgt_false in G. exists pre, s, (post ++ [x]). split; [rewrite E, <- app_assoc; reflexivity|]. split; auto. split; auto.
      intros z Hz. apply in_app_or in Hz. destruct Hz as [Hz|[<-|[]]]; auto.
Qed.
End Best.
