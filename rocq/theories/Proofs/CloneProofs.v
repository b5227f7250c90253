(** Proofs about copies of estimators. *)
From Coq Require Import List Bool String Arith Lia.
From Verif Require Import Base.Py Model.Params Spec.ParamsSpec Proofs.ParamsProofs.
Import ListNotations.

Section P.
Context {P C D : Type}.
Variables (none : P) (names : C -> list string) (init : C -> list (string * val P) -> heap P C D -> res (list (string * val P) * heap P C D)) (same : P -> P -> bool).
Notation val := (val P). Notation heap := (heap P C D).
Notation getattr := (getattr none). Notation shallow := (shallow none names).
Notation clone := (clone none names init same).
Notation value := (value none). Notation copied := (copied none names init). Notation fits := (fits none names).

Definition cl_list (f : heap -> val -> res (val * heap)) :=
  fix go (l : list val) (h : heap) : res (list val * heap) :=
    match l with [] => Ok ([], h) | v :: l => ' (v', h1) <- f h v ;; ' (l', h2) <- go l h1 ;; Ok (v' :: l', h2) end.
Definition cl_pars (f : heap -> val -> res (val * heap)) :=
  fix go (ps : list (string * val)) (h : heap) : res (list (string * val) * heap) :=
    match ps with [] => Ok ([], h) | (k, v) :: ps => ' (v', h1) <- f h v ;; ' (r, h2) <- go ps h1 ;; Ok ((k, v') :: r, h2) end.
Lemma clone_S fuel safe h v : clone (S fuel) safe h v =
  match v with
  | Prim p => if safe then Raise TypeError else Ok (Prim p, h)
  | Ref a =>
      match nth_error h a with
      | None => Raise RuntimeError
      | Some (Data d) => if safe then Raise TypeError else Ok (Ref (List.length h), h ++ [Data d])
      | Some (Seq l) => ' (l', h') <- cl_list (clone fuel safe) l h ;; Ok (Ref (List.length h'), h' ++ [Seq l'])
      | Some (Est c attrs) =>
          ' (ps, h1) <- cl_pars (clone fuel false) (shallow c attrs) h ;;
          ' (attrs', h2) <- init c ps h1 ;;
          if forallb (fun kv => is_same same (snd kv) (getattr attrs' (fst kv))) ps then Ok (Ref (List.length h2), h2 ++ [Est c attrs']) else Raise RuntimeError
      end
  end.
Proof. reflexivity. Qed.

Lemma nth_app (h m : heap) a x : nth_error h a = Some x -> nth_error (h ++ m) a = Some x.
Proof. intros H. rewrite nth_error_app1; [exact H|]. apply nth_error_Some. congruence. Qed.
Lemma nth_last (h : heap) x : nth_error (h ++ [x]) (List.length h) = Some x.
Proof. rewrite nth_error_app2, Nat.sub_diag by lia. reflexivity. Qed.
Lemma copied_grow (h m : heap) n v w : copied h n v w -> copied (h ++ m) n v w.
Proof.
  induction 1.
  - constructor.
  - eapply copied_data; eauto using nth_app.
  - eapply copied_seq; eauto using nth_app.
  - eapply copied_est; eauto using nth_app.
Qed.
Lemma copied_from (h : heap) n m v w : copied h n v w -> m <= n -> copied h m v w.
Proof.
  intros H L. induction H.
  - constructor.
  - eapply copied_data; eauto. lia.
  - eapply copied_seq; eauto. lia.
  - eapply copied_est; eauto. lia.
Qed.

Lemma cl_list_spec f : (forall h v v' h', f h v = Ok (v', h') -> (exists m, h' = h ++ m) /\ copied h' (List.length h) v v') ->
  forall l h l' h', cl_list f l h = Ok (l', h') -> (exists m, h' = h ++ m) /\ List.length l' = List.length l /\
    forall i v w, nth_error l i = Some v -> nth_error l' i = Some w -> copied h' (List.length h) v w.
Proof.
  intros Hf. induction l as [|v l IH]; intros h l' h' E; cbn in E.
  { injection E as <- <-. split; [exists []; now rewrite app_nil_r|]. split; [reflexivity|]. intros [|i]; discriminate. }
  destruct (f h v) as [[v1 h1]|] eqn:F; [|discriminate]. cbn in E. destruct (cl_list f l h1) as [[l1 h2]|] eqn:G; [|discriminate]. cbn in E. injection E as <- <-.
  destruct (Hf _ _ _ _ F) as ((m1 & ->) & C1). destruct (IH _ _ _ G) as ((m2 & ->) & L & C2). split; [exists (m1 ++ m2); now rewrite app_assoc|]. split; [cbn; congruence|].
  intros [|i] x w Hx Hw; cbn in Hx, Hw.
  - injection Hx as <-. injection Hw as <-. now apply copied_grow.
  - eapply copied_from; [eapply C2; eassumption|]. rewrite app_length. lia.
Qed.
Lemma cl_pars_spec f : (forall h v v' h', f h v = Ok (v', h') -> (exists m, h' = h ++ m) /\ copied h' (List.length h) v v') ->
  forall l h l' h', cl_pars f l h = Ok (l', h') -> (exists m, h' = h ++ m) /\ map fst l' = map fst l /\
    forall k w, In (k, w) l' -> exists v, In (k, v) l /\ copied h' (List.length h) v w.
Proof.
  intros Hf. induction l as [|[k v] l IH]; intros h l' h' E; cbn in E.
  { injection E as <- <-. split; [exists []; now rewrite app_nil_r|]. split; [reflexivity|]. intros ? ? []. }
  destruct (f h v) as [[v1 h1]|] eqn:F; [|discriminate]. cbn in E. destruct (cl_pars f l h1) as [[l1 h2]|] eqn:G; [|discriminate]. cbn in E. injection E as <- <-.
  destruct (Hf _ _ _ _ F) as ((m1 & ->) & C1). destruct (IH _ _ _ G) as ((m2 & ->) & L & C2). split; [exists (m1 ++ m2); now rewrite app_assoc|]. split; [cbn; congruence|].
  intros k0 w [Hw|Hw].
  - injection Hw as <- <-. exists v. split; [now left|]. now apply copied_grow.
  - destruct (C2 _ _ Hw) as (v0 & I & Cv). exists v0. split; [now right|]. eapply copied_from; [exact Cv|]. rewrite app_length. lia.
Qed.

Hypothesis same_ok : forall p q, same p q = true <-> p = q.
Lemma is_same_ok v w : is_same same v w = true <-> v = w.
Proof. destruct v, w; cbn; try (split; discriminate). - rewrite same_ok. split; congruence. - rewrite Nat.eqb_eq. split; congruence. Qed.

Lemma clone_copied (al : allocates init) fuel : forall safe h v v' h', clone fuel safe h v = Ok (v', h') -> (exists m, h' = h ++ m) /\ copied h' (List.length h) v v'.
Proof.
  induction fuel as [|fuel IH]; intros safe h v v' h' E; [discriminate|]. rewrite clone_S in E. destruct v as [p|a].
  { destruct safe; [discriminate|]. injection E as <- <-. split; [exists []; now rewrite app_nil_r|constructor]. }
  destruct (nth_error h a) as [[c attrs|l|d]|] eqn:N; [| | |discriminate].
  - destruct (cl_pars _ _ h) as [[ps h1]|] eqn:G; [|discriminate]. cbn in E. destruct (init c ps h1) as [[attrs' h2]|] eqn:I; [|discriminate]. cbn in E.
    destruct (forallb _ ps) eqn:Q; [|discriminate]. injection E as <- <-.
    destruct (cl_pars_spec _ (IH false) _ _ _ _ G) as ((m1 & ->) & Fs & Cp). pose proof I as I0. apply al in I as (m2 & ->).
    split; [exists (m1 ++ m2 ++ [Est c attrs']); now rewrite !app_assoc|]. eapply copied_est.
    + do 3 apply nth_app. exact N.
    + apply nth_last.
    + rewrite !app_length. lia.
    + rewrite Fs. unfold Params.shallow. rewrite map_map. apply map_id.
    + exact I0.
    + intros k v Iv. apply value_getattr. rewrite forallb_forall in Q. specialize (Q _ Iv). cbn in Q. apply is_same_ok in Q. congruence.
    + intros k v w Ik V Iw. do 2 apply copied_grow. destruct (Cp _ _ Iw) as (v0 & I & Cv). unfold Params.shallow in I. apply in_map_iff in I as (k' & Ek & _). injection Ek as -> E. apply value_getattr in V. congruence.
  - destruct (cl_list _ l h) as [[l' h1]|] eqn:G; [|discriminate]. cbn in E. injection E as <- <-.
    destruct (cl_list_spec _ (IH safe) _ _ _ _ G) as ((m1 & ->) & L & Cp). split; [exists (m1 ++ [Seq l']); now rewrite app_assoc|].
    eapply copied_seq; [do 2 apply nth_app; exact N|apply nth_last|rewrite app_length; lia|exact L|]. intros i x y Hx Hy. apply copied_grow. eapply Cp; eassumption.
  - destruct safe; [discriminate|]. injection E as <- <-. split; [eauto|]. eapply copied_data; [apply nth_app; exact N|apply nth_last|lia].
Qed.

(** what can be copied is copied *)
Lemma fits_grow (h m : heap) : forall n v, fits h n v -> fits (h ++ m) n v.
Proof.
  clear same_ok.
  induction n as [|n IH]; intros [p|a] F; cbn [ParamsSpec.fits] in *; auto. destruct (nth_error h a) as [x|] eqn:N; [|destruct F]. rewrite (nth_app h m a x N). destruct x as [c attrs|l|d]; auto.
  intros k w I V. apply IH. eapply F; eassumption.
Qed.
Lemma estimators_grow (h m : heap) : forall n v, estimators h n v -> estimators (h ++ m) n v.
Proof.
  clear same_ok.
  induction n as [|n IH]; intros [p|a] F; cbn in *; auto. destruct (nth_error h a) as [x|] eqn:N; [|destruct F]. rewrite (nth_app h m a x N). destruct x as [c attrs|l|d]; auto.
Qed.
Lemma clone_succeeds (al : allocates init) (ke : keeps none names init) fuel : forall safe h v, fits h fuel v -> (safe = true -> estimators h fuel v) -> fuel <> 0 -> exists v' h', clone (S fuel) safe h v = Ok (v', h').
Proof.
  induction fuel as [|fuel IH]; intros safe h v F Es Nz; [congruence|]. clear Nz. rewrite clone_S. destruct v as [p|a].
  { destruct safe; [destruct (Es eq_refl)|]. eauto. }
  cbn [ParamsSpec.fits] in F. cbn [estimators] in Es. destruct (nth_error h a) as [[c attrs|l|d]|] eqn:N; [| | |destruct F].
  - assert (exists ps h1, cl_pars (clone (S fuel) false) (shallow c attrs) h = Ok (ps, h1)) as (ps & h1 & G).
    { assert (Fs : forall k v, In (k, v) (shallow c attrs) -> fits h fuel v).
      { intros k v I. unfold Params.shallow in I. apply in_map_iff in I as (k' & E & I'). injection E as -> <-. eapply F; [exact I'|]. now apply value_getattr. }
      clear - IH Fs al same_ok. revert h Fs. induction (shallow c attrs) as [|[k v] l IHl]; intros h Fs; [cbn; eauto|]. cbn [cl_pars].
      assert (exists v1 h1, clone (S fuel) false h v = Ok (v1, h1)) as (v1 & h1 & E).
      { destruct v as [p|b]; [rewrite clone_S; eauto|]. assert (Fb : fits h fuel (Ref b)) by (eapply Fs; now left). destruct fuel as [|fuel']; [destruct Fb|]. apply IH; [exact Fb|discriminate|discriminate]. }
      rewrite E. cbn [bind]. destruct (clone_copied al _ _ _ _ _ _ E) as ((m & ->) & _). destruct (IHl (h ++ m)) as (ps & h2 & E2); [|rewrite E2; cbn; eauto].
      intros k0 w I. apply fits_grow. eapply Fs. right. exact I. }
    rewrite G. cbn [bind]. destruct (cl_pars_spec _ (clone_copied al (S fuel) false) _ _ _ _ G) as (_ & Fs & _).
    assert (Fn : map fst ps = names c) by (rewrite Fs; unfold Params.shallow; rewrite map_map; apply map_id).
    destruct (ke c ps h1 Fn) as (attrs' & h2 & I & K). rewrite I. cbn [bind]. replace (forallb _ ps) with true; [eauto|].
    symmetry. apply forallb_forall. intros [k w] Iw. cbn. apply is_same_ok. symmetry. apply (value_getattr none attrs' k w). now apply K.
  - assert (exists l' h1, cl_list (clone (S fuel) safe) l h = Ok (l', h1)) as (l' & h1 & G); [|rewrite G; cbn; eauto].
    clear N. revert h F Es. induction l as [|v l IHl]; intros h F Es; [cbn; eauto|]. cbn [cl_list].
    assert (exists v1 h1, clone (S fuel) safe h v = Ok (v1, h1)) as (v1 & h1 & E).
    { destruct v as [p|b].
      - destruct safe; [|rewrite clone_S; eauto]. specialize (Es eq_refl (Prim p) (or_introl eq_refl)). destruct fuel; destruct Es.
      - assert (Fb : fits h fuel (Ref b)) by (apply F; now left). destruct fuel as [|fuel']; [destruct Fb|]. apply IH; [exact Fb| |discriminate]. intros E. apply (Es E). now left. }
    rewrite E. cbn [bind]. destruct (clone_copied al _ _ _ _ _ _ E) as ((m & ->) & _). destruct (IHl (h ++ m)) as (ps & h2 & E2); [| |rewrite E2; cbn; eauto].
    + intros w I. apply fits_grow, F. now right.
    + intros Ss w I. apply estimators_grow, Es; [exact Ss|now right].
  - destruct safe; [destruct (Es eq_refl)|]. eauto.
Qed.
End P.
