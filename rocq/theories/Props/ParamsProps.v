(** The parameters of estimators and their copies. *)
From Coq Require Import List Bool String Arith Lia ZArith QArith.
From Verif Require Import Base.Py Base.Num Model.Ddm Model.Params Spec.ParamsSpec Proofs.ParamsProofs Proofs.CloneProofs.
Import ListNotations.
Local Open Scope nat_scope.

Section Props.
Context {P C D : Type}.
Variables (none : P) (names : C -> list string) (init : C -> list (string * val P) -> heap P C D -> res (list (string * val P) * heap P C D)) (same : P -> P -> bool).
Notation val := (val P). Notation heap := (heap P C D).

(** C231.  get_params names every parameter that can be reached, by its path, with its value, once each, and nothing else. *)
Theorem get_params_paths : (forall c k, In k (names c) -> plain k) -> (forall c, NoDup (names c)) ->
  forall fuel (h : heap) a r, get_params none names fuel h a = Ok r ->
  NoDup (map fst r) /\ forall key v, In (key, v) r <-> exists p, key = join p /\ walk none names h a p v.
Proof.
  intros Hp Hn fuel h a r E. destruct (get_params_spec none names Hp Hn fuel h a r E) as (N & S). split; [exact N|]. intros key v. rewrite <- S. split; [now apply sget_nodup|apply sget_in].
Qed.
(** It answers for every estimator that is not inside itself, however deep *)
Theorem get_params_answers : forall fuel (h : heap) a c attrs, nth_error h a = Some (Est c attrs) -> fits none names h fuel (Ref a) -> exists r, get_params none names fuel h a = Ok r.
Proof. intros. eapply get_params_fits; eassumption. Qed.
(** ... and never for one that is *)
Theorem get_params_inside_itself : forall (h : heap) a c attrs k, nth_error h a = Some (Est c attrs) -> In k (names c) -> value none attrs k (Ref a) ->
  forall fuel, exists e, get_params none names fuel h a = Raise e.
Proof.
  intros h a c attrs k N I V. induction fuel as [|fuel [e IH]]; [cbn; eauto|]. rewrite get_params_S, N. apply value_getattr in V.
  generalize (@nil (string * val)). induction (names c) as [|k0 ks IHk]; intros out; [destruct I|]. cbn.
  destruct I as [->|I].
  - rewrite V, N, IH. cbn. eauto.
  - destruct (match getattr none attrs k0 with Prim _ => _ | Ref _ => _ end); cbn; [apply IHk, I|eauto].
Qed.

(** C232.  set_params with names of the estimator sets exactly these, in any order, and touches no other object. *)
Theorem set_params_plain : (forall c k, In k (names c) -> plain k) -> (forall c, NoDup (names c)) ->
  forall fuel (h : heap) a c attrs ps, nth_error h a = Some (Est c attrs) -> fits none names h (S fuel) (Ref a) -> NoDup (map fst ps) -> incl (map fst ps) (names c) ->
  exists h' attrs', set_params none names (S fuel) h a ps = (h', Ok tt) /\ nth_error h' a = Some (Est c attrs') /\
    (forall b, b <> a -> nth_error h' b = nth_error h b) /\
    (forall k v, In (k, v) ps -> value none attrs' k v) /\
    (forall k v, ~ In k (map fst ps) -> (value none attrs' k v <-> value none attrs k v)).
Proof.
  intros Hp Hn fuel h a c attrs ps N F ND I. destruct (set_plain none names Hp Hn fuel h a c attrs ps N F ND I) as (h' & attrs' & E & N' & O & S).
  exists h', attrs'. split; [exact E|]. split; [exact N'|]. split; [exact O|]. split.
  - intros k v K. apply value_getattr. unfold getattr. rewrite S, (sget_nodup ps k v ND K). reflexivity.
  - intros k v K. rewrite !value_getattr. unfold getattr. rewrite S. apply sget_none in K. rewrite K. reflexivity.
Qed.
(** A name like a__b__c sets parameter c of the estimator that a__b leads to, at any depth, and nothing else. *)
Theorem set_params_nested : (forall c k, In k (names c) -> plain k) -> (forall c, NoDup (names c)) ->
  forall (h : heap) a p b fuel c attrs k v, walk none names h a p (Ref b) -> fits none names h fuel (Ref a) -> nth_error h b = Some (Est c attrs) -> In k (names c) ->
  exists h' attrs', set_params none names fuel h a [(join (p ++ [k]), v)] = (h', Ok tt) /\ nth_error h' b = Some (Est c attrs') /\
    (forall b', b' <> b -> nth_error h' b' = nth_error h b') /\ value none attrs' k v /\ (forall k' w, k' <> k -> (value none attrs' k' w <-> value none attrs k' w)).
Proof.
  intros Hp Hn h a p b fuel c attrs k v W F N I.
  assert (R : reach none names h a p b).
  { clear - W. remember (Ref b) as rb eqn:E. induction W; subst; econstructor; eauto. constructor. }
  rewrite (set_path none names Hp Hn h a p b R fuel c attrs k v F N I). exists (setattr h b k v), (sset attrs k v). split; [reflexivity|].
  split; [now apply setattr_self|]. split; [intros; now apply setattr_other|]. split.
  - apply value_getattr. unfold getattr. rewrite sget_sset, eqb_refl_s. reflexivity.
  - intros k' w K. rewrite !value_getattr. unfold getattr. rewrite sget_sset, eqb_neq_s by congruence. reflexivity.
Qed.
(** C233.  set_params( ** get_params()), or with any part of it, changes nothing: for every estimator, at any depth. *)
Theorem set_params_same : (forall c k, In k (names c) -> plain k) -> (forall c, NoDup (names c)) ->
  forall (h : heap), (forall a c attrs k, nth_error h a = Some (Est c attrs) -> In k (names c) -> In k (map fst attrs)) ->
  forall fuel a r ps, fits none names h fuel (Ref a) -> get_params none names fuel h a = Ok r -> incl ps r -> set_params none names fuel h a ps = (h, Ok tt).
Proof.
  intros Hp Hn h St fuel a r ps F G I. apply (set_same none names Hp Hn h St fuel a ps F).
  intros key v K. apply (proj2 (get_params_paths Hp Hn fuel h a r G)). now apply I.
Qed.
(** C234.  A new component and a parameter for it can be given in one call, in any order: the parameter goes to the new one. *)
Theorem set_params_component : (forall c k, In k (names c) -> plain k) -> (forall c, NoDup (names c)) ->
  forall fuel (h : heap) a c attrs k b cb attrb k2 v ps, nth_error h a = Some (Est c attrs) -> In k (names c) -> nth_error h b = Some (Est cb attrb) -> In k2 (names cb) -> b <> a ->
  fits none names h (S fuel) (Ref a) -> fits none names (setattr h a k (Ref b)) fuel (Ref b) ->
  (ps = [(k, Ref b); (join [k; k2], v)] \/ ps = [(join [k; k2], v); (k, Ref b)]) ->
  set_params none names (S fuel) h a ps = (setattr (setattr h a k (Ref b)) b k2 v, Ok tt).
Proof.
  intros Hp Hn fuel h a c attrs k b cb attrb k2 v ps N I Nb I2 Nab F Fb Eps.
  destruct (get_params_fits none names (S fuel) h a c attrs N F) as (r & G).
  pose proof (valid_plain none names Hp Hn _ _ _ _ _ _ k G N I) as Vk.
  assert (Nb' : nth_error (setattr h a k (Ref b)) b = Some (Est cb attrb)) by (rewrite setattr_other by exact Nab; exact Nb).
  pose proof (set_path none names Hp Hn _ b [] b (reach_here none names _ b) fuel cb attrb k2 v Fb Nb' I2) as Sp. cbn [app join] in Sp.
  destruct Eps as [-> | ->]; rewrite set_params_S, G; cbn [assign join].
  - rewrite partition_plain by (eapply Hp; eassumption). rewrite Vk. rewrite partition_join by (eapply Hp; eassumption). rewrite sget_sset, eqb_refl_s. cbn [sget sset sp_go].
    rewrite sget_sset, eqb_refl_s, Nb', Sp. reflexivity.
  - rewrite partition_join by (eapply Hp; eassumption). rewrite Vk. rewrite partition_plain by (eapply Hp; eassumption). rewrite Vk. cbn [sget sset sp_go].
    rewrite sget_sset, eqb_refl_s, Nb', Sp. reflexivity.
Qed.
(** C235.  A name the estimator does not have is refused; alone, it changes nothing ... *)
Theorem set_params_unknown : (forall c k, In k (names c) -> plain k) -> (forall c, NoDup (names c)) ->
  forall fuel (h : heap) a c attrs k v ps, nth_error h a = Some (Est c attrs) -> fits none names h (S fuel) (Ref a) -> plain k -> ~ In k (names c) ->
  set_params none names (S fuel) h a ((k, v) :: ps) = (h, Raise ValueError).
Proof.
  intros Hp Hn fuel h a c attrs k v ps N F Pk I. destruct (get_params_fits none names (S fuel) h a c attrs N F) as (r & G).
  rewrite set_params_S, G. cbn [assign]. rewrite partition_plain by exact Pk. rewrite (valid_unknown none names Hp Hn _ _ _ _ _ _ k G N Pk I). reflexivity.
Qed.
(** ... but the parameters given before it are set all the same: a refused call is not undone. *)
Theorem set_params_undone_refuted : (forall c k, In k (names c) -> plain k) -> (forall c, NoDup (names c)) ->
  forall fuel (h : heap) a c attrs k v bad w, nth_error h a = Some (Est c attrs) -> fits none names h (S fuel) (Ref a) -> In k (names c) -> plain bad -> ~ In bad (names c) ->
  exists h' attrs', set_params none names (S fuel) h a [(k, v); (bad, w)] = (h', Raise ValueError) /\ nth_error h' a = Some (Est c attrs') /\ value none attrs' k v.
Proof.
  intros Hp Hn fuel h a c attrs k v bad w N F I Pb Nb. destruct (get_params_fits none names (S fuel) h a c attrs N F) as (r & G).
  rewrite set_params_S, G. cbn [assign]. rewrite partition_plain by (eapply Hp; eassumption). rewrite (valid_plain none names Hp Hn _ _ _ _ _ _ k G N I).
  rewrite partition_plain by exact Pb. rewrite sget_sset, eqb_neq_s by congruence. rewrite (valid_unknown none names Hp Hn _ _ _ _ _ _ bad G N Pb Nb).
  exists (setattr h a k v), (sset attrs k v). split; [reflexivity|]. split; [now apply setattr_self|]. apply value_getattr. unfold getattr. rewrite sget_sset, eqb_refl_s. reflexivity.
Qed.
(** A parameter of something that is not an estimator: an AttributeError, not a ValueError. *)
Theorem set_params_inside_value : (forall c k, In k (names c) -> plain k) -> (forall c, NoDup (names c)) ->
  forall fuel (h : heap) a c attrs k p s v, nth_error h a = Some (Est c attrs) -> fits none names h (S fuel) (Ref a) -> In k (names c) -> value none attrs k (Prim p) ->
  set_params none names (S fuel) h a [((k ++ "__" ++ s)%string, v)] = (h, Raise AttributeError).
Proof.
  intros Hp Hn fuel h a c attrs k p s v N F I V. destruct (get_params_fits none names (S fuel) h a c attrs N F) as (r & G).
  rewrite set_params_S, G. cbn [assign]. rewrite partition_join by (eapply Hp; eassumption). rewrite (valid_plain none names Hp Hn _ _ _ _ _ _ k G N I).
  cbn [sget sset sp_go]. rewrite (valid_plain none names Hp Hn _ _ _ _ _ _ k G N I). apply value_getattr in V. rewrite V. reflexivity.
Qed.

(** C236.  A clone has the same parameters, shares no object with the original (nor with anything else that existed), is as its constructor made it, and no existing object has changed. *)
Theorem clone_is_copy : (forall p q, same p q = true <-> p = q) -> allocates init ->
  forall fuel safe (h : heap) v v' h', clone none names init same fuel safe h v = Ok (v', h') -> (exists m, h' = h ++ m) /\ copied none names init h' (List.length h) v v'.
Proof. intros So Al fuel safe h v v' h'. apply clone_copied; assumption. Qed.
(** Everything made of constructors that store their parameters can be cloned. *)
Theorem clone_exists : (forall p q, same p q = true <-> p = q) -> allocates init -> keeps none names init ->
  forall n (h : heap) v, fits none names h (S n) v -> estimators h (S n) v -> exists v' h', clone none names init same (S (S n)) true h v = Ok (v', h').
Proof. intros So Al Ke n h v F E. apply clone_succeeds; auto. Qed.
(** What is not an estimator is refused *)
Theorem clone_refuses : forall fuel (h : heap) p a d, nth_error h a = Some (Data d) ->
  clone none names init same (S fuel) true h (Prim p) = Raise TypeError /\ clone none names init same (S fuel) true h (Ref a) = Raise TypeError.
Proof. intros fuel h p a d N. rewrite !clone_S, N. auto. Qed.
End Props.

(** C237.  Clones of two classes of the library. *)
Lemma same_prim_ok p q : same_prim p q = true <-> p = q.
Proof.
  destruct p, q; cbn; try (split; discriminate); [tauto| | |].
  - rewrite Z.eqb_eq. split; congruence.
  - rewrite andb_true_iff, Z.eqb_eq, Pos.eqb_eq. destruct q0, q; cbn. split; [intros [-> ->]; reflexivity|intros E; now injection E].
  - rewrite String.eqb_eq. split; congruence.
Qed.
Lemma kinit_allocates {D} : allocates (kinit (D := D)).
Proof.
  intros [ | |ks] ps h attrs h' E; cbn in E.
  - injection E as <- <-. exists []. now rewrite app_nil_r.
  - destruct (truthy _ _); injection E as <- <-; [exists []; now rewrite app_nil_r|eauto].
  - injection E as <- <-. exists []. now rewrite app_nil_r.
Qed.
(** A streaming random patches classifier without nominal attributes (as it is by default) cannot be cloned, whatever else it contains. *)
Theorem clone_random_patches_refuted {D} : forall fuel safe (h : heap prim klass D) a attrs v,
  nth_error h a = Some (Est KSrp attrs) -> value PNone attrs "nominal_attributes" v ->
  (v = Prim PNone \/ exists b, v = Ref b /\ nth_error h b = Some (Seq [])) ->
  forall r, clone PNone knames kinit same_prim fuel safe h (Ref a) <> Ok r.
Proof.
  intros fuel safe h a attrs v N V Hv [v' h'] E. destruct fuel as [|fuel]; [discriminate|]. rewrite clone_S, N in E.
  destruct (cl_pars _ _ h) as [[ps h1]|] eqn:G; [|discriminate]. cbn [bind] in E.
  destruct (cl_pars_spec PNone knames kinit _ (clone_copied PNone knames kinit same_prim same_prim_ok kinit_allocates fuel false) _ _ _ _ G) as ((m & Em) & Fs & Cp).
  set (kn := "nominal_attributes"%string) in *.
  assert (Ik : In kn (map fst ps)). { rewrite Fs. unfold shallow. rewrite map_map. cbn. tauto. }
  destruct (sget ps kn) as [w|] eqn:Sw; [|apply sget_none in Sw; contradiction].
  pose proof (sget_in _ _ _ Sw) as Iw. destruct (Cp _ _ Iw) as (v0 & I0 & Cv). unfold shallow in I0. apply in_map_iff in I0 as (k' & Ek & _). injection Ek as -> Ev. apply value_getattr in V. rewrite V in Ev. subst v0.
  assert (Tr : truthy h1 w = false).
  { destruct Hv as [-> |(b & -> & Nb)].
    - inversion Cv; subst. reflexivity.
    - assert (Nb1 : nth_error h1 b = Some (Seq [])) by (rewrite Em; now apply nth_app). clear - Cv Nb1. remember (Ref b) as rb eqn:Eb. destruct Cv as [p|a0 b0 d Na Nc Lb|a0 b0 l l' Na Nc Lb Le Q|a0 b0 c at1 at2 ps0 h2 h3 Na]; [discriminate| | |]; injection Eb as ->; rewrite Nb1 in Na; try discriminate.
      injection Na as <-. destruct l'; [|discriminate]. cbn. rewrite Nc. reflexivity. }
  assert (Lw : w <> Ref (List.length h1)).
  { intros ->. destruct Hv as [-> |(b & -> & Nb)]; inversion Cv; subst;
    match goal with Q : nth_error (h ++ m) (List.length _) = Some _ |- _ => assert (X : nth_error (h ++ m) (List.length (h ++ m)) <> None) by congruence; apply nth_error_Some in X; lia end. }
  unfold kinit in E. fold kn in E. assert (Gn : getattr PNone ps kn = w) by (unfold getattr; rewrite Sw; reflexivity). rewrite Gn, Tr in E. cbn [bind] in E.
  destruct (forallb _ ps) eqn:Q; [|discriminate]. rewrite forallb_forall in Q. specialize (Q _ Iw). cbn [fst snd] in Q. unfold getattr in Q. rewrite sget_sset, eqb_refl_s in Q.
  apply (is_same_ok same_prim same_prim_ok) in Q. contradiction.
Qed.
(** DDM does not keep min_num_instances under that name: get_params reports None whatever was given, ... *)
Theorem get_params_ddm_refuted {D} : forall m w o (h h' : heap prim klass D) attrs a,
  kinit KDdm [("min_num_instances", Prim (PInt m)); ("out_control_level", Prim (PNum o)); ("warning_level", Prim (PNum w))]%string h = Ok (attrs, h') ->
  nth_error h a = Some (Est KDdm attrs) ->
  get_params PNone knames 1 h a = Ok [("min_num_instances", Prim PNone); ("out_control_level", Prim (PNum o)); ("warning_level", Prim (PNum w))]%string.
Proof. intros m w o h h' attrs a E N. cbn in E. injection E as <- <-. cbn. rewrite N. reflexivity. Qed.
(** ... a clone of it (as the random patches make of their detector) fails at its first element, where the original works, ... *)
Theorem clone_ddm_refuted {D} : forall m w o (h h0 : heap prim klass D) attrs a,
  kinit KDdm [("min_num_instances", Prim (PInt m)); ("out_control_level", Prim (PNum o)); ("warning_level", Prim (PNum w))]%string h = Ok (attrs, h0) ->
  nth_error h a = Some (Est KDdm attrs) ->
  exists b h' attrs', clone PNone knames kinit same_prim 2 true h (Ref a) = Ok (Ref b, h') /\ nth_error h' b = Some (Est KDdm attrs') /\
    (forall s x, ddm_use attrs s x = ddm_add (mkDdmPar m w o) s x) /\ (forall s x, ddm_use attrs' s x = Raise TypeError).
Proof.
  intros m w o h h0 attrs a E N. cbn in E. injection E as <- <-.
  exists (List.length h), (h ++ [Est KDdm [("min_instances", Prim PNone); ("warning_level", Prim (PNum w)); ("out_control_level", Prim (PNum o))]]%string), [("min_instances", Prim PNone); ("warning_level", Prim (PNum w)); ("out_control_level", Prim (PNum o))]%string.
  split; [|split; [apply nth_last|split; reflexivity]].
  cbn. rewrite N. cbn. rewrite !Z.eqb_refl, !Pos.eqb_refl. reflexivity.
Qed.
(** ... and set_params(min_num_instances=n) is accepted, reported by get_params from then on, and has no effect. *)
Theorem set_params_ddm_refuted {D} : forall n m w o (h h0 : heap prim klass D) attrs a,
  kinit KDdm [("min_num_instances", Prim (PInt m)); ("out_control_level", Prim (PNum o)); ("warning_level", Prim (PNum w))]%string h = Ok (attrs, h0) ->
  nth_error h a = Some (Est KDdm attrs) ->
  exists h' attrs', set_params PNone knames 2 h a [("min_num_instances", Prim (PInt n))]%string = (h', Ok tt) /\ nth_error h' a = Some (Est KDdm attrs') /\
    get_params PNone knames 1 h' a = Ok [("min_num_instances", Prim (PInt n)); ("out_control_level", Prim (PNum o)); ("warning_level", Prim (PNum w))]%string /\
    (forall s x, ddm_use attrs' s x = ddm_add (mkDdmPar m w o) s x).
Proof.
  intros n m w o h h0 attrs a E N. pose proof (get_params_ddm_refuted m w o h h0 attrs a E N) as G. cbn in E. injection E as <- <-.
  eexists (setattr h a "min_num_instances"%string (Prim (PInt n))), _. split; [|split; [apply setattr_self; exact N|]].
  - rewrite set_params_S, get_params_S, N. reflexivity.
  - split; [|reflexivity]. rewrite get_params_S, (setattr_self _ _ _ _ _ _ N). reflexivity.
Qed.

(** Non-vacuity: an ensemble around an estimator around a detector *)
Definition ex_heap : heap prim klass nat :=
  [Est (KStore ["base"; "n"]%string) [("base", Ref 1); ("n", Prim (PInt 3))]%string; Est (KStore ["data"; "det"; "list"]%string) [("det", Ref 2); ("data", Ref 3); ("list", Ref 4)]%string;
   Est (KStore ["delta"]%string) [("delta", Prim (PNum (1 # 2)))]%string; Data 7; Seq [Prim (PInt 1); Ref 2]].
Example params_ex : get_params PNone knames 5 ex_heap 0 =
  Ok [("base__data", Ref 3); ("base__det__delta", Prim (PNum (1 # 2))); ("base__det", Ref 2); ("base__list", Ref 4); ("base", Ref 1); ("n", Prim (PInt 3))]%string.
Proof. vm_compute. reflexivity. Qed.
Example params_fits_ex : fits PNone knames ex_heap 4 (Ref 0).
Proof.
  assert (V : forall attrs k w, value PNone attrs k w -> w = getattr PNone attrs k) by (intros attrs k w H; symmetry; now apply value_getattr).
  cbn. intros k w I H. apply V in H. subst. destruct I as [<-|[<-|[]]]; cbn; [|exact Logic.I].
  intros k w I H. apply V in H. subst. destruct I as [<-|[<-|[<-|[]]]]; cbn; [exact Logic.I| |].
  - intros k w I H. apply V in H. subst. destruct I as [<-|[]]; cbn. exact Logic.I.
  - intros w [<-|[<-|[]]]; cbn; [exact Logic.I|]. intros k w I H. apply V in H. subst. destruct I as [<-|[]]; cbn. exact Logic.I.
Qed.
Example params_set_ex : set_params PNone knames 5 ex_heap 0 [("base__det__delta", Prim PNone)]%string = (setattr ex_heap 2 "delta"%string (Prim PNone), Ok tt).
Proof. vm_compute. reflexivity. Qed.
Example params_clone_ex : exists v h, clone PNone knames kinit same_prim 6 true ex_heap (Ref 0) = Ok (v, h) /\ List.length h = 11 /\ nth_error h 10 = Some (Est (KStore ["base"; "n"]%string) [("base", Ref 9); ("n", Prim (PInt 3))]%string).
Proof. eexists _, _. split; [vm_compute; reflexivity|]. split; reflexivity. Qed.
Example params_srp_ex : clone (D := nat) PNone knames kinit same_prim 4 true [Est KSrp [("nominal_attributes", Ref 1)]%string; Seq []] (Ref 0) = Raise RuntimeError.
Proof. vm_compute. reflexivity. Qed.

Print Assumptions get_params_paths. Print Assumptions get_params_answers. Print Assumptions get_params_inside_itself. Print Assumptions set_params_plain.
Print Assumptions set_params_nested. Print Assumptions set_params_same. Print Assumptions set_params_component. Print Assumptions set_params_unknown.
Print Assumptions set_params_undone_refuted. Print Assumptions set_params_inside_value. Print Assumptions clone_is_copy. Print Assumptions clone_exists.
Print Assumptions clone_refuses. Print Assumptions clone_random_patches_refuted. Print Assumptions get_params_ddm_refuted. Print Assumptions clone_ddm_refuted. Print Assumptions set_params_ddm_refuted.
