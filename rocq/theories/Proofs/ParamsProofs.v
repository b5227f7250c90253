(** Proofs about the parameters of estimators and their copies. *)
From Coq Require Import List Bool String Ascii Arith Lia.
From Verif Require Import Base.Py Model.Params Spec.ParamsSpec.
Import ListNotations.

Lemma eqb_refl_s k : String.eqb k k = true. Proof. apply String.eqb_eq. reflexivity. Qed.
Lemma eqb_neq_s k k' : k <> k' -> String.eqb k k' = false. Proof. apply String.eqb_neq. Qed.
Lemma sget_sset {A} (d : list (string * A)) k v k' : sget (sset d k v) k' = if String.eqb k k' then Some v else sget d k'.
Proof.
  induction d as [|[k0 x] d IH]; cbn; [reflexivity|]. destruct (String.eqb_spec k0 k) as [->|N]; cbn.
  - destruct (String.eqb k k'); reflexivity.
  - rewrite IH. destruct (String.eqb_spec k0 k') as [->|N']; [|reflexivity]. rewrite (eqb_neq_s k k') by congruence. reflexivity.
Qed.
Lemma sget_none {A} (d : list (string * A)) k : sget d k = None <-> ~ In k (map fst d).
Proof.
  induction d as [|[k0 x] d IH]; cbn; [tauto|]. destruct (String.eqb_spec k0 k) as [->|N].
  - split; [discriminate|]. intros H. exfalso. apply H. now left.
  - rewrite IH. intuition.
Qed.
Lemma sget_some {A} (d : list (string * A)) k v : sget d k = Some v -> exists l r, d = l ++ (k, v) :: r /\ ~ In k (map fst l).
Proof.
  induction d as [|[k0 x] d IH]; cbn; [discriminate|]. destruct (String.eqb_spec k0 k) as [->|N]; intros E.
  - injection E as <-. exists [], d. split; [reflexivity|tauto].
  - destruct (IH E) as (l & r & -> & H). exists ((k0, x) :: l), r. split; [reflexivity|]. cbn. intros [H'|H']; [congruence|tauto].
Qed.
Lemma sget_mid {A} (l r : list (string * A)) k v : ~ In k (map fst l) -> sget (l ++ (k, v) :: r) k = Some v.
Proof.
  induction l as [|[k0 x] l IH]; cbn; intros H; [now rewrite eqb_refl_s|]. rewrite (eqb_neq_s k0 k) by tauto. apply IH. tauto.
Qed.
Lemma sget_in {A} (d : list (string * A)) k v : sget d k = Some v -> In (k, v) d.
Proof. intros E. apply sget_some in E as (l & r & -> & _). apply in_or_app. right. now left. Qed.
Lemma sget_nodup {A} (d : list (string * A)) k v : NoDup (map fst d) -> In (k, v) d -> sget d k = Some v.
Proof.
  intros N H. apply in_split in H as (l & r & ->). apply sget_mid. rewrite map_app in N. cbn in N. apply NoDup_remove_2 in N. intros F. apply N, in_or_app. now left.
Qed.
Lemma sset_keys {A} (d : list (string * A)) k v x : In x (map fst (sset d k v)) <-> x = k \/ In x (map fst d).
Proof.
  induction d as [|[k0 y] d IH]; cbn; [intuition|]. destruct (String.eqb_spec k0 k) as [->|N]; cbn; [|rewrite IH]; intuition.
Qed.
Lemma sset_nodup {A} (d : list (string * A)) k v : NoDup (map fst d) -> NoDup (map fst (sset d k v)).
Proof.
  induction d as [|[k0 y] d IH]; cbn; intros H; [repeat constructor; tauto|]. destruct (String.eqb_spec k0 k) as [->|N]; cbn; [exact H|].
  inversion H; subst. constructor; [rewrite sset_keys; intuition|auto].
Qed.
Lemma sset_same {A} (d : list (string * A)) k v : sget d k = Some v -> sset d k v = d.
Proof.
  induction d as [|[k0 y] d IH]; cbn; intros H; [discriminate|]. destruct (String.eqb_spec k0 k) as [->|N]; [now injection H as ->|]. now rewrite IH.
Qed.
Lemma supdate_nodup {A} (e d : list (string * A)) : NoDup (map fst d) -> NoDup (map fst (supdate d e)).
Proof. unfold supdate. revert d. induction e as [|[k v] e IH]; cbn; intros d H; [exact H|]. apply IH, sset_nodup, H. Qed.
Lemma sget_supdate {A} (e d : list (string * A)) k : NoDup (map fst e) -> sget (supdate d e) k = match sget e k with Some v => Some v | None => sget d k end.
Proof.
  unfold supdate. revert d. induction e as [|[k0 v] e IH]; cbn; intros d H; [reflexivity|]. inversion H; subst. rewrite IH by assumption. rewrite sget_sset.
  destruct (String.eqb_spec k0 k) as [->|N]; [|reflexivity]. cbn in *. apply sget_none in H2. now rewrite H2.
Qed.

(** str.partition *)
Lemma app_s_assoc a b c : ((a ++ b) ++ c = a ++ (b ++ c))%string.
Proof. induction a; cbn; [reflexivity|now rewrite IHa]. Qed.
Lemma partition_cons a b r : partition (String a (String b r)) = if Ascii.eqb a "_" && Ascii.eqb b "_" then (EmptyString, Some r) else let (k, o) := partition (String b r) in (String a k, o).
Proof. reflexivity. Qed.
Lemma plain_tail a k : plain (String a k) -> plain k.
Proof. intros H x y E. apply (H (String a x) y). cbn. now rewrite E. Qed.
Lemma partition_plain k : plain k -> partition k = (k, None).
Proof.
  induction k as [|a k IH]; intros H; [reflexivity|]. destruct k as [|b k]; [reflexivity|]. rewrite partition_cons.
  destruct (Ascii.eqb_spec a "_"), (Ascii.eqb_spec b "_"); cbn [andb]; try (rewrite IH by (eapply plain_tail; eassumption); reflexivity).
  subst. exfalso. apply (H EmptyString (k ++ "_")%string). reflexivity.
Qed.
Lemma partition_join k r : plain k -> partition (k ++ "__" ++ r) = (k, Some r).
Proof.
  induction k as [|a k IH]; intros H; [reflexivity|]. destruct k as [|b k].
  - cbn. destruct (Ascii.eqb_spec a "_"); cbn; [|reflexivity]. subst. exfalso. apply (H EmptyString EmptyString). reflexivity.
  - cbn [append]. rewrite partition_cons. change (String b (k ++ String "_" (String "_" r)))%string with ((String b k) ++ "__" ++ r)%string.
    rewrite IH by (eapply plain_tail; eassumption).
    destruct (Ascii.eqb_spec a "_"), (Ascii.eqb_spec b "_"); cbn [andb]; try reflexivity.
    subst. exfalso. apply (H EmptyString (k ++ "_")%string). reflexivity.
Qed.

Section P.
Context {P C D : Type}.
Variables (none : P) (names : C -> list string) (init : C -> list (string * val P) -> heap P C D -> res (list (string * val P) * heap P C D)) (same : P -> P -> bool).
Notation val := (val P). Notation heap := (heap P C D).
Notation getattr := (getattr none). Notation shallow := (shallow none names). Notation get_params := (get_params none names).
Notation set_params := (set_params none names). Notation clone := (clone none names init same).
Notation value := (value none). Notation walk := (walk none names).

Lemma value_getattr attrs k v : value attrs k v <-> getattr attrs k = v.
Proof.
  unfold Params.getattr. split.
  - intros [l r w -> H|H]; [now rewrite sget_mid|]. apply sget_none in H. now rewrite H.
  - intros E. destruct (sget attrs k) as [w|] eqn:G.
    + subst. apply sget_some in G as (l & r & -> & H). econstructor; eauto.
    + subst. apply value_unset. now apply sget_none.
Qed.

(** ** get_params *)
Definition gp_go (sub : nat -> res (list (string * val))) (h : heap) (attrs : list (string * val)) :=
  fix go (ks : list string) (out : list (string * val)) :=
    match ks with
    | [] => Ok out
    | k :: ks =>
        let v := getattr attrs k in
        out1 <- match v with
                | Ref b => match nth_error h b with
                           | Some (Est _ _) => sub <- sub b ;; Ok (supdate out (map (fun kv => ((k ++ "__" ++ fst kv)%string, snd kv)) sub))
                           | _ => Ok out
                           end
                | Prim _ => Ok out
                end ;;
        go ks (sset out1 k v)
    end.
Lemma get_params_S fuel h a : get_params (S fuel) h a = match nth_error h a with Some (Est c attrs) => gp_go (get_params fuel h) h attrs (names c) [] | _ => Raise AttributeError end.
Proof. reflexivity. Qed.

Lemma app_inj_s p a b : (p ++ a = p ++ b)%string -> a = b.
Proof. induction p; cbn; [auto|]. intros E. injection E as E. auto. Qed.
Lemma sget_prefix {A} (d : list (string * A)) p k : sget (map (fun kv => ((p ++ fst kv)%string, snd kv)) d) (p ++ k) = sget d k.
Proof.
  induction d as [|[k0 v] d IH]; cbn; [reflexivity|]. rewrite IH. destruct (String.eqb_spec k0 k) as [->|N]; [now rewrite eqb_refl_s|]. rewrite eqb_neq_s; [reflexivity|]. intros E. apply app_inj_s in E. contradiction.
Qed.
Lemma sget_prefix_none {A} (d : list (string * A)) p key : (forall k, key <> (p ++ k)%string) -> sget (map (fun kv => ((p ++ fst kv)%string, snd kv)) d) key = None.
Proof. intros H. apply sget_none. rewrite map_map. cbn. intros F. apply in_map_iff in F as (x & E & _). eapply H. symmetry. exact E. Qed.
Lemma prefix_nodup {A} (d : list (string * A)) p : NoDup (map fst d) -> NoDup (map fst (map (fun kv => ((p ++ fst kv)%string, snd kv)) d)).
Proof.
  intros N. rewrite map_map. cbn. induction d as [|[k v] d IH]; cbn in *; [constructor|]. inversion N; subst. constructor; [|auto].
  intros F. apply in_map_iff in F as ([k' v'] & E & I). cbn in E. apply app_inj_s in E. subst. apply H1. apply in_map_iff. exists (k, v'). auto.
Qed.

(** what [gp_go] adds for one name *)
Definition entry (sub : nat -> res (list (string * val))) (h : heap) (attrs : list (string * val)) (k key : string) (v : val) : Prop :=
  (key = k /\ v = getattr attrs k) \/
  (exists b c' at' d key', getattr attrs k = Ref b /\ nth_error h b = Some (Est c' at') /\ sub b = Ok d /\ key = (k ++ "__" ++ key')%string /\ sget d key' = Some v).

Hypothesis names_plain : forall c k, In k (names c) -> plain k.
Hypothesis names_nodup : forall c, NoDup (names c).

Lemma entry_partition sub h attrs k key v : plain k -> entry sub h attrs k key v -> fst (partition key) = k.
Proof.
  intros Hk [[-> _]|(b & c' & at' & d & key' & _ & _ & _ & -> & _)]; [now rewrite partition_plain|]. rewrite (partition_join k key' Hk). reflexivity.
Qed.

Lemma gp_go_spec sub h attrs (subn : forall b d, sub b = Ok d -> NoDup (map fst d)) ks :
  (forall k, In k ks -> plain k) -> NoDup ks ->
  forall out r, NoDup (map fst out) -> (forall k key, In k ks -> fst (partition key) = k -> sget out key = None) ->
  gp_go sub h attrs ks out = Ok r ->
  NoDup (map fst r) /\ forall key v, sget r key = Some v <-> (sget out key = Some v \/ exists k, In k ks /\ entry sub h attrs k key v).
Proof.
  clear names_plain names_nodup.
  induction ks as [|k ks IH]; intros Pl ND out r No Fr E.
  { cbn in E. injection E as <-. split; [exact No|]. intros key v. split; [now left|]. intros [H|(k & [] & _)]. exact H. }
  inversion ND as [|? ? Nk NDk]; subst. assert (Pk : plain k) by (apply Pl; now left). cbn in E.
  set (o1 := match getattr attrs k with Ref b => _ | Prim _ => _ end) in E.
  assert (O1 : exists out1, o1 = Ok out1 /\ NoDup (map fst out1) /\
               forall key v, sget (sset out1 k (getattr attrs k)) key = Some v <-> (sget out key = Some v \/ entry sub h attrs k key v)).
  { assert (F0 : sget out k = None) by (apply (Fr k k); [now left|now rewrite partition_plain]).
    assert (Base : forall key v, entry sub h attrs k key v -> (forall b c' at', getattr attrs k = Ref b -> nth_error h b <> Some (Est c' at')) -> key = k /\ v = getattr attrs k).
    { intros key v [H|(b & c' & at' & d & key' & G & N & _)] Q; [exact H|]. exfalso. eapply Q; eauto. }
    assert (Simple : (forall b c' at', getattr attrs k = Ref b -> nth_error h b <> Some (Est c' at')) -> forall key v, sget (sset out k (getattr attrs k)) key = Some v <-> (sget out key = Some v \/ entry sub h attrs k key v)).
    { intros Q key v. rewrite sget_sset. destruct (String.eqb_spec k key) as [<-|N].
      - split; [intros H; injection H as <-; right; left; auto|]. intros [H|H]; [congruence|]. apply Base in H as [_ ->]; auto.
      - split; [now left|]. intros [H|H]; [exact H|]. apply Base in H as [H _]; [congruence|exact Q]. }
    unfold o1 in *. destruct (getattr attrs k) as [p|b] eqn:G.
    { exists out. split; [reflexivity|]. split; [exact No|]. apply Simple. intros; discriminate. }
    destruct (nth_error h b) as [[c' at'|l|d]|] eqn:N.
    2,3,4: (exists out; split; [reflexivity|]; split; [exact No|]; apply Simple; intros ? ? ? H; injection H as <-; rewrite N; discriminate).
    destruct (sub b) as [d|e] eqn:Sb; cbn in E; [|discriminate].
    pose proof (subn b d Sb) as Nd. pose proof (prefix_nodup d (k ++ "__") Nd) as Np.
    exists (supdate out (map (fun kv => (((k ++ "__") ++ fst kv)%string, snd kv)) d)). split; [cbn [bind]; apply f_equal; apply f_equal; apply map_ext; intros; now rewrite app_s_assoc|].
    split; [now apply supdate_nodup|]. intros key v. rewrite sget_sset. destruct (String.eqb_spec k key) as [<-|Nkey].
    - split; [intros H; injection H as <-; right; left; auto|]. intros [H|[[_ H]|(b' & c'' & at'' & d' & key' & _ & _ & _ & Ek & _)]]; [congruence|congruence|].
      exfalso. pose proof (partition_plain k Pk) as A. rewrite Ek, partition_join in A by exact Pk. discriminate.
    - rewrite sget_supdate by exact Np. split.
      + destruct (sget (map _ d) key) as [w|] eqn:Sg; [|now left]. intros H. injection H as ->. right. right. pose proof (sget_in _ _ _ Sg) as I. apply in_map_iff in I as ([k1 v1] & Ek & _). cbn in Ek. injection Ek as Ek Ev.
        rewrite <- Ek, sget_prefix in Sg. exists b, c', at', d, k1. rewrite app_s_assoc in Ek. rewrite Sg. auto 8.
      + intros [H|[[H _]|(b' & c'' & at'' & d' & key' & Gb & _ & Sb' & Ek & Sg)]]; [|congruence|].
        * rewrite sget_prefix_none; [exact H|]. intros x Ek. enough (sget out key = None) by congruence. apply (Fr k); [now left|]. rewrite Ek, app_s_assoc, partition_join by exact Pk. reflexivity.
        * rewrite G in Gb. injection Gb as <-. rewrite Sb in Sb'. injection Sb' as <-. rewrite Ek, <- app_s_assoc, sget_prefix, Sg. reflexivity. }
  destruct O1 as (out1 & E1 & N1 & S1). rewrite E1 in E. cbn in E.
  assert (F1 : forall k0 key, In k0 ks -> fst (partition key) = k0 -> sget (sset out1 k (getattr attrs k)) key = None).
  { intros k0 key I Ep. destruct (sget (sset out1 k (getattr attrs k)) key) as [w|] eqn:Sg; [|reflexivity]. exfalso. apply S1 in Sg as [Sg|Sg].
    - rewrite (Fr k0 key) in Sg; [discriminate|now right|exact Ep].
    - apply entry_partition in Sg; [|exact Pk]. congruence. }
  destruct (IH (fun k0 I => Pl k0 (or_intror I)) NDk (sset out1 k (getattr attrs k)) r (sset_nodup _ _ _ N1) F1 E) as (Nr & Sr). split; [exact Nr|].
  intros key v. rewrite Sr, S1. split.
  - intros [[H|H]|(k0 & I & H)]; [now left|right; exists k; split; [now left|exact H]|right; exists k0; split; [now right|exact H]].
  - intros [H|(k0 & [<-|I] & H)]; [left; now left|left; now right|right; exists k0; auto].
Qed.

Lemma walk_nonempty (h : heap) a p v : walk h a p v -> p <> [].
Proof. intros [|]; discriminate. Qed.
Lemma walk_join_cons (h : heap) b k p v : walk h b p v -> join (k :: p) = (k ++ "__" ++ join p)%string.
Proof. intros H. apply walk_nonempty in H. destruct p; [contradiction|reflexivity]. Qed.

Lemma get_params_spec fuel : forall (h : heap) a r, get_params fuel h a = Ok r ->
  NoDup (map fst r) /\ forall key v, sget r key = Some v <-> exists p, key = join p /\ walk h a p v.
Proof.
  induction fuel as [|fuel IH]; intros h a r E; [discriminate|]. rewrite get_params_S in E. destruct (nth_error h a) as [[c attrs|l|d]|] eqn:N; try discriminate.
  destruct (gp_go_spec (get_params fuel h) h attrs (fun b d Hd => proj1 (IH h b d Hd)) (names c) (names_plain c) (names_nodup c) [] r) as (Nr & Sr); [constructor|reflexivity|exact E|].
  split; [exact Nr|]. intros key v. rewrite Sr. split.
  - intros [H|(k & I & [[-> ->]|(b & c' & at' & d & key' & G & Nb & Gs & -> & Sg)])]; [discriminate| |].
    + exists [k]. split; [reflexivity|]. eapply walk_last; eauto. now apply value_getattr.
    + apply (IH h b d Gs) in Sg as (p & -> & W). exists (k :: p). split; [symmetry; eapply walk_join_cons; eassumption|]. eapply walk_step; eauto. now apply value_getattr.
  - intros (p & -> & W). right. inversion W as [a0 c0 attrs0 k v0 N0 I V|a0 c0 attrs0 k b p0 v0 N0 I V W0]; subst; rewrite N in N0; injection N0 as <- <-; exists k; (split; [exact I|]).
    + left. split; [reflexivity|]. symmetry. now apply value_getattr.
    + right. apply value_getattr in V. assert (exists c' at', nth_error h b = Some (Est c' at')) as (c' & at' & Nb) by (inversion W0; eauto).
      assert (exists d, get_params fuel h b = Ok d) as (d & Gs).
      { clear - E I V Nb. revert E. generalize (@nil (string * val)). induction (names c) as [|k0 ks IHk]; intros out E; [destruct I|]. cbn in E. destruct I as [->|I].
        - rewrite V, Nb in E. destruct (get_params fuel h b) as [d|e]; [eauto|discriminate].
        - destruct (match getattr attrs k0 with Prim _ => _ | Ref _ => _ end) as [o|e]; [|discriminate]. cbn in E. eapply IHk; eauto. }
      exists b, c', at', d, (join p0). split; [exact V|]. split; [exact Nb|]. split; [exact Gs|]. split; [eapply walk_join_cons; eassumption|]. apply (IH h b d Gs). eauto.
Qed.

Lemma get_params_fits fuel : forall (h : heap) a c attrs, nth_error h a = Some (Est c attrs) -> fits none names h fuel (Ref a) -> exists r, get_params fuel h a = Ok r.
Proof.
  clear names_plain names_nodup.
  induction fuel as [|fuel IH]; intros h a c attrs N F; [destruct F|]. rewrite get_params_S, N. cbn [fits] in F. rewrite N in F.
  generalize (@nil (string * val)). induction (names c) as [|k ks IHk]; intros out; [eexists; reflexivity|]. cbn.
  assert (exists o, match getattr attrs k with
                | Ref b => match nth_error h b with
                           | Some (Est _ _) => sub <- get_params fuel h b ;; Ok (supdate out (map (fun kv => ((k ++ "__" ++ fst kv)%string, snd kv)) sub))
                           | _ => Ok out
                           end
                | Prim _ => Ok out
                end = Ok o) as (o & Eo).
  { destruct (getattr attrs k) as [p|b] eqn:G; [eauto|]. destruct (nth_error h b) as [[c' at'|l|d]|] eqn:Nb; eauto.
    destruct (IH h b c' at' Nb) as (d & ->); [|cbn; eauto]. apply (F k); [now left|]. now apply value_getattr. }
  cbn in Eo. rewrite Eo. cbn. apply IHk. intros k0 w I. apply F. now right.
Qed.

(** ** set_params *)
Lemma nth_upd (h : heap) a x b : nth_error (upd h a x) b = if Nat.eqb a b then match nth_error h a with Some _ => Some x | None => None end else nth_error h b.
Proof.
  clear names_plain names_nodup.
  revert a b. induction h as [|y h IH]; intros [|a] [|b]; cbn; auto. destruct (Nat.eqb a b); reflexivity.
Qed.
Lemma upd_same (h : heap) a x : nth_error h a = Some x -> upd h a x = h.
Proof. clear names_plain names_nodup. revert a. induction h as [|y h IH]; intros [|a] H; cbn in *; [discriminate|discriminate|congruence|]. now rewrite IH. Qed.
Lemma setattr_other (h : heap) a k v b : b <> a -> nth_error (setattr h a k v) b = nth_error h b.
Proof. intros N. unfold setattr. destruct (nth_error h a) as [[c attrs|l|d]|]; try reflexivity. rewrite nth_upd. destruct (Nat.eqb_spec a b); [congruence|reflexivity]. Qed.
Lemma setattr_self (h : heap) a c attrs k v : nth_error h a = Some (Est c attrs) -> nth_error (setattr h a k v) a = Some (Est c (sset attrs k v)).
Proof. intros H. unfold setattr. rewrite H, nth_upd, Nat.eqb_refl, H. reflexivity. Qed.
Lemma setattr_noop (h : heap) a c attrs k v : nth_error h a = Some (Est c attrs) -> sget attrs k = Some v -> setattr h a k v = h.
Proof. intros H G. unfold setattr. rewrite H, sset_same by exact G. now apply upd_same. Qed.

Definition sp_go (sp : heap -> nat -> list (string * val) -> heap * res unit) (valid1 : list (string * val)) :=
  fix go (h : heap) (nested : list (string * list (string * val))) :=
     match nested with
     | [] => (h, Ok tt)
     | (k, sub) :: nested =>
         match sget valid1 k with
         | Some (Ref b) =>
             match nth_error h b with
             | Some (Est _ _) => match sp h b sub with (h', Ok _) => go h' nested | (h', Raise e) => (h', Raise e) end
             | _ => (h, Raise AttributeError)
             end
         | _ => (h, Raise AttributeError)
         end
     end.
Lemma set_params_S fuel (h : heap) a x ps : set_params (S fuel) h a (x :: ps) =
  match get_params (S fuel) h a with
  | Raise e => (h, Raise e)
  | Ok valid => match assign a (x :: ps) h valid [] with
                | (h1, Raise e) => (h1, Raise e)
                | (h1, Ok (valid1, nested)) => sp_go (set_params fuel) valid1 h1 nested
                end
  end.
Proof. reflexivity. Qed.

Lemma walk_fun (h : heap) a p v : walk h a p v -> forall w, walk h a p w -> v = w.
Proof.
  induction 1 as [a c attrs k v N I V|a c attrs k b p v N I V W IH]; intros w H; inversion H as [a0 c0 attrs0 k0 v0 N0 I0 V0|a0 c0 attrs0 k0 b0 p0 v0 N0 I0 V0 W0]; subst; rewrite N in N0; injection N0 as <- <-.
  - apply value_getattr in V, V0. congruence.
  - apply walk_nonempty in W0. contradiction.
  - apply walk_nonempty in W. contradiction.
  - apply value_getattr in V, V0. assert (b = b0) by congruence. subst. auto.
Qed.

(** the names that count as valid: those of the class *)
Lemma valid_plain fuel (h : heap) a c attrs r k : get_params fuel h a = Ok r -> nth_error h a = Some (Est c attrs) -> In k (names c) -> sget r k = Some (getattr attrs k).
Proof. intros G N I. apply (get_params_spec fuel h a r G). exists [k]. split; [reflexivity|]. eapply walk_last; eauto. now apply value_getattr. Qed.
Lemma valid_unknown fuel (h : heap) a c attrs r k : get_params fuel h a = Ok r -> nth_error h a = Some (Est c attrs) -> plain k -> ~ In k (names c) -> sget r k = None.
Proof.
  intros G N Pk I. destruct (sget r k) as [v|] eqn:S; [|reflexivity]. exfalso. apply (get_params_spec fuel h a r G) in S as (p & E & W).
  inversion W as [a0 c0 attrs0 k0 v0 N0 I0 V0|a0 c0 attrs0 k0 b0 p0 v0 N0 I0 V0 W0]; subst; rewrite N in N0; injection N0 as <- <-; [cbn in I; contradiction|].
  rewrite (walk_join_cons _ _ _ _ _ W0) in Pk. apply (Pk k0 (join p0 ++ "_")%string). now rewrite !app_s_assoc.
Qed.

Lemma assign_plain a ps : forall (h : heap) c attrs valid, nth_error h a = Some (Est c attrs) -> NoDup (map fst ps) ->
  (forall k, In k (map fst ps) -> plain k /\ sget valid k <> None) ->
  exists h' valid' attrs', assign a ps h valid [] = (h', Ok (valid', [])) /\ nth_error h' a = Some (Est c attrs') /\
    (forall b, b <> a -> nth_error h' b = nth_error h b) /\ (forall k, sget attrs' k = match sget ps k with Some v => Some v | None => sget attrs k end).
Proof.
  clear names_plain names_nodup.
  induction ps as [|[k v] ps IH]; intros h c attrs valid N ND V.
  { exists h, valid, attrs. auto. }
  cbn in ND. inversion ND; subst. destruct (V k) as (Pk & Vk); [now left|]. cbn [assign]. rewrite partition_plain by exact Pk. destruct (sget valid k) as [o|] eqn:G; [|contradiction].
  destruct (IH (setattr h a k v) c (sset attrs k v) (sset valid k v)) as (h' & valid' & attrs' & E & N' & O & S); [now apply setattr_self|assumption| |].
  { intros k0 I. split; [apply V; now right|]. rewrite sget_sset. destruct (String.eqb k k0); [discriminate|]. apply V. now right. }
  exists h', valid', attrs'. split; [exact E|]. split; [exact N'|]. split; [intros b Hb; rewrite O by exact Hb; now apply setattr_other|].
  intros k0. rewrite S, sget_sset. cbn [sget]. destruct (String.eqb_spec k k0) as [<-|Nk]; [|reflexivity]. cbn in H1. apply sget_none in H1. now rewrite H1.
Qed.

Lemma set_plain fuel (h : heap) a c attrs ps : nth_error h a = Some (Est c attrs) -> fits none names h (S fuel) (Ref a) -> NoDup (map fst ps) -> incl (map fst ps) (names c) ->
  exists h' attrs', set_params (S fuel) h a ps = (h', Ok tt) /\ nth_error h' a = Some (Est c attrs') /\
    (forall b, b <> a -> nth_error h' b = nth_error h b) /\ (forall k, sget attrs' k = match sget ps k with Some v => Some v | None => sget attrs k end).
Proof.
  intros N F ND I. destruct ps as [|x ps].
  { exists h, attrs. auto. }
  destruct (get_params_fits (S fuel) h a c attrs N F) as (r & G).
  destruct (assign_plain a (x :: ps) h c attrs r N ND) as (h' & valid' & attrs' & E & R).
  { intros k K. split; [eapply names_plain, I, K|]. rewrite (valid_plain _ _ _ _ _ _ k G N) by (apply I, K). discriminate. }
  exists h', attrs'. split; [|exact R]. rewrite set_params_S, G, E. reflexivity.
Qed.

Inductive reach (h : heap) : nat -> list string -> nat -> Prop :=
| reach_here a : reach h a [] a
| reach_step a c attrs k b p d : nth_error h a = Some (Est c attrs) -> In k (names c) -> value attrs k (Ref b) -> reach h b p d -> reach h a (k :: p) d.

Lemma set_path (h : heap) a p b : reach h a p b -> forall fuel c attrs k v, fits none names h fuel (Ref a) -> nth_error h b = Some (Est c attrs) -> In k (names c) ->
  set_params fuel h a [(join (p ++ [k]), v)] = (setattr h b k v, Ok tt).
Proof.
  induction 1 as [a|a c0 attrs0 k0 b p d N0 I0 V0 R IH]; intros fuel c attrs k v F N I.
  - destruct fuel as [|fuel]; [destruct F|]. destruct (get_params_fits (S fuel) h a c attrs N F) as (r & G).
    rewrite set_params_S, G. cbn [app join assign]. rewrite partition_plain by (eapply names_plain; eassumption). rewrite (valid_plain _ _ _ _ _ _ k G N I). reflexivity.
  - destruct fuel as [|fuel]; [destruct F|]. destruct (get_params_fits (S fuel) h a c0 attrs0 N0 F) as (r & G).
    rewrite set_params_S, G. assert (J : join ((k0 :: p) ++ [k]) = (k0 ++ "__" ++ join (p ++ [k]))%string) by (destruct p; reflexivity). rewrite J.
    cbn [assign]. rewrite partition_join by (eapply names_plain; eassumption). rewrite (valid_plain _ _ _ _ _ _ k0 G N0 I0). cbn [sget sset sp_go].
    assert (Fb : fits none names h fuel (Ref b)) by (cbn [fits] in F; rewrite N0 in F; eapply F; eassumption).
    rewrite (valid_plain _ _ _ _ _ _ k0 G N0 I0). pose proof V0 as V1. apply value_getattr in V1. rewrite V1.
    assert (exists c1 at1, nth_error h b = Some (Est c1 at1)) as (c1 & at1 & N1) by (inversion R; subst; eauto). rewrite N1. rewrite (IH fuel c attrs k v Fb N I). reflexivity.
Qed.

(** assigning the values that are there already *)
Definition stored (h : heap) : Prop := forall a c attrs k, nth_error h a = Some (Est c attrs) -> In k (names c) -> In k (map fst attrs).
Definition holds_all (h : heap) (a : nat) (ps : list (string * val)) : Prop := forall key v, In (key, v) ps -> exists p, key = join p /\ walk h a p v.

Lemma sset_in {A} (d : list (string * A)) k v x : In x (sset d k v) -> x = (k, v) \/ In x d.
Proof. clear. induction d as [|[k0 y] d IH]; cbn; [intuition|]. destruct (String.eqb k0 k); cbn; [intuition|]. intros [<-|H]; [now right; left|]. apply IH in H as [->|H]; auto. Qed.

Lemma assign_same (h : heap) a (St : stored h) ps : forall valid nested,
  (forall k v, walk h a [k] v -> sget valid k = Some v) -> holds_all h a ps ->
  (forall k sub, In (k, sub) nested -> exists b, walk h a [k] (Ref b) /\ sub <> [] /\ holds_all h b sub) ->
  exists valid' nested', assign a ps h valid nested = (h, Ok (valid', nested')) /\
    (forall k v, walk h a [k] v -> sget valid' k = Some v) /\
    (forall k sub, In (k, sub) nested' -> exists b, walk h a [k] (Ref b) /\ sub <> [] /\ holds_all h b sub).
Proof.
  induction ps as [|[key v] ps IH]; intros valid nested Hv Hp Hn.
  { exists valid, nested. auto. }
  assert (Hp' : holds_all h a ps) by (intros k w I; apply Hp; now right).
  destruct (Hp key v) as (p & -> & W); [now left|]. cbn [assign]. inversion W as [a0 c0 attrs0 k v0 N I V|a0 c0 attrs0 k b p0 v0 N I V W0]; subst.
  - cbn [join]. rewrite partition_plain by (eapply names_plain; eassumption). rewrite (Hv _ _ W).
    assert (Sa : sget attrs0 k = Some v). { apply value_getattr in V. unfold Params.getattr in V. destruct (sget attrs0 k) eqn:G; [congruence|]. apply sget_none in G. exfalso. apply G. eapply St; eassumption. }
    rewrite (setattr_noop h a c0 attrs0 k v N Sa). apply IH; [|exact Hp'|exact Hn].
    intros k0 w Wk. rewrite sget_sset. destruct (String.eqb_spec k k0) as [<-|Nk]; [f_equal; eapply walk_fun; eassumption|auto].
  - rewrite (walk_join_cons _ _ _ _ _ W0). rewrite partition_join by (eapply names_plain; eassumption).
    assert (Wk : walk h a [k] (Ref b)) by (eapply walk_last; eassumption). rewrite (Hv _ _ Wk). apply IH; [exact Hv|exact Hp'|].
    intros k1 sub J. apply sset_in in J as [J|J]; [|now apply Hn]. injection J as -> ->. exists b. split; [exact Wk|].
    assert (Old : holds_all h b (match sget nested k with Some d => d | None => [] end)).
    { destruct (sget nested k) as [d|] eqn:G; [|intros ? ? []]. apply sget_in in G. destruct (Hn _ _ G) as (b' & Wb' & _ & H). pose proof (walk_fun _ _ _ _ Wk _ Wb') as Eb. injection Eb as <-. exact H. }
    split; [intros E; destruct (match sget nested k with Some d => d | None => [] end) as [|[? ?] ?]; cbn in E; [discriminate|destruct (String.eqb _ _); discriminate]|].
    intros key w J. apply sset_in in J as [J|J]; [injection J as -> ->; eauto|now apply Old].
Qed.

Lemma holds_est (h : heap) b sub : sub <> [] -> holds_all h b sub -> exists c attrs, nth_error h b = Some (Est c attrs).
Proof.
  intros N H. destruct sub as [|[key v] sub]; [contradiction|]. destruct (H key v) as (p & _ & W); [now left|]. inversion W; eauto.
Qed.

Lemma set_same (h : heap) (St : stored h) fuel : forall a ps, fits none names h fuel (Ref a) -> holds_all h a ps -> set_params fuel h a ps = (h, Ok tt).
Proof.
  induction fuel as [|fuel IH]; intros a ps F H; [destruct F|]. destruct ps as [|x ps]; [reflexivity|].
  destruct (holds_est h a (x :: ps)) as (c & attrs & N); [discriminate|exact H|]. destruct (get_params_fits (S fuel) h a c attrs N F) as (r & G).
  rewrite set_params_S, G. destruct (assign_same h a St (x :: ps) r []) as (valid' & nested' & E & Hv & Hn); [|exact H|intros ? ? []|].
  { intros k v W. apply (get_params_spec (S fuel) h a r G). exists [k]. auto. }
  rewrite E. clear E. induction nested' as [|[k sub] nested' IHn]; [reflexivity|]. cbn [sp_go]. destruct (Hn k sub) as (b & W & Ns & Hs); [now left|].
  rewrite (Hv _ _ W). destruct (holds_est h b sub Ns Hs) as (c1 & at1 & N1). rewrite N1.
  rewrite IH; [|cbn [fits] in F; rewrite N in F; inversion W as [a0 c0 attrs0 k0 v0 N0 I V|]; subst; [rewrite N in N0; injection N0 as <- <-; eapply F; eassumption|match goal with W : walk _ _ [] _ |- _ => apply walk_nonempty in W; contradiction end]|exact Hs].
  apply IHn. intros k0 sub0 J. apply Hn. now right.
Qed.
End P.
