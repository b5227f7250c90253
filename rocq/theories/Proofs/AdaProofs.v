(** Lemmas about adaptive trees. *)
From Coq Require Import List ZArith Bool Lia.
From Verif Require Import Base.Py Base.Num Base.Dict Model.TreeSkeleton Model.AdaTree Spec.AdaSpec.
Import ListNotations.

Section Ind.
Context {L I S E W : Type}.
Local Notation node := (anode L I S E W).
(** Induction over children and alternate trees *)
Lemma anode_ind' (P : node -> Prop) : (forall l, P (ALeaf l)) -> (forall i, P (ADead i)) ->
  (forall te st wt alt ch, (forall a, alt = Some a -> P a) -> Forall (fun kc => P (snd kc)) ch -> P (ASplit te st wt alt ch)) -> forall t, P t.
Proof.
  intros HA HI HS. fix F 1. intros [l|i|te st wt alt ch]; [apply HA|apply HI|]. apply HS.
  - intros a Ea. destruct alt as [a'|]; [|discriminate]. injection Ea as <-. apply F.
  - induction ch as [|[k c] ch IH]; constructor; [apply F|exact IH].
Qed.
Lemma Forall_dget {V} (P : V -> Prop) (d : list (Z * V)) b v : Forall (fun kv => P (snd kv)) d -> dget d b = Some v -> P v.
Proof. intros F H. apply dget_In in H. rewrite Forall_forall in F. apply (F _ H). Qed.
Lemma Forall_dset' {V} (P : V -> Prop) (d : list (Z * V)) i v : Forall (fun kv => P (snd kv)) d -> P v -> Forall (fun kv => P (snd kv)) (dset d i v).
Proof. intros F H. induction F as [|[k x] d Hx F IH]; cbn; [constructor; auto|]. destruct (Z.eqb k i); constructor; auto. Qed.

Definition sum_all (f : node -> Z) (ch : list (Z * node)) : Z := fold_right Z.add 0%Z (map (fun kc => f (snd kc)) ch).
Lemma main_split te st wt alt (ch : list (Z * node)) : main_nodes (ASplit te st wt alt ch) = ASplit te st wt alt ch :: flat_map (fun kc => main_nodes (snd kc)) ch.
Proof. cbn [main_nodes]. f_equal. induction ch as [|[k c] ch IH]; [reflexivity|]. cbn [flat_map snd]. rewrite <- IH. reflexivity. Qed.
Lemma number_leaf f (t : node) : is_asplit t = false -> number f t = if f t then 1%Z else 0%Z.
Proof. destruct t; try discriminate; intros _; unfold number; cbn; destruct (f _); reflexivity. Qed.
Lemma number_split f te st wt alt (ch : list (Z * node)) :
  number f (ASplit te st wt alt ch) = ((if f (ASplit te st wt alt ch) then 1 else 0) + sum_all (number f) ch)%Z.
Proof.
  unfold number at 1. rewrite main_split. cbn [filter].
  assert (G : Z.of_nat (length (filter f (flat_map (fun kc => main_nodes (snd kc)) ch))) = sum_all (number f) ch).
  { induction ch as [|[k c] ch IH]; [reflexivity|]. cbn [flat_map snd]. rewrite filter_app, app_length, Nat2Z.inj_add, IH. reflexivity. }
  destruct (f (ASplit te st wt alt ch)); cbn [length]; lia.
Qed.
Lemma sum_all_dset f (ch : list (Z * node)) b c c' : dget ch b = Some c -> sum_all f (dset ch b c') = (sum_all f ch - f c + f c')%Z.
Proof.
  induction ch as [|[k x] ch IH]; [discriminate|]. cbn [dget dset]. destruct (Z.eqb k b); intros H.
  - injection H as ->. unfold sum_all. cbn. lia.
  - unfold sum_all in *. cbn [map fold_right snd]. rewrite IH by auto. cbn. lia.
Qed.
Lemma sum_all_fresh f (ch : list (Z * node)) b c' : dget ch b = None -> sum_all f (dset ch b c') = (sum_all f ch + f c')%Z.
Proof.
  induction ch as [|[k x] ch IH]; [unfold sum_all; cbn; lia|]. cbn [dget dset]. destruct (Z.eqb k b); intros H; [discriminate|].
  unfold sum_all in *. cbn [map fold_right snd]. rewrite IH by auto. cbn. lia.
Qed.
Lemma alternates_split te st wt alt (ch : list (Z * node)) :
  alternates (ASplit te st wt alt ch) = match alt with Some a => [a] | None => [] end ++ flat_map (fun kc => alternates (snd kc)) ch.
Proof.
  unfold alternates at 1. rewrite main_split. cbn [flat_map]. f_equal. induction ch as [|[k c] ch IH]; [reflexivity|].
  cbn [flat_map snd]. rewrite flat_map_app, IH. reflexivity.
Qed.
End Ind.

Section Ada.
Context {X Y T L I S E W P : Type} {N : Num T} (O : aops X Y T L I S E W P).
Local Notation node := (anode L I S E W).

Lemma aroute_split te st wt alt ch x :
  aroute O (ASplit te st wt alt ch) x =
  (b <- a_branch O te x ;; if (0 <=? b)%Z then match dget ch b with Some c => aroute O c x | None => Ok None end else Ok (Some (ASplit te st wt alt ch))).
Proof.
  cbn [aroute]. destruct (a_branch O te x) as [b|e]; [|reflexivity]. cbn [bind]. destruct (0 <=? b)%Z; [|reflexivity].
  induction ch as [|[k c] ch IH]; [reflexivity|]. cbn [dget]. destruct (Z.eqb k b); [reflexivity|exact IH].
Qed.
Lemma afound_split te st wt alt ch x br :
  afound O (ASplit te st wt alt ch) x br =
  (b <- a_branch O te x ;;
   main <- (if (0 <=? b)%Z then match dget ch b with Some c => afound O c x br | None => Ok [(ASplit te st wt alt ch, b)] end else Ok []) ;;
   side <- match alt with None => Ok [] | Some a => afound O a x (-999)%Z end ;; Ok (main ++ side)).
Proof.
  cbn [afound]. destruct (a_branch O te x) as [b|e]; [|reflexivity]. cbn [bind].
  match goal with |- bind ?a _ = bind ?b _ => assert (E1 : a = b); [|rewrite E1; reflexivity] end.
  destruct (0 <=? b)%Z; [|reflexivity]. generalize (ASplit te st wt alt ch). intros t0.
  induction ch as [|[k c] ch IH]; [reflexivity|]. cbn [dget]. destruct (Z.eqb k b); [reflexivity|exact IH].
Qed.
Lemma aleaves_split te st wt alt (ch : list (Z * node)) :
  Forall (fun kc => number is_adead (snd kc) = 0%Z -> aleaves (snd kc) = Ok (number is_aleaf (snd kc))) ch ->
  number is_adead (ASplit te st wt alt ch) = 0%Z -> aleaves (ASplit te st wt alt ch) = Ok (number is_aleaf (ASplit te st wt alt ch)).
Proof.
  rewrite !number_split. cbn [is_adead is_aleaf aleaves]. intros F. assert (Pz : forall n : node, (0 <= number is_adead n)%Z) by (intros; unfold number; lia).
  induction F as [|[k c] ch Hc F IH]; intros Z0; [reflexivity|]. unfold sum_all in *. cbn [map fold_right snd] in *.
  assert (Zs : (0 <= fold_right Z.add 0 (map (fun kc => number is_adead (snd kc)) ch))%Z).
  { clear - Pz. induction ch as [|[k c] ch IH]; cbn; [lia|]. specialize (Pz c). lia. }
  specialize (Pz c). rewrite Hc by lia. cbn [bind]. rewrite IH by lia. cbn [bind]. reflexivity.
Qed.
(** The inner loop of [alearn] as a dictionary access. *)
Definition arest (linked : bool) (te : E) (st : S) (wt : W) (alt over : option node) (ch : list (Z * node)) (x : X) (y : Y) (w : T) (c : counts) : res (node * option node * counts) :=
  b <- a_branch O te x ;;
  match dget ch b with
  | None =>
      if a_grows O te b then
        ' (te, b) <- a_add O te x ;;
        if (0 <=? a_max O te)%Z && (a_max O te <=? b)%Z then Raise IndexError else
        ' (n, r, c) <- aleaf_learn O linked (a_new O) x y w (count c 1 0 0 0 0 0) ;;
        Ok (ASplit te st wt alt (dset ch b n), match r with Some n => Some n | None => over end, c)
      else Ok (ASplit te st wt alt ch, over, c)
  | Some n =>
      ' (n, s, c) <- alearn O (linked && match over with None => true | Some _ => false end) n x y w c ;;
      Ok (ASplit te st wt alt (dset ch b (match s with Some m => m | None => n end)), over, c)
  end.
Lemma alearn_split linked te st wt alt ch x y w c :
  alearn O linked (ASplit te st wt alt ch) x y w c =
  (found <- aroute O (ASplit te st wt alt ch) x ;;
   p <- match found with None => Ok None | Some n => v <- avote O n x ;; Ok (Some v) end ;;
   ' (wt', changed) <- a_see O wt p y ;;
   ' (v, c) <- judge O (ASplit te st wt alt ch) wt' changed alt c ;;
   ' (alt, over, c) <-
      match v with
      | Fresh => ' (a, r, c) <- aleaf_learn O linked (a_new O) x y w c ;; Ok (Some a, r, c)
      | Prune => Ok (None, None, c)
      | _ => match alt with
             | None => Ok (None, None, c)
             | Some a => ' (a, r, c) <- alearn O linked a x y w c ;;
                         Ok (Some a, match r, v with Some n, _ => Some n | None, Switch => Some a | None, _ => None end, c)
             end
      end ;;
   arest linked te st wt' alt over ch x y w c).
Proof.
  cbn [alearn]. destruct (aroute O (ASplit te st wt alt ch) x) as [found|e]; [|reflexivity]. cbn [bind].
  destruct (match found with None => Ok None | Some n => v <- avote O n x ;; Ok (Some v) end) as [p|e]; [|reflexivity]. cbn [bind].
  destruct (a_see O wt p y) as [[wt' changed]|e]; [|reflexivity]. cbn [bind].
  destruct (judge O (ASplit te st wt alt ch) wt' changed alt c) as [[v c1]|e]; [|reflexivity]. cbn [bind].
  match goal with |- bind ?a _ = bind ?b _ => change b with a; destruct a as [[[alt' over] c2]|e]; [|reflexivity] end. cbn [bind].
  unfold arest. destruct (a_branch O te x) as [b|e]; [|reflexivity]. cbn [bind].
  match goal with |- ?f ch [] = _ => set (look := f) end.
  assert (G : forall l seen, ch = rev seen ++ l -> dget (rev seen) b = None -> look l seen = match dget l b with
     | None => if a_grows O te b then
        ' (te, b) <- a_add O te x ;;
        if (0 <=? a_max O te)%Z && (a_max O te <=? b)%Z then Raise IndexError else
        ' (n, r, c) <- aleaf_learn O linked (a_new O) x y w (count c2 1 0 0 0 0 0) ;;
        Ok (ASplit te st wt' alt' (dset ch b n), match r with Some n => Some n | None => over end, c)
      else Ok (ASplit te st wt' alt' ch, over, c2)
     | Some n => ' (n, s, c) <- alearn O (linked && match over with None => true | Some _ => false end) n x y w c2 ;;
      Ok (ASplit te st wt' alt' (dset ch b (match s with Some m => m | None => n end)), over, c)
     end).
  { induction l as [|[k n] l IH]; intros seen E0 E1.
    - reflexivity.
    - cbn [dget]. unfold look; fold look. destruct (Z.eqb_spec k b) as [->|Hk].
      + destruct (alearn O _ n x y w c2) as [[[n' s] c3]|e]; [|reflexivity]. cbn [bind]. rewrite E0.
        assert (D : forall a : list (Z * node), dget a b = None -> forall v, dset (a ++ (b, n) :: l) b v = a ++ (b, v) :: l).
        { clear. induction a as [|[k x] a IH]; cbn [dget]; intros H v; cbn [app dset]; [rewrite Z.eqb_refl; reflexivity|].
          destruct (Z.eqb k b); [discriminate|]. f_equal. auto. }
        rewrite D by exact E1. reflexivity.
      + apply (IH ((k, n) :: seen)).
        * cbn [rev]. rewrite <- app_assoc. exact E0.
        * cbn [rev]. clear - E1 Hk. induction (rev seen) as [|[k' x] a IH]; cbn [app dget] in *; [destruct (Z.eqb_spec k b); [contradiction|reflexivity]|].
          destruct (Z.eqb k' b); [discriminate|auto]. }
  rewrite (G ch []) by reflexivity. reflexivity.
Qed.

(** ** Inversion of the steps *)
(** What a leaf does with a sample: stay, be restarted, become inactive or be split. *)
Inductive leaf_step (linked : bool) (l : L) (x : X) (y : Y) (w : T) (c : counts) : L -> option node -> counts -> Prop :=
| step_idle l1 : a_learn O l x y w = Ok l1 -> a_due O l1 = false -> leaf_step linked l x y w c l1 None c
| step_keep l1 l2 : a_learn O l x y w = Ok l1 -> a_due O l1 = true -> a_decide O l1 = Ok (Keep l2) -> leaf_step linked l x y w c l2 None c
| step_restart l1 l2 l3 : a_learn O l x y w = Ok l1 -> a_due O l1 = true -> a_decide O l1 = Ok (NullWins l2) -> linked = true -> a_restart O l2 = Some l3 ->
    leaf_step linked l x y w c l2 (Some (ALeaf l3)) c
| step_stop l1 l2 : a_learn O l x y w = Ok l1 -> a_due O l1 = true -> a_decide O l1 = Ok (NullWins l2) -> (linked = true -> a_restart O l2 = None) ->
    leaf_step linked l x y w c l2 (Some (ADead (a_stop O l2))) (count c (-1) 1 0 0 0 0)
| step_split l1 l2 te ds n : a_learn O l x y w = Ok l1 -> a_due O l1 = true -> a_decide O l1 = Ok (SplitOn l2 te ds) -> asplit O l2 te ds = Ok n ->
    leaf_step linked l x y w c l2 (Some n) (count c (Z.of_nat (length ds) - 1) 0 1 0 0 0).
Lemma aleaf_learn_inv linked l x y w c n r c' : aleaf_learn O linked l x y w c = Ok (n, r, c') -> exists l', n = ALeaf l' /\ leaf_step linked l x y w c l' r c'.
Proof.
  unfold aleaf_learn. intros H. apply bind_Ok in H as (l1 & E1 & H). destruct (a_due O l1) eqn:E2.
  - apply bind_Ok in H as (d & E3 & H). destruct d as [l2|l2|l2 te ds].
    + injection H as <- <- <-. eexists. split; [reflexivity|]. econstructor 2; eauto.
    + destruct linked eqn:El.
      * destruct (a_restart O l2) as [l3|] eqn:E4; injection H as <- <- <-; eexists; (split; [reflexivity|]); [econstructor 3; eauto|econstructor 4; eauto].
      * injection H as <- <- <-. eexists. split; [reflexivity|]. econstructor 4; eauto. discriminate.
    + apply bind_Ok in H as (m & E4 & H). injection H as <- <- <-. eexists. split; [reflexivity|]. econstructor 5; eauto.
  - injection H as <- <- <-. eexists. split; [reflexivity|]. econstructor 1; eauto.
Qed.
Lemma asplit_inv l te ds n : asplit O l te ds = Ok n ->
  n = ASplit te (a_stats O l) (a_wnew O) None (combine (map Z.of_nat (seq 0 (length ds))) (map (fun d => ALeaf (a_child O l d)) ds)).
Proof. unfold asplit. destruct (_ && _); [discriminate|]. congruence. Qed.
Lemma combine_keys {V} (vs : list V) : dkeys (combine (map Z.of_nat (seq 0 (length vs))) vs) = map Z.of_nat (seq 0 (length vs)).
Proof. unfold dkeys. generalize 0 as a. induction vs as [|v vs IH]; intros a; [reflexivity|]. cbn. f_equal. apply IH. Qed.
Lemma combine_vals {V} (vs : list V) : dvals (combine (map Z.of_nat (seq 0 (length vs))) vs) = vs.
Proof. unfold dvals. generalize 0 as a. induction vs as [|v vs IH]; intros a; [reflexivity|]. cbn. f_equal. apply IH. Qed.

(** ** Well-formed trees: branches are numbered, tests fit the number of branches, alternate trees are leaves. *)
Variables (tinv : E -> nat -> Prop) (linv : L -> Prop) (iinv : I -> Prop).
Inductive awf : node -> Prop :=
| awf_leaf l : linv l -> awf (ALeaf l)
| awf_dead i : iinv i -> awf (ADead i)
| awf_split te st wt alt ch : dkeys ch = map Z.of_nat (seq 0 (length ch)) -> tinv te (length ch) -> Forall (fun kc => awf (snd kc)) ch ->
    (forall a, alt = Some a -> exists l, a = ALeaf l /\ linv l) -> awf (ASplit te st wt alt ch).
Hypothesis Hbranch : forall te n x b, tinv te n -> a_branch O te x = Ok b -> (b < Z.of_nat n)%Z.
Hypothesis Hadd : forall te n x b te' b', tinv te n -> a_branch O te x = Ok b -> (b < 0)%Z -> a_grows O te b = true -> a_add O te x = Ok (te', b') ->
  b' = Z.of_nat n /\ tinv te' (Datatypes.S n).
Hypothesis Hnew : linv (a_new O).
Hypothesis Hlearn : forall l x y w l', linv l -> a_learn O l x y w = Ok l' -> linv l'.
Hypothesis Hdecide : forall l d, linv l -> a_decide O l = Ok d ->
  match d with
  | Keep l' => linv l'
  | NullWins l' => linv l' /\ iinv (a_stop O l') /\ (forall l'', a_restart O l' = Some l'' -> linv l'')
  | SplitOn l' te ds => linv l' /\ tinv te (length ds) /\ forall d, In d ds -> linv (a_child O l' d)
  end.

Lemma leaf_step_wf linked l x y w c l' r c' : linv l -> leaf_step linked l x y w c l' r c' -> linv l' /\ forall n, r = Some n -> awf n.
Proof.
  intros Wl H. destruct H as [l1 E1 E2|l1 l2 E1 E2 E3|l1 l2 l3 E1 E2 E3 E4 E5|l1 l2 E1 E2 E3 E4|l1 l2 te ds n E1 E2 E3 E4];
    pose proof (Hlearn _ _ _ _ _ Wl E1) as W1; try (pose proof (Hdecide _ _ W1 E3) as HD; cbn in HD).
  - split; [auto|discriminate].
  - split; [auto|discriminate].
  - destruct HD as (A & _ & B). split; auto. intros n [= <-]. constructor. auto.
  - destruct HD as (A & B & _). split; auto. intros n [= <-]. constructor. auto.
  - destruct HD as (A & B & C). split; auto. intros m [= <-]. apply asplit_inv in E4 as ->.
    pose proof (combine_keys (map (fun d => ALeaf (I := I) (S := S) (E := E) (W := W) (a_child O l2 d)) ds)) as K. rewrite map_length in K.
    assert (LC : length (combine (map Z.of_nat (seq 0 (length ds))) (map (fun d => ALeaf (I := I) (S := S) (E := E) (W := W) (a_child O l2 d)) ds)) = length ds)
      by (rewrite combine_length, !map_length, seq_length; lia).
    constructor; rewrite ?LC; auto; [|discriminate]. rewrite Forall_forall. intros [k n] Hin. apply in_combine_r in Hin. apply in_map_iff in Hin as (d & <- & Hd). cbn. constructor. auto.
Qed.
Lemma awf_dset te st wt alt ch b n te' : awf (ASplit te st wt alt ch) -> awf n -> (exists m, dget ch b = Some m) /\ te' = te \/ b = Z.of_nat (length ch) /\ tinv te' (Datatypes.S (length ch)) ->
  dkeys (dset ch b n) = map Z.of_nat (seq 0 (length (dset ch b n))) /\ tinv te' (length (dset ch b n)) /\ Forall (fun kc => awf (snd kc)) (dset ch b n).
Proof.
  intros Wt Wn Hb. inversion Wt as [| |? ? ? ? ? K TI F A]; subst. split; [|split]; [| |apply Forall_dset'; auto].
  - assert (LK : length (dset ch b n) = length (dkeys (dset ch b n))) by (unfold dkeys; rewrite map_length; reflexivity). rewrite LK, dkeys_dset.
    destruct Hb as [[(m & Em) ->]|[-> _]]; unfold dmem.
    + rewrite Em, K, map_length, seq_length. reflexivity.
    + assert (D : dget ch (Z.of_nat (length ch)) = None). { apply dget_None. rewrite K. intros Hi. apply in_map_iff in Hi as (i & E0 & Hi). apply in_seq in Hi. lia. }
      rewrite D, app_length. cbn [length]. rewrite K, map_length, seq_length, seq_app, map_app. reflexivity.
  - assert (LK : length (dset ch b n) = length (dkeys (dset ch b n))) by (unfold dkeys; rewrite map_length; reflexivity). rewrite LK, dkeys_dset.
    destruct Hb as [[(m & Em) ->]|[-> TI']]; unfold dmem.
    + rewrite Em, K, map_length, seq_length. exact TI.
    + assert (D : dget ch (Z.of_nat (length ch)) = None). { apply dget_None. rewrite K. intros Hi. apply in_map_iff in Hi as (i & E0 & Hi). apply in_seq in Hi. lia. }
      rewrite D, app_length. cbn [length]. rewrite K, map_length, seq_length, Nat.add_1_r. exact TI'.
Qed.
Lemma awf_nochild te st wt alt ch x b : awf (ASplit te st wt alt ch) -> a_branch O te x = Ok b -> dget ch b = None -> (b < 0)%Z.
Proof.
  intros Wt Eb D. inversion Wt as [| |? ? ? ? ? K TI F A]; subst. pose proof (Hbranch _ _ _ _ TI Eb). destruct (Z.ltb_spec b 0) as [Hb|Hb]; [exact Hb|].
  apply dget_None in D. exfalso. apply D. rewrite K. apply in_map_iff. exists (Z.to_nat b). split; [lia|]. apply in_seq. lia.
Qed.

(** What happens to the alternate tree: [v] is the verdict on it. *)
Inductive alt_step (linked : bool) (alt : option node) (x : X) (y : Y) (w : T) (c : counts) : verdict -> option node -> option node -> counts -> Prop :=
| alt_fresh l' r c' : leaf_step linked (a_new O) x y w c l' r c' -> alt_step linked alt x y w c Fresh (Some (ALeaf l')) r c'
| alt_prune : alt_step linked alt x y w c Prune None None c
| alt_none v : alt = None -> v = Stay \/ v = Switch -> alt_step linked alt x y w c v None None c
| alt_stay l l' r c' : alt = Some (ALeaf l) -> leaf_step linked l x y w c l' r c' -> alt_step linked alt x y w c Stay (Some (ALeaf l')) r c'
| alt_switch l l' r c' : alt = Some (ALeaf l) -> leaf_step linked l x y w c l' r c' ->
    alt_step linked alt x y w c Switch (Some (ALeaf l')) (match r with Some n => Some n | None => Some (ALeaf l') end) c'.
(** ... and to the children *)
Inductive rest_step (linked : bool) (te : E) (ch : list (Z * node)) (over : option node) (x : X) (y : Y) (w : T) (c : counts) : E -> list (Z * node) -> option node -> counts -> Prop :=
| rest_child b n n' s c' : a_branch O te x = Ok b -> dget ch b = Some n ->
    alearn O (linked && match over with None => true | Some _ => false end) n x y w c = Ok (n', s, c') ->
    rest_step linked te ch over x y w c te (dset ch b (match s with Some m => m | None => n' end)) over c'
| rest_new b te' b' l' r c' : a_branch O te x = Ok b -> (b < 0)%Z -> dget ch b = None -> a_grows O te b = true -> a_add O te x = Ok (te', b') -> leaf_step linked (a_new O) x y w (count c 1 0 0 0 0 0) l' r c' ->
    rest_step linked te ch over x y w c te' (dset ch b' (ALeaf l')) (match r with Some n => Some n | None => over end) c'
| rest_none b : a_branch O te x = Ok b -> (b < 0)%Z -> dget ch b = None -> a_grows O te b = false -> rest_step linked te ch over x y w c te ch over c.
Lemma alearn_split_inv linked te st wt alt ch x y w c t' over c' : awf (ASplit te st wt alt ch) -> alearn O linked (ASplit te st wt alt ch) x y w c = Ok (t', over, c') ->
  exists found p wt' changed v c1 alt' over1 c2 te' ch',
    aroute O (ASplit te st wt alt ch) x = Ok found /\
    match found with None => p = None | Some n => exists v, avote O n x = Ok v /\ p = Some v end /\
    a_see O wt p y = Ok (wt', changed) /\ judge O (ASplit te st wt alt ch) wt' changed alt c = Ok (v, c1) /\
    alt_step linked alt x y w c1 v alt' over1 c2 /\ rest_step linked te ch over1 x y w c2 te' ch' over c' /\ t' = ASplit te' st wt' alt' ch'.
Proof.
  intros Wt H. rewrite alearn_split in H. apply bind_Ok in H as (found & Ef & H). apply bind_Ok in H as (p & Ep & H). apply bind_Ok in H as ([wt' changed] & Es & H).
  apply bind_Ok in H as ([v c1] & Ej & H). apply bind_Ok in H as ([[alt' over1] c2] & Ea & H).
  assert (AS : alt_step linked alt x y w c1 v alt' over1 c2).
  { inversion Wt as [| |? ? ? ? ? K TI F A]; subst. destruct v.
    - apply bind_Ok in Ea as ([[a r] c3] & Ea & Q). injection Q as <- <- <-. apply aleaf_learn_inv in Ea as (l' & -> & St). now constructor.
    - destruct alt as [a|]; [|injection Ea as <- <- <-; constructor 3; auto]. destruct (A a eq_refl) as (l & -> & Wl). cbn [alearn] in Ea.
      apply bind_Ok in Ea as ([[a r] c3] & Ea & Q). injection Q as <- <- <-. apply aleaf_learn_inv in Ea as (l' & -> & St). destruct r; econstructor 4; eauto.
    - injection Ea as <- <- <-. constructor.
    - destruct alt as [a|]; [|injection Ea as <- <- <-; constructor 3; auto]. destruct (A a eq_refl) as (l & -> & Wl). cbn [alearn] in Ea.
      apply bind_Ok in Ea as ([[a r] c3] & Ea & Q). injection Q as <- <- <-. apply aleaf_learn_inv in Ea as (l' & -> & St). econstructor 5; eauto. }
  unfold arest in H. apply bind_Ok in H as (b & Eb & H).
  exists found, p, wt', changed, v, c1, alt', over1, c2.
  assert (RS : exists te' ch', rest_step linked te ch over1 x y w c2 te' ch' over c' /\ t' = ASplit te' st wt' alt' ch').
  { destruct (dget ch b) as [n|] eqn:D.
    - apply bind_Ok in H as ([[n' s] c3] & El & H). injection H as <- <- <-. do 2 eexists. split; [|reflexivity]. econstructor 1; eauto.
    - pose proof (awf_nochild _ _ _ _ _ _ _ Wt Eb D) as Hb. destruct (a_grows O te b) eqn:Eg.
      + apply bind_Ok in H as ([te' b'] & E1 & H). destruct (_ && _); [discriminate|]. apply bind_Ok in H as ([[n r] c3] & E2 & H). injection H as <- <- <-.
        apply aleaf_learn_inv in E2 as (l' & -> & St). do 2 eexists. split; [|reflexivity]. econstructor 2; eauto.
      + injection H as <- <- <-. do 2 eexists. split; [|reflexivity]. econstructor 3; eauto. }
  destruct RS as (te' & ch' & RS & ->). exists te', ch'. repeat (split; [assumption||idtac|]); auto.
  destruct found; [|congruence]. apply bind_Ok in Ep as (v0 & E0 & E1). injection E1 as <-. eauto.
Qed.

Lemma alearn_wf t : forall linked x y w c t' over c', awf t -> alearn O linked t x y w c = Ok (t', over, c') -> awf t' /\ forall n, over = Some n -> awf n.
Proof.
  induction t as [l|i|te st wt alt ch IHa IHc] using anode_ind'; intros linked x y w c t' over c' Wt H.
  - cbn [alearn] in H. apply aleaf_learn_inv in H as (l' & -> & St). inversion Wt; subst. destruct (leaf_step_wf _ _ _ _ _ _ _ _ _ H0 St). split; [constructor|]; auto.
  - discriminate.
  - apply alearn_split_inv in H as (found & p & wt' & changed & v & c1 & alt' & over1 & c2 & te' & ch' & _ & _ & _ & _ & AS & RS & ->); [|exact Wt].
    assert (WA : (forall a, alt' = Some a -> exists l, a = ALeaf l /\ linv l) /\ forall n, over1 = Some n -> awf n).
    { inversion Wt as [| |? ? ? ? ? K TI F A]; subst. destruct AS as [l' r c3 St| |v E0 _|l l' r c3 E0 St|l l' r c3 E0 St].
      - destruct (leaf_step_wf _ _ _ _ _ _ _ _ _ Hnew St). split; [intros a [= <-]; eauto|auto].
      - split; discriminate.
      - split; discriminate.
      - destruct (A _ E0) as (l0 & [= <-] & Wl). destruct (leaf_step_wf _ _ _ _ _ _ _ _ _ Wl St). split; [intros a [= <-]; eauto|auto].
      - destruct (A _ E0) as (l0 & [= <-] & Wl). destruct (leaf_step_wf _ _ _ _ _ _ _ _ _ Wl St). split; [intros a [= <-]; eauto|].
        destruct r; intros n0 [= <-]; [auto|constructor; auto]. }
    destruct WA as [WA WO]. pose proof Wt as Wt0. inversion Wt as [| |? ? ? ? ? K TI F A]; subst. destruct RS as [b n n' s c3 Eb D El|b te' b' l' r c3 Eb Hb D Eg E1 St|b Eb Hb D Eg].
    + rewrite Forall_forall in IHc. pose proof (dget_In _ _ _ D) as Hin. assert (Wn : awf n) by (eapply (Forall_dget _ _ _ _ F); eauto).
      destruct (IHc _ Hin _ _ _ _ _ _ _ _ Wn El) as [W1 W2]. cbn [snd] in *.
      destruct (awf_dset te st wt alt ch b (match s with Some m => m | None => n' end) te) as (A1 & A2 & A3); auto; [destruct s; auto|left; eauto|].
      split; auto. constructor; auto.
    + destruct (leaf_step_wf _ _ _ _ _ _ _ _ _ Hnew St) as [W1 W2]. destruct (Hadd _ _ _ _ _ _ TI Eb Hb Eg E1) as [-> TI'].
      destruct (awf_dset te st wt alt ch (Z.of_nat (length ch)) (ALeaf l') te') as (A1 & A2 & A3); auto; [constructor; auto|].
      split; [constructor; auto|]. destruct r; [intros m [= <-]; auto|exact WO].
    + split; auto. constructor; auto.
Qed.

(** ** Inactive leaves *)
Lemma number_asplit l te ds n : asplit O l te ds = Ok n ->
  number is_aleaf n = Z.of_nat (length ds) /\ number is_adead n = 0%Z /\ number is_asplit n = 1%Z /\ alternates n = [].
Proof.
  intros H. apply asplit_inv in H as ->. rewrite !number_split, alternates_split. cbn [is_aleaf is_adead is_asplit app].
  assert (G : forall (vs : list L) (ks : list Z), length ks = length vs -> let ch := combine ks (map (fun d => ALeaf (I := I) (S := S) (E := E) (W := W) d) vs) in
     sum_all (number is_aleaf) ch = Z.of_nat (length vs) /\ sum_all (number is_adead) ch = 0%Z /\ sum_all (number is_asplit) ch = 0%Z /\ flat_map (fun kc => alternates (snd kc)) ch = []).
  { induction vs as [|v vs IH]; intros [|k ks] Hl; try discriminate Hl; cbn [map combine] in *; [repeat split|].
    destruct (IH ks) as (A1 & A2 & A3 & A4); [now injection Hl|]. unfold sum_all in *. cbn [map fold_right snd flat_map length]. rewrite A1, A2, A3, A4.
    rewrite !number_leaf by reflexivity. cbn [is_aleaf is_adead is_asplit]. repeat split; try lia. }
  specialize (G (map (a_child O l) ds) (map Z.of_nat (seq 0 (length ds)))). rewrite !map_length, map_map, seq_length in G. destruct (G eq_refl) as (A1 & A2 & A3 & A4).
  rewrite A1, A2, A3, A4. repeat split; lia.
Qed.
Lemma number_pos f (n : node) : (0 <= number f n)%Z. Proof. unfold number. lia. Qed.
Lemma sum_all_pos f (ch : list (Z * node)) : (forall n, (0 <= f n)%Z) -> (0 <= sum_all f ch)%Z.
Proof. intros H. unfold sum_all. induction ch as [|[k c] ch IH]; cbn; [lia|]. specialize (H c). lia. Qed.
Lemma sum_all_dget f (ch : list (Z * node)) b n : (forall n, (0 <= f n)%Z) -> dget ch b = Some n -> (f n <= sum_all f ch)%Z.
Proof.
  intros H. induction ch as [|[k c] ch IH]; [discriminate|]. cbn [dget]. unfold sum_all in *. cbn [map fold_right snd]. destruct (Z.eqb k b); intros D.
  - injection D as ->. pose proof (sum_all_pos f ch H). unfold sum_all in H0. lia.
  - specialize (IH D). specialize (H c). lia.
Qed.
Lemma leaf_step_alive l x y w c l' r c' : (forall l, a_restart O l <> None) -> leaf_step true l x y w c l' r c' -> forall n, r = Some n -> number is_adead n = 0%Z.
Proof.
  intros HR H n En. destruct H; try discriminate; injection En as <-.
  - reflexivity.
  - exfalso. eapply HR; eauto.
  - eapply number_asplit; eauto.
Qed.
Lemma alearn_alive : (forall l, a_restart O l <> None) -> forall t x y w c t' over c', awf t -> alearn O true t x y w c = Ok (t', over, c') ->
  number is_adead t = 0%Z -> number is_adead (match over with Some n => n | None => t' end) = 0%Z.
Proof.
  intros HR t. induction t as [l|i|te st wt alt ch IHa IHc] using anode_ind'; intros x y w c t' over c' Wt H H0.
  - cbn [alearn] in H. apply aleaf_learn_inv in H as (l' & -> & St). destruct over as [n|]; [|reflexivity]. eapply leaf_step_alive; eauto.
  - discriminate.
  - apply alearn_split_inv in H as (found & p & wt' & changed & v & c1 & alt' & over1 & c2 & te' & ch' & _ & _ & _ & _ & AS & RS & ->); [|exact Wt].
    assert (WO : forall n, over1 = Some n -> number is_adead n = 0%Z).
    { destruct AS as [l' r c3 St| |v E0 _|l l' r c3 E0 St|l l' r c3 E0 St]; try discriminate; [eapply leaf_step_alive; eauto|eapply leaf_step_alive; eauto|].
      destruct r; intros n0 [= <-]; [eapply leaf_step_alive; eauto|reflexivity]. }
    rewrite number_split in H0. cbn [is_adead] in H0. destruct RS as [b n n' s c3 Eb D El|b te' b' l' r c3 Eb Hb D Eg E1 St|b Eb Hb D Eg].
    + destruct over1 as [m|]; [auto|]. cbn [andb] in El. pose proof (sum_all_dget (number is_adead) ch b n (number_pos _) D). pose proof (number_pos is_adead n).
      rewrite Forall_forall in IHc. inversion Wt as [| |? ? ? ? ? K TI F A]; subst. assert (Wn : awf n) by (eapply (Forall_dget _ _ _ _ F); eauto).
      specialize (IHc _ (dget_In _ _ _ D) _ _ _ _ _ _ _ Wn El ltac:(cbn; lia)). rewrite number_split. cbn [is_adead]. rewrite (sum_all_dset _ _ _ _ _ D). cbn [snd] in *. lia.
    + inversion Wt as [| |? ? ? ? ? K TI F A]; subst. destruct (Hadd _ _ _ _ _ _ TI Eb Hb Eg E1) as [-> TI'].
      destruct r as [m|]; [eapply leaf_step_alive; eauto|]. destruct over1; [auto|].
      rewrite number_split. cbn [is_adead]. rewrite sum_all_fresh; [rewrite (number_leaf _ (ALeaf l')) by reflexivity; cbn [is_adead]; lia|].
      apply dget_None. rewrite K. intros Hi. apply in_map_iff in Hi as (i & E0 & Hi). apply in_seq in Hi. lia.
    + destruct over1; [auto|]. rewrite number_split. exact H0.
Qed.

(** ** Counters *)
Lemma akill_split te st wt alt (ch : list (Z * node)) c : akill (ASplit te st wt alt ch) c =
  fold_left (fun c kn => match snd kn with
    | ALeaf _ => count c (-1) 0 0 0 0 0
    | ADead _ => count c 0 (-1) 0 0 0 0
    | ASplit _ _ _ alt _ => akill (snd kn) (match alt with Some a => count (akill a c) 0 0 0 0 1 0 | None => c end) end) ch c.
Proof. cbn [akill]. revert c. induction ch as [|[k n] ch IH]; intros c; [reflexivity|]. cbn [fold_left snd]. rewrite <- IH. reflexivity. Qed.
Lemma akill_alternate (t : node) : (forall c, k_alternate (akill t c) = k_alternate c) /\
  match t with ASplit _ _ _ (Some a) _ => forall c, k_alternate (akill a c) = k_alternate c | _ => True end.
Proof.
  induction t as [l|i|te st wt alt ch IHa IHc] using anode_ind'; try (split; auto; fail). split; [|destruct alt; auto; apply IHa; auto].
  intros c. rewrite akill_split. revert c. induction IHc as [|[k n] ch [Hn Ha] F IH]; intros c; [reflexivity|]. cbn [fold_left snd] in *. rewrite IH.
  destruct n as [l|i|te' st' wt' alt2 ch2]; [cbn; lia|cbn; lia|]. rewrite Hn. destruct alt2 as [a|]; [|reflexivity]. cbn [count k_alternate]. rewrite Ha. lia.
Qed.
Lemma leaf_step_alternate linked l x y w c l' r c' : leaf_step linked l x y w c l' r c' -> k_alternate c' = k_alternate c /\ k_pruned c' = k_pruned c /\ k_switched c' = k_switched c.
Proof. intros H. destruct H; cbn; repeat split; lia. Qed.
Lemma judge_alternate t wt changed alt c v c' : judge O t wt changed alt c = Ok (v, c') -> (k_alternate c <= k_alternate c')%Z.
Proof.
  unfold judge. destruct changed; [intros [= <- <-]; cbn; lia|]. destruct alt as [a|]; [|intros [= <- <-]; lia]. intros H. apply bind_Ok in H as (aw & E1 & H).
  destruct (_ && _); [|injection H as <- <-; lia]. apply bind_Ok in H as (e & E2 & H). cbn zeta in H. destruct (_ <? _)%num.
  - apply bind_Ok in H as (n & E3 & H). apply bind_Ok in H as (m & E4 & H). injection H as <- <-. cbn [count k_alternate]. rewrite (proj1 (akill_alternate t)). cbn. lia.
  - destruct (_ <? _)%num; [|injection H as <- <-; lia]. destruct a as [l|i|te st w2 al ch]; [| |pose proof (proj1 (akill_alternate (ASplit te st w2 al ch)) c) as Hk; cbn [akill] in Hk]; injection H as <- <-; cbn [count k_alternate] in *; lia.
Qed.
Lemma alearn_alternate t : forall linked x y w c t' over c', awf t -> alearn O linked t x y w c = Ok (t', over, c') -> (k_alternate c <= k_alternate c')%Z.
Proof.
  induction t as [l|i|te st wt alt ch IHa IHc] using anode_ind'; intros linked x y w c t' over c' Wt H.
  - cbn [alearn] in H. apply aleaf_learn_inv in H as (l' & -> & St). apply leaf_step_alternate in St. lia.
  - discriminate.
  - apply alearn_split_inv in H as (found & p & wt' & changed & v & c1 & alt' & over1 & c2 & te' & ch' & _ & _ & _ & J & AS & RS & ->); [|exact Wt].
    apply judge_alternate in J. assert (k_alternate c2 = k_alternate c1) by (destruct AS; try reflexivity; eapply leaf_step_alternate; eauto).
    destruct RS as [b n n' s c3 Eb D El|b te' b' l' r c3 Eb Hb D Eg E1 St|b Eb Hb D Eg]; [|apply leaf_step_alternate in St; cbn [count k_alternate] in St; lia|lia].
    inversion Wt as [| |? ? ? ? ? K TI F A]; subst. rewrite Forall_forall in IHc. assert (Wn : awf n) by (eapply (Forall_dget _ _ _ _ F); eauto).
    specialize (IHc _ (dget_In _ _ _ D) _ _ _ _ _ _ _ _ Wn El). lia.
Qed.

Lemma alts_nil (ch : list (Z * node)) : flat_map (fun kc => alternates (snd kc)) ch = [] <-> Forall (fun kc => alternates (snd kc) = []) ch.
Proof.
  induction ch as [|x ch IH]; cbn [flat_map]; [split; auto|]. split.
  - intros H. apply app_eq_nil in H as [H1 H2]. constructor; [auto|tauto].
  - intros H. inversion H as [|? ? H1 H2]; subst. rewrite H1. tauto.
Qed.
Hypothesis Hfresh : forall x y w l, a_learn O (a_new O) x y w = Ok l -> a_due O l = true -> forall d, a_decide O l = Ok d -> exists l', d = Keep l'.
Lemma fresh_step linked x y w c l' r c' : leaf_step linked (a_new O) x y w c l' r c' -> r = None /\ c' = c.
Proof. intros H. destruct H; auto; edestruct Hfresh as (? & ?); eauto; discriminate. Qed.
Definition grown (t t' : node) (c c' : counts) : Prop :=
  (k_active c' - k_active c = number is_aleaf t' - number is_aleaf t /\ k_inactive c' - k_inactive c = number is_adead t' - number is_adead t /\
   k_decision c' - k_decision c = number is_asplit t' - number is_asplit t /\ k_pruned c' = k_pruned c /\ k_switched c' = k_switched c)%Z.
Lemma leaf_grown linked l x y w c l' r c' : leaf_step linked l x y w c l' r c' -> let n := match r with Some n => n | None => ALeaf l' end in alternates n = [] /\ grown (ALeaf l) n c c'.
Proof.
  intros H. unfold grown. destruct H; cbn zeta; rewrite ?number_leaf by reflexivity; cbn; try (repeat split; lia).
  destruct (number_asplit _ _ _ _ H2) as (A1 & A2 & A3 & A4). rewrite A1, A2, A3, A4. repeat split; lia.
Qed.
Lemma alearn_counted t : forall x y w c t' over c', awf t -> alternates t = [] -> alearn O true t x y w c = Ok (t', over, c') -> k_alternate c' = k_alternate c ->
  let n := match over with Some n => n | None => t' end in alternates n = [] /\ grown t n c c' /\ (is_asplit t = true -> over = None).
Proof.
  induction t as [l|i|te st wt alt ch IHa IHc] using anode_ind'; intros x y w c t' over c' Wt A0 H K0.
  - cbn [alearn] in H. apply aleaf_learn_inv in H as (l' & -> & St). apply leaf_grown in St as [S1 S2]. split; [exact S1|]. split; [exact S2|discriminate].
  - discriminate.
  - pose proof H as H00. apply alearn_split_inv in H as (found & p & wt' & changed & v & c1 & alt' & over1 & c2 & te' & ch' & _ & _ & _ & J & AS & RS & ->); [|exact Wt].
    rewrite alternates_split in A0. apply app_eq_nil in A0 as [Ea Ec]. assert (alt = None) as -> by (destruct alt; [discriminate|reflexivity]). clear Ea.
    inversion Wt as [| |? ? ? ? ? K TI F A]; subst.
    assert (M : (k_alternate c2 <= k_alternate c')%Z).
    { destruct RS as [b n n' s c3 Eb D El|b te' b' l' r c3 Eb Hb D Eg E1 St|b Eb Hb D Eg]; [|apply leaf_step_alternate in St; cbn [count k_alternate] in St; lia|lia].
      eapply alearn_alternate; [eapply (Forall_dget _ _ _ _ F); eauto|eauto]. }
    cbn [judge] in J. destruct changed.
    { exfalso. injection J as <- <-. assert (k_alternate c2 = k_alternate c + 1)%Z; [|lia]. inversion AS; subst; try discriminate.
      - match goal with H : leaf_step _ _ _ _ _ _ _ _ _ |- _ => apply leaf_step_alternate in H; cbn [count k_alternate] in H; lia end.
      - destruct H0; discriminate. }
    injection J as <- <-. assert (alt' = None /\ over1 = None /\ c2 = c) as (-> & -> & ->) by (inversion AS; subst; auto; discriminate). clear AS.
    rewrite alts_nil in Ec.
    destruct RS as [b n n' s c3 Eb D El|b te' b' l' r c3 Eb Hb D Eg E1 St|b Eb Hb D Eg].
    + cbn [andb] in El. rewrite Forall_forall in IHc. pose proof (dget_In _ _ _ D) as Hin. assert (Wn : awf n) by (eapply (Forall_dget _ _ _ _ F); eauto).
      destruct (IHc _ Hin _ _ _ _ _ _ _ Wn (Forall_dget (fun n => alternates n = []) _ _ _ Ec D) El K0) as (A1 & A2 & _). cbn [snd] in *. split; [|split; [|reflexivity]].
      * rewrite alternates_split. cbn [app]. rewrite alts_nil. apply (Forall_dset' (fun n => alternates n = [])); auto.
      * unfold grown in *. rewrite !number_split, !(sum_all_dset _ _ _ _ _ D). cbn [is_aleaf is_adead is_asplit]. lia.
    + apply fresh_step in St as [-> ->]. destruct (Hadd _ _ _ _ _ _ TI Eb Hb Eg E1) as [-> TI'].
      assert (D' : dget ch (Z.of_nat (length ch)) = None). { apply dget_None. rewrite K. intros Hi. apply in_map_iff in Hi as (i & E0 & Hi). apply in_seq in Hi. lia. }
      split; [|split; [|reflexivity]].
      * rewrite alternates_split. cbn [app]. rewrite alts_nil. apply (Forall_dset' (fun n => alternates n = [])); auto.
      * unfold grown. rewrite !number_split, !(sum_all_fresh _ _ _ _ D'), !(number_leaf _ (ALeaf l')) by reflexivity. cbn [is_aleaf is_adead is_asplit count k_active k_inactive k_decision k_pruned k_switched]. lia.
    + split; [|split; [|reflexivity]]; [rewrite alternates_split; cbn [app]; rewrite alts_nil; exact Ec|]. unfold grown. rewrite !number_split. cbn. lia.
Qed.
End Ada.
