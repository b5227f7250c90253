(** Proofs about the default reset: the printed text is read back. *)
From Coq Require Import List Bool String Ascii Arith Lia.
From Verif Require Import Model.DefaultReset Spec.DefaultResetSpec.
Import ListNotations.
Local Notation len := (@List.length _).

Section Ind.
Variable P : pv -> Prop.
Hypothesis Hw : forall w, P (PWord w).
Hypothesis Hs : forall s, P (PStr s).
Hypothesis Hl : forall l, Forall P l -> P (PList l).
Hypothesis Ho : forall c kvs, Forall (fun kv => P (snd kv)) kvs -> P (PObj c kvs).
Fixpoint pv_ind' (v : pv) : P v :=
  match v with
  | PWord w => Hw w
  | PStr s => Hs s
  | PList l => Hl l ((fix go l : Forall P l := match l with [] => Forall_nil _ | x :: r => Forall_cons _ (pv_ind' x) (go r) end) l)
  | PObj c kvs => Ho c kvs ((fix go l : Forall (fun kv => P (snd kv)) l := match l with [] => Forall_nil _ | (k, x) :: r => Forall_cons (k, x) (pv_ind' x) (go r) end) kvs)
  end.
End Ind.

Lemma and_all {A} (f : A -> Prop) l : fold_right and True (map f l) <-> Forall f l.
Proof. induction l; simpl; split; intros H; auto; [constructor; tauto|inversion H; tauto]. Qed.

(** Text without blanks and without cuts *)
Fixpoint rend (v : pv) : text :=
  match v with
  | PWord w => w
  | PStr s => txt "'" ++ s ++ txt "'"
  | PList l => txt "[" ++ join (txt ",") (map rend l) ++ txt "]"
  | PObj c kvs => c ++ txt "(" ++ join (txt ",") (map (fun kv => fst kv ++ txt "=" ++ rend (snd kv)) kvs) ++ txt ")"
  end.
(** Values that are read back *)
Fixpoint good (v : pv) : Prop :=
  match v with
  | PWord w => is_word w
  | PStr s => ~ In "'"%char s
  | PList l => fold_right and True (map good l)
  | PObj c kvs => is_word c /\ fold_right and True (map (fun kv => is_word (fst kv) /\ good (snd kv)) kvs)
  end.

Lemma squeeze_app a b : squeeze (a ++ b) = squeeze a ++ squeeze b.
Proof. apply filter_app. Qed.
Lemma squeeze_id t : Forall (fun c => blank c = false) t -> squeeze t = t.
Proof. induction 1; simpl; auto. unfold squeeze in *. simpl. rewrite H. simpl. congruence. Qed.
Lemma squeeze_same t : squeeze t = t -> Forall (fun c => blank c = false) t.
Proof.
  intros H. apply Forall_forall. intros c I. rewrite <- H in I. apply filter_In in I. destruct I as [_ I]. destruct (blank c); auto.
Qed.
Lemma squeeze_word w : is_word w -> squeeze w = w.
Proof. intros [_ H]. apply squeeze_id. eapply Forall_impl; [|exact H]. simpl. tauto. Qed.
Lemma squeeze_join l : squeeze (join (txt ", ") l) = join (txt ",") (map squeeze l).
Proof.
  induction l as [|x l IH]; [reflexivity|]. destruct l as [|y l]; [reflexivity|].
  change (join (txt ", ") (x :: y :: l)) with (x ++ txt ", " ++ join (txt ", ") (y :: l)).
  rewrite !squeeze_app, IH. reflexivity.
Qed.
Lemma squeeze_cut l : map squeeze (cut l) = if 30 <? len l then firstn 30 (map squeeze l) ++ [txt "..."] else map squeeze l.
Proof. unfold cut. destruct (30 <? len l); auto. rewrite map_app, firstn_map. reflexivity. Qed.
Lemma squeeze_repr v : printable v -> squeeze (repr v) = rend (kept v).
Proof.
  induction v as [w|s|l IH|c kvs IH] using pv_ind'; intros P.
  - apply squeeze_word, P.
  - cbn [repr kept rend]. rewrite !squeeze_app. reflexivity.
  - cbn [repr kept rend]. rewrite !squeeze_app, squeeze_join, squeeze_cut, map_length.
    assert (E : map squeeze (map repr l) = map rend (map kept l)).
    { rewrite !map_map. apply map_ext_in. intros x I. simpl in P. rewrite and_all, Forall_forall in P. rewrite Forall_forall in IH. auto. }
    rewrite E. destruct (30 <? len l); [rewrite map_app, firstn_map|]; reflexivity.
  - cbn [repr kept rend]. simpl in P. destruct P as (Pc & Pl & Pk). rewrite and_all, Forall_forall in Pk. rewrite Forall_forall in IH.
    rewrite !squeeze_app, squeeze_join, squeeze_cut, map_length.
    match goal with |- context [30 <? ?n] => replace (30 <? n) with false by (symmetry; apply Nat.ltb_ge; exact Pl) end.
    rewrite (squeeze_word c) by apply Pc. rewrite !map_map. do 4 f_equal.
    apply map_ext_in. intros kv I. destruct kv as [k v]. destruct (Pk (k, v) I) as [Kw Kv]. specialize (IH (k, v) I Kv). cbn [fst snd] in *.
    rewrite !squeeze_app, (squeeze_word k Kw), IH. reflexivity.
Qed.
Lemma kept_good v : printable v -> good (kept v).
Proof.
  induction v as [w|s|l IH|c kvs IH] using pv_ind'; simpl; intros P.
  - apply P.
  - intros I. apply filter_In in I. unfold plain in P. rewrite Forall_forall in P. destruct (P _ (proj1 I)) as [X _]. apply X. reflexivity.
  - rewrite and_all in *. rewrite Forall_forall in *.
    assert (A : forall x, In x (map kept l) -> good x) by (intros x I; apply in_map_iff in I; destruct I as (y & <- & I); auto).
    destruct (30 <? len l); auto. intros x I. apply in_app_or in I. destruct I as [I|[<-|[]]].
    + apply A. rewrite <- (firstn_skipn 30). apply in_or_app. auto.
    + split; [discriminate|]. repeat constructor.
  - destruct P as ((Pc & _) & Pl & Pk). split; auto. rewrite and_all in *. rewrite Forall_forall in *.
    intros x I. apply in_map_iff in I. destruct I as (kv & <- & I). simpl. destruct (Pk kv I). auto.
Qed.

(** ** Reading *)
Definition stops (r : text) : Prop := match r with [] => True | c :: _ => c = ","%char \/ c = "]"%char \/ c = ")"%char end.
Lemma word_reads w r : Forall (fun c => special c = false /\ blank c = false) w -> match r with [] => True | c :: _ => special c = true end -> word (w ++ r) = (w, r).
Proof.
  intros H S. induction H as [|c w [Hc _] H IH]; simpl.
  - destruct r; simpl; auto. rewrite S. reflexivity.
  - rewrite Hc, IH. reflexivity.
Qed.
Lemma quoted_reads s r : ~ In "'"%char s -> quoted (s ++ "'"%char :: r) = Some (s, r).
Proof.
  induction s as [|c s IH]; intros H; simpl; auto.
  destruct (Ascii.eqb_spec c "'") as [->|D]; [exfalso; apply H; left; auto|]. rewrite IH; auto. intros I. apply H. right; auto.
Qed.
Lemma strip_app p r : strip p (p ++ r) = Some r.
Proof. induction p; simpl; auto. rewrite Ascii.eqb_refl. auto. Qed.
Lemma strip_one a b r : a <> b -> strip [a] (b :: r) = None.
Proof. intros H. simpl. destruct (Ascii.eqb_spec a b); congruence. Qed.
Lemma strip_occurs p t r : strip p t = Some r -> t = p ++ r.
Proof.
  revert t. induction p; simpl; intros t H; [congruence|]. destruct t as [|b t]; [discriminate|].
  destruct (Ascii.eqb_spec a b); [|discriminate]. subst. f_equal. auto.
Qed.
(** The first character of a value, and of what follows "(" *)
Lemma special_ne c d : special c = false -> special d = true -> c <> d.
Proof. intros A B E. subst. congruence. Qed.
Lemma rend_head v : good v -> exists c r, rend v = c :: r /\ c <> "]"%char /\ c <> ","%char /\ c <> ")"%char.
Proof.
  destruct v as [w|s|l|c kvs]; simpl; intros G.
  - destruct G as [N F]. destruct w as [|c w]; [congruence|]. exists c, w. inversion F as [|? ? [S _] _]; subst.
    repeat split; auto; apply special_ne; auto.
  - eexists _, _. split; [reflexivity|]. repeat split; discriminate.
  - eexists _, _. split; [reflexivity|]. repeat split; discriminate.
  - destruct G as [[N F] _]. destruct c as [|d c]; [congruence|]. eexists d, _. split; [reflexivity|]. inversion F as [|? ? [S _] _]; subst.
    repeat split; apply special_ne; auto.
Qed.
Definition arg (kv : text * pv) : text := fst kv ++ txt "=" ++ rend (snd kv).
Definition reads (v : pv) : Prop := forall fuel r, len (rend v) <= fuel -> stops r -> parse fuel (rend v ++ r) = Some (v, r).

Lemma items_read l : l <> [] -> Forall reads l -> Forall good l -> forall fuel r, len (join (txt ",") (map rend l)) + 1 <= fuel ->
  parse_items fuel (join (txt ",") (map rend l) ++ "]"%char :: r) = Some (l, r).
Proof.
  induction l as [|x l IH]; intros N R G fuel r F; [congruence|]. inversion R as [|? ? Rx Rl]; subst. inversion G as [|? ? Gx Gl]; subst.
  destruct fuel as [|f]; [lia|]. destruct l as [|y l].
  - cbn [map join] in *. cbn [parse_items]. rewrite (Rx f ("]"%char :: r)) by (simpl; auto; lia). reflexivity.
  - change (join (txt ",") (map rend (x :: y :: l))) with (rend x ++ txt "," ++ join (txt ",") (map rend (y :: l))) in *.
    rewrite !app_length in F. change (len (txt ",")) with 1 in F.
    cbn [parse_items]. rewrite <- !app_assoc. rewrite Rx by (simpl; auto; lia).
    change (txt "," ++ join (txt ",") (map rend (y :: l)) ++ "]"%char :: r) with (","%char :: (join (txt ",") (map rend (y :: l)) ++ "]"%char :: r)).
    change (strip (txt ",") (","%char :: ?z)) with (Some z).
    cbv beta iota. rewrite IH; auto; [discriminate|lia].
Qed.
Lemma args_read l : l <> [] -> Forall (fun kv => reads (snd kv)) l -> Forall (fun kv => is_word (fst kv) /\ good (snd kv)) l -> forall fuel r, len (join (txt ",") (map arg l)) + 1 <= fuel ->
  parse_args fuel (join (txt ",") (map arg l) ++ ")"%char :: r) = Some (l, r).
Proof.
  induction l as [|[k x] l IH]; intros N R G fuel r F; [congruence|]. inversion R as [|? ? Rx Rl]; subst. inversion G as [|? ? [Gk Gx] Gl]; subst.
  destruct fuel as [|f]; [lia|]. simpl in Rx, Gk, Gx. destruct l as [|y l].
  - cbn [map join] in *. unfold arg in *. cbn [fst snd] in *. rewrite !app_length in F. change (len (txt "=")) with 1 in F.
    cbn [parse_args]. rewrite <- !app_assoc. rewrite word_reads by (apply Gk || reflexivity).
    change (strip (txt "=") (txt "=" ++ ?z)) with (Some z). cbv beta iota.
    rewrite (Rx f (")"%char :: r)) by (simpl; auto; lia). reflexivity.
  - change (join (txt ",") (map arg ((k, x) :: y :: l))) with ((k ++ txt "=" ++ rend x) ++ txt "," ++ join (txt ",") (map arg (y :: l))) in *.
    rewrite !app_length in F. change (len (txt ",")) with 1 in F. change (len (txt "=")) with 1 in F.
    cbn [parse_args]. rewrite <- !app_assoc. rewrite word_reads by (apply Gk || reflexivity).
    change (strip (txt "=") (txt "=" ++ ?z)) with (Some z). cbv beta iota.
    rewrite Rx by (simpl; auto; lia).
    change (strip (txt ",") (txt "," ++ ?z)) with (Some z). cbv beta iota.
    rewrite IH; auto; [discriminate|lia].
Qed.

Lemma stops_special r : stops r -> match r with [] => True | c :: _ => special c = true end.
Proof. destruct r; simpl; auto. intros [-> | [-> | ->]]; reflexivity. Qed.
Lemma stops_open r : stops r -> strip (txt "(") r = None.
Proof. destruct r; auto. intros [-> | [-> | ->]]; reflexivity. Qed.
Lemma parse_word f w r : is_word w -> match r with [] => True | c :: _ => special c = true end ->
  parse (S f) (w ++ r) =
  match strip (txt "(") r with
  | None => Some (PWord w, r)
  | Some r2 => match strip (txt ")") r2 with
               | Some r3 => Some (PObj w [], r3)
               | None => match parse_args f r2 with Some (l, r3) => Some (PObj w l, r3) | None => None end
               end
  end.
Proof.
  intros [N F] S. pose proof (word_reads w r F S) as W. destruct w as [|c w]; [congruence|].
  inversion F as [|? ? [Sc _] _]; subst.
  change ((c :: w) ++ r) with (c :: (w ++ r)) in *. cbn [parse].
  destruct (Ascii.eqb_spec c "'") as [->|_]; [discriminate|]. destruct (Ascii.eqb_spec c "[") as [->|_]; [discriminate|].
  rewrite W. reflexivity.
Qed.
Lemma join_head l x : exists r, join (txt ",") (x :: l) = x ++ r.
Proof. destruct l; [exists []; simpl; rewrite app_nil_r; auto|]. eexists. reflexivity. Qed.
Lemma all_read v : good v -> reads v.
Proof.
  induction v as [w|s|l IH|c kvs IH] using pv_ind'; intros G fuel r F S.
  - cbn [rend] in *. destruct fuel as [|f]; [destruct G as [N _]; destruct w; [congruence|simpl in F; lia]|].
    rewrite parse_word by (exact G || apply stops_special, S). rewrite stops_open; auto.
  - cbn [rend] in *. rewrite !app_length in F. change (len (txt "'")) with 1 in F. destruct fuel as [|f]; [lia|].
    rewrite <- !app_assoc. change (txt "'" ++ s ++ txt "'" ++ r) with ("'"%char :: (s ++ "'"%char :: r)). cbn [parse].
    rewrite Ascii.eqb_refl, quoted_reads by exact G. reflexivity.
  - cbn [rend] in *. rewrite !app_length in F. change (len (txt "[")) with 1 in F. change (len (txt "]")) with 1 in F. destruct fuel as [|f]; [lia|].
    cbn [good] in G. rewrite and_all in G. rewrite <- !app_assoc.
    change (txt "[" ++ join (txt ",") (map rend l) ++ txt "]" ++ r) with ("["%char :: (join (txt ",") (map rend l) ++ "]"%char :: r)). cbn [parse].
    change (Ascii.eqb "[" "'") with false. rewrite Ascii.eqb_refl. cbv iota.
    destruct l as [|x l]; [reflexivity|].
    assert (R : Forall reads (x :: l)) by (apply Forall_forall; intros y I; rewrite Forall_forall in IH, G; auto).
    rewrite items_read; auto; [|discriminate|lia].
    destruct (rend_head x) as (d & t & E & D & _); [inversion G; auto|].
    destruct (join_head (map rend l) (rend x)) as [t' E']. cbn [map]. rewrite E', E. cbn [List.app].
    change (txt "]") with ["]"%char]. rewrite strip_one by congruence. reflexivity.
  - cbn [rend] in *. cbn [good] in G. destruct G as [Gc Gk]. rewrite and_all in Gk. rewrite !app_length in F.
    change (len (txt "(")) with 1 in F. change (len (txt ")")) with 1 in F. destruct fuel as [|f]; [lia|].
    change (map (fun kv => fst kv ++ txt "=" ++ rend (snd kv)) kvs) with (map arg kvs) in *.
    rewrite <- !app_assoc. rewrite parse_word by (auto; reflexivity).
    change (strip (txt "(") (txt "(" ++ join (txt ",") (map arg kvs) ++ txt ")" ++ r)) with (Some (join (txt ",") (map arg kvs) ++ ")"%char :: r)). cbv beta iota.
    destruct kvs as [|kv kvs]; [reflexivity|].
    assert (R : Forall (fun kv => reads (snd kv)) (kv :: kvs)).
    { apply Forall_forall. intros y I. rewrite Forall_forall in IH, Gk. apply IH; auto. apply Gk; auto. }
    rewrite args_read; auto; [|discriminate|].
    2: { destruct Gc as [N _]. destruct c; [congruence|]. cbn [List.length] in F. unfold text in *. lia. }
    destruct (join_head (map arg kvs) (arg kv)) as [t' E']. cbn [map]. rewrite E'. unfold arg.
    inversion Gk as [|? ? [[N Fk] _] _]; subst. destruct (fst kv) as [|d k]; [congruence|]. inversion Fk as [|? ? [Sd _] _]; subst.
    cbn [List.app]. change (txt ")") with [")"%char]. rewrite strip_one; [reflexivity|]. intros <-. discriminate.
Qed.

(** ** Renaming *)
Lemma replace_none f p q t : ~ occurs p t -> replace f p q t = t.
Proof.
  revert t. induction f; intros t H; simpl; auto. destruct (strip p t) as [r|] eqn:E.
  - exfalso. apply H. apply strip_occurs in E. exists [], r. exact E.
  - destruct t as [|c t]; auto. f_equal. apply IHf. intros (a & b & X). apply H. exists (c :: a), b. simpl. congruence.
Qed.
Lemma replace_first p q r : p <> [] -> ~ occurs p r -> replace (len (p ++ r)) p q (p ++ r) = q ++ r.
Proof.
  intros N H. destruct p as [|c p]; [congruence|]. change (len ((c :: p) ++ r)) with (S (len (p ++ r))). cbn [replace].
  rewrite strip_app, replace_none; auto.
Qed.
Lemma self_init_word : is_word self_init.
Proof. split; [discriminate|]. repeat constructor. Qed.
Lemma name_not_init c : is_name c -> text_eqb c self_init = false.
Proof. intros [_ H]. unfold text_eqb. destruct (list_eq_dec ascii_dec c self_init) as [->|]; auto. exfalso. apply H. vm_compute. tauto. Qed.

(** ** Evaluation *)
Definition outcome (b : bool) (v : pv) : list kwargs * option pv := ([], if b then Some v else None).
Fixpoint eval_list (l : list pv) : list kwargs * option (list pv) :=
  match l with
  | [] => ([], Some [])
  | x :: r => match eval x with
              | (cs, None) => (cs, None)
              | (cs, Some u) => let (ds, o) := eval_list r in (cs ++ ds, match o with Some us => Some (u :: us) | None => None end)
              end
  end.
Fixpoint eval_args (l : kwargs) : list kwargs * option kwargs :=
  match l with
  | [] => ([], Some [])
  | (k, x) :: r => match eval x with
                   | (cs, None) => (cs, None)
                   | (cs, Some u) => let (ds, o) := eval_args r in (cs ++ ds, match o with Some us => Some ((k, u) :: us) | None => None end)
                   end
  end.
Lemma eval_PList l : eval (PList l) = let (cs, o) := eval_list l in (cs, match o with Some us => Some (PList us) | None => None end).
Proof. reflexivity. Qed.
Lemma eval_self kvs : eval (PObj self_init kvs) = match eval_args kvs with (cs, Some args) => (cs ++ [args], Some (PWord (txt "None"))) | (cs, None) => (cs, None) end.
Proof. reflexivity. Qed.
Lemma eval_list_ok (b : pv -> bool) l : Forall (fun v => eval v = outcome (b v) v) l -> eval_list l = ([], if forallb b l then Some l else None).
Proof.
  induction 1 as [|v l H F IH]; auto. cbn [eval_list forallb]. rewrite H, IH. unfold outcome. destruct (b v), (forallb b l); reflexivity.
Qed.
Lemma eval_args_ok (b : pv -> bool) l : Forall (fun kv => eval (snd kv) = outcome (b (snd kv)) (snd kv)) l -> eval_args l = ([], if forallb (fun kv => b (snd kv)) l then Some l else None).
Proof.
  induction 1 as [|[k v] l H F IH]; auto. cbn [eval_args forallb snd] in *. rewrite H, IH. unfold outcome. destruct (b v), (forallb _ l); reflexivity.
Qed.
(** [usable] of what is kept *)
Fixpoint clear (v : pv) : bool :=
  match v with PWord w => known w | PStr _ => true | PList l => forallb (fun b => b) (map clear l) | PObj _ _ => false end.
Lemma forallb_map {A} (f : A -> bool) l : forallb (fun b => b) (map f l) = forallb f l.
Proof. induction l; simpl; congruence. Qed.
Lemma digit_in c : digit c = existsb (Ascii.eqb c) (txt "0123456789").
Proof. destruct c as [[] [] [] [] [] [] [] []]; reflexivity. Qed.
Lemma literal_known w : w <> txt "..." -> known w = literal w.
Proof.
  intros N. unfold known, literal, text_eqb. cbn [existsb].
  destruct (list_eq_dec ascii_dec w (txt "...")) as [E|_]; [congruence|].
  unfold number. destruct w as [|c r]; [reflexivity|]. rewrite digit_in. rewrite !orb_false_r, orb_comm. f_equal. f_equal. f_equal.
  destruct r as [|d r]; [reflexivity|]. apply digit_in.
Qed.
Lemma clear_kept v : printable v -> clear (kept v) = usable v.
Proof.
  induction v as [w|s|l IH|c kvs IH] using pv_ind'; intros P; auto; [apply literal_known, P|]. cbn [kept clear usable]. cbn [printable] in P. rewrite and_all, Forall_forall in P.
  assert (E : map clear (map kept l) = map usable l) by (rewrite map_map; apply map_ext_in; rewrite Forall_forall in IH; auto).
  destruct (30 <? len l) eqn:B.
  - rewrite map_app, <- firstn_map, E, forallb_app. cbn [map forallb clear]. change (known (txt "...")) with true. rewrite !andb_true_r. reflexivity.
  - rewrite E. rewrite firstn_all2; auto. rewrite map_length. apply Nat.ltb_ge; auto.
Qed.
Lemma eval_kept v : printable v -> eval (kept v) = outcome (clear (kept v)) (kept v).
Proof.
  induction v as [w|s|l IH|c kvs IH] using pv_ind'; intros P; auto.
  - cbn [kept]. rewrite eval_PList. cbn [printable] in P. rewrite and_all, Forall_forall in P. rewrite Forall_forall in IH.
    assert (A : Forall (fun v => eval v = outcome (clear v) v) (map kept l)).
    { apply Forall_forall. intros x I. apply in_map_iff in I. destruct I as (y & <- & I). auto. }
    rewrite (eval_list_ok clear).
    + cbn [clear]. rewrite forallb_map. unfold outcome. destruct (forallb clear _); reflexivity.
    + destruct (30 <? len l); auto. apply Forall_app. split; [|repeat constructor].
      rewrite Forall_forall in *. intros x I. apply A. rewrite <- (firstn_skipn 30). apply in_or_app. auto.
  - cbn [printable] in P. destruct P as (Pc & _). cbn [kept eval clear]. rewrite name_not_init; auto.
Qed.

(** ** All together *)
Lemma reset_is cls kvs t : is_name cls -> parameters kvs -> shown cls kvs t -> ~ occurs cls (skipn (len cls) (squeeze t)) ->
  reset cls t = if forallb usable (map snd kvs) then ([map (fun kv => (fst kv, kept (snd kv))) kvs], Done) else ([], NameError).
Proof.
  intros Nc [Pl Pk] [Sh _] Oc. set (ks := map (fun kv => (fst kv, kept (snd kv))) kvs).
  assert (P : printable (PObj cls kvs)) by (cbn [printable]; rewrite and_all; auto).
  rewrite (squeeze_repr _ P) in Sh. cbn [kept] in Sh. fold ks in Sh.
  assert (G : good (PObj self_init ks)).
  { pose proof (kept_good _ P) as K. cbn [kept good] in *. split; [apply self_init_word|apply K]. }
  assert (C : command cls t = rend (PObj self_init ks)).
  { unfold command. cbv zeta. rewrite Sh in *. cbn [rend] in *.
    rewrite skipn_app, skipn_all, Nat.sub_diag in Oc. cbn [skipn List.app] in Oc.
    apply replace_first; auto. destruct Nc as [[N _] _]. exact N. }
  unfold reset. cbv zeta. rewrite C.
  pose proof (all_read _ G (S (len (rend (PObj self_init ks)))) [] (Nat.le_succ_diag_r _) I) as R. rewrite app_nil_r in R. rewrite R.
  rewrite eval_self, (eval_args_ok clear).
  - replace (forallb (fun kv => clear (snd kv)) ks) with (forallb usable (map snd kvs)).
    + destruct (forallb usable (map snd kvs)); reflexivity.
    + subst ks. clear - Pk. induction Pk as [|[k v] kvs [_ Pv] Pk IH]; auto. cbn [map forallb fst snd] in *. rewrite clear_kept, IH; auto.
  - subst ks. apply Forall_forall. intros x I. apply in_map_iff in I. destruct I as (kv & <- & I). cbn [snd]. apply eval_kept.
    rewrite Forall_forall in Pk. apply Pk; auto.
Qed.
Lemma intact_kept v : printable v -> (intact v <-> usable v = true /\ kept v = v).
Proof.
  induction v as [w|s|l IH|c kvs IH] using pv_ind'; intros P.
  - cbn. tauto.
  - cbn [intact usable kept]. split; [intros H; split; auto; f_equal; apply squeeze_id; auto|].
    intros [_ H]. injection H as H. apply squeeze_same; auto.
  - cbn [printable] in P. rewrite and_all in P. cbn [intact usable kept]. rewrite and_all.
    assert (E : Forall intact l <-> forallb usable l = true /\ map kept l = l).
    { clear - IH P. induction l as [|x l IHl]; [cbn; split; auto|]. inversion IH as [|? ? Ix Il]; subst. inversion P as [|? ? Px Pl]; subst. cbn [forallb map].
      specialize (IHl Il Pl). specialize (Ix Px). rewrite andb_true_iff. split.
      - intros F. inversion F as [|? ? Fx Fl]; subst. apply Ix in Fx. apply IHl in Fl. destruct Fx, Fl. repeat split; auto. congruence.
      - intros [[A B] C]. injection C as C D. constructor; [apply Ix; auto|apply IHl; auto]. }
    rewrite E. destruct (30 <? len l) eqn:B.
    + apply Nat.ltb_lt in B. split; [intros [H _]; lia|]. intros [_ H]. injection H as H. exfalso.
      assert (In (PWord (txt "...")) l) as I by (rewrite <- H; apply in_or_app; right; left; auto).
      rewrite Forall_forall in P. apply (P _ I). reflexivity.
    + apply Nat.ltb_ge in B. rewrite firstn_all2, forallb_map by (rewrite map_length; auto). split.
      * intros [_ [A C]]. split; auto. congruence.
      * intros [A C]. injection C as C. auto.
  - cbn. split; [tauto|]. intros [H _]. discriminate.
Qed.
