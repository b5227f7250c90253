(** The transforms against Spec/TransformSpec.v. *)
From Coq Require Import List ZArith Bool Lia.
From Verif Require Import Base.Py Base.Num Spec.Lists Spec.TransformSpec Model.FastBuffer Model.Transform
  Proofs.ListFacts Proofs.FastBufferProofs Spec.BoundedFifo Spec.FastBufferSpec.
Import ListNotations.
Local Open Scope nat_scope.

Lemma update_length {A} (l : list A) : forall i x, length (update l i x) = length l.
Proof. induction l as [|a l IH]; intros [|i] x; simpl; auto. Qed.
Lemma update_nth {A} (d : A) (l : list A) : forall i j x, nth j (update l i x) d = if (i =? j) && (i <? length l) then x else nth j l d.
Proof.
  induction l as [|a l IH]; intros i j x.
  - destruct j; simpl; now rewrite andb_false_r.
  - destruct i, j; simpl; auto. rewrite IH. reflexivity.
Qed.
Lemma update_mid {A} (a : list A) v y b : update (a ++ y :: b) (length a) v = a ++ v :: b.
Proof. induction a as [|z a IH]; simpl; auto. now rewrite IH. Qed.
Lemma update_update {A} (l : list A) : forall i x y, update (update l i x) i y = update l i y.
Proof. induction l as [|a l IH]; intros [|i] x y; simpl; auto. now rewrite IH. Qed.
Lemma update_same {A} (d : A) (l : list A) : forall i, update l i (nth i l d) = l.
Proof. induction l as [|a l IH]; intros [|i]; simpl; auto. now rewrite IH. Qed.

Lemma skipn_nth {A} (d : A) (l : list A) : forall k, k < length l -> skipn k l = nth k l d :: skipn (S k) l.
Proof. induction l as [|a l IH]; intros [|k] H; simpl in *; try lia; auto. rewrite IH by lia. reflexivity. Qed.

Lemma nodup_app_r {A} (l m : list A) : NoDup (l ++ m) -> NoDup m.
Proof. induction l as [|a l IH]; simpl; auto. intros N. inversion N; auto. Qed.

Section Structural.
Context {T : Type} `{Num T}.
Notation cell := (option T).
Notation row := (list cell).
Notation heap := (list row).

Lemma hget_update (h : heap) i r k : i < length h -> hget (update h i r) k = if i =? k then r else hget h k.
Proof. intros L. unfold hget. rewrite update_nth. destruct (i =? k); simpl; auto. destruct (Nat.ltb_spec i (length h)); auto; lia. Qed.

(** Going over the cells of row i, when the j-th new value is [g j] whatever was already overwritten. *)
Lemma each_cell_ok (f : tstate T -> nat -> cell -> res cell) (g : nat -> cell) h w i x :
  i < length h -> hget h i = x ->
  (forall k, k < length x -> f (mkT (update h i (map g (seq 0 k) ++ skipn k x)) w) k (nth k x None) = Ok (g k)) ->
  each_cell f (mkT h w) i (seq 0 (length x)) = Ok (mkT (update h i (map g (seq 0 (length x)))) w).
Proof.
  intros Li Hx Hf.
  assert (G : forall m k, k + m = length x ->
    each_cell f (mkT (update h i (map g (seq 0 k) ++ skipn k x)) w) i (seq k m) = Ok (mkT (update h i (map g (seq 0 (length x)))) w)).
  { induction m as [|m IH]; intros k E; simpl.
    - assert (k = length x) by lia. subst k. rewrite skipn_all, app_nil_r. reflexivity.
    - rewrite hget_update, Nat.eqb_refl by auto.
      assert (L : length (map g (seq 0 k)) = k) by now rewrite map_length, seq_length.
      rewrite app_nth2 by lia. rewrite L, Nat.sub_diag. rewrite (skipn_nth None x k) by lia. simpl nth.
      rewrite <- (skipn_nth None x k) by lia. rewrite Hf by lia. simpl.
      unfold hset. rewrite hget_update, Nat.eqb_refl by auto.
      rewrite (skipn_nth None x k) by lia.
      replace (update (map g (seq 0 k) ++ nth k x None :: skipn (S k) x) k (g k)) with (map g (seq 0 (S k)) ++ skipn (S k) x).
      2: { pose proof (update_mid (map g (seq 0 k)) (g k) (nth k x None) (skipn (S k) x)) as U. rewrite L in U. rewrite U.
           rewrite seq_S, map_app, <- app_assoc. reflexivity. }
      rewrite update_update. apply IH. lia. }
  specialize (G (length x) 0 ltac:(lia)). cbn [seq map app skipn] in G.
  replace (update h i x) with h in G; [exact G|]. rewrite <- Hx. unfold hget. symmetry. apply update_same.
Qed.

Lemma fb_add_rep {A} n (q : list A) b xs : 1 <= n -> rep n q b -> rep n (lastn n (q ++ xs)) (fst (fb_add b xs)).
Proof.
  intros Hn R. pose proof (step_refines n q b (Add xs) Hn R) as S. simpl in S.
  destruct (fb_add b xs) as [b' r]. simpl. destruct (length (q ++ xs) <=? n); destruct S; auto.
Qed.

Lemma rep_is_empty {A} n (q : list A) b : rep n q b -> fb_is_empty b = match q with [] => true | _ => false end.
Proof. intros (_ & S & _). unfold fb_is_empty. rewrite S. destruct q; auto. Qed.

(** The window's statistic on a column, with its default. *)
Definition stat_or (stat : list cell -> cell) (d : cell) (c : list cell) : cell := match c with [] => d | _ => stat c end.

Lemma win_stat_ok stat d n q h b j c : rep n q b -> (forall i, In i q -> length (hget h i) = c) -> j < c ->
  win_stat stat d (mkT h b) j = Ok (stat_or stat d (map (fun i => nth j (hget h i) None) q)).
Proof.
  intros R L J. unfold win_stat. cbn [t_win t_heap]. rewrite (rep_is_empty n q b R). destruct R as (-> & _).
  destruct q as [|i0 q]; [reflexivity|]. unfold column.
  replace (forallb _ _) with true.
  2: { symmetry. apply forallb_forall. intros i Hi. rewrite (L i Hi), (L i0 (or_introl eq_refl)). apply Nat.eqb_refl. }
  rewrite (L i0 (or_introl eq_refl)). destruct (Nat.ltb_spec j c); [|lia]. reflexivity.
Qed.

(** New value of a cell, from the column of the window and the old value. *)
Definition minmax_fun (c : list cell) (v : cell) : cell :=
  let mn := stat_or nanmin (Some n0) c in let mx := stat_or nanmax (Some n1) c in
  if cell_is0 (lift2 nsub mx mn) then Some n0
  else lift2 nadd (lift2 nmul (lift2 ndiv (lift2 nsub v mn) (lift2 nsub mx mn)) (lift2 nsub mx mn)) mn.
Definition standard_fun (c : list cell) (v : cell) : cell :=
  let mean := stat_or nanmean (Some n0) c in let std := stat_or nanstd (Some n1) c in
  let std := if cell_is0 std then Some n1 else std in lift2 ndiv (lift2 nsub v mean) std.
Definition subst_fun (st : strategy) (nv : cell) (c : list cell) : cell :=
  match st with
  | Zero => Some n0 | Custom => nv | Unknown => None
  | Mean => stat_or nanmean nv c | Median => stat_or nanmedian nv c | Mode => stat_or nanmode nv c
  end.
Definition clean_fun (st : strategy) (markers : list T) (nv : cell) (c : list cell) (v : cell) : cell :=
  if is_missing markers v then subst_fun st nv c else v.

Definition cell_ok (f : tstate T -> nat -> cell -> res cell) (g : list cell -> cell -> cell) : Prop :=
  forall n q b h j c v, rep n q b -> (forall i, In i q -> length (hget h i) = c) -> j < c ->
  f (mkT h b) j v = Ok (g (map (fun i => nth j (hget h i) None) q) v).
Lemma minmax_cell_ok : cell_ok minmax_cell minmax_fun.
Proof.
  intros n q b h j c v R L J. unfold minmax_cell. rewrite !(win_stat_ok _ _ n q h b j c) by auto. simpl. unfold minmax_fun.
  destruct (cell_is0 _); reflexivity.
Qed.
Lemma standard_cell_ok : cell_ok standard_cell standard_fun.
Proof. intros n q b h j c v R L J. unfold standard_cell. rewrite !(win_stat_ok _ _ n q h b j c) by auto. reflexivity. Qed.
Lemma clean_cell_ok st markers nv : cell_ok (clean_cell st markers nv) (clean_fun st markers nv).
Proof.
  intros n q b h j c v R L J. unfold clean_cell, clean_fun. destruct (is_missing markers v); auto.
  unfold substitute, subst_fun. destruct st; auto; apply (win_stat_ok _ _ n q h b j c); auto.
Qed.

(** ** The rows still to come, and the window's content *)
Definition ids_of (o : t_op) : list nat := match o with PartialFit l => l | TransformX l => l end.
Definition call_of (h : heap) (o : t_op) : call T :=
  match o with PartialFit l => CFit (map (hget h) l) | TransformX l => CTransform (map (hget h) l) end.

Record winv (ws c : nat) (h0 : heap) (hist : list row) (todo : list nat) (s : tstate T) (q : list nat) : Prop := {
  w_rep : rep ws q (t_win s);
  w_val : map (hget (t_heap s)) q = lastn ws hist;
  w_len : forall i, In i q -> i < length (t_heap s) /\ length (hget (t_heap s) i) = c /\ ~ In i todo;
  w_todo : forall i, In i todo -> i < length (t_heap s) /\ hget (t_heap s) i = hget h0 i /\ length (hget h0 i) = c
}.

Lemma map_lastn {A B} (f : A -> B) n l : map f (lastn n l) = lastn n (map f l).
Proof.
  unfold lastn. rewrite map_length. generalize (length l - n) as k. induction l as [|a l IH]; intros [|k]; simpl; auto.
Qed.
Lemma lastn_In {A} n (l : list A) x : In x (lastn n l) -> In x l.
Proof. intros Hx. unfold lastn in Hx. rewrite <- (firstn_skipn (length l - n) l). apply in_or_app; auto. Qed.
Lemma map_col q (h : heap) j : map (fun i => nth j (hget h i) None) q = col j (map (hget h) q).
Proof. unfold col. now rewrite map_map. Qed.
Lemma col_lastn j n (l : list row) : col j (lastn n l) = lastn n (col j l).
Proof. unfold col. apply map_lastn. Qed.
Lemma hget_app_l (h : heap) r i : i < length h -> hget (h ++ r) i = hget h i.
Proof. unfold hget. intros. now rewrite app_nth1. Qed.

(** partial_fit *)
Lemma fit_ok ws c h0 hist ids todo s q : 1 <= ws -> NoDup (ids ++ todo) ->
  winv ws c h0 hist (ids ++ todo) s q ->
  exists q', winv ws c h0 (hist ++ map (hget h0) ids) todo (fit_rows true s ids) q'.
Proof.
  intros Hn ND I. exists (lastn ws (q ++ ids)). split; cbn [fit_rows t_win t_heap].
  - apply fb_add_rep; auto. apply I.
  - rewrite map_lastn, map_app, (w_val _ _ _ _ _ _ _ I). rewrite lastn_lastn_app. f_equal. f_equal.
    apply map_ext_in. intros i Hi. apply (w_todo _ _ _ _ _ _ _ I). apply in_or_app; auto.
  - intros i Hi. apply lastn_In in Hi. apply in_app_or in Hi. destruct Hi as [Hi|Hi].
    + destruct (w_len _ _ _ _ _ _ _ I i Hi) as (A & B & C). split; auto. split; auto. intros D. apply C. apply in_or_app; auto.
    + destruct (w_todo _ _ _ _ _ _ _ I i) as (A & B & C); [apply in_or_app; auto|]. split; auto. rewrite B. split; auto.
      clear - ND Hi. induction ids as [|a ids IH]; [destruct Hi|]. simpl in ND. inversion ND; subst. destruct Hi as [->|Hi]; auto.
      intros D. apply H1. apply in_or_app; auto.
  - intros i Hi. apply (w_todo _ _ _ _ _ _ _ I). apply in_or_app; auto.
Qed.

(** One row of a scaler. *)
Lemma scale_row_ok f g ws c h0 hist i todo s q : cell_ok f g -> 1 <= ws -> ~ In i todo ->
  winv ws c h0 hist (i :: todo) s q ->
  exists s' q', scale_row f s i = Ok s' /\ hget (t_heap s') i = map_row g (lastn ws hist) (hget h0 i)
    /\ length (t_heap s') = S (length (t_heap s)) /\ (forall k, k < length (t_heap s) -> k <> i -> hget (t_heap s') k = hget (t_heap s) k)
    /\ winv ws c h0 (hist ++ [hget h0 i]) todo s' q'.
Proof.
  intros CO Hn Nt I. destruct s as [h b]. destruct (w_todo _ _ _ _ _ _ _ I i (or_introl eq_refl)) as (Li & Gi & Lc). cbn [t_heap] in *.
  set (x := hget h0 i) in *. set (h1 := h ++ [x]).
  assert (G1 : hget h1 i = x) by (unfold h1; rewrite hget_app_l; auto).
  assert (L1 : i < length h1) by (unfold h1; rewrite app_length; lia).
  assert (Gq : forall k, In k q -> k <> i /\ k < length h).
  { intros k Hk. destruct (w_len _ _ _ _ _ _ _ I k Hk) as (A & B & C). cbn in *. split; [intros ->; apply C; now left|exact A]. }
  pose proof (each_cell_ok f (fun j => g (col j (lastn ws hist)) (nth j x None)) h1 b i x L1 G1) as E.
  assert (Ec : each_cell f (mkT h1 b) i (seq 0 (length x)) = Ok (mkT (update h1 i (map_row g (lastn ws hist) x)) b)).
  { apply E. intros k Hk. set (hk := update h1 i _).
    assert (Hq : forall m, In m q -> hget hk m = hget h m).
    { intros m Hm. destruct (Gq m Hm). unfold hk. rewrite hget_update by auto. destruct (Nat.eqb_spec i m); [congruence|].
      unfold h1. now rewrite hget_app_l. }
    rewrite (CO ws q b hk k c (nth k x None)).
    - f_equal. f_equal. rewrite <- (w_val _ _ _ _ _ _ _ I). cbn [t_heap]. unfold col. rewrite map_map.
      apply map_ext_in. intros m Hm. now rewrite Hq.
    - apply I.
    - intros m Hm. rewrite Hq by auto. apply (w_len _ _ _ _ _ _ _ I m Hm).
    - lia. }
  set (y := map_row g (lastn ws hist) x) in *.
  unfold scale_row. unfold columns_of. cbn [t_heap t_win]. rewrite Gi. fold h1. rewrite Ec. simpl.
  eexists. exists (lastn ws (q ++ [length h])). split; [reflexivity|]. cbn [t_heap].
  split; [rewrite hget_update by auto; now rewrite Nat.eqb_refl|].
  split; [rewrite update_length; unfold h1; rewrite app_length; simpl; lia|].
  assert (Hold : forall k, k < length h -> k <> i -> hget (update h1 i y) k = hget h k).
  { intros k Hk Hki. rewrite hget_update by auto. destruct (Nat.eqb_spec i k); [congruence|]. unfold h1. now rewrite hget_app_l. }
  split; [exact Hold|].
  assert (Hnew : hget (update h1 i y) (length h) = x).
  { rewrite hget_update by auto. destruct (Nat.eqb_spec i (length h)); [lia|]. unfold h1, hget. rewrite app_nth2, Nat.sub_diag; auto. }
  split; cbn [t_heap t_win].
  - apply fb_add_rep; auto. apply I.
  - rewrite map_lastn, map_app. cbn [map]. rewrite Hnew.
    replace (map (hget (update h1 i y)) q) with (lastn ws hist).
    2: { rewrite <- (w_val _ _ _ _ _ _ _ I). cbn [t_heap]. apply map_ext_in. intros m Hm. destruct (Gq m Hm). symmetry. apply Hold; auto. }
    apply lastn_lastn_app.
  - intros m Hm. apply lastn_In in Hm. apply in_app_or in Hm. rewrite update_length.
    assert (Lh : length h1 = length h + 1) by (unfold h1; rewrite app_length; reflexivity). rewrite Lh.
    destruct Hm as [Hm|[<-|[]]].
    + destruct (Gq m Hm). destruct (w_len _ _ _ _ _ _ _ I m Hm) as (A & B & C). cbn in *.
      rewrite Hold by auto. split; [lia|]. split; auto.
    + rewrite Hnew. split; [lia|]. split; auto. intros D. destruct (w_todo _ _ _ _ _ _ _ I (length h) (or_intror D)) as (A & _). cbn in A. lia.
  - intros m Hm. destruct (w_todo _ _ _ _ _ _ _ I m (or_intror Hm)) as (A & B & C). cbn in *.
    rewrite update_length. unfold h1 at 1. rewrite app_length. simpl. split; [lia|]. split; auto.
    rewrite Hold; auto. intros ->. contradiction.
Qed.

(** One row of the cleaner. *)
Lemma clean_row_ok st markers nv ws c h0 hist i todo s q : 1 <= ws -> ~ In i todo ->
  winv ws c h0 hist (i :: todo) s q -> windowed st = true ->
  exists s' q', clean_row st markers nv s i = Ok s'
    /\ hget (t_heap s') i = map_row (clean_fun st markers nv) (lastn ws (hist ++ [hget h0 i])) (hget h0 i)
    /\ length (t_heap s') = length (t_heap s) /\ (forall k, k < length (t_heap s) -> k <> i -> hget (t_heap s') k = hget (t_heap s) k)
    /\ winv ws c h0 (hist ++ [hget (t_heap s') i]) todo s' q'.
Proof.
  intros Hn Nt I Ws. destruct s as [h b]. destruct (w_todo _ _ _ _ _ _ _ I i (or_introl eq_refl)) as (Li & Gi & Lc). cbn [t_heap] in *.
  set (x := hget h0 i) in *. set (g := clean_fun st markers nv).
  assert (Gq : forall k, In k q -> k <> i /\ k < length h).
  { intros k Hk. destruct (w_len _ _ _ _ _ _ _ I k Hk) as (A & B & C). cbn in *. split; [intros ->; apply C; now left|exact A]. }
  set (b1 := fst (fb_add b [i])).
  assert (R1 : rep ws (lastn ws (q ++ [i])) b1) by (apply fb_add_rep; auto; apply I).
  set (W := lastn ws (hist ++ [x])). set (y := map_row g W x).
  pose proof (each_cell_ok (clean_cell st markers nv) (fun j => g (col j W) (nth j x None)) h b1 i x Li Gi) as E.
  assert (Ly : length y = length x) by (unfold y, map_row; now rewrite map_length, seq_length).
  assert (Ec : each_cell (clean_cell st markers nv) (mkT h b1) i (seq 0 (length x)) = Ok (mkT (update h i y) b1)).
  { apply E. intros k Hk.
    assert (Lk : length (map (fun j => g (col j W) (nth j x None)) (seq 0 k)) = k) by now rewrite map_length, seq_length.
    set (rk := map _ _ ++ skipn k x). set (hk := update h i rk).
    assert (Lr : length rk = c) by (unfold rk; rewrite app_length, Lk, skipn_length; lia).
    assert (Hq : forall m, In m q -> hget hk m = hget h m).
    { intros m Hm. destruct (Gq m Hm). unfold hk. rewrite hget_update by auto. destruct (Nat.eqb_spec i m); [congruence|]. auto. }
    assert (Hi : hget hk i = rk) by (unfold hk; rewrite hget_update by auto; now rewrite Nat.eqb_refl).
    rewrite (clean_cell_ok st markers nv ws (lastn ws (q ++ [i])) b1 hk k c (nth k x None) R1).
    - f_equal. fold g. f_equal. rewrite map_lastn. unfold W. rewrite col_lastn, map_app. cbn [map]. unfold col. rewrite map_app. cbn [map].
      rewrite Hi. replace (nth k rk None) with (nth k x None).
      2: { unfold rk. rewrite app_nth2, Lk, Nat.sub_diag by lia. now rewrite (skipn_nth None x k) by lia. }
      replace (map (fun m => nth k (hget hk m) None) q) with (lastn ws (map (fun r => nth k r None) hist)).
      2: { rewrite <- map_lastn, <- (w_val _ _ _ _ _ _ _ I). cbn [t_heap]. rewrite map_map. apply map_ext_in. intros m Hm. now rewrite Hq. }
      apply lastn_lastn_app.
    - intros m Hm. apply lastn_In in Hm. apply in_app_or in Hm. destruct Hm as [Hm|[<-|[]]].
      + rewrite Hq by auto. apply (w_len _ _ _ _ _ _ _ I m Hm).
      + now rewrite Hi.
    - lia. }
  unfold clean_row. rewrite Ws. cbn [t_heap t_win]. fold b1. unfold columns_of. cbn [t_heap]. rewrite Gi, Ec.
  eexists. exists (lastn ws (q ++ [i])). split; [reflexivity|]. cbn [t_heap].
  assert (Hi : hget (update h i y) i = y) by (rewrite hget_update by auto; now rewrite Nat.eqb_refl).
  assert (Hold : forall k, k < length h -> k <> i -> hget (update h i y) k = hget h k).
  { intros k Hk Hki. rewrite hget_update by auto. destruct (Nat.eqb_spec i k); [congruence|]. auto. }
  split; [exact Hi|]. split; [apply update_length|]. split; [exact Hold|]. rewrite Hi.
  split; cbn [t_heap t_win].
  - exact R1.
  - rewrite map_lastn, map_app. cbn [map]. rewrite Hi.
    replace (map (hget (update h i y)) q) with (lastn ws hist).
    2: { rewrite <- (w_val _ _ _ _ _ _ _ I). cbn [t_heap]. apply map_ext_in. intros m Hm. destruct (Gq m Hm). symmetry. apply Hold; auto. }
    apply lastn_lastn_app.
  - intros m Hm. apply lastn_In in Hm. apply in_app_or in Hm. rewrite update_length.
    destruct Hm as [Hm|[<-|[]]].
    + destruct (Gq m Hm). destruct (w_len _ _ _ _ _ _ _ I m Hm) as (A & B & C). cbn in *. rewrite Hold by auto. repeat split; auto.
    + rewrite Hi. split; auto. split; auto. lia.
  - intros m Hm. destruct (w_todo _ _ _ _ _ _ _ I m (or_intror Hm)) as (A & B & C). cbn in *.
    rewrite update_length. split; [lia|]. split; auto. rewrite Hold; auto. intros ->. contradiction.
Qed.

(** Whole batches. *)
Lemma scale_batch_ok f g ws c h0 : cell_ok f g -> 1 <= ws -> forall ids hist todo s q, NoDup (ids ++ todo) ->
  winv ws c h0 hist (ids ++ todo) s q ->
  exists s' q', each_row (scale_row f) s ids = Ok s' /\ map (hget (t_heap s')) ids = scale_rows g ws hist (map (hget h0) ids)
    /\ length (t_heap s) <= length (t_heap s')
    /\ (forall k, k < length (t_heap s) -> ~ In k ids -> hget (t_heap s') k = hget (t_heap s) k)
    /\ winv ws c h0 (hist ++ map (hget h0) ids) todo s' q'.
Proof.
  intros CO Hn. induction ids as [|i ids IH]; intros hist todo s q ND I; simpl.
  - exists s, q. rewrite app_nil_r. split; [|split; [|split; [|split]]]; auto.
  - inversion ND as [|? ? Ni ND']; subst.
    destruct (scale_row_ok f g ws c h0 hist i (ids ++ todo) s q CO Hn Ni I) as (s1 & q1 & E1 & V1 & L1 & O1 & I1).
    rewrite E1. simpl. destruct (IH (hist ++ [hget h0 i]) todo s1 q1 ND' I1) as (s2 & q2 & E2 & V2 & L2 & O2 & I2).
    exists s2, q2. split; auto. rewrite <- app_assoc in I2. simpl in I2.
    destruct (w_todo _ _ _ _ _ _ _ I i (or_introl eq_refl)) as (Li & _).
    split; [|split; [lia|split; auto]].
    + f_equal; [|auto]. rewrite O2, V1; auto; [lia|]. intros C. apply Ni. apply in_or_app; auto.
    + intros k Hk Hn'. rewrite O2; [|lia|tauto]. apply O1; auto.
Qed.
Lemma clean_batch_ok st markers nv ws c h0 : 1 <= ws -> windowed st = true -> forall ids hist todo s q, NoDup (ids ++ todo) ->
  winv ws c h0 hist (ids ++ todo) s q ->
  exists s' q', each_row (clean_row st markers nv) s ids = Ok s'
    /\ map (hget (t_heap s')) ids = clean_rows (clean_fun st markers nv) ws hist (map (hget h0) ids)
    /\ length (t_heap s) <= length (t_heap s')
    /\ (forall k, k < length (t_heap s) -> ~ In k ids -> hget (t_heap s') k = hget (t_heap s) k)
    /\ winv ws c h0 (hist ++ map (hget (t_heap s')) ids) todo s' q'.
Proof.
  intros Hn Ws. induction ids as [|i ids IH]; intros hist todo s q ND I; simpl.
  - exists s, q. rewrite app_nil_r. split; [|split; [|split; [|split]]]; auto.
  - inversion ND as [|? ? Ni ND']; subst.
    destruct (clean_row_ok st markers nv ws c h0 hist i (ids ++ todo) s q Hn Ni I Ws) as (s1 & q1 & E1 & V1 & L1 & O1 & I1).
    rewrite E1. simpl. destruct (IH (hist ++ [hget (t_heap s1) i]) todo s1 q1 ND' I1) as (s2 & q2 & E2 & V2 & L2 & O2 & I2).
    destruct (w_todo _ _ _ _ _ _ _ I i (or_introl eq_refl)) as (Li & _).
    assert (Oi : hget (t_heap s2) i = hget (t_heap s1) i) by (apply O2; [lia|intros C; apply Ni; apply in_or_app; auto]).
    exists s2, q2. split; auto. rewrite <- app_assoc in I2. simpl in I2.
    split; [|split; [lia|split]].
    + rewrite Oi, V2, V1. reflexivity.
    + intros k Hk Hn'. rewrite O2; [|lia|tauto]. apply O1; auto.
    + now rewrite Oi.
Qed.

Lemma start_winv ws c (h : heap) ops : (forall r, In r h -> length r = c) ->
  (forall i, In i (flat_map ids_of ops) -> i < length h) ->
  winv ws c h [] (flat_map ids_of ops) (t_new (Z.of_nat ws) h) [].
Proof.
  intros Hc Hi. split; cbn [t_new t_heap t_win].
  - apply rep_init.
  - unfold lastn. now rewrite skipn_nil.
  - intros i [].
  - intros i H0. split; auto. split; auto. apply Hc. apply nth_In. auto.
Qed.

Lemma scale_run_ok f g ws c h0 : cell_ok f g -> 1 <= ws -> forall ops hist s q, NoDup (flat_map ids_of ops) ->
  winv ws c h0 hist (flat_map ids_of ops) s q ->
  exists s', t_run true (scale_row f) s ops = Ok (s', scale_calls g ws hist (map (call_of h0) ops)).
Proof.
  intros CO Hn. induction ops as [|o ops IH]; intros hist s q ND I; simpl; [eauto|].
  destruct o as [ids|ids]; simpl in *.
  - destruct (fit_ok ws c h0 hist ids (flat_map ids_of ops) s q Hn ND I) as (q' & I').
    destruct (IH _ _ _ (nodup_app_r _ _ ND) I') as (s2 & E2). unfold fit_rows in E2. rewrite E2. simpl. eauto.
  - destruct (scale_batch_ok f g ws c h0 CO Hn ids hist (flat_map ids_of ops) s q ND I) as (s1 & q1 & E1 & V1 & _ & _ & I1).
    rewrite E1. simpl. destruct (IH _ _ _ (nodup_app_r _ _ ND) I1) as (s2 & E2). rewrite E2. simpl. rewrite V1. eauto.
Qed.
Lemma clean_run_ok st markers nv ws c h0 : 1 <= ws -> windowed st = true -> forall ops hist s q, NoDup (flat_map ids_of ops) ->
  winv ws c h0 hist (flat_map ids_of ops) s q ->
  exists s', t_run true (clean_row st markers nv) s ops = Ok (s', clean_calls (clean_fun st markers nv) ws hist (map (call_of h0) ops)).
Proof.
  intros Hn Ws. induction ops as [|o ops IH]; intros hist s q ND I; simpl; [eauto|].
  destruct o as [ids|ids]; simpl in *.
  - destruct (fit_ok ws c h0 hist ids (flat_map ids_of ops) s q Hn ND I) as (q' & I').
    destruct (IH _ _ _ (nodup_app_r _ _ ND) I') as (s2 & E2). unfold fit_rows in E2. rewrite E2. simpl. eauto.
  - destruct (clean_batch_ok st markers nv ws c h0 Hn Ws ids hist (flat_map ids_of ops) s q ND I) as (s1 & q1 & E1 & V1 & _ & _ & I1).
    rewrite E1. simpl. destruct (IH _ _ _ (nodup_app_r _ _ ND) I1) as (s2 & E2). rewrite E2. simpl. rewrite V1. rewrite V1 in E2. eauto.
Qed.
End Structural.
