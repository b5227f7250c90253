(** The statistics of the windows over the reals, and one-hot decoding. *)
From Coq Require Import List ZArith Bool Lia Reals Lra Sorted Permutation.
From Verif Require Import Base.Py Base.Num Spec.Lists Spec.TransformSpec Model.FastBuffer Model.Transform
  Proofs.ListFacts Proofs.StatFacts Proofs.TransformProofs Proofs.MetricsScores.
Import ListNotations.
Local Open Scope R_scope.

Lemma nonnan_present {T} (l : list (option T)) : nonnan l = present l.
Proof. unfold present. induction l as [|[x|] l IH]; simpl; rewrite ?IH; auto. Qed.

Lemma sum_of_R l : sum_of l = Rsum l.
Proof. unfold sum_of. rewrite fold_nadd_R. unfold n0. cbn. lra. Qed.
Lemma mean_of_R l : mean_of l = Rmean l.
Proof. unfold mean_of, Rmean. rewrite sum_of_R. cbn [ndiv nofZ NumR]. now rewrite <- INR_IZR_INZ. Qed.

Lemma Rvariance_nonneg l : l <> [] -> 0 <= Rvariance l.
Proof. intros H. unfold Rvariance, Rdiv. apply Rmult_le_pos; [apply Rsqdev_nonneg|]. left. apply Rinv_0_lt_compat. now apply INR_pos_len. Qed.

Lemma standard_fun_R c v : standard_fun (T:=R) c v = standardised c v.
Proof.
  unfold standard_fun, standardised, stat_or. destruct c as [|c0 c].
  - cbn [lift2 cell_is0]. unfold cell_is0, n0, n1. cbn [neqb nofZ NumR]. destruct (Reqb 1 0) eqn:E; [rcase; lra|].
    destruct v as [x|]; cbn; auto. f_equal. lra.
  - unfold nanmean, nanstd. rewrite nonnan_present. set (c' := c0 :: c).
    destruct (present c') as [|y vs] eqn:E.
    + cbn [cell_is0]. destruct v; reflexivity.
    + set (l := y :: vs). rewrite !mean_of_R.
      replace (Rmean (map (fun x => ((x - Rmean l) * (x - Rmean l))%num) l)) with (Rvariance l).
      2: { unfold Rvariance, Rsqdev, Rmean at 3. now rewrite map_length. }
      assert (V : 0 <= Rvariance l) by (apply Rvariance_nonneg; discriminate).
      cbn [cell_is0 nsqrt NumR neqb n0 nofZ]. unfold n0. cbn [nofZ NumR].
      destruct v as [x|]; [|destruct (Reqb _ _); reflexivity].
      destruct (Reqb (sqrt (Rvariance l)) 0) eqn:Es; rcase.
      * apply sqrt_eq_0 in Es; auto. destruct (Req_EM_T (Rvariance l) 0); [|contradiction]. reflexivity.
      * destruct (Req_EM_T (Rvariance l) 0) as [E0|_]; [rewrite E0, sqrt_0 in Es; contradiction|]. reflexivity.
Qed.

(** min and max *)
Lemma fold_min_ok r : forall x, let m := fold_left (fun a y => if (y <? a)%num then y else a) r x in
  In m (x :: r) /\ forall z, In z (x :: r) -> m <= z.
Proof.
  induction r as [|y r IH]; intros x; simpl.
  - split; auto. intros z [->|[]]. lra.
  - specialize (IH (if Rltb y x then y else x)). cbn [nltb NumR] in *. destruct IH as [I1 I2]. split.
    + destruct I1 as [I1|I1]; [|auto]. destruct (Rltb y x); rewrite <- I1; auto.
    + intros z Hz. destruct (Rltb y x) eqn:E; rcase.
      * destruct Hz as [<-|[<-|Hz]]; [|apply I2; simpl; auto|apply I2; simpl; auto]. specialize (I2 y (or_introl eq_refl)). lra.
      * destruct Hz as [<-|[<-|Hz]]; [apply I2; simpl; auto| |apply I2; simpl; auto]. specialize (I2 x (or_introl eq_refl)). lra.
Qed.
Lemma fold_max_ok r : forall x, let m := fold_left (fun a y => if (a <? y)%num then y else a) r x in
  In m (x :: r) /\ forall z, In z (x :: r) -> z <= m.
Proof.
  induction r as [|y r IH]; intros x; simpl.
  - split; auto. intros z [->|[]]. lra.
  - specialize (IH (if Rltb x y then y else x)). cbn [nltb NumR] in *. destruct IH as [I1 I2]. split.
    + destruct I1 as [I1|I1]; [|auto]. destruct (Rltb x y); rewrite <- I1; auto.
    + intros z Hz. destruct (Rltb x y) eqn:E; rcase.
      * destruct Hz as [<-|[<-|Hz]]; [|apply I2; simpl; auto|apply I2; simpl; auto]. specialize (I2 y (or_introl eq_refl)). lra.
      * destruct Hz as [<-|[<-|Hz]]; [apply I2; simpl; auto| |apply I2; simpl; auto]. specialize (I2 x (or_introl eq_refl)). lra.
Qed.

Lemma minmax_fun_R c v :
  (c = [] -> minmax_fun (T:=R) c v = v)
  /\ (c <> [] -> present c = [] -> minmax_fun c v = None)
  /\ (present c <> [] -> constant (present c) -> minmax_fun c v = Some 0)
  /\ (~ constant (present c) -> minmax_fun c v = v).
Proof.
  unfold minmax_fun, stat_or. split; [|split; [|split]].
  - intros ->. unfold n0, n1. cbn [cell_is0 lift2 nofZ nsub NumR neqb]. unfold cell_is0, n0. cbn [lift2 nsub neqb nofZ NumR].
    destruct (Reqb (1 - 0) 0) eqn:E; [rcase; lra|].
    destruct v as [x|]; auto. cbn. f_equal. lra.
  - destruct c as [|c0 c]; [congruence|]. intros _ E. unfold nanmin, nanmax. rewrite nonnan_present, E. destruct v; reflexivity.
  - intros Hn Hc. destruct c as [|c0 c]; [contradiction|]. unfold nanmin, nanmax. rewrite nonnan_present.
    destruct (present (c0 :: c)) as [|y r]; [contradiction|].
    destruct (fold_min_ok r y) as [M1 _]. destruct (fold_max_ok r y) as [M2 _]. rewrite (Hc _ _ M2 M1).
    unfold n0. cbn [lift2 cell_is0 nsub neqb nofZ NumR]. unfold cell_is0, n0. cbn [lift2 nsub neqb nofZ NumR].
    destruct (Reqb _ 0) eqn:E; auto. rcase. exfalso. apply E. lra.
  - intros Hc. destruct c as [|c0 c]; [exfalso; apply Hc; intros ? ? []|]. unfold nanmin, nanmax. rewrite nonnan_present.
    destruct (present (c0 :: c)) as [|y r]; [exfalso; apply Hc; intros ? ? []|].
    destruct (fold_min_ok r y) as [M1 B1]. destruct (fold_max_ok r y) as [M2 B2].
    set (mn := fold_left _ r y) in *. set (mx := fold_left (fun a y => if (a <? y)%num then y else a) r y) in *.
    unfold cell_is0, n0. cbn [lift2 nsub neqb nofZ NumR].
    destruct (Reqb (mx - mn) 0) eqn:E; rcase.
    + exfalso. apply Hc. intros a b Ha Hb. pose proof (B1 a Ha). pose proof (B1 b Hb). pose proof (B2 a Ha). pose proof (B2 b Hb). lra.
    + destruct v as [x|]; auto. cbn. f_equal. field. auto.
Qed.

(** sorting *)
Lemma sinsert_ok (x : R) l : StronglySorted Rle l -> Permutation (x :: l) (sinsert x l) /\ StronglySorted Rle (sinsert x l).
Proof.
  induction l as [|y l IH]; intros S; simpl; [split; auto; constructor; constructor|].
  inversion S as [|? ? S' F]; subst. cbn [nleb NumR]. destruct (Rleb x y) eqn:E; rcase.
  - split; auto. constructor; auto. constructor; auto. eapply Forall_impl; [|exact F]. simpl. intros. lra.
  - destruct (IH S') as [I1 I2]. split.
    + rewrite perm_swap. now constructor.
    + constructor; auto. apply Forall_forall. intros z Hz. eapply Permutation_in in Hz; [|symmetry; exact I1].
      rewrite Forall_forall in F. destruct Hz as [<-|Hz]; [lra|auto].
Qed.
Lemma nsort_ok (l : list R) : Permutation l (nsort l) /\ StronglySorted Rle (nsort l).
Proof.
  induction l as [|x l [I1 I2]]; simpl; [split; constructor|]. destruct (sinsert_ok x (nsort l) I2) as [J1 J2]. split; auto.
  rewrite <- J1. now constructor.
Qed.

Lemma nanmedian_R c : present c <> [] -> exists m, nanmedian (T:=R) c = Some m /\ is_median (present c) m.
Proof.
  intros Hn. unfold nanmedian. rewrite nonnan_present. destruct (present c) as [|y r]; [contradiction|].
  set (l := y :: r). eexists. split; [reflexivity|]. destruct (nsort_ok l) as [P S]. exists (nsort l). split; auto. split; auto.
  split; intros Hp.
  - rewrite <- Nat.odd_spec in Hp. rewrite <- Nat.negb_odd, Hp. reflexivity.
  - apply Nat.even_spec in Hp. rewrite Hp. reflexivity.
Qed.

Lemma count_eq_occ (x : R) l : count_eq x l = count_occ Req_EM_T l x.
Proof.
  unfold count_eq. cbn [neqb NumR]. induction l as [|y l IH]; simpl; auto.
  destruct (Reqb x y) eqn:E; rcase; destruct (Req_EM_T y x); simpl; try congruence; subst; try contradiction; auto.
Qed.
Lemma fold_mode (cnt : R -> nat) r : forall x, StronglySorted Rle (x :: r) ->
  let m := fold_left (fun a y => if (cnt a <? cnt y)%nat then y else a) r x in
  In m (x :: r) /\ forall z, In z (x :: r) -> (cnt z <= cnt m)%nat /\ (cnt z = cnt m -> m <= z).
Proof.
  induction r as [|y r IH]; intros x S; simpl.
  - split; auto. intros z [->|[]]. split; auto. intros; lra.
  - inversion S as [|? ? S' F]; subst. inversion S' as [|? ? S'' F']; subst. rewrite Forall_forall in F. pose proof (F y (or_introl eq_refl)) as Fy.
    destruct (Nat.ltb_spec (cnt x) (cnt y)).
    + destruct (IH y S') as [I1 I2]. split; [simpl in *; tauto|]. intros z [<-|Hz]; [|apply I2; simpl; auto].
      destruct (I2 y (or_introl eq_refl)). split; [lia|]. intros. lia.
    + assert (S3 : StronglySorted Rle (x :: r)).
      { constructor; auto. apply Forall_forall. intros z Hz. apply F. now right. }
      destruct (IH x S3) as [I1 I2]. split; [simpl in *; tauto|]. intros z [<-|[<-|Hz]]; [apply I2; simpl; auto| |apply I2; simpl; auto].
      destruct (I2 x (or_introl eq_refl)) as [J1 J2]. split; [lia|]. intros E. assert (cnt x = cnt (fold_left (fun a y => if (cnt a <? cnt y)%nat then y else a) r x)) by lia.
      specialize (J2 H0). lra.
Qed.
Lemma nanmode_R c : present c <> [] -> exists m, nanmode (T:=R) c = Some m /\ is_mode (present c) m.
Proof.
  intros Hn. unfold nanmode. rewrite nonnan_present. destruct (nsort_ok (present c)) as [P S].
  destruct (nsort (present c)) as [|x r] eqn:E; [apply Permutation_sym, Permutation_nil in P; contradiction|].
  eexists. split; [reflexivity|]. 
  destruct (fold_mode (fun a => count_eq a (x :: r)) r x S) as [M1 M2]. cbv beta zeta in M1, M2.
  set (m := fold_left _ r x) in *. split; [eapply Permutation_in; [symmetry; exact P|exact M1]|].
  intros z Hz. rewrite !(proj1 (Permutation_count_occ Req_EM_T _ _) P), <- !count_eq_occ. apply M2. eapply Permutation_in; eauto.
Qed.
Lemma nanmean_R c : nanmean (T:=R) c = match present c with [] => None | vs => Some (Rmean vs) end.
Proof. unfold nanmean. rewrite nonnan_present. destruct (present c); auto. now rewrite mean_of_R. Qed.

(** extensionality of the specification *)
Lemma map_row_ext {T} (f g : list (option T) -> option T -> option T) W x : (forall c v, f c v = g c v) -> map_row f W x = map_row g W x.
Proof. intros E. unfold map_row. apply map_ext. auto. Qed.
Lemma scale_rows_ext {T} (f g : list (option T) -> option T -> option T) ws : (forall c v, f c v = g c v) -> forall rows hist, scale_rows f ws hist rows = scale_rows g ws hist rows.
Proof. intros E. induction rows as [|x r IH]; intros hist; simpl; auto. rewrite IH. f_equal. now apply map_row_ext. Qed.
Lemma scale_calls_ext {T} (f g : list (option T) -> option T -> option T) ws : (forall c v, f c v = g c v) -> forall cs hist, scale_calls f ws hist cs = scale_calls g ws hist cs.
Proof. intros E. induction cs as [|[rows|rows] cs IH]; intros hist; simpl; auto; rewrite IH; f_equal. now apply scale_rows_ext. Qed.

(** ** One-hot *)
Lemma existsb_seq i k n : existsb (Nat.eqb i) (seq k n) = ((k <=? i) && (i <? k + n))%nat.
Proof.
  destruct (existsb _ _) eqn:E; symmetry.
  - apply existsb_exists in E. destruct E as (j & Hj & E). apply Nat.eqb_eq in E. subst j. apply in_seq in Hj.
    apply andb_true_iff. rewrite Nat.leb_le, Nat.ltb_lt. auto.
  - apply not_true_is_false. intros C. apply andb_true_iff in C. rewrite Nat.leb_le, Nat.ltb_lt in C.
    assert (existsb (Nat.eqb i) (seq k n) = true) by (apply existsb_exists; exists i; split; [apply in_seq; lia|apply Nat.eqb_refl]). congruence.
Qed.

Lemma hot_after x i js c : (forall j, In j js -> exists v, nth_error x (i + j) = Some v) -> hot (T:=R) x i js c true = Ok c.
Proof.
  intros Hj. induction js as [|j js IH]; simpl; auto. destruct (Hj j (or_introl eq_refl)) as (v & ->).
  destruct (Reqb v _); apply IH; intros; apply Hj; simpl; auto.
Qed.
Lemma hot_ok (x : list R) pre post k i : x = pre ++ encode_part (Block k i) ++ post -> (i < k)%nat ->
  hot x (length pre) (seq 0 k) 0 false = Ok i.
Proof.
  intros -> Hi.
  assert (G : forall j, (j < k)%nat -> nth_error (pre ++ encode_part (Block k i) ++ post) (length pre + j) = Some (if (j =? i)%nat then 1 else 0)).
  { intros j Hj. rewrite nth_error_app2 by lia. replace (length pre + j - length pre)%nat with j by lia. cbn [encode_part].
    rewrite nth_error_app1 by (rewrite map_length, seq_length; auto). rewrite (map_nth_error _ j (seq 0 k) (d:=j)); auto.
    rewrite (nth_error_nth' _ 0%nat) by (rewrite seq_length; auto). rewrite seq_nth; auto. }
  set (x := pre ++ _) in *. clearbody x.
  assert (L : forall n c, (c + n = i)%nat -> hot x (length pre) (seq c (k - c)) c false = Ok i).
  { induction n as [|n IH]; intros c E.
    - assert (c = i) by lia. subst c. replace (k - i)%nat with (S (k - S i)) by lia. cbn [seq hot]. rewrite G by lia. rewrite Nat.eqb_refl.
      unfold n1. cbn [neqb nofZ NumR]. destruct (Reqb 1 1) eqn:E1; [|rcase; contradiction]. apply hot_after.
      intros j Hj. apply in_seq in Hj. rewrite G by lia. eauto.
    - replace (k - c)%nat with (S (k - S c)) by lia. cbn [seq hot]. rewrite G by lia. destruct (Nat.eqb_spec c i); [lia|].
      unfold n1. cbn [neqb nofZ NumR]. destruct (Reqb 0 1) eqn:E1; [rcase; lra|]. apply IH. lia. }
  specialize (L i 0%nat ltac:(lia)). now rewrite Nat.sub_0_r in L.
Qed.

Definition ends_okb (l : list (option nat)) : bool := match last l (Some 0%nat) with Some _ => true | None => false end.
Lemma encode_len p : well_formed_part p -> length (encode_part p) = match p with Plain _ => 1%nat | Block k _ => k end.
Proof. destruct p; simpl; intros; rewrite ?map_length, ?seq_length; auto. Qed.
Lemma categories_nil l pos : categories pos l = [] -> l <> [] -> ends_okb l = false.
Proof.
  revert pos. induction l as [|[k|] l IH]; intros pos E Hn; simpl in *; [contradiction|discriminate|].
  destruct l as [|o l]; [reflexivity|]. unfold ends_okb in *. cbn [last] in *. eapply (IH _ E). discriminate.
Qed.
Lemma categories_head l pos : forall cat rest, categories pos l = cat :: rest -> exists k q, cat = seq q k /\ (pos <= q)%nat /\ exists l', l = repeat None (q - pos) ++ Some k :: l'.
Proof.
  revert pos. induction l as [|[k|] l IH]; intros pos cat rest E; simpl in E; [discriminate| |].
  - injection E as <- _. exists k, pos. rewrite Nat.sub_diag. simpl. eauto.
  - destruct (IH _ _ _ E) as (k & q & -> & Hq & l' & El). exists k, q. split; auto. split; [lia|]. exists l'. 
    replace (q - pos)%nat with (S (q - S pos)) by lia. simpl. now f_equal.
Qed.

Lemma one_hot_loop_ok : forall rest pre fuel, Forall well_formed_part pre -> Forall well_formed_part rest ->
  (length (encode rest) <= fuel)%nat ->
  one_hot_loop fuel (encode (pre ++ rest)) (length (pre ++ rest)) (length (encode pre)) (categories (length (encode pre)) (layout rest)) (decode pre)
  = if ends_okb (layout rest) then Ok (decode (pre ++ rest)) else Raise IndexError.
Proof.
  induction rest as [|p rest IH]; intros pre fuel Fp Fr Hf.
  - rewrite !app_nil_r. destruct fuel; simpl; rewrite Nat.ltb_irrefl; unfold decode; rewrite map_length, Nat.sub_diag; simpl; now rewrite app_nil_r.
  - inversion Fr as [|? ? Wp Fr']; subst.
    assert (Lp : (1 <= length (encode_part p))%nat) by (rewrite encode_len by auto; destruct p; simpl in *; lia).
    assert (EQ : pre ++ p :: rest = (pre ++ [p]) ++ rest) by (rewrite <- app_assoc; reflexivity).
    assert (Ex : encode (pre ++ p :: rest) = encode pre ++ encode_part p ++ encode rest) by (unfold encode; rewrite flat_map_app; reflexivity).
    assert (El : length (encode (pre ++ [p])) = (length (encode pre) + length (encode_part p))%nat).
    { unfold encode. rewrite flat_map_app, app_length. simpl. now rewrite app_nil_r. }
    assert (Ed : decode (pre ++ [p]) = decode pre ++ [decode_part p]) by (unfold decode; now rewrite map_app).
    assert (Fe : (length (encode rest) + length (encode_part p) <= fuel)%nat).
    { change (encode (p :: rest)) with (encode_part p ++ encode rest) in Hf. rewrite app_length in Hf. lia. }
    destruct fuel as [|f]; [lia|].
    specialize (IH (pre ++ [p]) f ltac:(apply Forall_app; auto) Fr' ltac:(lia)).
    rewrite <- EQ, El, Ed in IH.
    assert (Lt : (length (encode pre) <? length (encode (pre ++ p :: rest)))%nat = true).
    { apply Nat.ltb_lt. rewrite Ex, !app_length. lia. }
    assert (Lo : (length (decode pre) <? length (pre ++ p :: rest))%nat = true).
    { apply Nat.ltb_lt. unfold decode. rewrite map_length, app_length. simpl. lia. }
    cbn [one_hot_loop]. rewrite Lt. destruct p as [x|k i].
    + cbn [layout map categories]. fold (layout rest).
      destruct (categories (S (length (encode pre))) (layout rest)) as [|cat cats] eqn:Ec.
      * destruct rest as [|p' rest']; [reflexivity|].
        pose proof (categories_nil (layout (p' :: rest')) _ Ec ltac:(discriminate)) as Z. unfold ends_okb in *. cbn [layout map last] in *.
        rewrite Z. reflexivity.
      * destruct (categories_head _ _ _ _ Ec) as (k & q & -> & Hq & l' & El').
        rewrite existsb_seq. replace ((q <=? length (encode pre))%nat) with false by (symmetry; apply Nat.leb_gt; lia). cbn [andb].
        rewrite Lo. rewrite encode_len in IH by auto. 
        replace (nth (length (encode pre)) (encode (pre ++ Plain x :: rest)) n0) with x.
        2: { rewrite Ex, app_nth2, Nat.sub_diag by lia. reflexivity. }
        replace (length (encode pre) + 1)%nat with (S (length (encode pre))) in * by lia.
        rewrite Ec in IH. cbn [decode_part] in IH. rewrite IH.
        replace (ends_okb (None :: layout rest)) with (ends_okb (layout rest)); auto.
        unfold ends_okb. destruct rest; [discriminate|]. reflexivity.
    + cbn [layout map categories]. fold (layout rest). rewrite existsb_seq. simpl in Wp.
      replace ((length (encode pre) <=? length (encode pre)) && (length (encode pre) <? length (encode pre) + k))%nat with true.
      2: { symmetry. apply andb_true_iff. rewrite Nat.leb_le, Nat.ltb_lt. lia. }
      rewrite seq_length. rewrite (hot_ok _ (encode pre) (encode rest) k i); auto. cbn [bind]. rewrite Lo.
      rewrite encode_len in IH by auto. cbn [decode_part] in IH. cbn [nofZ NumR]. rewrite <- INR_IZR_INZ. rewrite IH.
      replace (ends_okb (Some k :: layout rest)) with (ends_okb (layout rest)); auto.
      unfold ends_okb. destruct rest; reflexivity.
Qed.

Lemma new_width_ok : forall ps pos c, Forall well_formed_part ps ->
  fold_left (fun w l => (w - (Z.of_nat (length l) - 1))%Z) (categories pos (layout ps)) (c + Z.of_nat (length (encode ps)))%Z = (c + Z.of_nat (length ps))%Z.
Proof.
  induction ps as [|p ps IH]; intros pos c F; [reflexivity|]. inversion F as [|? ? Wp F']; subst.
  change (encode (p :: ps)) with (encode_part p ++ encode ps). rewrite app_length, (encode_len p) by auto.
  destruct p as [x|k i]; cbn [layout map categories fold_left]; fold (layout ps).
  - replace (c + Z.of_nat (1 + length (encode ps)))%Z with (c + 1 + Z.of_nat (length (encode ps)))%Z by lia. rewrite IH by auto. simpl length. lia.
  - rewrite seq_length. replace (c + Z.of_nat (k + length (encode ps)) - (Z.of_nat k - 1))%Z with (c + 1 + Z.of_nat (length (encode ps)))%Z by lia.
    rewrite IH by auto. simpl length. lia.
Qed.

(** ** The cleaner without a window *)
Section NoWindow.
Context {T : Type} {N : Num T}.
Variables (st : strategy) (markers : list T) (nv : option T).
Hypothesis NW : windowed st = false.

Lemma nw_row (s : tstate T) i W : (i < length (t_heap s))%nat ->
  clean_row st markers nv s i = Ok (mkT (update (t_heap s) i (map_row (clean_fun st markers nv) W (hget (t_heap s) i))) (t_win s)).
Proof.
  intros Hi. unfold clean_row. rewrite NW. destruct s as [h w]. cbn [t_heap t_win] in *. unfold columns_of. cbn [t_heap].
  unfold map_row.
  apply (each_cell_ok (clean_cell st markers nv) (fun j => clean_fun st markers nv (col j W) (nth j (hget h i) None)) h w i (hget h i) Hi eq_refl).
  intros k Hk. unfold clean_cell, clean_fun. destruct (is_missing markers _); auto. destruct st; try discriminate; reflexivity.
Qed.

Lemma nw_batch ws h0 : forall ids hist (s : tstate T), NoDup ids ->
  (forall i, In i ids -> i < length (t_heap s) /\ hget (t_heap s) i = hget h0 i)%nat ->
  exists s', each_row (clean_row st markers nv) s ids = Ok s'
    /\ map (hget (t_heap s')) ids = clean_rows (clean_fun st markers nv) ws hist (map (hget h0) ids)
    /\ length (t_heap s') = length (t_heap s) /\ forall k, ~ In k ids -> hget (t_heap s') k = hget (t_heap s) k.
Proof.
  induction ids as [|i ids IH]; intros hist s ND I; simpl.
  - exists s. auto.
  - inversion ND as [|? ? Ni ND']; subst. destruct (I i (or_introl eq_refl)) as [Hi Ei].
    set (y := map_row (clean_fun st markers nv) (lastn ws (hist ++ [hget h0 i])) (hget h0 i)).
    assert (R : clean_row st markers nv s i = Ok (mkT (update (t_heap s) i y) (t_win s))) by (unfold y; rewrite <- Ei at 2; apply nw_row; auto).
    rewrite R. cbn [bind]. destruct (IH (hist ++ [y]) (mkT (update (t_heap s) i y) (t_win s)) ND') as (s' & E & V & L & O).
    { intros k Hk. cbn [t_heap]. rewrite update_length, hget_update by auto. destruct (Nat.eqb_spec i k); [subst; contradiction|]. apply I. now right. }
    exists s'. split; auto. cbn [t_heap] in *. rewrite update_length in L. split; [|split; auto].
    + f_equal; auto. rewrite O by auto. rewrite hget_update by auto. now rewrite Nat.eqb_refl.
    + intros k Hk. rewrite O by tauto. rewrite hget_update by auto. destruct (Nat.eqb_spec i k); [subst; tauto|auto].
Qed.

Lemma nw_run ws h0 : forall ops hist (s : tstate T), NoDup (flat_map ids_of ops) ->
  (forall i, In i (flat_map ids_of ops) -> i < length (t_heap s) /\ hget (t_heap s) i = hget h0 i)%nat ->
  exists s', t_run false (clean_row st markers nv) s ops = Ok (s', clean_calls (clean_fun st markers nv) ws hist (map (call_of h0) ops)).
Proof.
  induction ops as [|o ops IH]; intros hist s ND I; simpl; [eauto|]. destruct o as [ids|ids]; simpl in *.
  - destruct (IH (hist ++ map (hget h0) ids) s (nodup_app_r _ _ ND)) as (s2 & E2); [intros; apply I; apply in_or_app; auto|]. rewrite E2. simpl. eauto.
  - assert (ND1 : NoDup ids).
    { clear -ND. induction ids as [|a l IHl]; simpl in *; constructor; inversion ND; subst; auto. intros C. apply H1. apply in_or_app; auto. }
    destruct (nw_batch ws h0 ids hist s ND1) as (s1 & E1 & V1 & L1 & O1); [intros; apply I; apply in_or_app; auto|].
    rewrite E1. simpl. destruct (IH (hist ++ map (hget (t_heap s1)) ids) s1 (nodup_app_r _ _ ND)) as (s2 & E2).
    { intros k Hk. rewrite L1. destruct (I k) as [A B]; [apply in_or_app; auto|]. split; auto. rewrite O1; auto.
      intros C. clear -C Hk ND. induction ids as [|a l IHl]; simpl in *; [auto|]. inversion ND; subst. destruct C as [->|C]; [apply H1, in_or_app; auto|auto]. }
    rewrite E2. simpl. rewrite V1. eauto.
Qed.
End NoWindow.

Lemma ok_pair {A B} (m : res (A * B)) (P : A -> B -> Prop) : match m with Ok (a, b) => P a b | Raise _ => False end -> exists a b, m = Ok (a, b) /\ P a b.
Proof. destruct m as [[a b]|]; [eauto|intros []]. Qed.
