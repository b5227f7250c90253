(** Hoeffding tree regressor with perceptron leaves: the standardisation, the norm of the weights, the range of the answers; and what
    goes wrong with one attribute, with small weights, with remove_poor_atts and with no_preprune. *)
From Coq Require Import List ZArith QArith Reals Bool Lia Lra.
From Verif Require Import Base.Py Base.Num Base.Dict Spec.Lists Model.Adwin Model.Suggestion Model.TargetStats Model.SplitTests Model.Knn Model.TreeSkeleton Model.HoeffdingTree Model.HoeffdingRegressor
  Spec.TreeSpec Spec.HoeffdingRegressorSpec Proofs.KnnProofs Proofs.TreeProofs Proofs.HoeffdingProofs Proofs.HoeffdingRegressorProofs Proofs.RegressorPerceptronProofs Props.HoeffdingRegressorProps.
Import ListNotations.

Section Real.
Local Open Scope R_scope.
Variables (key : R -> Z) (int_of : R -> Z) (cfg : htr_config R) (sz : sizes R (rleaf R) (rinactive R) (option (stat R unit)) (htest R)).
Local Notation run := (htr_run key int_of cfg sz).
Local Notation O := (htr_ops key int_of cfg).

(** C245: samples_seen, sum_of_values, sum_of_squares, sum_of_attribute_values and sum_of_attribute_squares are the weighted sums
    over all samples, when every sample has the same number of attributes and that number is not one; and the standard deviation
    computed from them is the one of the samples. *)
Theorem htr_sums_right : forall d es s, d <> 1%nat -> run htr_new es = Ok s -> (forall o, In o (all_samples es) -> length (ox o) = d) ->
  right_sums d (all_samples es) (hr_sums s).
Proof. intros d es s Hd H L. apply run_sums in H. rewrite H. now apply sums_right. Qed.
Theorem htr_sd_right : forall d es s, d <> 1%nat -> run htr_new es = Ok s -> (forall o, In o (all_samples es) -> length (ox o) = d /\ 0 <= ow o) -> 1 < weights_sum ow (all_samples es) ->
  let g := hr_sums s in
  compute_sd (n_sq g) (n_sum g) (n_seen g) = wsd oy ow (all_samples es)
  /\ forall j, (j < d)%nat -> exists a q, n_att g = Some a /\ n_attsq g = Some q /\ compute_sd (nth j q 0) (nth j a 0) (n_seen g) = wsd (oatt j) ow (all_samples es).
Proof.
  intros d es s Hd H L Hn g. destruct (htr_sums_right d es s Hd H (fun o Ho => proj1 (L o Ho))) as (A & B & C & D). fold g in A, B, C, D.
  assert (Ne : all_samples es <> []) by (intros E; rewrite E in Hn; cbn in Hn; lra). destruct (D Ne) as [D1 D2]. rewrite A, B, C. split; [apply sd_right; auto; intros o Ho; now apply L|].
  intros j Hj. do 2 eexists. split; [exact D1|]. split; [exact D2|].
  rewrite (nth_indep _ _ (wsum (fun o => oatt 0 o * oatt 0 o) ow (all_samples es))) by now rewrite map_length, seq_length.
  rewrite (map_nth (fun j => wsum (fun o => oatt j o * oatt j o) ow (all_samples es)) (seq 0 d) 0%nat).
  rewrite (nth_indep (map (fun j => wsum (oatt j) ow (all_samples es)) (seq 0 d)) 0 (wsum (oatt 0) ow (all_samples es))) by now rewrite map_length, seq_length.
  rewrite (map_nth (fun j => wsum (oatt j) ow (all_samples es)) (seq 0 d) 0%nat). rewrite seq_nth by auto. cbn [Nat.add]. apply sd_right; auto. intros o Ho. now apply L.
Qed.

(** C244: with int(weight) >= 1 for every sample, the absolute values of the perceptron weights of every leaf add up to one (unless
    they became nan), in every history, through splits and the memory limit. *)
Definition node_weights (n : node (rleaf R) (rinactive R) (option (stat R unit)) (htest R)) : option (pweights R) :=
  match n with Active l => Some (rl_pw l) | Inactive i => Some (ri_pw i) | Split _ _ _ => None end.
Lemma leaf_weights es s r q n pw : r_kind cfg = Perceptron -> run htr_new es = Ok s -> (forall x y w, In (x, y, w) (live_samples es) -> (1 <= int_of w)%Z) ->
  t_root (hr_tree s) = Some r -> node_at r q = Some n -> node_weights n = Some pw -> unit_norm pw /\ pw <> PNone.
Proof.
  intros HK H S Er Hn Hw.
  assert (I : hinv key int_of cfg (fun l => pw_ok (rl_stats l) (rl_pw l)) (fun i => pw_ok (ri_stats i) (ri_pw i)) (@seen_stats R) s).
  { refine (hinv_run key int_of cfg _ _ (heavy int_of) (norm_keeps key int_of cfg HK) sz (@seen_stats R) _ _ _ es s H S).
    - intros l i y w l' _ _ E. unfold rleaf_learn in E. cbv zeta in E. apply bind_Ok in E as (p & _ & E). injection E as <-. discriminate.
    - intros l i y w l' _ _ E. unfold rinactive_learn in E. cbv zeta in E. apply bind_Ok in E as (p & _ & E). injection E as <-. discriminate.
    - intros l l' te ds _ _ E d Hd. apply rdecide_cases in E as (pre & bs & _ & Eb & _ & best & Hin & Et & <-).
      destruct (rsuggestions_in _ _ _ _ _ _ Eb Hin) as [->|(i & o & Hio & E)]; [discriminate Et|]. destruct o as [t|dd|]; cbn [rbest_of] in E; [| |discriminate].
      + apply bind_Ok in E as (b & Ee & E). injection E as <-. destruct (sg_test b); [|discriminate Et]. destruct (sg_dists b) as [[u v]|]; [|discriminate Et]. destruct Hd as [<-|[<-|[]]]; discriminate.
      + destruct (NominalObs.nr_best _ _ _ _) as [b|]; [|discriminate]. injection E as <-. cbn [sg_dists] in Hd. apply in_map_iff in Hd as (u & <- & _). discriminate. }
  destruct I as [[_ W] Ev]. rewrite Er in W, Ev. pose proof (wf_node_at _ _ _ _ _ _ W Hn) as Wn. specialize (Ev _ _ Hn). destruct n as [l|i|te st ch]; [| |discriminate]; injection Hw as <-.
  - inversion Wn as [l0 L0| |]; subst. destruct L0 as [_ [A B]]. split; auto.
  - inversion Wn as [|i0 L0|]; subst. destruct L0 as [A B]. split; auto.
Qed.
Theorem htr_perceptron_normalised : forall es s r q n ws, r_kind cfg = Perceptron -> run htr_new es = Ok s -> (forall x y w, In (x, y, w) (live_samples es) -> (1 <= int_of w)%Z) ->
  t_root (hr_tree s) = Some r -> node_at r q = Some n -> node_weights n = Some (PW ws) -> Rsum (map Rabs ws) = 1.
Proof. intros es s r q n ws HK H S Er Hn Hw. exact (proj1 (leaf_weights es s r q n (PW ws) HK H S Er Hn Hw)). Qed.

Lemma in_combine_seq (x : list R) : forall k i v, In (i, v) (combine (seq k (length x)) x) -> exists j, (j < length x)%nat /\ i = (k + j)%nat /\ v = nth j x 0.
Proof.
  induction x as [|a x IH]; intros k i v H; [destruct H|]. cbn [length seq combine] in H. destruct H as [[= <- <-]|H]; [exists 0%nat; cbn; repeat split; lia|].
  apply IH in H as (j & A & -> & ->). exists (S j). cbn. repeat split; lia.
Qed.
(** ... so an instance within three standard deviations of the mean in every attribute is answered with a value within three
    standard deviations of the mean target. *)
Theorem htr_perceptron_in_range : forall d es s r x p n v, r_kind cfg = Perceptron -> run htr_new es = Ok s -> d <> 1%nat ->
  (forall o, In o (all_samples es) -> length (ox o) = d /\ 0 <= ow o) -> (forall x y w, In (x, y, w) (live_samples es) -> (1 <= int_of w)%Z) ->
  1 < weights_sum ow (all_samples es) -> length x = d ->
  (forall j, (j < d)%nat -> if r_nominal cfg (Z.of_nat j) then Rabs (nth j x 0) <= 1
                            else Rabs (nth j x 0 - wmean (oatt j) ow (all_samples es)) <= 3 * wsd (oatt j) ow (all_samples es)) ->
  t_root (hr_tree s) = Some r -> reaches O r (feat x) p n -> is_split n = false -> htr_predict key int_of cfg s [x] = Ok [Some v] ->
  Rabs (v - wmean oy ow (all_samples es)) <= 3 * wsd oy ow (all_samples es).
Proof.
  intros d es s r x p n v HK H Hd L S Hn Lx Hx Er Rn Hs HO. set (all := all_samples es) in *.
  destruct (htr_sums_right d es s Hd H (fun o Ho => proj1 (L o Ho))) as (A & B & C & D). fold all in A, B, C, D. destruct (htr_sd_right d es s Hd H L Hn) as [SDy SDx]. cbv zeta in SDy, SDx. fold all in SDy, SDx.
  set (g := hr_sums s) in *. assert (Gt : @nltb R NumR n1 (n_seen g) = true) by (apply Rltb_true; rewrite A; exact Hn).
  unfold htr_predict in HO. rewrite Er in HO. fold g in HO. assert (G0 : @nltb R NumR n0 (n_seen g) = true) by (apply Rltb_true; rewrite A; cbn; lra). rewrite G0 in HO. cbn [mapM] in HO.
  apply bind_Ok in HO as (v0 & HO & E). cbn in E. injection E as ->. unfold htr_value in HO. fold g in HO.
  apply (feat_reaches key int_of cfg r (mk_inst x g (fun _ => n0))) in Rn. rewrite Rn in HO. cbn [bind] in HO.
  destruct (route_found _ _ _ _ _ Rn) as [Hat _].
  assert (Q : exists st pw, node_weights n = Some pw /\ leaf_value cfg st pw g x = Ok (Some v)) by (destruct n as [l|i|te st ch]; [| |discriminate]; do 2 eexists; split; [reflexivity|exact HO|reflexivity|exact HO]).
  destruct Q as (st & pw & Hw & Q). destruct (leaf_weights es s r p n pw HK H S Er Hat Hw) as [Un Nn]. unfold leaf_value in Q. rewrite HK in Q. destruct pw as [| |ws]; [contradiction|apply bind_Ok in Q as (? & _ & Q); discriminate|].
  apply bind_Ok in Q as (xn & En & Q). destruct (Nat.eqb _ _) eqn:El; [|discriminate]. apply Nat.eqb_eq in El. cbv zeta in Q. injection Q as Q. unfold quot in Q. change (@neqb R NumR) with Reqb in Q. change (@n0 R NumR) with 0 in Q.
  destruct (Reqb (n_seen g) 0) eqn:E0; [discriminate|]. injection Q as <-. rewrite SDy.
  assert (Em : n_sum g / n_seen g = wmean oy ow all) by (rewrite A, B; reflexivity). rewrite Em.
  change (Rabs (dot ws xn * wsd oy ow all * 3 + wmean oy ow all - wmean oy ow all) <= 3 * wsd oy ow all).
  replace (dot ws xn * wsd oy ow all * 3 + wmean oy ow all - wmean oy ow all) with (dot ws xn * (3 * wsd oy ow all)) by ring.
  assert (P : 0 <= 3 * wsd oy ow all) by (apply Rmult_le_pos; [lra|apply sqrt_pos]). rewrite Rabs_mult, (Rabs_right (3 * _)) by lra. rewrite <- (Rmult_1_l (3 * wsd oy ow all)) at 2. apply Rmult_le_compat_r; auto.
  cbn [unit_norm] in Un. rewrite <- Un. apply dot_bound; auto. intros u Hu. unfold normalize in En. apply bind_Ok in En as (xs & Ex & En). injection En as <-. apply in_app_iff in Hu as [Hu|[<-|[]]].
  2:{ change (@nltb R NumR n1 (n_seen g)) with (Rltb 1 (n_seen g)). change (@nltb R NumR n1 (n_seen g)) with (Rltb 1 (n_seen g)) in Gt. rewrite Gt. change (Rabs 1 <= 1). rewrite Rabs_R1. lra. }
  destruct (mapM_in _ _ _ Ex _ Hu) as ([i vi] & Hin & Ei). cbn [fst snd] in Ei. apply in_combine_seq in Hin as (j & Hj & -> & ->). cbn [Nat.add] in Ei. rewrite Lx in Hj. specialize (Hx j Hj). unfold norm_entry in Ei.
  destruct (r_nominal cfg (Z.of_nat j)); cbn [negb andb] in Ei; [injection Ei as <-; exact Hx|]. rewrite Gt in Ei. destruct (SDx j Hj) as (a & q & Ea & Eq & SD). rewrite Ea, Eq in Ei.
  assert (Ne : all <> []) by (intros E; rewrite E in Hn; cbn in Hn; lra). destruct (D Ne) as [D1 D2]. rewrite Ea in D1. rewrite Eq in D2. injection D1 as D1. injection D2 as D2.
  rewrite (py_get_in a (Z.of_nat j) 0) in Ei by (rewrite D1, map_length, seq_length; lia). cbn [bind] in Ei. rewrite (py_get_in q (Z.of_nat j) 0) in Ei by (rewrite D2, map_length, seq_length; lia). cbn [bind] in Ei. rewrite Nat2Z.id in Ei.
  rewrite SD in Ei. change (@nltb R NumR) with Rltb in Ei. change (@n0 R NumR) with 0 in Ei. destruct (Rltb 0 (wsd (oatt j) ow all)) eqn:Esd; injection Ei as <-; [|rewrite Rabs_R0; lra]. apply Rltb_true in Esd.
  assert (Ma : nth j a 0 = wsum (oatt j) ow all).
  { rewrite D1. rewrite (nth_indep _ 0 (wsum (oatt 0) ow all)) by now rewrite map_length, seq_length. rewrite (map_nth (fun j => wsum (oatt j) ow all) (seq 0 d) 0%nat), seq_nth by auto. reflexivity. }
  rewrite Ma, A. change (Rabs ((nth j x 0 - wmean (oatt j) ow all) / (3 * wsd (oatt j) ow all)) <= 1). apply scaled_bound; auto. lra.
Qed.
(** What standardising makes of the value [v] of attribute [j], given the samples seen *)
Definition standard_entry (nominal : bool) (seen : list (list R * R * R)) (j : nat) (v : R) : R :=
  if nominal then v else
  if Rlt_dec 1 (weights_sum ow seen) then
    if Rlt_dec 0 (wsd (oatt j) ow seen) then (v - wmean (oatt j) ow seen) / (3 * wsd (oatt j) ow seen) else 0
  else 0.
(** C245: normalize_sample(X) is, after every history, the list of the standard scores of the attributes divided by three - zero for an
    attribute without spread and while no more than one sample was seen, nominal attributes as they are - and a one at the end once
    more than one sample was seen, else a zero. *)
Theorem htr_standardises : forall d es s x, d <> 1%nat -> run htr_new es = Ok s -> (forall o, In o (all_samples es) -> length (ox o) = d /\ 0 <= ow o) -> length x = d ->
  normalize cfg (hr_sums s) x = Ok (map (fun j => standard_entry (r_nominal cfg (Z.of_nat j)) (all_samples es) j (nth j x 0)) (seq 0 d)
                                    ++ [if Rlt_dec 1 (weights_sum ow (all_samples es)) then 1 else 0]).
Proof.
  intros d es s x Hd H L Lx. set (all := all_samples es) in *.
  destruct (htr_sums_right d es s Hd H (fun o Ho => proj1 (L o Ho))) as (A & B & C & D). fold all in A, B, C, D. set (g := hr_sums s) in *.
  unfold normalize. change (@nltb R NumR n1 (n_seen g)) with (Rltb 1 (n_seen g)).
  assert (EL : (if Rltb 1 (n_seen g) then n1 else n0) = (if Rlt_dec 1 (weights_sum ow all) then 1 else 0)).
  { rewrite A. destruct (Rlt_dec 1 (weights_sum ow all)) as [h|h]; [apply Rltb_true in h|apply Rnot_lt_le, Rltb_false in h]; rewrite h; reflexivity. }
  rewrite EL.
  assert (EE : forall j, (j < d)%nat -> norm_entry cfg g j (nth j x 0) = Ok (standard_entry (r_nominal cfg (Z.of_nat j)) all j (nth j x 0))).
  { intros j Hj. unfold norm_entry, standard_entry. change (@nltb R NumR n1 (n_seen g)) with (Rltb 1 (n_seen g)). destruct (r_nominal cfg (Z.of_nat j)); cbn [negb andb]; [reflexivity|]. rewrite A at 1.
    destruct (Rlt_dec 1 (weights_sum ow all)) as [h|h].
    2:{ apply Rnot_lt_le, Rltb_false in h. rewrite h. reflexivity. }
    destruct (htr_sd_right d es s Hd H L h) as [_ SDx]. cbv zeta in SDx. fold all g in SDx. destruct (SDx j Hj) as (a & q & Ea & Eq & SD).
    assert (Ne : all <> []) by (intros E; rewrite E in h; cbn in h; lra). destruct (D Ne) as [D1 D2]. rewrite Ea in D1. rewrite Eq in D2. injection D1 as D1. injection D2 as D2.
    pose proof (proj2 (Rltb_true _ _) h) as h'. rewrite h'. rewrite Ea, Eq. rewrite (py_get_in a (Z.of_nat j) 0) by (rewrite D1, map_length, seq_length; lia). cbn [bind].
    rewrite (py_get_in q (Z.of_nat j) 0) by (rewrite D2, map_length, seq_length; lia). cbn [bind]. rewrite Nat2Z.id. rewrite SD.
    assert (Ma : nth j a 0 = wsum (oatt j) ow all).
    { rewrite D1. rewrite (nth_indep _ 0 (wsum (oatt 0) ow all)) by now rewrite map_length, seq_length. rewrite (map_nth (fun j => wsum (oatt j) ow all) (seq 0 d) 0%nat), seq_nth by auto. reflexivity. }
    rewrite Ma, A. change (@nltb R NumR n0 (wsd (oatt j) ow all)) with (Rltb 0 (wsd (oatt j) ow all)).
    destruct (Rlt_dec 0 (wsd (oatt j) ow all)) as [p|p]; [apply Rltb_true in p|apply Rnot_lt_le, Rltb_false in p]; rewrite p; reflexivity. }
  assert (G : forall l k, (forall j, (j < length l)%nat -> norm_entry cfg g (k + j) (nth j l 0) = Ok (standard_entry (r_nominal cfg (Z.of_nat (k + j))) all (k + j) (nth j l 0))) ->
     mapM (fun p => norm_entry cfg g (fst p) (snd p)) (combine (seq k (length l)) l) = Ok (map (fun j => standard_entry (r_nominal cfg (Z.of_nat j)) all j (nth (j - k) l 0)) (seq k (length l)))).
  { induction l as [|v l IH]; intros k HH; [reflexivity|]. cbn [length seq combine mapM fst snd map].
    pose proof (HH 0%nat ltac:(cbn; lia)) as H0. rewrite Nat.add_0_r in H0. cbn [nth] in H0. rewrite H0. cbn [bind]. rewrite (IH (S k)).
    - cbn [bind]. rewrite Nat.sub_diag. cbn [nth]. do 2 f_equal. apply map_ext_in. intros j Hj. apply in_seq in Hj. replace (j - k)%nat with (S (j - S k)) by lia. reflexivity.
    - intros j Hj. specialize (HH (S j) ltac:(cbn; lia)). replace (k + S j)%nat with (S k + j)%nat in HH by lia. exact HH. }
  rewrite (G x 0%nat) by (intros j Hj; apply EE; lia). cbn [bind]. rewrite Lx. do 2 f_equal. apply map_ext. intros j. now rewrite Nat.sub_0_r.
Qed.
End Real.

Section Any.
Context {T : Type} {N : Num T} (key : T -> Z) (int_of : T -> Z) (cfg : htr_config T) (sz : sizes T (rleaf T) (rinactive T) (option (stat T unit)) (htest T)).
Local Notation O := (htr_ops key int_of cfg).
(** C245, refuted for a single attribute: once a sample has been learned no other one can be: sum_of_attribute_values is an empty
    array, and whatever the values a sample with int(weight) >= 1 raises (an IndexError), once samples_seen exceeds one. *)
Lemma one_att_sums (l : list (list T * T * T)) : l <> [] -> (forall o, In o l -> length (fst (fst o)) = 1%nat) -> n_att (sums_of l sums_new) = Some [] /\ n_attsq (sums_of l sums_new) = Some [].
Proof.
  intros Ne HL. induction l as [|[[x y] w] l IH] using rev_ind; [contradiction|]. unfold sums_of in *. rewrite fold_left_app. cbn [fold_left fst snd sums_add n_att n_attsq].
  assert (Lx : length x = 1%nat) by (apply (HL (x, y, w)), in_app_iff; right; now left). destruct x as [|v [|v' x]]; try discriminate. cbn [map].
  destruct l as [|o l]; [split; reflexivity|]. destruct IH as [A B]; [discriminate|intros o' Ho; apply HL, in_app_iff; auto|]. rewrite A, B. split; reflexivity.
Qed.
Lemma normalize_empty g v : n_att g = Some [] -> (n1 <? n_seen g)%num = true -> r_nominal cfg 0 = false -> normalize cfg g [v] = Raise IndexError.
Proof. intros A B C. unfold normalize. cbn [length seq combine mapM fst snd]. unfold norm_entry. cbn [Z.of_nat]. rewrite C, B, A. reflexivity. Qed.
Theorem htr_one_attribute_refuted : forall es s r v y dr w p n, r_kind cfg = Perceptron -> r_nominal cfg 0 = false -> htr_run key int_of cfg sz htr_new es = Ok s ->
  (forall o, In o (all_samples es) -> length (fst (fst o)) = 1%nat) -> all_samples es <> [] -> t_root (hr_tree s) = Some r ->
  (w =? n0)%num = false -> (1 <= int_of w)%Z -> (n1 <? n_seen (hr_sums s) + w)%num = true -> reaches O r (feat [v]) p n -> is_split n = false ->
  forall s', htr_fit key int_of cfg sz s [([v], y, dr)] (Some [w]) <> Ok s'.
Proof.
  intros es s r v y dr w p n HK HN H HL Ne Er Hw Hi Hs Rn Sp s' F. apply fit_single in F. apply htr_one_cases in F as [[C _]|(_ & g & -> & _ & F)]; [congruence|].
  pose proof (run_sums key int_of cfg sz es _ _ H) as ES. destruct (one_att_sums (all_samples es) Ne HL) as [A B]. change (hr_sums (@htr_new T N)) with (@sums_new T N) in ES. rewrite <- ES in A, B.
  set (g := sums_add (hr_sums s) [v] y w) in *. assert (Ag : n_att g = Some []) by (unfold g; cbn [sums_add n_att]; rewrite A; reflexivity).
  assert (Gg : (n1 <? n_seen g)%num = true) by exact Hs.
  assert (PL : forall p0 sw p1, perceptron_learn int_of cfg p0 sw (mk_inst [v] g dr) y w <> Ok p1).
  { intros p0 sw p1 E. unfold perceptron_learn in E. cbv zeta in E. apply bind_Ok in E as (ratio & _ & E). destruct (Z.to_nat (int_of w)) as [|k] eqn:Ek; [lia|]. cbn [repeat_update i_sums i_x] in E.
    apply bind_Ok in E as (p2 & E & _). unfold update_weights in E. rewrite normalize_empty in E by auto. discriminate. }
  apply (feat_reaches key int_of cfg r (mk_inst [v] g dr)) in Rn. unfold fit_one in F. unfold radd in F. cbn [t_root] in F. rewrite Er in F. rewrite Rn in F. cbn [bind] in F. apply bind_Ok in F as (s1 & F & _).
  destruct n as [l|i|te st ch]; [| |discriminate]; cbn [learn_found] in F; apply bind_Ok in F as (l' & F & _); cbn [o_learn o_learn_inactive htr_ops] in F.
  - unfold rleaf_learn in F. cbv zeta in F. apply bind_Ok in F as (p1 & F & _). unfold pw_learn in F. rewrite HK in F. exact (PL _ _ _ F).
  - unfold rinactive_learn in F. cbv zeta in F. apply bind_Ok in F as (p1 & F & _). unfold pw_learn in F. rewrite HK in F. exact (PL _ _ _ F).
Qed.

(** C248, refuted: "sample_weight: weight of the samples".  A sample with int(weight) <= 0 does not train the perceptron at all: the
    weights of its leaf are the ones it had, or the random ones, whatever the target. *)
Theorem htr_light_samples_refuted : forall l i y w l', r_kind cfg = Perceptron -> (int_of w <= 0)%Z -> rleaf_learn key int_of cfg l i y w = Ok l' ->
  rl_pw l' = match rl_pw l with PNone => PW (map (i_draw i) (seq 0 (length (i_x i) + 1))) | p => p end.
Proof.
  intros l i y w l' HK Hi E. unfold rleaf_learn in E. cbv zeta in E. apply bind_Ok in E as (p & Ep & E). injection E as <-. unfold pw_learn in Ep. rewrite HK in Ep. unfold perceptron_learn in Ep. cbv zeta in Ep.
  apply bind_Ok in Ep as (ratio & _ & Ep). replace (Z.to_nat (int_of w)) with 0%nat in Ep by lia. cbn in Ep. injection Ep as <-. cbn [rl_pw]. destruct (rl_pw l); reflexivity.
Qed.
End Any.

(** Runs with rational numbers *)
Local Open Scope Z_scope.
Local Open Scope Q_scope.
Definition pq_cfg : htr_config Q := mk_htr 100 (1#10) 100 false false false Perceptron (fun _ => false) (1#50) (1#1000) false true (mk_cfg 1000 false (fun _ => false)).
Local Notation pq_run := (htr_run rq_key rq_int pq_cfg rq_sizes htr_new).
Definition pq_row (a b y : Q) : sample Q := ([a; b], y, fun j => match j with 0%nat => 1#2 | 1%nat => -(1#4) | _ => 1#4 end).
(** Two attributes, weights 1: the hypotheses of the positive theorems are met, and the weights have norm one. *)
Example htr_perceptron_example : exists s l a b c, pq_run [RFit [pq_row 1 2 1; pq_row 2 1 3; pq_row 4 0 2] None] = Ok s /\ t_root (hr_tree s) = Some (Active l) /\ rl_pw l = PW [a; b; c]
  /\ Qred (nabs a + nabs b + nabs c) = 1 /\ n_seen (hr_sums s) = 3 /\ exists v, htr_predict rq_key rq_int pq_cfg s [[2; 1]] = Ok [Some v].
Proof.
  destruct (pq_run [RFit [pq_row 1 2 1; pq_row 2 1 3; pq_row 4 0 2] None]) as [s|e] eqn:E; [|vm_compute in E; discriminate]. exists s. vm_compute in E. injection E as <-. do 4 eexists. split; [reflexivity|]. split; [reflexivity|].
  split; [reflexivity|]. split; [vm_compute; reflexivity|]. split; [reflexivity|]. eexists. vm_compute. reflexivity.
Qed.
(** One attribute: the second sample fails, and so does predict after a first sample of weight two. *)
Theorem htr_one_attribute_run_refuted :
  (exists s, pq_run [RFit [([1], 1, fun _ => 1#2)] None] = Ok s) /\ pq_run [RFit [([1], 1, fun _ => 1#2); ([2], 3, fun _ => 1#2)] None] = Raise IndexError.
Proof. split; [eexists; vm_compute; reflexivity|vm_compute; reflexivity]. Qed.
(** Samples of weight 1/2: after three of them the weights are still the random ones. *)
Theorem htr_light_run_refuted : exists s l, pq_run [RFit [pq_row 1 2 1; pq_row 2 1 3; pq_row 4 0 2] (Some [1#2; 1#2; 1#2])] = Ok s /\ t_root (hr_tree s) = Some (Active l)
  /\ rl_pw l = PW [1#2; -(1#4); 1#4] /\ n_seen (hr_sums s) = 3#2.
Proof.
  destruct (pq_run [RFit [pq_row 1 2 1; pq_row 2 1 3; pq_row 4 0 2] (Some [1#2; 1#2; 1#2])]) as [s|e] eqn:E; [|vm_compute in E; discriminate]. exists s. vm_compute in E. injection E as <-. eexists. repeat (split; [reflexivity|]). reflexivity.
Qed.

(** C249, refuted: "remove_poor_atts: if True, disable poor attributes".  With two constant attributes the merits are zero, and the
    attempt at the grace period raises a ZeroDivisionError: the sample is lost and the regressor stops. *)
Definition poor_cfg : htr_config Q := mk_htr 10 (1#10) 100 false true false Mean (fun _ => false) (1#50) (1#1000) false true (mk_cfg 1000 false (fun _ => false)).
Definition flat_rows (n : nat) : list (sample Q) := map (fun i => ([0; 0], inject_Z (Z.of_nat i), fun _ => 0)) (seq 0 n).
Theorem htr_remove_poor_atts_refuted : (exists s, htr_run rq_key rq_int poor_cfg rq_sizes htr_new [RFit (flat_rows 9) None] = Ok s)
  /\ htr_run rq_key rq_int poor_cfg rq_sizes htr_new [RFit (flat_rows 10) None] = Raise ZeroDivisionError.
Proof. split; [eexists; vm_compute; reflexivity|vm_compute; reflexivity]. Qed.
(** Refuted: "a split is made on an attribute that separates the samples".  With no_preprune and one attribute the only suggestion is
    taken whatever its merit: a constant attribute is split, one branch has no samples, and an instance there is answered nan. *)
Definition bare_cfg : htr_config Q := mk_htr 10 (1#10) 100 false false true Mean (fun _ => false) (1#50) (1#1000) false true (mk_cfg 1000 false (fun _ => false)).
Definition flat1 (n : nat) : list (sample Q) := map (fun i => ([0], inject_Z (Z.of_nat i), fun _ => 0)) (seq 0 n).
Theorem htr_single_suggestion_refuted : exists s, htr_run rq_key rq_int bare_cfg rq_sizes htr_new [RFit (flat1 10) None] = Ok s
  /\ t_decision (hr_tree s) = 1%Z /\ htr_predict rq_key rq_int bare_cfg s [[0]; [1]] = Ok [Some (9#2); None].
Proof.
  destruct (htr_run rq_key rq_int bare_cfg rq_sizes htr_new [RFit (flat1 10) None]) as [s|e] eqn:E; [|vm_compute in E; discriminate]. exists s. vm_compute in E. injection E as <-. repeat (split; [reflexivity|]). vm_compute. reflexivity.
Qed.
(** C246, refuted: after reset() a perceptron tree that sees a sample answers differently from a new tree that sees it. *)
Theorem htr_reset_predict_refuted : exists s s' a b,
  pq_run [RFit [pq_row 1 2 1; pq_row 2 1 3; pq_row 4 0 2] None; RReset; RFit [pq_row 1 1 5] None] = Ok s /\ pq_run [RFit [pq_row 1 1 5] None] = Ok s'
  /\ htr_predict rq_key rq_int pq_cfg s [[1; 1]] = Ok [Some a] /\ htr_predict rq_key rq_int pq_cfg s' [[1; 1]] = Ok [Some b] /\ ~ a == b.
Proof. 
  destruct (pq_run [RFit [pq_row 1 2 1; pq_row 2 1 3; pq_row 4 0 2] None; RReset; RFit [pq_row 1 1 5] None]) as [s|e] eqn:E; [|vm_compute in E; discriminate].
  destruct (pq_run [RFit [pq_row 1 1 5] None]) as [s'|e] eqn:E'; [|vm_compute in E'; discriminate]. exists s, s'. vm_compute in E. injection E as <-. vm_compute in E'. injection E' as <-.
  do 2 eexists. split; [reflexivity|]. split; [reflexivity|]. split; [vm_compute; reflexivity|]. split; [vm_compute; reflexivity|]. vm_compute. discriminate.
Qed.

(** A history with real numbers: one sample of weight three, so both attributes are constant and every standard deviation is 0 *)
Definition pr_cfg : htr_config R := mk_htr 100%R 1%R 0%R false false false Perceptron (fun _ => false) 0%R 0%R true true (mk_cfg 1000%R false (fun _ => false)).
Definition pr_events : list (htr_event R) := [RFit [([1%R; 2%R], 2%R, fun _ => 1%R)] (Some [3%R])].
Definition pr_sums : sums R := mk_sums (0 + 3)%R (0 + 3 * 2)%R (0 + 3 * 2 * 2)%R (Some [(3 * 1)%R; (3 * 2)%R]) (Some [(3 * 1 * 1)%R; (3 * 2 * 2)%R]).
Lemma sd_zero q v n : (n <> 0 -> q * n = v * v -> compute_sd (T := R) q v n = 0)%R.
Proof.
  intros Hn E. unfold compute_sd. change (@nltb R NumR) with Rltb. cbn [nsub nmul ndiv NumR]. change (@n0 R NumR) with 0%R. replace (q - v * v / n)%R with 0%R by (rewrite <- E; field; auto).
  assert (Z : Rltb 0 0 = false) by (apply Rltb_false; lra). rewrite Z. destruct (Rltb n1 n); reflexivity.
Qed.
Lemma pr_norm cfg0 : r_nominal cfg0 = (fun _ => false) -> normalize (T := R) cfg0 pr_sums [1%R; 2%R] = Ok [0%R; 0%R; 1%R].
Proof.
  intros En. assert (G : @nltb R NumR n1 (n_seen pr_sums) = true) by (apply Rltb_true; cbn; lra). assert (Z : @nltb R NumR n0 0%R = false) by (apply Rltb_false; cbn; lra).
  unfold normalize. cbn [length seq combine mapM fst snd]. unfold norm_entry. rewrite En, G. cbn [negb andb pr_sums n_att n_attsq Z.of_nat].
  change (py_get [(3 * 1)%R; (3 * 2)%R] 0) with (@Ok R (3 * 1)%R). change (py_get [(3 * 1 * 1)%R; (3 * 2 * 2)%R] 0) with (@Ok R (3 * 1 * 1)%R).
  change (py_get [(3 * 1)%R; (3 * 2)%R] (Z.pos (Pos.of_succ_nat 0))) with (@Ok R (3 * 2)%R). change (py_get [(3 * 1 * 1)%R; (3 * 2 * 2)%R] (Z.pos (Pos.of_succ_nat 0))) with (@Ok R (3 * 2 * 2)%R).
  cbn [bind]. rewrite !sd_zero by (cbn; lra). rewrite Z. reflexivity.
Qed.
Example htr_perceptron_real_example : exists s l, htr_run (fun _ => 0%Z) (fun _ => 1%Z) pr_cfg rr_sizes htr_new pr_events = Ok s
  /\ t_root (hr_tree s) = Some (Active l) /\ hr_sums s = pr_sums /\ rl_pw l = PW [(1 / 3)%R; (1 / 3)%R; (1 / 3)%R]
  /\ all_samples pr_events = [([1%R; 2%R], 2%R, 3%R)] /\ htr_predict (fun _ => 0%Z) (fun _ => 1%Z) pr_cfg s [[1%R; 2%R]] = Ok [Some 2%R].
Proof.
  assert (E3 : @neqb R NumR 3%R n0 = false) by (apply Reqb_false; cbn; lra).
  assert (EL : forall v, (v < 100)%R -> @nleb R NumR 100%R v = false) by (intros v Hv; apply Rleb_false; lra).
  assert (U : update_weights (T := R) pr_cfg pr_sums [1%R; 2%R] 2%R 0%R (PW [1%R; 1%R; 1%R]) = Ok (PW [(1 / 3)%R; (1 / 3)%R; (1 / 3)%R])).
  { unfold update_weights. rewrite pr_norm by reflexivity. cbn [bind length Nat.eqb]. cbv zeta. cbn [combine map fst snd].
    set (dl := (norm_target pr_sums 2%R - _)%num). clearbody dl.
    assert (W : forall u v : R, u = 1%R -> @nadd R NumR u (@nmul R NumR (@nmul R NumR 0%R dl) v) = 1%R) by (intros u v ->; cbn; ring). rewrite !W by reflexivity.
    assert (A1 : nabs (T := R) 1%R = 1%R). { unfold nabs. destruct (@nltb R NumR 1%R n0) eqn:E; [apply Rltb_true in E; cbn in E; lra|reflexivity]. } rewrite A1.
    assert (SN : nsum (T := R) [1%R; 1%R; 1%R] = 3%R) by (cbn; ring). rewrite SN, E3. reflexivity. }
  unfold pr_events. cbn [htr_run htr_step]. unfold htr_fit. cbn [length Nat.eqb htr_rows]. unfold htr_one. rewrite E3. cbv zeta. unfold fit_weighted. rewrite E3.
  change (sums_add (hr_sums htr_new) [1%R; 2%R] 2%R 3%R) with pr_sums.
  unfold fit_one. cbn [hr_tree htr_new tree_new t_root route bind learn_found o_learn htr_ops]. unfold rleaf_learn, pw_learn, perceptron_learn. cbv zeta. cbn [r_kind pr_cfg r_const r_ratio bind].
  change (Z.to_nat 1) with 1%nat. cbn [repeat_update i_sums i_x i_draw o_new htr_ops rleaf_new rl_pw length Nat.add seq map]. rewrite U. cbn [bind root_of t_root update_at with_root].
  cbn [t_growth o_due htr_ops r_grace pr_cfg rl_stats rl_last weight_of rstats_add st_w]. rewrite EL by (cbn; lra). rewrite andb_false_r. cbn [bind].
  match goal with |- context [if ?b then _ else _] => assert (Eb : b = false) by (cbn; rewrite ?andb_false_r; reflexivity); rewrite Eb; clear Eb end. cbn [bind].
  do 2 eexists. split; [reflexivity|]. split; [reflexivity|]. split; [reflexivity|]. split; [reflexivity|].
  split; [unfold all_samples, call_samples; unfold flat_map, map, combine, filter, app; cbn; cbn in E3; rewrite E3; reflexivity|].
  unfold htr_predict. cbn [hr_tree hr_sums t_root mapM]. 
  assert (G : @nltb R NumR n0 (n_seen pr_sums) = true) by (apply Rltb_true; cbn; lra). rewrite G. cbn [mapM]. unfold htr_value. cbn [route bind hr_sums]. unfold leaf_value. cbn [r_kind pr_cfg rl_pw]. rewrite pr_norm by reflexivity.
  cbn [bind length Nat.eqb]. cbv zeta. unfold quot. assert (G3 : @neqb R NumR (n_seen pr_sums) n0 = false) by (apply Reqb_false; cbn; lra). rewrite G3. rewrite sd_zero by (cbn; lra). cbn. do 3 f_equal. field.
Qed.
Print Assumptions htr_sums_right. Print Assumptions htr_sd_right. Print Assumptions htr_standardises. Print Assumptions htr_perceptron_normalised. Print Assumptions htr_perceptron_in_range.
Print Assumptions htr_one_attribute_refuted. Print Assumptions htr_light_samples_refuted. Print Assumptions htr_one_attribute_run_refuted. Print Assumptions htr_light_run_refuted.
Print Assumptions htr_remove_poor_atts_refuted. Print Assumptions htr_single_suggestion_refuted. Print Assumptions htr_reset_predict_refuted.
