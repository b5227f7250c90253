(** Dictionary helpers. *)
From Coq Require Import List ZArith Bool Lia Reals Lra.
From Verif Require Import Base.Py Base.Num Base.Dict Model.DictUtils Spec.Lists Proofs.DictUtilsProofs.
Import ListNotations.
Local Open Scope R_scope.

(** C363: normalize_values_in_dict divides every value by the factor, by the sum of the values if none is given (they then add up to 1), keeps the keys in
    their order, and refuses a factor 0 leaving all as it was; in place it changes the dictionary given and no other, otherwise it changes none and answers a
    new one. *)
Theorem normalize_values_spec : forall (h : cells (T := R)) r factor inplace, (r < length h)%nat -> NoDup (map fst (cell h r)) ->
  let f := match factor with Some f => f | None => Rsum (map snd (cell h r)) end in
  (f = 0 -> normalize_values h r factor inplace = Raise ValueError)
  /\ (f <> 0 -> exists r' h', normalize_values h r factor inplace = Ok (r', h')
       /\ cell h' r' = map (fun kv => (fst kv, snd kv / f)) (cell h r)
       /\ (factor = None -> Rsum (map snd (cell h' r')) = 1)
       /\ (if inplace then r' = r /\ length h' = length h else ~ (r' < length h)%nat)
       /\ forall q, (q < length h)%nat -> q <> r' -> cell h' q = cell h q).
Proof.
  intros h r factor inplace L ND f. unfold normalize_values. unfold n0. cbn [nofZ neqb nadd ndiv NumR]. unfold dvals. rewrite Rsum_fold, Rplus_0_l. fold f. split.
  - intros ->. now rewrite (proj2 (Reqb_true 0 0)).
  - intros Hf. rewrite (proj2 (Reqb_false f 0)) by exact Hf. destruct (target h r inplace) as [r' h'] eqn:Et. destruct (target_spec _ _ _ _ _ L Et) as (Lr & Ec & Eq & Ll & Er). eexists. eexists. split; [reflexivity|].
    rewrite Ec. set (d := fold_left _ (cell h r) (cell h r)). assert (Ed : d = map (fun kv => (fst kv, snd kv / f)) (cell h r)).
    { unfold d. assert (K : dkeys (fold_left (fun d kv => dset d (fst kv) (snd kv / f)) (cell h r) (cell h r)) = dkeys (cell h r)) by (apply (set_fold_keys (fun _ kv => snd kv / f)); apply incl_refl). apply dict_ext.
      - rewrite K. exact ND.
      - rewrite K. unfold dkeys. rewrite map_map. reflexivity.
      - intros k. rewrite scale_fold by exact ND. rewrite (dget_map (fun v => v / f)). destruct (dget (cell h r) k); reflexivity. }
    rewrite cell_store by exact Lr. rewrite Nat.eqb_refl. split; [exact Ed|]. split; [|split].
    + intros ->. rewrite Ed, map_map. cbn [snd]. replace (map (fun x : Z * R => snd x / f) (cell h r)) with (map (fun v => v / f) (map snd (cell h r))) by (rewrite map_map; reflexivity). rewrite Rsum_scale. fold f. field. exact Hf.
    + destruct inplace; [|lia]. split; auto. rewrite store_length. unfold target in Et. now injection Et as _ <-.
    + intros q Lq Nq. rewrite cell_store by exact Lr. destruct (Nat.eqb_spec r' q); [congruence|]. now apply Eq.
Qed.
Print Assumptions normalize_values_spec.

(** C364: add_dict_values gives every key of either dictionary the sum of its values (a missing value counts nothing); in place it changes the first
    dictionary only, otherwise none; also when both are the same dictionary. *)
Theorem add_dicts_spec : forall (h : cells (T := R)) a b inplace r h', (a < length h)%nat -> (b < length h)%nat -> NoDup (map fst (cell h b)) -> add_dicts h a b inplace = (r, h') ->
  (forall k, dget (cell h' r) k = match dget (cell h a) k, dget (cell h b) k with Some x, Some y => Some (x + y) | Some x, None => Some x | None, y => y end)
  /\ (if inplace then r = a else ~ (r < length h)%nat) /\ forall q, (q < length h)%nat -> q <> r -> cell h' q = cell h q.
Proof.
  intros h a b inplace r h' La Lb ND H. unfold add_dicts in H. destruct (target h a inplace) as [r1 h1] eqn:Et. injection H as <- <-. destruct (target_spec _ _ _ _ _ La Et) as (Lr & Ec & Eq & Ll & Er). split; [|split].
  - intros k. rewrite cell_store by exact Lr. rewrite Nat.eqb_refl. rewrite (Eq b Lb), Ec. cbn [nadd NumR]. rewrite add_fold by exact ND. destruct (dget (cell h a) k), (dget (cell h b) k); reflexivity.
  - destruct inplace; [auto|lia].
  - intros q Lq Nq. rewrite cell_store by exact Lr. destruct (Nat.eqb_spec r1 q); [congruence|]. now apply Eq.
Qed.
Print Assumptions add_dicts_spec.

(** C365: get_max_value_key answers the first key that has the greatest value, and 0 for an empty dictionary. *)
Theorem max_value_key_first : forall d : list (Z * R), (d = [] -> max_value_key d = 0%Z)
  /\ (d <> [] -> exists before v after, d = before ++ (max_value_key d, v) :: after /\ (forall k w, In (k, w) before -> w < v) /\ (forall k w, In (k, w) after -> w <= v)).
Proof.
  intros d. split; [intros ->; reflexivity|]. destruct d as [|kv d]; [congruence|]. intros _. unfold max_value_key. cbn [nltb NumR].
  assert (G : forall (l pre : list (Z * R)) (best : Z * R) (mid : list (Z * R)), (forall k w, In (k, w) pre -> w < snd best) -> (forall k w, In (k, w) mid -> w <= snd best) ->
    exists before v after, (pre ++ best :: mid) ++ l = before ++ (fst (fold_left (fun best kv => if Rltb (snd best) (snd kv) then kv else best) l best), v) :: after
      /\ (forall k w, In (k, w) before -> w < v) /\ (forall k w, In (k, w) after -> w <= v)).
  { induction l as [|x l IH]; intros pre best mid Hp Hm; cbn [fold_left].
    - exists pre, (snd best), mid. rewrite app_nil_r. destruct best. auto.
    - destruct (Rltb (snd best) (snd x)) eqn:E.
      + apply Rltb_true in E. destruct (IH (pre ++ best :: mid) x []) as (bf & v & af & Eq & A & B); [|intros k w []|].
        * intros k w Hi. apply in_app_iff in Hi as [Hi|[Hi|Hi]]; [specialize (Hp _ _ Hi); lra|subst best; cbn in E; lra|specialize (Hm _ _ Hi); lra].
        * exists bf, v, af. split; auto. rewrite <- Eq. rewrite <- !app_assoc. cbn. reflexivity.
      + apply Rltb_false in E. destruct (IH pre best (mid ++ [x])) as (bf & v & af & Eq & A & B); [exact Hp| |].
        * intros k w Hi. apply in_app_iff in Hi as [Hi|[Hi|[]]]; [now apply (Hm k)|subst x; exact E].
        * exists bf, v, af. split; auto. rewrite <- Eq. rewrite <- !app_assoc. cbn. rewrite <- app_assoc. reflexivity. }
  destruct (G d [] kv []) as (bf & v & af & Eq & A & B); [intros k w []|intros k w []|]. exists bf, v, af. auto.
Qed.
Print Assumptions max_value_key_first.
Example dicts_example : NoDup (map fst [(3%Z, 1); (0%Z, 3)]) /\ (exists h', add_dicts (N := NumR) [[(3%Z, 1); (0%Z, 3)]; [(7%Z, 2)]] 0 0 true = (0%nat, h')) /\ Rsum (map snd [(3%Z, 1); (0%Z, 3)]) <> 0.
Proof. split; [repeat constructor; cbn; intuition discriminate|]. split; [eexists; reflexivity|]. unfold Rsum. cbn. lra. Qed.
