(** Object sizes. *)
From Coq Require Import List ZArith Bool Lia Reals Lra.
From Verif Require Import Base.Py Base.Num Model.ObjectSize Spec.ObjectSizeSpec Proofs.ObjectSizeProofs.
Import ListNotations.

(** C358: on every object that holds finitely many objects, however they refer to each other (shared parts, cycles), calculate_object_size ends, and the
    answer is the sum of the own sizes of all objects it holds, each counted once, in the unit asked for. *)
Theorem object_size_counts_once : forall h o, finite_object h o -> exists l rounds, NoDup l /\ (forall p, In p l <-> holds h o p)
  /\ forall fuel u, (rounds <= fuel)%nat -> object_size (T := R) fuel h o u = Some (IZR (total h l) / match u with Byte => 1 | KB => 1024 | MB => 1048576 end)%R.
Proof.
  intros h o (U & HU). assert (G : forall fuel, (S (S (cost h U [])) <= fuel)%nat -> exists l, NoDup l /\ (forall p, In p l <-> holds h o p) /\ size_loop fuel h [] [o] 0%Z = Some (total h l)).
  { intros fuel Hf. apply (loop_ends h o U HU); [cbn [length Nat.add]; lia|constructor|reflexivity|intros p [[]|[<-|[]]]; constructor|intros p x []|right; now left]. }
  destruct (G _ (Nat.le_refl _)) as (l & ND & Hl & _). exists l, (S (S (cost h U []))). split; auto. split; auto. intros fuel u Hf. destruct (G fuel Hf) as (l' & ND' & Hl' & E). unfold object_size. rewrite E.
  rewrite (total_unique h l' l) by (auto; intros p; rewrite Hl, Hl'; tauto). destruct u; cbn [in_unit nofZ ndiv NumR]; [f_equal; lra|reflexivity|reflexivity].
Qed.
Print Assumptions object_size_counts_once.
(** C359: a part is never larger than what holds it; and the order and number of times in which an object refers to its parts does not matter. *)
Theorem part_not_larger : forall h o p fuel a b, finite_object h o -> (forall q, (0 <= own_size h q)%Z) -> holds h o p ->
  size_loop fuel h [] [o] 0%Z = Some a -> size_loop fuel h [] [p] 0%Z = Some b -> (b <= a)%Z.
Proof.
  assert (Mono : forall h fuel seen q acc v, size_loop fuel h seen q acc = Some v -> forall fuel', (fuel <= fuel')%nat -> size_loop fuel' h seen q acc = Some v).
  { intros h. induction fuel as [|fuel IH]; intros seen q acc v H fuel' L; [discriminate|]. destruct fuel' as [|fuel']; [lia|]. cbn [size_loop] in *. destruct q; auto. destruct (existsb _ _); eapply IH; eauto; lia. }
  intros h o p fuel a b (U & HU) Hs Hp Ea Eb.
  assert (G : forall o' v, (forall q, holds h o' q -> In q U) -> size_loop fuel h [] [o'] 0%Z = Some v -> exists l, NoDup l /\ (forall q, In q l <-> holds h o' q) /\ v = total h l).
  { intros o' v HU' E. destruct (loop_ends h o' U HU' (fuel + S (S (cost h U []))) [] [o'] 0%Z) as (l & ND & Hl & E'); [cbn [length Nat.add]; lia|constructor|reflexivity|intros q [[]|[<-|[]]]; constructor|intros q x []|right; now left|].
    exists l. split; auto. split; auto. pose proof (Mono h fuel [] [o'] 0%Z v E (fuel + S (S (cost h U []))) ltac:(lia)) as E2. congruence. }
  destruct (G o a HU Ea) as (l & ND & Hl & ->). destruct (G p b ltac:(intros q Hq; apply HU; eapply holds_trans; eauto) Eb) as (l' & ND' & Hl' & ->).
  apply total_incl; auto. intros q Hq. apply Hl. apply Hl' in Hq. eapply holds_trans; eauto.
Qed.
Theorem size_ignores_order : forall h h' o fuel a b, finite_object h o -> (forall p, own_size h p = own_size h' p) -> (forall p q, part h p q <-> part h' p q) ->
  size_loop fuel h [] [o] 0%Z = Some a -> size_loop fuel h' [] [o] 0%Z = Some b -> a = b.
Proof.
  assert (Mono : forall h fuel seen q acc v, size_loop fuel h seen q acc = Some v -> forall fuel', (fuel <= fuel')%nat -> size_loop fuel' h seen q acc = Some v).
  { intros h. induction fuel as [|fuel IH]; intros seen q acc v H fuel' L; [discriminate|]. destruct fuel' as [|fuel']; [lia|]. cbn [size_loop] in *. destruct q; auto. destruct (existsb _ _); eapply IH; eauto; lia. }
  assert (G : forall h o fuel v U, (forall q, holds h o q -> In q U) -> size_loop fuel h [] [o] 0%Z = Some v -> exists l, NoDup l /\ (forall q, In q l <-> holds h o q) /\ v = total h l).
  { intros h o fuel v U HU E. destruct (loop_ends h o U HU (fuel + S (S (cost h U []))) [] [o] 0%Z) as (l & ND & Hl & E'); [cbn [length Nat.add]; lia|constructor|reflexivity|intros q [[]|[<-|[]]]; constructor|intros q x []|right; now left|].
    exists l. split; auto. split; auto. pose proof (Mono h fuel [] [o] 0%Z v E (fuel + S (S (cost h U []))) ltac:(lia)) as E2. congruence. }
  intros h h' o fuel a b (U & HU) Hs Hp Ea Eb. assert (Same : forall q, holds h o q <-> holds h' o q).
  { intros q. split; intros H; induction H; try constructor; eapply holds_part; eauto; now apply Hp. }
  destruct (G h o fuel a U HU Ea) as (l & ND & Hl & ->). destruct (G h' o fuel b U ltac:(intros q Hq; apply HU; now apply Same) Eb) as (l' & ND' & Hl' & ->).
  rewrite (total_unique h l l') by (auto; intros q; rewrite Hl, Hl'; apply Same). clear - Hs. induction l' as [|x l' IH]; cbn [total]; [reflexivity|]. now rewrite IH, Hs.
Qed.
Print Assumptions part_not_larger.
Print Assumptions size_ignores_order.
(** A node (0) with an attribute dictionary (1) whose keys are texts 2 and 3, whose value at 2 is a list (4) of the node itself, and text 3 twice, and whose value
    at 3 is the text 2: five objects, sizes 48, 104, 52, 50, 72. *)
Definition loop_heap : heap := mk_heap (fun p => nth p [48; 104; 52; 50; 72]%Z 0%Z)
  (fun p => match p with 0 => KAttrs 1 | 1 => KDict [(2, 4); (3, 2)] | 4 => KIter [0; 3; 3] | _ => KAtom end)%nat.
Example object_size_example : size_loop 20 loop_heap [] [0%nat] 0%Z = Some 326%Z /\ size_loop 20 loop_heap [] [1%nat] 0%Z = Some 326%Z /\ size_loop 20 loop_heap [] [2%nat] 0%Z = Some 52%Z /\ finite_object loop_heap 0.
Proof.
  repeat (split; [reflexivity|]). exists [0; 1; 2; 3; 4]%nat. intros p H. induction H as [|p q H IH Pq]; [now left|]. apply appended_part in Pq. cbn in IH. decompose [or] IH; try contradiction; subst p; cbn in Pq |- *; tauto.
Qed.
