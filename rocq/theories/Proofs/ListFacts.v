From Coq Require Import List Arith Lia Reals Lra.
From Verif Require Import Spec.Lists.
Import ListNotations.

Lemma skipn_skipn' {A} x y (l : list A) : skipn x (skipn y l) = skipn (x + y) l.
Proof.
  revert l; induction y; intros l; simpl; [rewrite Nat.add_0_r; reflexivity|].
  rewrite Nat.add_succ_r. destruct l; simpl; [destruct x; reflexivity | apply IHy].
Qed.

Lemma lastn_all {A} n (l : list A) : length l <= n -> lastn n l = l.
Proof. intros; unfold lastn; replace (length l - n) with 0 by lia; reflexivity. Qed.

Lemma lastn_length {A} n (l : list A) : length (lastn n l) = Nat.min n (length l).
Proof. unfold lastn; rewrite skipn_length; lia. Qed.

Lemma lastn_0 {A} (l : list A) : lastn 0 l = [].
Proof. unfold lastn; rewrite Nat.sub_0_r; apply skipn_all. Qed.

Lemma lastn_app_r {A} n (l1 l2 : list A) :
  n <= length l2 -> lastn n (l1 ++ l2) = lastn n l2.
Proof.
  intros H; unfold lastn; rewrite app_length, skipn_app.
  rewrite (skipn_all2 (n:=length l1 + length l2 - n)) by lia.
  simpl; f_equal; lia.
Qed.

Lemma lastn_app_l {A} n (l1 l2 : list A) :
  length l2 <= n -> lastn n (l1 ++ l2) = lastn (n - length l2) l1 ++ l2.
Proof.
  intros H; unfold lastn; rewrite app_length, skipn_app.
  f_equal; [f_equal; lia|].
  replace (length l1 + length l2 - n - length l1) with 0 by lia. reflexivity.
Qed.

Lemma lastn_lastn_app {A} n (l1 l2 : list A) :
  lastn n (lastn n l1 ++ l2) = lastn n (l1 ++ l2).
Proof.
  destruct (Nat.le_ge_cases (length l2) n).
  - rewrite !lastn_app_l by lia. f_equal.
    unfold lastn. rewrite skipn_length, skipn_skipn'. f_equal; lia.
  - rewrite !lastn_app_r by lia. reflexivity.
Qed.

Lemma butlastn_lastn {A} n (l : list A) : butlastn n l ++ lastn n l = l.
Proof. unfold butlastn, lastn; apply firstn_skipn. Qed.

Lemma lastn_suffix {A} n (l : list A) : suffix_of (lastn n l) l.
Proof. exists (butlastn n l); symmetry; apply butlastn_lastn. Qed.

Lemma suffix_lastn {A} (s l : list A) : suffix_of s l -> s = lastn (length s) l.
Proof.
  intros [p ->]. rewrite lastn_app_r by lia. rewrite lastn_all; auto.
Qed.

Lemma suffix_refl {A} (l : list A) : suffix_of l l.
Proof. exists []; reflexivity. Qed.

Lemma suffix_trans {A} (a b c : list A) : suffix_of a b -> suffix_of b c -> suffix_of a c.
Proof. intros [p ->] [q ->]; exists (q ++ p); rewrite app_assoc; reflexivity. Qed.

Lemma suffix_app {A} (a b x : list A) : suffix_of a b -> suffix_of (a ++ x) (b ++ x).
Proof. intros [p ->]; exists p; rewrite app_assoc; reflexivity. Qed.

Lemma suffix_skipn {A} n (l : list A) : suffix_of (skipn n l) l.
Proof. exists (firstn n l); symmetry; apply firstn_skipn. Qed.

Lemma Rsum_app l1 l2 : Rsum (l1 ++ l2) = (Rsum l1 + Rsum l2)%R.
Proof. induction l1; simpl; [lra | rewrite IHl1; lra]. Qed.

Lemma Rsum_nonneg l : (forall x, In x l -> 0 <= x)%R -> (0 <= Rsum l)%R.
Proof.
  induction l; simpl; intros H; [lra|].
  pose proof (H a (or_introl eq_refl)). assert (0 <= Rsum l)%R by auto. lra.
Qed.

Lemma nsum_app l1 l2 : nsum (l1 ++ l2) = nsum l1 + nsum l2.
Proof. induction l1; simpl; lia. Qed.

Lemma skipn_S_tl {A} n (l : list A) : skipn (S n) l = tl (skipn n l).
Proof. revert l; induction n; intros [|x l]; simpl; auto. apply IHn. Qed.

Lemma firstn_S_app {A} n (l : list A) d : n < length l -> firstn (S n) l = firstn n l ++ [nth n l d].
Proof.
  revert l; induction n; intros [|x l]; simpl; intros; try lia; auto.
  f_equal. apply IHn; lia.
Qed.

Lemma fold_left_app1 {A B} (f : A -> B -> A) l b a : fold_left f (l ++ [b]) a = f (fold_left f l a) b.
Proof. apply fold_left_app. Qed.
