(** Very fast decision rules: the Hoeffding bound a rule is judged by. *)
From Coq Require Import List ZArith Reals Bool Lia Lra.
From Verif Require Import Base.Py Base.Num Base.Dict Model.SplitCriteria Model.TreeSkeleton Model.HoeffdingTree Model.Vfdr Spec.Lists.
Import ListNotations.
Local Open Scope R_scope.

(** C357: a rule is compared with the Hoeffding bound for the number of classes it has seen: the logarithm to base 2 of that number, but at least of 2
    except for the FOIL criterion, the configured confidence, and the weight the rule has seen. *)
Theorem vfdr_bound_value : forall (D : Type) (cfg : vfdr_config R D) d b, rule_bound cfg d = Ok b ->
  let classes := match v_criterion cfg with FoilGain => INR (length d) | _ => Rmax 2 (INR (length d)) end in
  b = sqrt ((ln classes / ln 2) * (ln classes / ln 2) * ln (1 / v_confidence cfg) / (2 * Rsum (map snd d))).
Proof.
  intros D cfg d b H. unfold rule_bound, hoeffding_bound, pydiv in H. destruct (neqb _ _); [discriminate|]. cbn [bind] in H. injection H as <-. cbv zeta.
  assert (S : vsum d = Rsum (map snd d)).
  { unfold vsum, dvals, n0. cbn [nofZ NumR]. assert (G : forall l a, fold_left Rplus l a = a + Rsum l) by (induction l as [|u l IH]; intros a; cbn; [unfold Rsum; cbn; lra|rewrite IH; unfold Rsum; cbn; lra]). change (@nadd R NumR) with Rplus. rewrite G. lra. }
  rewrite S. unfold rule_range, ig_range, log2, n1. cbn [nofZ nmul ndiv nsqrt nln NumR]. rewrite INR_IZR_INZ.
  assert (M : IZR (Z.max 2 (Z.of_nat (length d))) = Rmax 2 (IZR (Z.of_nat (length d)))).
  { destruct (Z.max_spec 2 (Z.of_nat (length d))) as [[L ->]|[L ->]]; [rewrite Rmax_right; [auto|apply IZR_le; lia]|rewrite Rmax_left; [auto|apply IZR_le; lia]]. }
  destruct (v_criterion cfg); rewrite ?M; reflexivity.
Qed.
Print Assumptions vfdr_bound_value.
(** Three classes of total weight 6 and confidence 1/10: the bound exists. *)
Example vfdr_bound_example : forall (D : Type) (cfg : vfdr_config R D), v_confidence cfg = 1 / 10 -> exists b, rule_bound cfg [(0%Z, 1); (1%Z, 2); (2%Z, 3)] = Ok b.
Proof. intros D cfg H. unfold rule_bound, hoeffding_bound, pydiv. rewrite H. unfold n0, n1. cbn [neqb nofZ NumR]. rewrite (proj2 (Reqb_false _ _)) by lra. cbn [bind]. eauto. Qed.
