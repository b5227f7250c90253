(** Extremely fast decision tree: what it answers where no branch applies. *)
From Coq Require Import List ZArith Bool Reals Lra Lia Floats.
From Verif Require Import Base.Py Base.Num Base.NumFloat Base.Dict Model.SplitCriteria Model.TreeSkeleton Model.HoeffdingTree Model.Efdt
  Spec.Lists Spec.TreeSpec Spec.EfdtSpec Proofs.TreeProofs Proofs.EfdtProofs Props.EfdtProps.
Import ListNotations.
Local Open Scope Z_scope.

(** C356: an instance for which the root has no branch (a value of a nominal attribute not seen when the node was split), and every instance while the
    tree is a single leaf (a majority class leaf or one switched off), is answered with the weight of every class taught since the last reset. *)
Theorem efdt_votes_at_root : forall k phi key (cfg : ht_config R) min_re sz es s r x, efdt_run k phi key cfg min_re sz efdt_new es = Ok s -> t_root (ef_tree s) = Some r ->
  match r with
  | Split te _ ch => exists b, ht_branch key te x = Ok b /\ (b < 0 \/ ~ In b (map fst ch))
  | Active _ => h_kind cfg = MC
  | Inactive _ => True
  end ->
  exists v, efdt_votes k key cfg s x = Ok v
    /\ forall c, match dget v c with Some u => u = class_total c (since_clear es) /\ In c (map fst (since_clear es)) | None => ~ In c (map fst (since_clear es)) end.
Proof.
  intros k phi key cfg min_re sz es s r x Hr Er Hx. pose proof (efdt_root_statistics k phi key cfg min_re sz es s Hr) as Q. rewrite Er in Q. exists (kept r). split; [|exact Q].
  unfold efdt_votes, answering. rewrite Er. destruct r as [l|d|te st ch].
  - cbn [route bind]. unfold leaf_votes. rewrite Hx. reflexivity.
  - reflexivity.
  - destruct Hx as (b & Eb & Hb). cbn [route o_branch efdt_ops]. rewrite Eb. cbn [bind]. destruct (0 <=? b) eqn:E0; [|reflexivity]. apply Z.leb_le in E0. destruct Hb as [Hb|Hb]; [lia|].
    assert (L : forall l : list (Z * _), ~ In b (map fst l) -> (fix look l := match l with [] => Ok ([b], None) | (k0, c) :: r => if (k0 =? b)%Z then ' (p, n) <- route (efdt_ops k key cfg) c x ;; Ok (b :: p, n) else look r end) l = Ok ([b], None)).
    { clear. induction l as [|[k0 c] l IH]; intros H; [reflexivity|]. cbn in H. destruct (Z.eqb_spec k0 b) as [E|E]; [exfalso; auto|]. apply IH. auto. }
    rewrite L by exact Hb. reflexivity.
Qed.
Print Assumptions efdt_votes_at_root.
(** The same with 64-bit floats: after two samples of value 0 the root is split on a nominal attribute and has one branch; an instance of value 5 has none
    and is answered with the weights of both classes. *)
Example efdt_votes_example : match e_run false 33554432%float never (same_value 2) with
  | Ok s => (match t_root (ef_tree s) with Some (Split te _ ch) => (match @ht_branch float NumF e_key te [5%float] with Ok b => negb (existsb (Z.eqb b) (map fst ch)) | _ => false end) | _ => false end)
            && match e_votes s [5%float] with Ok [(0, a); (1, b)] => PrimFloat.eqb a 2000 && PrimFloat.eqb b 2000 | _ => false end
  | Raise _ => false end = true.
Proof. vm_compute. reflexivity. Qed.
