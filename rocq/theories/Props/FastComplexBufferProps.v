(** C63: FastComplexBuffer (utils/data_structures.py:165-340). *)
From Coq Require Import List ZArith.
From Verif Require Import Base.Py Spec.Lists Spec.BoundedFifo Model.FastBuffer Model.FastComplexBuffer Spec.FastBufferSpec
  Proofs.FastBufferProofs.
Import ListNotations.

(** The entries a call hands over. *)
Definition entries {A} (a : fcb_arg A) : list (list A) :=
  match a with Entry l => [l] | ListRows rows => rows | ArrayRows _ rows => rows end.

(** The call, read as a call on a bounded FIFO of entries. *)
Definition as_fifo {A} (o : fcb_op A) : op (stored A) :=
  match o with CAdd a => Add (map Flat (entries a)) | CNext => Pop | CClear => Clear end.
Definition as_answer {A} (a : answer (stored A)) : fcb_ret A :=
  match a with Evicted e => QAdd (option_map (map Some) e) | Popped x => QNext x | Cleared => QClear end.

(** Not a one-row batch, and not an empty list (which raises IndexError). *)
Definition proper {A} (o : fcb_op A) : Prop :=
  match o with
  | CAdd (Entry l) => l <> []
  | CAdd (ListRows rows) => 2 <= length rows
  | CAdd (ArrayRows _ rows) => length rows <> 1
  | _ => True
  end.

Definition fb_ret_of {A} (r : fcb_ret A) : option (fb_ret (stored A)) :=
  match r with QAdd x => Some (RAdd x) | QNext x => Some (RNext x) | QClear => Some RClear | QRaise _ => None end.

Lemma fcb_step_fb {A} (s : fcb A) o : proper o ->
  let '(s', r) := fcb_step s o in
  let '(f', r') := fb_step (fc_fb s) (to_op (as_fifo o)) in
  fc_fb s' = f' /\ fb_ret_of r = Some r'.
Proof.
  destruct o as [a| |]; simpl.
  - intros H. assert (E : exists w, fcb_items a = Ok (w, map Flat (entries a))).
    { destruct a as [l|rows|w rows]; simpl in *.
      - destruct l; [congruence|]. eexists; reflexivity.
      - destruct rows as [|r [|r2 rows]]; simpl in *; try (exfalso; Lia.lia). eexists; reflexivity.
      - destruct rows as [|r [|r2 rows]]; simpl in *; try (exfalso; Lia.lia); eexists; reflexivity. }
    destruct E as (w & E). unfold fcb_add. rewrite E. destruct (fb_add (fc_fb s) _). simpl. auto.
  - intros _. unfold fcb_next. destruct (fb_get_next (fc_fb s)). simpl. auto.
  - intros _. simpl. auto.
Qed.

Lemma fcb_run_fb {A} (ops : list (fcb_op A)) : forall s, Forall proper ops ->
  let '(s', r) := fcb_run s ops in
  let '(f', r') := fb_run (fc_fb s) (map to_op (map as_fifo ops)) in
  fc_fb s' = f' /\ map fb_ret_of r = map Some r'.
Proof.
  induction ops as [|o ops IH]; intros s H; simpl; auto.
  inversion H; subst. pose proof (fcb_step_fb s o H2) as HS.
  destruct (fcb_step s o) as [s1 r1]. destruct (fb_step (fc_fb s) (to_op (as_fifo o))) as [f1 q1].
  destruct HS as [<- HS]. specialize (IH s1 H3). destruct (fcb_run s1 ops) as [s2 rs].
  destruct (fb_run (fc_fb s1) _) as [f2 qs]. destruct IH as [IH1 IH2]. simpl. rewrite HS, IH2. auto.
Qed.

(** C63 (partial).  For every capacity >= 1 and every history in which no batch consists of exactly one row: the buffer is
    the bounded FIFO of the entries handed over, with its answers.  Missing: one-row batches (false, next theorem). *)
Theorem complex_buffer_is_bounded_fifo_partial :
  forall (A : Type) (max_size width : nat) (ops : list (fcb_op A)),
    1 <= max_size -> Forall proper ops ->
    let '(s, answers) := fcb_run (fcb_init (Z.of_nat max_size) width) ops in
    fb_buf (fc_fb s) = fst (run max_size [] (map as_fifo ops))
    /\ answers = map as_answer (snd (run max_size [] (map as_fifo ops)))
    /\ fb_size (fc_fb s) = Z.of_nat (length (fb_buf (fc_fb s)))
    /\ length (fb_buf (fc_fb s)) <= max_size.
Proof.
  intros A max_size width ops H1 Hp.
  pose proof (fcb_run_fb ops (fcb_init (Z.of_nat max_size) width) Hp) as HR.
  pose proof (fast_buffer_is_bounded_fifo_proof (stored A) max_size (map as_fifo ops) H1) as HF.
  destruct (fcb_run _ ops) as [s r]. simpl fc_fb in HR.
  destruct (fb_run _ (map to_op (map as_fifo ops))) as [f q]. destruct HR as [<- HR].
  destruct HF as (F1 & F2 & F3 & F4 & _). split; [exact F1|]. split; [|auto].
  subst q. rewrite map_map in HR. revert HR. generalize (snd (run max_size [] (map as_fifo ops))). clear.
  induction r as [|x r IH]; intros [|a l] H; simpl in *; try discriminate; auto.
  inversion H. f_equal; auto. destruct x, a; simpl in *; try discriminate; inversion H1; reflexivity.
Qed.

(** C63 is false for one-row batches: the row is stored wrapped in a list. *)
Theorem complex_buffer_one_row_refuted :
  forall (A : Type) (row : list A) (w : nat),
    fb_buf (fc_fb (fst (fcb_run (fcb_init 10 w) [CAdd (ArrayRows w [row])]))) = [Nested [row]]
    /\ fb_buf (fc_fb (fst (fcb_run (fcb_init 10 w) [CAdd (ListRows [row])]))) = [Nested [row]].
Proof. intros. split; reflexivity. Qed.

(** The width is never checked: entries of different widths are stored side by side. *)
Theorem complex_buffer_width_unchecked :
  forall (A : Type) (x y z : A),
    fb_buf (fc_fb (fst (fcb_run (fcb_init 10 2) [CAdd (Entry [x; y]); CAdd (Entry [z])]))) = [Flat [x; y]; Flat [z]].
Proof. reflexivity. Qed.

Example complex_buffer_run :
  let ops := [CAdd (Entry [1; 2]); CAdd (ArrayRows 2 [[3; 4]; [5; 6]]); CNext] in
  Forall proper ops /\ fb_buf (fc_fb (fst (fcb_run (fcb_init 2 2) ops))) = [Flat [5; 6]].
Proof. split; [repeat constructor; discriminate|reflexivity]. Qed.

Print Assumptions complex_buffer_is_bounded_fifo_partial.
Print Assumptions complex_buffer_one_row_refuted.
Print Assumptions complex_buffer_width_unchecked.
