(** C21, C22: KSWIN (drift_detection/kswin.py).  The theorems hold for every arithmetic, every sample drawn by numpy and
    every result of the Kolmogorov-Smirnov test. *)
From Coq Require Import List ZArith QArith Lia.
From Verif Require Import Base.Py Base.Num Spec.Lists Spec.KswinSpec Model.Kswin Proofs.KswinProofs.
Import ListNotations.
Open Scope Z_scope.

(** C21.  The window is a suffix of the initial data and the values added, of at most window_size values. *)
Theorem kswin_window_bounded_suffix :
  forall (T : Type) (N : Num T) alpha w st (data : option (list T)) h s,
    khist alpha w st data h s ->
    Z.of_nat (length (match data with Some l => l | None => [] end)) <= w ->
    suffix_of (ks_window s) h /\ Z.of_nat (length (ks_window s)) <= w.
Proof. intros T N. exact kswin_window_proof. Qed.

(** C21.  What one call does to the window: after a change exactly the stat_size newest values before the call and the
    new value remain; otherwise the value is appended, and the oldest one dropped iff the window was full. *)
Theorem kswin_window_step :
  forall (T : Type) (N : Num T) alpha w st (data : option (list T)) h s x choice ks s',
    khist alpha w st data h s ->
    Z.of_nat (length (match data with Some l => l | None => [] end)) <= w ->
    legal_choice choice -> kswin_add choice ks s x = Ok s' ->
    (ks_change s' = true ->
       ks_window s' = lastn (Z.to_nat st) h ++ [x] /\ w <= Z.of_nat (length h) /\ 1 <= st < Z.of_nat (length h))
    /\ (ks_change s' = false -> Z.of_nat (length (ks_window s)) < w -> ks_window s' = ks_window s ++ [x])
    /\ (ks_change s' = false -> Z.of_nat (length (ks_window s)) = w -> ks_window s' = tl (ks_window s) ++ [x]).
Proof. intros T N. exact kswin_after_change_proof. Qed.

(** C22.  Every accepted configuration with stat_size >= 1 and stat_size + 2 <= window_size accepts every stream. *)
Theorem kswin_accepts_streams_partial :
  forall (T : Type) (N : Num T) alpha w st (data : option (list T)) h s x choice ks,
    1 <= st -> st + 2 <= w ->
    khist alpha w st data h s -> legal_choice choice -> exists s', kswin_add choice ks s x = Ok s'.
Proof. intros T N. exact kswin_accepts_proof. Qed.

(** C22 is false of the other accepted configurations: each of them raises on every stream of more than window_size
    values. *)
Theorem kswin_accepts_refuted :
  forall (T : Type) (N : Num T) (alpha : T) w st choice ks s l,
    kswin_init alpha w st None = Ok s -> legal_choice choice ->
    st < 1 \/ w < st + 2 -> w < Z.of_nat (length l) ->
    exists e, kfeed choice ks s l = Raise e.
Proof. intros T N. exact kswin_raises_proof. Qed.

(** The configurations the constructor accepts. *)
Theorem kswin_constructor_accepts :
  forall (T : Type) (N : Num T) (alpha : T) w st d,
    (exists s, kswin_init alpha w st d = Ok s) <->
    (nltb alpha n0 = false /\ nltb n1 alpha = false /\ 0 <= w /\ st <= w).
Proof. intros T N. exact kswin_init_accepts_proof. Qed.

(** A sampler that repeats the first element of the population is legal; runs with a test that always / never alarms. *)
Definition first_choice (a : list Q) (n : Z) : list Q := repeat (hd 0%Q a) (Z.to_nat n).
Example first_choice_legal : legal_choice first_choice.
Proof.
  intros a n Hn Ha. unfold first_choice. rewrite repeat_length. split; [lia|].
  intros y Hy. apply repeat_spec in Hy. subst. destruct a; [congruence|left; reflexivity].
Qed.

Example kswin_change_run :
  exists s s', kswin_init (1#100)%Q 5 2 None = Ok s
    /\ kfeed first_choice (fun _ _ => (1%Q, 0%Q)) s [1;2;3;4;5;6]%Q = Ok s'
    /\ ks_change s' = true /\ ks_window s' = [4;5;6]%Q.
Proof. eexists. eexists. vm_compute. repeat split; reflexivity. Qed.

Example kswin_small_window_raises :
  exists s, kswin_init (1#100)%Q 2 1 None = Ok s
    /\ kfeed first_choice (fun _ _ => (1%Q, 1%Q)) s [1;2;3]%Q = Raise ValueError.
Proof. eexists. vm_compute. repeat split; reflexivity. Qed.

Print Assumptions kswin_window_bounded_suffix.
Print Assumptions kswin_window_step.
Print Assumptions kswin_accepts_streams_partial.
Print Assumptions kswin_accepts_refuted.
Print Assumptions kswin_constructor_accepts.
