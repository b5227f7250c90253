(** Measuring the speed of a stream. *)
From Coq Require Import List ZArith Bool Lia.
From Verif Require Import Model.GenSpeed.
Import ListNotations.
Local Open Scope Z_scope.

Lemma tell_spec n b (Hn : 1 <= n) count : forall fuel idx, 0 <= count + b -> Z.of_nat idx <= 20 * (count + b) / n -> 20 * (count + b) / n < Z.of_nat idx + Z.of_nat fuel ->
  tell n b fuel count idx = (map (fun i => 5 * Z.of_nat i) (seq (S idx) (Z.to_nat (20 * (count + b) / n) - idx)), Z.to_nat (20 * (count + b) / n), true).
Proof.
  set (q := 20 * (count + b) / n). induction fuel as [|f IH]; intros idx Hc Hi Hf; [lia|]. cbn [tell].
  assert (D : (Z.of_nat idx + 1) * n <= 20 * (count + b) <-> Z.of_nat idx + 1 <= q).
  { unfold q. split; intros H; [apply Z.div_le_lower_bound; lia|]. assert (n * (20 * (count + b) / n) <= 20 * (count + b)) by (apply Z.mul_div_le; lia). nia. }
  destruct (Z.leb_spec ((Z.of_nat idx + 1) * n) (20 * (count + b))) as [H|H].
  - apply D in H. rewrite (IH (S idx)) by lia. replace (Z.to_nat q - idx)%nat with (S (Z.to_nat q - S idx)) by lia. reflexivity.
  - assert (q = Z.of_nat idx) by lia. replace (Z.to_nat q - idx)%nat with O by lia. cbn. f_equal. f_equal. lia.
Qed.
Definition allowed (n remaining : Z) : Z := if remaining =? -1 then n else Z.min n remaining.
Lemma seq_join a b c : (a <= b)%nat -> (b <= c)%nat -> seq (S a) (b - a) ++ seq (S b) (c - b) = seq (S a) (c - a).
Proof. intros H1 H2. replace (c - a)%nat with ((b - a) + (c - b))%nat by lia. rewrite seq_app. f_equal. f_equal. lia. Qed.
Lemma generate_spec n b within (Hn : 1 <= n) (Hb : 1 <= b) remaining (Hr : -1 <= remaining) : forall fuel k idx,
  let lim := if remaining =? -1 then None else Some remaining in
  allowed n remaining < b * Z.of_nat k + Z.of_nat fuel -> b * Z.of_nat k <= Z.max 0 (allowed n remaining) ->
  idx = (if Nat.eqb k 0 then 0%nat else Z.to_nat (20 * (b * Z.of_nat k + b) / n)) ->
  exists J, asked (generate n b within lim fuel k (b * Z.of_nat k) idx) = repeat b J
    /\ b * Z.of_nat (k + J) <= Z.max 0 (allowed n remaining)
    /\ (within (k + J)%nat = false \/ allowed n remaining < b * Z.of_nat (k + J) + b)
    /\ (forall i, (k <= i < k + J)%nat -> within i = true)
    /\ told (generate n b within lim fuel k (b * Z.of_nat k) idx) = map (fun i => 5 * Z.of_nat i) (seq (S idx) ((if Nat.eqb (k + J) 0 then 0%nat else Z.to_nat (20 * (b * Z.of_nat (k + J) + b) / n)) - idx))
    /\ (idx <= (if Nat.eqb (k + J) 0 then 0%nat else Z.to_nat (20 * (b * Z.of_nat (k + J) + b) / n)))%nat
    /\ ended (generate n b within lim fuel k (b * Z.of_nat k) idx) = true.
Proof.
  induction fuel as [|f IH]; intros k idx lim Hf Hk Hi.
  - exists O. assert (allowed n remaining < 0 \/ 0 <= allowed n remaining) as [A|A] by lia; [|lia]. unfold allowed in A. destruct (Z.eqb_spec remaining (-1)); lia.
  - cbn [generate]. set (go := within k && (b * Z.of_nat k + b <=? n) && match lim with None => true | Some m => b * Z.of_nat k + b <=? m end).
    assert (G : go = true <-> within k = true /\ b * Z.of_nat k + b <= allowed n remaining).
    { unfold go, lim, allowed. destruct (remaining =? -1); rewrite !andb_true_iff, ?Z.leb_le; intuition lia. }
    destruct go.
    + destruct (proj1 G eq_refl) as [Gw Ga]. cbv zeta. set (q := 20 * (b * Z.of_nat k + b + b) / n). assert (Hq : 0 <= q) by (apply Z.div_pos; lia).
      assert (Mono : Z.of_nat idx <= q).
      { rewrite Hi. destruct (Nat.eqb k 0); [cbn; lia|]. rewrite Z2Nat.id by (apply Z.div_pos; lia). apply Z.div_le_mono; lia. }
      assert (Qf : q <= 20 * (b * Z.of_nat k + b + b)) by (apply Z.div_le_upper_bound; [lia|]; nia).
      rewrite (tell_spec n b Hn) by (fold q; lia). fold q. replace (b * Z.of_nat k + b) with (b * Z.of_nat (S k)) by lia.
      destruct (IH (S k) (Z.to_nat q)) as (J & A1 & A2 & A3 & A4 & A5 & A6 & A7).
      { lia. } { lia. } { cbn [Nat.eqb]. unfold q. do 3 f_equal. lia. }
      fold lim in A1, A5, A7. exists (S J). replace (k + S J)%nat with (S k + J)%nat by lia. cbn [asked told ended]. rewrite A1, A5, A7. split; [reflexivity|]. split; [exact A2|]. split; [exact A3|].
      split; [intros i Hi'; destruct (Nat.eq_dec i k) as [->|]; [exact Gw|apply A4; lia]|]. split; [|split; [lia|reflexivity]].
      rewrite <- map_app. f_equal. apply seq_join; lia.
    + exists O. rewrite !Nat.add_0_r. cbn [asked told ended]. split; [reflexivity|]. split; [exact Hk|]. split.
      * destruct (within k) eqn:W; [right|now left]. destruct (Z.lt_ge_cases (allowed n remaining) (b * Z.of_nat k + b)); auto. assert (false = true) by (apply G; split; auto; lia). discriminate.
      * split; [intros; lia|]. split; [rewrite <- Hi, Nat.sub_diag; reflexivity|]. split; [rewrite <- Hi; lia|reflexivity].
Qed.

(** C380: evaluate asks the stream for full batches only, one after the other, never for more than n_samples samples nor for more than the stream had left,
    and stops at the first test at which the time is over or another full batch would exceed one of the two; it always ends. *)
Theorem speed_batches : forall n b within remaining, 1 <= n -> 1 <= b -> -1 <= remaining ->
  exists J, let r := measure_speed n b within remaining in
    asked r = repeat b J /\ ended r = true /\ b * Z.of_nat J <= n /\ (remaining <> -1 -> b * Z.of_nat J <= remaining)
    /\ (forall i, (i < J)%nat -> within i = true)
    /\ (within J = false \/ n < b * Z.of_nat J + b \/ (remaining <> -1 /\ remaining < b * Z.of_nat J + b)).
Proof.
  intros n b within remaining Hn Hb Hr. destruct (generate_spec n b within Hn Hb remaining Hr (S (Z.to_nat n)) 0 0) as (J & A1 & A2 & A3 & A4 & _ & _ & A7).
  { unfold allowed. destruct (remaining =? -1); lia. } { lia. } { reflexivity. }
  rewrite Z.mul_0_r in *. cbn [Nat.add] in *. exists J. cbv zeta. unfold measure_speed. split; [exact A1|]. split; [exact A7|]. unfold allowed in *. destruct (Z.eqb_spec remaining (-1)) as [E|E].
  - split; [lia|]. split; [congruence|]. split; [intros; apply A4; lia|]. destruct A3; auto.
  - split; [lia|]. split; [lia|]. split; [intros; apply A4; lia|]. destruct A3; auto. right. lia.
Qed.
(** C381: the percentages told are 5, 10, 15, ... up to 5 times the number of twentieths of n_samples in what was asked for plus one batch ... *)
Theorem speed_percentages : forall n b within remaining, 1 <= n -> 1 <= b -> -1 <= remaining ->
  let r := measure_speed n b within remaining in
  told r = map (fun i => 5 * Z.of_nat i) (seq 1 (if Nat.eqb (length (asked r)) 0 then 0%nat else Z.to_nat (20 * (b * Z.of_nat (length (asked r)) + b) / n))).
Proof.
  intros n b within remaining Hn Hb Hr. destruct (generate_spec n b within Hn Hb remaining Hr (S (Z.to_nat n)) 0 0) as (J & A1 & _ & _ & _ & A5 & _ & _).
  { unfold allowed. destruct (remaining =? -1); lia. } { lia. } { reflexivity. }
  rewrite Z.mul_0_r in *. cbn [Nat.add] in *. cbv zeta. unfold measure_speed. rewrite A5, A1, repeat_length, Nat.sub_0_r. reflexivity.
Qed.
(** ... so they are not at most 100 nor told when that much was generated: 10 samples in batches of 5 end with 150 percent, and after the first batch,
    which is half of them, all is said to be done. *)
Theorem speed_percentages_refuted :
  (let r := measure_speed 10 5 (fun _ => true) (-1) in asked r = [5; 5] /\ ended r = true /\ In 150 (told r))
  /\ (let r := measure_speed 10 5 (fun k => Nat.eqb k 0) (-1) in asked r = [5] /\ ended r = true /\ In 100 (told r)).
Proof. split; cbv zeta; (split; [vm_compute; reflexivity|]); (split; [vm_compute; reflexivity|]); vm_compute; tauto. Qed.

Example speed_example : let r := measure_speed 100 3 (fun _ => true) 50 in asked r = repeat 3 16 /\ ended r = true /\ told r = [5; 10; 15; 20; 25; 30; 35; 40; 45; 50].
Proof. vm_compute. auto. Qed.

Print Assumptions speed_batches. Print Assumptions speed_percentages. Print Assumptions speed_percentages_refuted.
