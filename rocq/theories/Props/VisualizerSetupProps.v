(** Which plots an evaluator can set up. *)
From Coq Require Import List ZArith QArith Bool String Lia Lqa.
From Verif Require Import Base.Py Model.Visualizer Model.VisualizerSetup Props.VisualizerProps.
Import ListNotations.
Local Open Scope list_scope.

Lemma add_subplot_small p j : (1 <= p <= 9)%nat -> (j < p)%nat -> add_subplot (11 + Z.of_nat p * 100 + Z.of_nat j) = Ok (Z.of_nat p, 1, Z.of_nat (S j))%Z.
Proof.
  intros Hp Hj. do 10 (destruct p as [|p]; [try lia; do 9 (destruct j as [|j]; [try lia; vm_compute; reflexivity|]); lia|]). lia.
Qed.
Lemma place_text ms : forallb (fun m => negb (has_plot m)) ms = true -> forall b, place b ms = Ok [].
Proof. induction ms as [|m r IH]; intros H b; cbn in *; [reflexivity|]. apply andb_prop in H. destruct H as [H1 H2]. destruct (has_plot m); [discriminate|]. now apply IH. Qed.
Lemma place_plots p text : (1 <= p <= 9)%nat -> forallb (fun m => negb (has_plot m)) text = true -> forall ms j, forallb has_plot ms = true -> (j + List.length ms = p)%nat ->
  place (11 + Z.of_nat p * 100 + Z.of_nat j) (ms ++ text) = Ok (map (fun i => (Z.of_nat p, 1, Z.of_nat (S i))%Z) (seq j (List.length ms))).
Proof.
  intros Hp Ht. induction ms as [|m r IH]; intros j H L; cbn [List.app List.length seq map] in *; [now apply place_text|].
  cbn [place]. cbn in H. apply andb_prop in H. destruct H as [H1 H2]. rewrite H1, add_subplot_small by lia.
  replace (11 + Z.of_nat p * 100 + Z.of_nat j + 1)%Z with (11 + Z.of_nat p * 100 + Z.of_nat (S j))%Z by lia. rewrite IH by (auto; lia). reflexivity.
Qed.
Lemma filter_all {A} (f : A -> bool) l : forallb f (filter f l) = true.
Proof. induction l as [|a l IH]; cbn; [reflexivity|]. destruct (f a) eqn:E; cbn; rewrite ?E; auto. Qed.
Lemma filter_none {A} (f : A -> bool) l : filter f (filter (fun x => negb (f x)) l) = [].
Proof. induction l as [|a l IH]; cbn; [reflexivity|]. destruct (f a) eqn:E; cbn; rewrite ?E; auto. Qed.
Lemma filter_same {A} (f : A -> bool) l : filter f (filter f l) = filter f l.
Proof. induction l as [|a l IH]; cbn; [reflexivity|]. destruct (f a) eqn:E; cbn; rewrite ?E; congruence. Qed.
Lemma reorder_plots ms : filter has_plot (reorder ms) = filter has_plot ms.
Proof. unfold reorder. rewrite filter_app, filter_none, filter_same. apply app_nil_r. Qed.

(** C388: an evaluator with one to nine metrics that have a plot, in any order among any others, gets one subplot for each, one below the other ... *)
Theorem plots_placed : forall ms p, p = List.length (filter has_plot ms) -> (1 <= p <= 9)%nat ->
  configure (reorder ms) = Ok (map (fun i => (Z.of_nat p, 1, Z.of_nat i)%Z) (seq 1 p)).
Proof.
  intros ms p E Hp. unfold configure. rewrite reorder_plots, <- E. unfold reorder.
  pose proof (place_plots p (filter (fun m => negb (has_plot m)) ms) Hp (filter_all _ ms) (filter has_plot ms) 0 (filter_all _ ms) (eq_sym E)) as H.
  rewrite Z.add_0_r in H. rewrite H, <- E, <- seq_shift, map_map. destruct (forallb _ _); [reflexivity|]. destruct p as [|p]; [lia|]. reflexivity.
Qed.
(** ... but with ten or more it cannot be constructed, ... *)
Theorem plots_placed_refuted : forall ms, (10 <= List.length (filter has_plot ms))%nat -> configure (reorder ms) = Raise ValueError.
Proof.
  intros ms H. unfold configure. rewrite reorder_plots. unfold reorder. pose proof (filter_all has_plot ms) as F. destruct (filter has_plot ms) as [|m r]; [cbn in H; lia|].
  cbn [List.app place]. cbn in F. apply andb_prop in F. rewrite (proj1 F). unfold add_subplot.
  destruct (Z.leb_spec (11 + Z.of_nat (List.length (m :: r)) * 100) 999); [lia|]. now rewrite andb_false_r.
Qed.
(** ... nor without any, nor, without the evaluator's reordering, with a running time before a plot. *)
Theorem plots_order_refuted :
  configure [RunningTime; Performance "accuracy"] = Raise ValueError
  /\ (forall ms, ms <> [] -> filter has_plot ms = [] -> configure (reorder ms) = Raise IndexError).
Proof.
  split; [vm_compute; reflexivity|]. intros ms Hne E. unfold configure. rewrite reorder_plots, E. unfold reorder. rewrite E. cbn [List.app].
  rewrite place_text by apply filter_all. destruct ms as [|m r]; [congruence|]. cbn in E |- *. destruct (has_plot m) eqn:Hm; [discriminate|]. cbn. now rewrite Hm.
Qed.

(** C389: a visualizer is constructed exactly for a known task, no names or a list of as many names as models, at least one metric, no data points for
    several models, and metrics that can be placed; its names are the given ones, or else the default ones. *)
Theorem visualizer_accepts : forall default t n names metrics s, construct default t n names metrics = Ok s <->
  t <> OtherTask
  /\ (match names with NoNames => s_names s = map default (seq 0 n) | NameList l => List.length l = n /\ s_names s = l | NotAList => False end)
  /\ exists ms, metrics = Some ms /\ ms <> [] /\ (In DataPoints ms -> (n <= 1)%nat) /\ configure ms = Ok (s_positions s).
Proof.
  intros default t n names metrics s.
  assert (G : forall l, match metrics with
        | None | Some [] => Raise ValueError
        | Some ms => if (existsb (fun m => match m with DataPoints => true | _ => false end) ms && Nat.ltb 1 n)%bool then Raise ValueError
            else match configure ms with Ok p => Ok (mk_setup l p) | Raise e => Raise e end end = Ok s
     <-> s_names s = l /\ exists ms, metrics = Some ms /\ ms <> [] /\ (In DataPoints ms -> (n <= 1)%nat) /\ configure ms = Ok (s_positions s)).
  { intros l. destruct metrics as [[|m r]|]; [split; [discriminate|intros (_ & ms & E & Hn & _); injection E as <-; congruence]| |split; [discriminate|intros (_ & ms & E & _); discriminate]].
    set (ms := m :: r). assert (X : existsb (fun m => match m with DataPoints => true | _ => false end) ms = true <-> In DataPoints ms).
    { rewrite existsb_exists. split; [intros (y & I & Y); destruct y; try discriminate; exact I|intros I; exists DataPoints; auto]. }
    destruct (existsb _ ms && Nat.ltb 1 n)%bool eqn:B.
    - apply andb_prop in B. destruct B as [B1 B2]. apply X in B1. apply Nat.ltb_lt in B2. split; [discriminate|]. intros (_ & ms' & E & _ & H & _). injection E as <-. specialize (H B1). lia.
    - assert (D : In DataPoints ms -> (n <= 1)%nat). { intros I. apply X in I. rewrite I in B. apply Nat.ltb_ge in B. exact B. }
      destruct (configure ms) as [p|e] eqn:C.
      + split; [intros E; injection E as <-; split; [reflexivity|]; exists ms; repeat split; auto; discriminate|]. intros (<- & ms' & E & _ & _ & C'). injection E as <-. fold ms in C'. rewrite C in C'. injection C' as ->. now destruct s.
      + split; [discriminate|]. intros (_ & ms' & E & _ & _ & C'). injection E as <-. fold ms in C'. congruence. }
  unfold construct. cbv beta zeta. destruct t; try (split; [discriminate|intros [H _]; congruence]);
    (destruct names as [|l|]; [rewrite G|destruct (Nat.eqb_spec (List.length l) n) as [E|E]; [rewrite G|]|]); clear G; intuition (try discriminate; try congruence).
Qed.

(** C390: in the plot of true and predicted values the newest true value and all newest predictions are always within the limits. *)
Theorem true_plot_limits : forall y ps lo hi, ps <> [] -> true_limits y ps = (lo, hi) -> (lo < y < hi)%Q /\ forall p, In p ps -> (lo < p < hi)%Q.
Proof.
  intros y ps lo hi Hne. unfold true_limits. set (f := fun acc p => _).
  assert (G : forall ps l h l' h', fold_left f ps (l, h) = (l', h') -> (l' <= l /\ h <= h')%Q /\ forall p, In p ps -> (l' <= p <= h' /\ l' <= y <= h')%Q).
  { clear. induction ps as [|p r IH]; intros l h l' h' E; cbn [fold_left] in E.
    - injection E as <- <-. split; [lra|]. intros p [].
    - unfold f at 2 in E. cbn [fst snd] in E. apply IH in E. destruct E as [E1 E2].
      pose proof (min2_le p y). pose proof (min2_le (min2 p y) l). pose proof (max2_ge p y). pose proof (max2_ge (max2 p y) h).
      split; [lra|]. intros q [<-|I]; [lra|]. now apply E2. }
  destruct (fold_left f ps (0, 1)%Q) as [l h] eqn:E. apply G in E. destruct E as [_ E]. intros H. injection H as <- <-. split.
  - destruct ps as [|p r]; [congruence|]. destruct (E p (or_introl eq_refl)). lra.
  - intros p I. destruct (E p I). lra.
Qed.

Example placed_example : configure (reorder [RunningTime; Performance "accuracy"; ModelSize; Performance "kappa"]) = Ok [(2, 1, 1); (2, 1, 2)]%Z.
Proof. vm_compute. reflexivity. Qed.
Example accepts_example : exists s, construct (fun _ => "M"%string) Classification 2 (NameList ["a"; "b"]%string) (Some [Performance "kappa"; RunningTime]) = Ok s /\ s_names s = ["a"; "b"]%string.
Proof. eexists. split; vm_compute; reflexivity. Qed.
Example true_example : true_limits 3 [-(2); 5]%Q = (-(21 # 10), 51 # 10)%Q.
Proof. vm_compute. reflexivity. Qed.

Print Assumptions plots_placed. Print Assumptions plots_placed_refuted. Print Assumptions plots_order_refuted. Print Assumptions visualizer_accepts. Print Assumptions true_plot_limits.
