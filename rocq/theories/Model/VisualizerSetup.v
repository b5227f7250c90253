(** Model of the construction of an EvaluationVisualizer (visualization/evaluation_visualizer.py 56-103, 175-193, 334-341, 471-494): the checks of the arguments
    and the positions of the subplots; and of the limits of the plot of true and predicted values (353-371).  Also the order of the metrics in the evaluators (evaluation/base_evaluator.py 187-198).

    matplotlib's Figure.add_subplot of an integer is described by [add_subplot]: three digits rows, columns, number; anything else is a ValueError. *)
From Coq Require Import List ZArith QArith Bool String.
From Verif Require Import Base.Py Model.Visualizer.
Import ListNotations.
Local Open Scope list_scope.

(** constants.CLASSIFICATION and so on; None, 'undefined' and other values are [OtherTask] *)
Inductive task := Classification | Regression | MultiTargetClassification | MultiTargetRegression | OtherTask.
(** running_time and model_size have no subplot, line 182 *)
Inductive metric_name := RunningTime | ModelSize | DataPoints | Performance (name : string).
Definition has_plot (m : metric_name) : bool := match m with RunningTime | ModelSize => false | _ => true end.
(** model_names: None, a list, or something else *)
Inductive names_arg := NoNames | NameList (l : list string) | NotAList.
Record setup := mk_setup { s_names : list string; s_positions : list (Z * Z * Z) }.

Section Setup.
(** ['M{}'.format(i)], line 81 *)
Context (default_name : nat -> string).
(** matplotlib: Figure.add_subplot(position) *)
Definition add_subplot (position : Z) : res (Z * Z * Z) :=
  if ((100 <=? position) && (position <=? 999))%Z then
    let rows := (position / 100)%Z in let columns := ((position / 10) mod 10)%Z in let number := (position mod 10)%Z in
    if ((1 <=? number) && (number <=? rows * columns))%Z then Ok (rows, columns, number) else Raise ValueError
  else Raise ValueError.
(** the loop over the metrics, lines 187-193: base grows for metrics without subplot too *)
Fixpoint place (base : Z) (ms : list metric_name) : res (list (Z * Z * Z)) :=
  match ms with
  | [] => Ok []
  | m :: r =>
      if has_plot m then
        match add_subplot base with
        | Ok p => match place (base + 1) r with Ok l => Ok (p :: l) | Raise e => Raise e end
        | Raise e => Raise e
        end
      else place (base + 1) r
  end.
(** __configure, lines 182-183, 187-193 and 336-338; the annotations want the last subplot, fig.get_axes()[-1], line 479 *)
Definition configure (ms : list metric_name) : res (list (Z * Z * Z)) :=
  let plots := filter has_plot ms in
  match place (11 + Z.of_nat (List.length plots) * 100) ms with
  | Raise e => Raise e
  | Ok l => if forallb has_plot ms then Ok l else match l with [] => Raise IndexError | _ => Ok l end
  end.
(** the evaluators put the metrics with a plot first, evaluation/base_evaluator.py 187-198 *)
Definition reorder (ms : list metric_name) : list metric_name := filter has_plot ms ++ filter (fun m => negb (has_plot m)) ms.
(** __init__, lines 71-103 *)
Definition construct (t : task) (n_models : nat) (names : names_arg) (metrics : option (list metric_name)) : res setup :=
  match t with
  | OtherTask => Raise ValueError
  | _ =>
      let go (names : list string) :=
        match metrics with
        | None | Some [] => Raise ValueError
        | Some ms =>
            if (existsb (fun m => match m with DataPoints => true | _ => false end) ms && Nat.ltb 1 n_models)%bool then Raise ValueError
            else match configure ms with Ok l => Ok (mk_setup names l) | Raise e => Raise e end
        end in
      match names with
      | NoNames => go (map default_name (seq 0 n_models))
      | NameList l => if Nat.eqb (List.length l) n_models then go l else Raise ValueError
      | NotAList => Raise ValueError
      end
  end.
End Setup.

(** y_min - pad and y_max + pad of the plot of true and predicted values, lines 353-371: the newest true value and the newest predictions of the models *)
Definition true_limits (y : Q) (predictions : list Q) : Q * Q :=
  let '(lo, hi) := fold_left (fun acc p => (min2 (min2 p y) (fst acc), max2 (max2 p y) (snd acc))) predictions (0, 1)%Q in (lo - (1#10), hi + (1#10))%Q.
