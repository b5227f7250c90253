(** Model of metrics/_confusion_matrix.pyx (ConfusionMatrix) and metrics/_classification_performance_evaluator.pyx
    (ClassificationPerformanceEvaluator and WindowClassificationPerformanceEvaluator).

    Simplifications, for the whole file:
    - C [int] values (labels, counts) are unbounded integers, C [double] values are a [Num].
    - a [defaultdict(float)] is a total function (reading a missing key gives 0.0 and has no other visible effect).
    - the [classes] set is the ascending list of its elements; Python iterates over a set of ints in hash order, which
      changes only the order of floating-point additions.
    - the Cython functions are compiled with language_level 3 (src/skmultiflow/setup.py:86): [/] is true division.  A
      division by zero raises ZeroDivisionError, which is modelled by [Raise] (up to Cython 0.29 a [cpdef double] function
      prints it and returns 0.0 instead of propagating it). *)
From Coq Require Import List ZArith Bool.
From Verif Require Import Base.Py Base.Num.
Import ListNotations.
Local Open Scope Z_scope.

Section Metrics.
Context {T : Type} `{Num T}.

(** _confusion_matrix.pyx:9-44 ConfusionMatrix: attributes (n_classes is [len(classes)], kept equal by 37-38 and 56-57). *)
Record cfm : Type := mk_cfm {
  f_init : Z; f_classes : list Z; f_diag : T; f_row : Z -> T; f_col : Z -> T; f_cell : Z -> Z -> T
}.
Definition f_n (m : cfm) : Z := Z.of_nat (length (f_classes m)).

(** [set(range(n))] *)
Definition set_range (n : Z) : list Z := map Z.of_nat (seq 0 (Z.to_nat n)).
(** [s.update([x])] on an ascending list *)
Fixpoint set_add (x : Z) (s : list Z) : list Z :=
  match s with
  | [] => [x]
  | y :: r => if x <? y then x :: s else if x =? y then s else y :: set_add x r
  end.

(** [d[k] += w] *)
Definition upd1 (d : Z -> T) (k : Z) (w : T) : Z -> T := fun i => if i =? k then (d i + w)%num else d i.
Definition upd2 (d : Z -> Z -> T) (k l : Z) (w : T) : Z -> Z -> T :=
  fun i j => if (i =? k) && (j =? l) then (d i j + w)%num else d i j.

(** _confusion_matrix.pyx:33-44 __init__ *)
Definition cfm_new (n_classes : Z) : cfm :=
  let n := if n_classes <? 2 then 2 else n_classes in
  mk_cfm n (set_range n) n0 (fun _ => n0) (fun _ => n0) (fun _ _ => n0).

(** _confusion_matrix.pyx:46-64 __setitem__ *)
Definition cfm_set (m : cfm) (t p : Z) (w : T) : cfm :=
  mk_cfm (f_init m)
         (set_add p (set_add t (f_classes m)))
         (if t =? p then (f_diag m + w)%num else f_diag m)
         (upd1 (f_row m) t w) (upd1 (f_col m) p w) (upd2 (f_cell m) t p w).

(** _confusion_matrix.pyx:75-76 reset *)
Definition cfm_reset (m : cfm) : cfm := cfm_new (f_init m).

(** _classification_performance_evaluator.pyx:35-46: attributes of the evaluator *)
Record cpe : Type := mk_cpe {
  e_init : Z; e_cm : cfm; e_n : Z; e_last_true : Z; e_last_pred : Z; e_maj : T; e_nc : T; e_tw : T
}.

(** _classification_performance_evaluator.pyx:35-46 __init__ *)
Definition cpe_new (n_classes : Z) : cpe :=
  let n := if n_classes <? 2 then 2 else n_classes in
  mk_cpe n (cfm_new n) 0 0 0 n0 n0 n0.

(** _classification_performance_evaluator.pyx:81-100 majority_class *)
Definition cpe_majority (s : cpe) : res Z :=
  if (e_tw s =? n0)%num then Ok 0
  else
    r <- fold_left (fun acc i =>
           '(best, idx) <- acc ;;
           v <- pydiv (f_row (e_cm s) i) (nofZ (e_n s)) ;;
           Ok (if (best <? v)%num then (v, i) else (best, idx)))
         (f_classes (e_cm s)) (Ok (n0, 0)) ;;
    Ok (snd r).

(** _classification_performance_evaluator.pyx:63-78, and 539-557 (the same statements in the windowed evaluator):
    count the result; also returns the two flags that the windowed evaluator enqueues.
    n_samples is incremented for every result; the matrix and the total weight only for positive weights. *)
Definition cpe_record (s : cpe) (t p : Z) (w : T) : res (cpe * bool * bool) :=
  let pos := (n0 <? w)%num in
  let s1 := mk_cpe (e_init s) (if pos then cfm_set (e_cm s) t p w else e_cm s) (e_n s + 1) (e_last_true s)
                   (e_last_pred s) (e_maj s) (e_nc s) (if pos then (e_tw s + w)%num else e_tw s) in
  m <- cpe_majority s1 ;;
  let is_maj := (m =? t) in
  let is_nc := (e_last_true s =? t) in
  Ok (mk_cpe (e_init s1) (e_cm s1) (e_n s1) t p
             (if is_maj then (e_maj s1 + w)%num else e_maj s1)
             (if is_nc then (e_nc s1 + w)%num else e_nc s1) (e_tw s1),
      is_maj, is_nc).

(** _classification_performance_evaluator.pyx:48-78 add_result *)
Definition cpe_add (s : cpe) (t p : Z) (w : T) : res cpe :=
  '(s', _, _) <- cpe_record s t p w ;; Ok s'.

(** _classification_performance_evaluator.pyx:102-115 accuracy_score *)
Definition cpe_accuracy (s : cpe) : res T :=
  if 0 <? e_n s then pydiv (f_diag (e_cm s)) (nofZ (e_n s)) else Ok n0.

(** _classification_performance_evaluator.pyx:161, 197, 231:
    [(p0 - pe) / (1.0 - pe) if pe != 1.0 else 0.0] *)
Definition chance_corrected (p0 pe : T) : res T :=
  if (pe =? n1)%num then Ok n0 else pydiv (p0 - pe)%num (n1 - pe)%num.

(** _classification_performance_evaluator.pyx:125-162 kappa_score *)
Definition cpe_kappa (s : cpe) : res T :=
  p0 <- cpe_accuracy s ;;
  if (n0 <? e_tw s)%num then
    pe <- fold_left (fun acc i =>
            pe <- acc ;;
            r <- pydiv (f_row (e_cm s) i) (nofZ (e_n s)) ;;
            c <- pydiv (f_col (e_cm s) i) (nofZ (e_n s)) ;;
            Ok (pe + r * c)%num)
          (f_classes (e_cm s)) (Ok n0) ;;
    chance_corrected p0 pe
  else Ok n0.

(** _classification_performance_evaluator.pyx:164-198 kappa_t_score *)
Definition cpe_kappa_t (s : cpe) : res T :=
  p0 <- cpe_accuracy s ;;
  if (n0 <? e_tw s)%num then
    pe <- (if 0 <? e_n s then pydiv (e_nc s) (nofZ (e_n s)) else Ok n0) ;;
    chance_corrected p0 pe
  else Ok n0.

(** _classification_performance_evaluator.pyx:200-232 kappa_m_score *)
Definition cpe_kappa_m (s : cpe) : res T :=
  p0 <- cpe_accuracy s ;;
  if (n0 <? e_tw s)%num then
    pe <- (if 0 <? e_n s then pydiv (e_maj s) (nofZ (e_n s)) else Ok n0) ;;
    chance_corrected p0 pe
  else Ok n0.

(** _classification_performance_evaluator.pyx:273-280 _precision_per_class and 321-328 _recall_per_class: [marg] is
    sum_col resp. sum_row.  (n_classes > 0 always holds: it starts at 2 or more and never decreases.) *)
Definition per_class (s : cpe) (marg : Z -> T) (c : Z) : res T :=
  let tp := f_cell (e_cm s) c c in
  if (0 <? f_n (e_cm s)) && (0 <=? c) then
    (if (n0 <? marg c)%num then pydiv tp (marg c) else Ok n0)
  else Ok n0.

(** the loop [total += f(i) for i in classes; total / n_classes]
    (_classification_performance_evaluator.pyx:263-268, 311-316, 364-369) *)
Definition macro (s : cpe) (f : Z -> res T) : res T :=
  total <- fold_left (fun acc i => a <- acc ;; x <- f i ;; Ok (a + x)%num) (f_classes (e_cm s)) (Ok n0) ;;
  pydiv total (nofZ (f_n (e_cm s))).

(** _classification_performance_evaluator.pyx:236-271 precision_score *)
Definition cpe_precision (s : cpe) (c : Z) : res T :=
  if (f_n (e_cm s) =? 2) && (c =? -1) then per_class s (f_col (e_cm s)) 1
  else if c =? -1 then macro s (per_class s (f_col (e_cm s)))
  else per_class s (f_col (e_cm s)) c.

(** _classification_performance_evaluator.pyx:284-319 recall_score *)
Definition cpe_recall (s : cpe) (c : Z) : res T :=
  if (f_n (e_cm s) =? 2) && (c =? -1) then per_class s (f_row (e_cm s)) 1
  else if c =? -1 then macro s (per_class s (f_row (e_cm s)))
  else per_class s (f_row (e_cm s)) c.

(** _classification_performance_evaluator.pyx:374-382 _f1_per_class *)
Definition f1_per_class (s : cpe) (c : Z) : res T :=
  if 0 <? f_n (e_cm s) then
    pr <- cpe_precision s c ;;
    re <- cpe_recall s c ;;
    if (n0 <? pr + re)%num then pydiv (nofZ 2 * (pr * re))%num (pr + re)%num else Ok n0
  else Ok n0.

(** _classification_performance_evaluator.pyx:332-372 f1_score *)
Definition cpe_f1 (s : cpe) (c : Z) : res T :=
  if f_n (e_cm s) =? 2 then f1_per_class s 1
  else if c =? -1 then macro s (f1_per_class s)
  else f1_per_class s c.

(** scipy.stats.gmean on a non-empty vector of non-negative numbers: exp(mean(log x)), where log 0 is -inf and
    exp(-inf) is 0. *)
Definition gmean (l : list T) : T :=
  if existsb (fun x => (x =? n0)%num) l then n0
  else nexp (fold_left nadd (map nln l) n0 / nofZ (Z.of_nat (length l)))%num.

(** the loop that fills sensitivity_per_class; [unsigned int c] cannot hold a negative label (OverflowError, written
    ValueError here) *)
Fixpoint sensitivities (s : cpe) (cs : list Z) : res (list T) :=
  match cs with
  | [] => Ok []
  | c :: r => if c <? 0 then Raise ValueError
              else x <- per_class s (f_row (e_cm s)) c ;; xs <- sensitivities s r ;; Ok (x :: xs)
  end.

(** _classification_performance_evaluator.pyx:384-417 geometric_mean_score *)
Definition cpe_gmean (s : cpe) : res T :=
  if 0 <? f_n (e_cm s) then l <- sensitivities s (f_classes (e_cm s)) ;; Ok (gmean l) else Ok n0.

(** _classification_performance_evaluator.pyx:442-445 reset *)
Definition cpe_reset (s : cpe) : cpe := cpe_new (e_init s).

(** _classification_performance_evaluator.pyx:467-492 WindowClassificationPerformanceEvaluator *)
Record wcpe : Type := mk_wcpe { w_ev : cpe; w_size : Z; w_queue : list (Z * Z * T * bool * bool) }.

(** _classification_performance_evaluator.pyx:490-493 __init__ *)
Definition wcpe_new (n_classes window_size : Z) : wcpe := mk_wcpe (cpe_new n_classes) window_size [].

(** _classification_performance_evaluator.pyx:522-537: drop the oldest result.  The total weight is not decreased and the
    classes are kept. *)
Definition wcpe_evict (s : wcpe) : res wcpe :=
  match w_queue s with
  | [] => Raise IndexError                       (* popleft on an empty deque: only when window_size == 0 *)
  | (t, p, w, fm, fn) :: q =>
      let e := w_ev s in
      Ok (mk_wcpe (mk_cpe (e_init e) (cfm_set (e_cm e) t p (n0 - w)%num) (e_n e - 1) (e_last_true e) (e_last_pred e)
                          (if fm : bool then (e_maj e - w)%num else e_maj e)
                          (if fn : bool then (e_nc e - w)%num else e_nc e) (e_tw e))
                  (w_size s) q)
  end.

(** _classification_performance_evaluator.pyx:495-564 add_result *)
Definition wcpe_add (s : wcpe) (t p : Z) (w : T) : res wcpe :=
  s1 <- (if Z.of_nat (length (w_queue s)) =? w_size s then wcpe_evict s else Ok s) ;;
  '(e, fm, fn) <- cpe_record (w_ev s1) t p w ;;
  Ok (mk_wcpe e (w_size s1) (w_queue s1 ++ [(t, p, w, fm, fn)])).

(** _classification_performance_evaluator.pyx:566-569 reset: [self.__init__(window_size=self.window_size)], so n_classes is
    the default 2 *)
Definition wcpe_reset (s : wcpe) : wcpe := wcpe_new 2 (w_size s).

(** Histories: a list of (true, predicted, weight) results. *)
Fixpoint cpe_run (s : cpe) (l : list (Z * Z * T)) : res cpe :=
  match l with [] => Ok s | (t, p, w) :: r => s' <- cpe_add s t p w ;; cpe_run s' r end.
Fixpoint wcpe_run (s : wcpe) (l : list (Z * Z * T)) : res wcpe :=
  match l with [] => Ok s | (t, p, w) :: r => s' <- wcpe_add s t p w ;; wcpe_run s' r end.
End Metrics.

Arguments cfm : clear implicits.
Arguments cpe : clear implicits.
Arguments wcpe : clear implicits.
