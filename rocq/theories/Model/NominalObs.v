(** Models of [NominalAttributeClassObserver] (trees/_attribute_observer/nominal_attribute_class_observer.py:7-100) and
    [NominalAttributeRegressionObserver] (trees/_attribute_observer/nominal_attribute_regression_observer.py:7-72).

    Simplifications: attribute values and class labels are integers; [None] is an attribute value that is None; the criterion's
    merit of a list of distributions is an argument (the pre-split distribution is fixed during a call). *)
From Coq Require Import List ZArith Bool.
From Verif Require Import Base.Py Base.Num Base.Dict Model.Suggestion Model.TargetStats.
Import ListNotations.

(** NominalAttributeMultiwayTest(att_idx, branch_mapping) or NominalAttributeBinaryTest(att_idx, att_val) *)
Inductive ntest := Multiway (branch : list (Z * Z)) | Binary (att_val : Z).

(** {attr_val: branch_id for branch_id, attr_val in enumerate(att_values)} *)
Definition branch_mapping (vals : list Z) : list (Z * Z) :=
  map (fun p => (snd p, Z.of_nat (fst p))) (combine (seq 0 (length vals)) vals).

Section Nominal.
Context {T : Type} {N : Num T}.
Local Notation dist := (list (Z * T)).

(** nominal_attribute_class_observer.py:14-18 *)
Record nobs := mkNO { no_total : T; no_missing : T; no_dist : list (Z * dist) }.
Definition no_new : nobs := mkNO n0 n0 [].

(** nominal_attribute_class_observer.py:20-37 *)
Definition no_update (o : nobs) (att_val : option Z) (c : Z) (w : T) : nobs :=
  match att_val with
  | None => mkNO (no_total o + w)%num (no_missing o + w)%num (no_dist o)
  | Some a =>
      let d := if dmem (no_dist o) c then no_dist o else dsort (dset (no_dist o) c [(a, n0)]) in
      let inner := match dget d c with Some x => x | None => [] end in
      let inner := match dget inner a with Some v => dset inner a (v + w)%num | None => dsort (dset inner a w) end in
      mkNO (no_total o + w)%num (no_missing o) (dset d c inner)
  end.
Definition no_run (h : list (option Z * Z * T)) : nobs :=
  fold_left (fun o x => match x with (a, c, w) => no_update o a c w end) h no_new.

Definition dsum (l : list T) : T := fold_left nadd l n0.
(** nominal_attribute_class_observer.py:39-44 *)
Definition no_probability (o : nobs) (a c : Z) : res T :=
  match dget (no_dist o) c with
  | Some obs =>
      let value := match dget obs a with Some v => v | None => n0 end in
      pydiv (value + n1)%num (dsum (dvals obs) + nofZ (Z.of_nat (length obs)))%num
  | None => Ok n0
  end.

(** sorted(set([...])), nominal_attribute_class_observer.py:48-51 *)
Definition sorted_set (l : list Z) : list Z := dkeys (dsort (fold_left (fun d a => dset d a tt) l [])).
Definition no_values (o : nobs) : list Z := sorted_set (flat_map dkeys (dvals (no_dist o))).

(** if k not in d: d[k] = 0.0; d[k] += value *)
Definition dadd (d : dist) (k : Z) (v : T) : dist :=
  dset d k ((match dget d k with Some x => x | None => n0 end) + v)%num.

(** get_class_dist_from_multiway_split, nominal_attribute_class_observer.py:71-86 *)
Definition no_multiway (o : nobs) : list dist :=
  let res := fold_left (fun res p => let i := fst p in
      fold_left (fun res q => let j := fst q in
        dset res j (dadd (match dget res j with Some d => d | None => [] end) i (snd q))) (snd p) res) (no_dist o) [] in
  map dsort (dvals (dsort res)).

(** get_class_dist_from_binary_split, nominal_attribute_class_observer.py:88-100 *)
Definition no_binary (o : nobs) (v : Z) : list dist :=
  let '(eq, ne) := fold_left (fun acc p => let i := fst p in
      fold_left (fun acc q => if Z.eqb (fst q) v then (dadd (fst acc) i (snd q), snd acc) else (fst acc, dadd (snd acc) i (snd q))) (snd p) acc)
      (no_dist o) ([], []) in
  [eq; ne].

(** get_best_evaluated_split_suggestion, nominal_attribute_class_observer.py:46-69 *)
Definition no_best (merit : list dist -> option T) (binary_only : bool) (o : nobs) : option (suggestion ntest (list dist) T) :=
  let vals := no_values o in
  let best := if binary_only then None else
    let d := no_multiway o in Some (mkSug (Multiway (branch_mapping vals)) d (merit d)) in
  fold_left (fun best a => let d := no_binary o a in keep_best best (mkSug (Binary a) d (merit d))) vals best.

(** ** Regression *)
Context {I : Type}.
Local Notation st := (stat T I).

(** nominal_attribute_regression_observer.py:16-33 (the weight is present) *)
Definition nr_update (d : list (Z * st)) (att_val : option Z) (y : I -> T) (w : T) : list (Z * st) :=
  match att_val with
  | None => d
  | Some a =>
      match dget d a with
      | Some s => dset d a (s_add s (s_one y w))
      | None => dsort (dset d a (s_one y w))
      end
  end.
Definition nr_run (h : list (option Z * (I -> T) * T)) : list (Z * st) :=
  fold_left (fun o x => match x with (a, y, w) => nr_update o a y w end) h [].

(** get_best_evaluated_split_suggestion, nominal_attribute_regression_observer.py:38-72.  The values are keys of the dictionary,
    so the lookups succeed. *)
Definition nr_best (merit : list st -> option T) (pre : st) (binary_only : bool) (d : list (Z * st)) : option (suggestion ntest (list st) T) :=
  let vals := dkeys (dsort d) in
  let stat_of k := match dget d k with Some s => s | None => s_zero end in
  let best := if binary_only then None else
    let l := map stat_of vals in Some (mkSug (Multiway (branch_mapping vals)) l (merit l)) in
  fold_left (fun best a => let s := stat_of a in let l := [s; s_sub pre s] in keep_best best (mkSug (Binary a) l (merit l))) vals best.
End Nominal.
