(** Textbook multi-label scores over rows of boolean labels. *)
From Coq Require Import List ZArith Bool Reals.
From Verif Require Import Spec.Lists Spec.MultiLabelSpec.
Import ListNotations.

Definition ints (v : list bool) : list Z := map (fun b : bool => if b then 1%Z else 0%Z) v.
Definition trues (l : list (list bool * list bool)) : list (list Z) := map (fun s => ints (fst s)) l.
Definition preds (l : list (list bool * list bool)) : list (list Z) := map (fun s => ints (snd s)) l.

(** fraction of all labels that are predicted correctly, fraction of samples predicted correctly in all labels, and mean
    Jaccard index, where a sample without any label on either side counts 1 *)
Definition label_accuracy (L : nat) (l : list (list bool * list bool)) : R :=
  (INR (nsum (map n_agree l)) / (INR (length l) * INR L))%R.
Definition subset_accuracy (l : list (list bool * list bool)) : R :=
  (INR (length (filter same_labels l)) / INR (length l))%R.
Definition jaccard1 (s : list bool * list bool) : R := match n_any s with O => 1%R | u => (INR (n_both s) / INR u)%R end.
Definition mean_jaccard (l : list (list bool * list bool)) : R := Rmean (map jaccard1 l).
