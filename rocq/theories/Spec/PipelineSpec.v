(** What each step of a pipeline is given. *)
From Coq Require Import List ZArith.
From Verif Require Import Base.Py Model.Pipeline.
Import ListNotations.

Section Spec.
Context {S D Y C P : Type}.
(** A transform, on its own, given batches one after the other: it is trained with each batch, and then transforms it. *)
Inductive fed (o : obj S D Y C P) : S -> list (D * Y * option C) -> S -> list (D * Y * option C) -> Prop :=
| fed_nil s : fed o s [] s []
| fed_cons pf tr s x y c s1 x' s2 rest s' rest' : o_pfit o = Some pf -> o_transform o = Some tr -> pf s x y c = Ok s1 -> tr s1 x = Ok (x', s2) ->
    fed o s2 rest s' rest' -> fed o s ((x, y, c) :: rest) s' ((x', y, c) :: rest').
(** A learner, on its own, given batches one after the other *)
Inductive taught (o : obj S D Y C P) : S -> list (D * Y * option C) -> S -> Prop :=
| taught_nil s : taught o s [] s
| taught_cons pf s x y c s1 rest s' : o_pfit o = Some pf -> pf s x y (if o_pfit_classes o then c else None) = Ok s1 -> taught o s1 rest s' -> taught o s ((x, y, c) :: rest) s'.
(** Transforms in a row: each is given what the one before returns for the batches it is given. *)
Inductive in_a_row : list (Z * step S D Y C P) -> list (D * Y * option C) -> list (Z * step S D Y C P) -> list (D * Y * option C) -> Prop :=
| row_nil bs : in_a_row [] bs [] bs
| row_cons n o s bs s' bs' ts ts' out : fed o s bs s' bs' -> in_a_row ts bs' ts' out -> in_a_row ((n, Some (o, s)) :: ts) bs ((n, Some (o, s')) :: ts') out.
(** Transforms applied one after the other *)
Inductive transformed : list (Z * step S D Y C P) -> D -> list (Z * step S D Y C P) -> D -> Prop :=
| tr_nil x : transformed [] x [] x
| tr_none n ts x ts' x' : transformed ts x ts' x' -> transformed ((n, None) :: ts) x ((n, None) :: ts') x'
| tr_some n o tr s x s' x1 ts ts' x' : o_transform o = Some tr -> tr s x = Ok (x1, s') -> transformed ts x1 ts' x' -> transformed ((n, Some (o, s)) :: ts) x ((n, Some (o, s')) :: ts') x'.
(** Transforms fitted one after the other, each with what the one before returns: by fit_transform if it has it, by fit and then transform if not *)
Inductive fitted (y : Y) : list (Z * step S D Y C P) -> D -> list (Z * step S D Y C P) -> D -> Prop :=
| fitted_nil x : fitted y [] x [] x
| fitted_both n o ft s x s' x1 ts ts' x' : o_fit_transform o = Some ft -> ft s x y = Ok (x1, s') -> fitted y ts x1 ts' x' -> fitted y ((n, Some (o, s)) :: ts) x ((n, Some (o, s')) :: ts') x'
| fitted_two n o ft tr s x s1 s' x1 ts ts' x' : o_fit_transform o = None -> o_fit o = Some ft -> o_transform o = Some tr -> ft s x y = Ok s1 -> tr s1 x = Ok (x1, s') ->
    fitted y ts x1 ts' x' -> fitted y ((n, Some (o, s)) :: ts) x ((n, Some (o, s')) :: ts') x'.
(** A transform as the scalers and the cleaner of the library are: transform, partial_fit, partial_fit_transform, and neither fit nor fit_transform *)
Definition stream_transform (o : obj S D Y C P) : Prop :=
  (exists f, o_transform o = Some f) /\ (exists f, o_pfit o = Some f) /\ (exists f, o_pft o = Some f) /\ o_fit o = None /\ o_fit_transform o = None /\ o_pfit_classes o = false /\ o_pft_classes o = false.
(** A transform Pipeline accepts and can train: OneHotToCategorical is one. *)
Definition plain_transform (o : obj S D Y C P) : Prop :=
  (exists f, o_transform o = Some f) /\ (exists f, o_pfit o = Some f) /\ (exists f, o_fit o = Some f) /\ o_fit_transform o = None /\ o_pfit_classes o = true.
End Spec.
