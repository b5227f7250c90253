(** Model of [SlidingWindow], utils/data_structures.py:878-999.

    2-D numpy arrays are [nd2]: number of columns and list of rows (an array with no rows still has
    a number of columns).  Values are of an arbitrary type.  Simplification: the arguments X and y of add_sample
    are 2-D arrays (as documented); dtype conversion by vstack is not modelled. *)
From Coq Require Import List ZArith.
From Verif Require Import Base.Py.
Import ListNotations.

Record nd2 (A : Type) : Type := mkND { nd_cols : nat; nd_rows : list (list A) }.
Arguments mkND {A}.
Arguments nd_cols {A}.
Arguments nd_rows {A}.

(** numpy.vstack((a, b)) for 2-D arrays: ValueError unless the numbers of columns agree. *)
Definition np_vstack {A} (a b : nd2 A) : res (nd2 A) :=
  if Nat.eqb (nd_cols a) (nd_cols b) then Ok (mkND (nd_cols a) (nd_rows a ++ nd_rows b))
  else Raise ValueError.

(** numpy.delete(a, 0, axis=0): IndexError when there is no row 0. *)
Definition np_delete0 {A} (a : nd2 A) : res (nd2 A) :=
  match nd_rows a with
  | [] => Raise IndexError
  | _ :: r => Ok (mkND (nd_cols a) r)
  end.

(** Fields, data_structures.py:905-913. *)
Record swin (A : Type) : Type := mkSW {
  sw_wsize : Z;                  (* window_size *)
  sw_nfeat : Z;                  (* _n_features, -1 when unknown *)
  sw_ntarg : Z;                  (* _n_targets, -1 when unknown *)
  sw_X : option (nd2 A);         (* _X_queue, None before initialisation *)
  sw_y : option (nd2 A);         (* _y_queue *)
  sw_inited : bool               (* _is_initialized *)
}.
Arguments mkSW {A}.
Arguments sw_wsize {A}.
Arguments sw_nfeat {A}.
Arguments sw_ntarg {A}.
Arguments sw_X {A}.
Arguments sw_y {A}.
Arguments sw_inited {A}.

Section SW.
Context {A : Type}.

(** __init__, data_structures.py:905-913 *)
Definition sw_init (wsize : Z) : swin A := mkSW wsize (-1) (-1) None None false.

(** size, data_structures.py:996-999 *)
Definition sw_size (s : swin A) : Z :=
  match sw_X s with None => 0 | Some X => Z.of_nat (length (nd_rows X)) end.

(** configure (915-918) preceded by the shape assignments of add_sample (939-942) *)
Definition sw_configure (s : swin A) (X y : nd2 A) : swin A :=
  if sw_inited s then s
  else mkSW (sw_wsize s) (Z.of_nat (nd_cols X)) (Z.of_nat (nd_cols y))
            (Some (mkND (nd_cols X) [])) (Some (mkND (nd_cols y) [])) true.

(** add_sample, data_structures.py:920-954.  Returns the object as the call leaves it and the outcome.
    A missing queue ([None], cannot happen once initialised) raises AttributeError. *)
Definition sw_add (s0 : swin A) (X y : nd2 A) : swin A * res unit :=
  let s := sw_configure s0 X y in
  if negb (sw_nfeat s =? Z.of_nat (nd_cols X))%Z then (s, Raise ValueError)
  else
    match sw_X s, sw_y s with
    | Some qx, Some qy =>
        let full := (sw_size s =? sw_wsize s)%Z in
        match (if full then np_delete0 qx else Ok qx) with
        | Raise e => (s, Raise e)
        | Ok qx1 =>
            let s1 := mkSW (sw_wsize s) (sw_nfeat s) (sw_ntarg s) (Some qx1) (Some qy) true in
            match (if full then np_delete0 qy else Ok qy) with
            | Raise e => (s1, Raise e)
            | Ok qy1 =>
                let s2 := mkSW (sw_wsize s) (sw_nfeat s) (sw_ntarg s) (Some qx1) (Some qy1) true in
                match np_vstack qx1 X with
                | Raise e => (s2, Raise e)
                | Ok qx2 =>
                    let s3 := mkSW (sw_wsize s) (sw_nfeat s) (sw_ntarg s) (Some qx2) (Some qy1) true in
                    match np_vstack qy1 y with
                    | Raise e => (s3, Raise e)
                    | Ok qy2 =>
                        (mkSW (sw_wsize s) (sw_nfeat s) (sw_ntarg s) (Some qx2) (Some qy2) true, Ok tt)
                    end
                end
            end
        end
    | _, _ => (s, Raise AttributeError)
    end.

(** delete_oldest_sample, data_structures.py:956-960 (slicing never raises) *)
Definition sw_delete_oldest (s : swin A) : swin A :=
  if (0 <? sw_size s)%Z then
    mkSW (sw_wsize s) (sw_nfeat s) (sw_ntarg s)
         (option_map (fun q => mkND (nd_cols q) (tl (nd_rows q))) (sw_X s))
         (option_map (fun q => mkND (nd_cols q) (tl (nd_rows q))) (sw_y s)) (sw_inited s)
  else s.

(** reset, data_structures.py:962-968 *)
Definition sw_reset (s : swin A) : swin A := sw_init (sw_wsize s).

(** features_buffer / targets_buffer, data_structures.py:970-984: rows currently stored. *)
Definition sw_features (s : swin A) : list (list A) :=
  match sw_X s with None => [] | Some q => nd_rows q end.
Definition sw_targets (s : swin A) : list (list A) :=
  match sw_y s with None => [] | Some q => nd_rows q end.

Inductive sw_op : Type := SAdd (X y : nd2 A) | SDeleteOldest | SReset.

Definition sw_step (s : swin A) (o : sw_op) : swin A * res unit :=
  match o with
  | SAdd X y => sw_add s X y
  | SDeleteOldest => (sw_delete_oldest s, Ok tt)
  | SReset => (sw_reset s, Ok tt)
  end.

(** A history of calls, the outcome of each being recorded (a caller may catch exceptions and go on). *)
Fixpoint sw_run (s : swin A) (ops : list sw_op) : swin A * list (res unit) :=
  match ops with
  | [] => (s, [])
  | o :: ops' =>
      let '(s1, r) := sw_step s o in
      let '(s2, rs) := sw_run s1 ops' in (s2, r :: rs)
  end.
End SW.
Arguments sw_op : clear implicits.
