(** Model of [EvaluatePrequentialDelayed._train_and_test] and its helpers,
    evaluation/evaluate_prequential_delayed.py:290-496, over the TimeManager of Model/TimeManager.v.

    As in Model/Evaluate.v the run is the chronological trace of the calls made on the models and measurements
    and the learners, which may raise and may depend on the whole history, are arguments.  Rows carry their
    position in the stream as a tag; the code never looks at it.  The events [DClock] (update_timestamp) and
    [DDrain] (the main loop was left) are also only there to be talked about.

    Simplifications: as in Model/Evaluate.v; the evaluator is fresh (no time_manager attribute left over from
    an earlier evaluation); prediction arrays are rectangular or the transposition raises IndexError. *)
From Coq Require Import List ZArith Bool.
From Verif Require Import Base.Py Model.Evaluate Model.TimeManager.
Import ListNotations.

(** _transform_model_predictions and _transform_predictions_model, evaluate_prequential_delayed.py:336-353 *)
Definition transpose {A} (m : list (list A)) : res (list (list A)) :=
  match m with
  | [] => Ok []
  | r0 :: _ => if forallb (fun r => length r =? length r0) m
               then Ok (map (fun k => flat_map (fun r => match nth_error r k with Some a => [a] | None => [] end) m) (seq 0 (length r0)))
               else Raise IndexError
  end.

Section Delayed.
Context {X Y P W : Type}.
(** A row of the temporal stream: data, label, weight, arrival and availability time. *)
Record drow := mkD { d_x : X; d_y : Y; d_w : W; d_arr : Z; d_av : Z }.
Variable src : source drow.
Variable weighted : bool.                   (* the stream has sample weights *)
Variable sort : list (trow (nat * X) Y (list P) W) -> list (trow (nat * X) Y (list P) W).

Inductive dev :=
| DClock (t : Z)
| DPredict (i : nat) (xs : list (nat * X)) (ps : list P)
| DScore (i : nat) (tag : nat) (y : Y) (p : P)
| DFit (i : nat) (rows : list (nat * X)) (ys : list Y) (ws : option (list W)) (cls : bool)
| DReport (count : nat)
| DDrain.

Variable fit_r : list dev -> nat -> res unit.                        (* partial_fit: returns or raises *)
Variable predict_r : list dev -> nat -> list X -> res (list P).
Variable report_r : list dev -> res unit.                           (* _update_metrics *)
Variable timeout : nat -> bool.
Variable n_models : nat.
Variable classif : bool.
Variable batch n_wait max_samples : nat.

Fixpoint dtake_from (k : nat) (rows : list drow) : list (nat * drow) :=
  match rows with [] => [] | r :: l => (k, r) :: dtake_from (S k) l end.
(** stream.next_sample(b): rows tagged with their positions *)
Definition dtake (k b : nat) : list (nat * drow) :=
  dtake_from k (map (src_at src) (seq k (match src_len src with Some n => Nat.min b (n - k) | None => b end))).
Definition dhas_more (k : nat) : bool := match src_len src with Some n => k <? n | None => true end.
Definition weights (rows : list (nat * drow)) : option (list W) := if weighted then Some (map (fun r => d_w (snd r)) rows) else None.
Definition dremaining (k : nat) : Z := match src_len src with Some n => Z.of_nat n - Z.of_nat k | None => -1 end.
(** evaluate_prequential_delayed.py:383-385 *)
Definition dactual_max (p0 : nat) : Z :=
  let r := dremaining p0 in
  if ((r =? -1) || (r >? Z.of_nat max_samples))%Z then Z.of_nat max_samples else r.

Record dst := mkDst { dpos : nat; dcnt : nat; dtr : list dev; dfirst : bool; dupd : nat;
                      dtm : option (tmgr (nat * X) Y (list P) W) }.
Definition with_tr (s : dst) (t : list dev) : dst := mkDst (dpos s) (dcnt s) t (dfirst s) (dupd s) (dtm s).

Fixpoint dfit_all (is_ : list nat) (t : list dev) (xs : list (nat * X)) (ys : list Y) (ws : option (list W)) (cls : bool)
  : list dev * res unit :=
  match is_ with
  | [] => (t, Ok tt)
  | i :: r => match fit_r t i with
              | Ok _ => dfit_all r (t ++ [DFit i xs ys ws cls]) xs ys ws cls
              | Raise e => (t, Raise e)
              end
  end.

(** _update_classifiers, evaluate_prequential_delayed.py:290-318 *)
Definition update_classifiers (s : dst) (xs : list (nat * X)) (ys : list Y) (ws : option (list W)) : dst * res unit :=
  match xs with
  | [] => (s, Ok tt)
  | _ => let '(t, r) := dfit_all (seq 0 n_models) (dtr s) xs ys ws (dfirst s && classif) in
         match r with
         | Ok _ => (mkDst (dpos s) (dcnt s + length xs) t false (dupd s) (dtm s), Ok tt)
         | Raise e => (with_tr s t, Raise e)
         end
  end.

Fixpoint dscore_rows (c : nat) (j : nat) (t : list dev) (tys : list (nat * Y)) (ps : list P) : list dev * res unit :=
  match c with
  | O => (t, Ok tt)
  | S c' => match tys, ps with
            | (n, y) :: tys', p :: ps' => dscore_rows c' j (t ++ [DScore j n y p]) tys' ps'
            | _, _ => (t, Raise IndexError)
            end
  end.
Fixpoint dscore_all (js : list nat) (yps : list (list P)) (len0 : nat) (t : list dev) (tys : list (nat * Y)) : list dev * res unit :=
  match js with
  | [] => (t, Ok tt)
  | j :: r => match nth_error yps j with
              | None => (t, Raise IndexError)
              | Some ps => let '(t1, ok) := dscore_rows len0 j t tys ps in
                           match ok with Ok _ => dscore_all r yps len0 t1 tys | Raise e => (t1, Raise e) end
              end
  end.

(** _update_metrics_delayed, evaluate_prequential_delayed.py:320-334 *)
Definition update_metrics_delayed (amax : Z) (s : dst) (tys : list (nat * Y)) (yps : list (list P)) : dst * res unit :=
  match yps with
  | [] => (s, Ok tt)
  | y0 :: _ =>
      let '(t, ok) := dscore_all (seq 0 n_models) yps (length y0) (dtr s) tys in
      let s1 := with_tr s t in
      match ok with
      | Raise e => (s1, Raise e)
      | Ok _ =>
          if negb (progress_ok amax) then (s1, Raise ZeroDivisionError) else
          if n_wait =? 0 then (s1, Raise ZeroDivisionError) else
          if (dcnt s mod n_wait =? 0) || (max_samples <=? dcnt s) || (n_wait * (dupd s + 1) <? dcnt s) then
            match report_r t with
            | Ok _ => (mkDst (dpos s) (dcnt s) (t ++ [DReport (dcnt s)]) (dfirst s) (S (dupd s)) (dtm s), Ok tt)
            | Raise e => (s1, Raise e)
            end
          else (s1, Ok tt)
      end
  end.

Fixpoint dpredict_all (is_ : list nat) (t : list dev) (xs : list (nat * X)) (acc : list (list P)) : list dev * res (list (list P)) :=
  match is_ with
  | [] => (t, Ok acc)
  | i :: r => match predict_r t i (map snd xs) with
              | Raise e => (t, Raise e)
              | Ok ps => dpredict_all r (t ++ [DPredict i xs ps]) xs (acc ++ [ps])
              end
  end.

Definition sx (r : (nat * X) * Y * list P) : nat * X := fst (fst r).
Definition sy (r : (nat * X) * Y * list P) : Y := snd (fst r).
Definition sp (r : (nat * X) * Y * list P) : list P := snd r.

(** Metrics and classifiers on samples handed out by the time manager,
    evaluate_prequential_delayed.py:446-458, 476-481 *)
Definition process (amax : Z) (s : dst) (samples : list ((nat * X) * Y * list P)) (ws : option (list W)) : dst * res unit :=
  match transpose (map sp samples) with
  | Raise e => (s, Raise e)
  | Ok yps =>
      let '(s1, r1) := update_metrics_delayed amax s (combine (map fst (map sx samples)) (map sy samples)) yps in
      match r1 with
      | Raise e => (s1, Raise e)
      | Ok _ => update_classifiers s1 (map sx samples) (map sy samples) ws
      end
  end.

(** The body of the main loop, evaluate_prequential_delayed.py:432-463 *)
Definition dbody (amax : Z) (s0 : dst) : dst * res unit :=
  let rows := dtake (dpos s0) batch in
  let s := mkDst (dpos s0 + batch) (dcnt s0) (dtr s0) (dfirst s0) (dupd s0) (dtm s0) in
  match dtm s with
  | None => (s, Raise AttributeError)
  | Some m =>
      match last (map (fun r => Some (d_arr (snd r))) rows) None with
      | None => (s, Raise IndexError)
      | Some now =>
          let m1 := tm_update_timestamp m now in
          let '(m2, samples) := tm_get_available m1 in
          let s1 := mkDst (dpos s) (dcnt s) (dtr s ++ [DClock now]) (dfirst s) (dupd s) (Some m2) in
          let '(s2, r2) := process amax s1 samples (weights rows) in
          match r2 with
          | Raise e => (s2, Raise e)
          | Ok _ =>
              let xs := map (fun r => (fst r, d_x (snd r))) rows in
              let '(t3, r3) := dpredict_all (seq 0 n_models) (dtr s2) xs [] in
              let s3 := with_tr s2 t3 in
              match r3 with
              | Raise e => (s3, Raise e)
              | Ok preds =>
                  match transpose preds with
                  | Raise e => (s3, Raise e)
                  | Ok yt =>
                      let m4 := tm_update_queue sort m2 xs (map (fun r => d_y (snd r)) rows) yt (weights rows)
                                  (map (fun r => d_arr (snd r)) rows) (map (fun r => d_av (snd r)) rows) in
                      (mkDst (dpos s3) (dcnt s3) (dtr s3) (dfirst s3) (dupd s3) (Some m4), Ok tt)
                  end
              end
          end
      end
  end.

(** The main loop, evaluate_prequential_delayed.py:427-468 *)
Fixpoint dloop (fuel it : nat) (amax : Z) (s : dst) : dst * ending :=
  if (Z.of_nat (dcnt s) <? amax)%Z && negb (timeout it) && dhas_more (dpos s) then
    match fuel with
    | O => (s, OutOfFuel)
    | S f => let '(s1, r) := dbody amax s in match r with Ok _ => dloop f (S it) amax s1 | Raise _ => (s1, ByException) end
    end
  else (s, ByCondition).

(** The loop over the rest of the queue, evaluate_prequential_delayed.py:472-483; nothing is caught here.
    The weights returned by the time manager are None whenever it returns. *)
Inductive doutcome := DReturned | DRaised (e : exc) | DOutOfFuel.
Fixpoint ddrain (fuel : nat) (amax : Z) (s : dst) : dst * doutcome :=
  match dtm s with
  | None => (s, DRaised AttributeError)
  | Some m =>
      if tm_has_more m then
        match fuel with
        | O => (s, DOutOfFuel)
        | S f => match tm_next m (Z.of_nat batch) with
                 | Raise e => (s, DRaised e)
                 | Ok (m1, samples) =>
                     let '(s1, r) := process amax (mkDst (dpos s) (dcnt s) (dtr s) (dfirst s) (dupd s) (Some m1)) samples None in
                     match r with Ok _ => ddrain f amax s1 | Raise e => (s1, DRaised e) end
                 end
        end
      else (s, DReturned)
  end.

Definition is_dreport (e : dev) : bool := match e with DReport _ => true | _ => false end.

Record dresult := mkDR { dr_st : dst; dr_end : ending; dr_out : doutcome }.

(** _train_and_test, evaluate_prequential_delayed.py:368-496, from stream position [p0] *)
Definition delayed (fuel p0 pre : nat) : dresult :=
  let amax := dactual_max p0 in
  let rows := dtake p0 pre in
  let '(s1, r1) :=
    if 0 <? pre then
      let '(t, r) := dfit_all (seq 0 n_models) [] (map (fun r => (fst r, d_x (snd r))) rows)
                       (map (fun r => d_y (snd r)) rows) (weights rows) classif in
      match r with
      | Raise e => (mkDst (p0 + pre) 0 t true 0 None, Raise e)
      | Ok _ => match last (map (fun r => Some (d_arr (snd r))) rows) None with
                | None => (mkDst (p0 + pre) pre t false 0 None, Raise IndexError)
                | Some now => (mkDst (p0 + pre) pre t false 0 (Some (tm_new now)), Ok tt)
                end
      end
    else (mkDst p0 0 [] true 0 None, Ok tt) in
  match r1 with
  | Raise e => mkDR s1 ByException (DRaised e)
  | Ok _ =>
      let '(s2, e) := dloop fuel 0 amax s1 in
      let '(s3, o) := ddrain fuel amax (with_tr s2 (dtr s2 ++ [DDrain])) in
      mkDR s3 e (match o with
                 | DReturned => if (n_models =? 0) || existsb is_dreport (dtr s3) then DReturned else DRaised TypeError
                 | _ => o
                 end)
  end.
End Delayed.
Arguments drow : clear implicits.
Arguments dev : clear implicits.
Arguments dst : clear implicits.
Arguments dresult : clear implicits.
