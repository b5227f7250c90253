(** SAMKNNClassifier and STMSizer (lazy/sam_knn.py) and the C++ functions they call (lazy/src/libNearestNeighbors/nearestNeighbor.cpp).
    A memory is the list of its samples and labels (STMSamples and STMLabels, LTMSamples and LTMLabels).  Labels are integers; samples of
    one classifier have the same width (the C++ code reads past the end of the array otherwise).  Distances are below the largest
    double.  sklearn's KMeans and numpy.round are arguments.  min_stm_size and n_neighbors are natural numbers; the window sizes
    numSamples / 2^j of STMSizer are exact in binary floating point, here the divisors d = 2^j stand for them.  weighting is 'distance' or
    'uniform'.  What only records the past for the user (classifierChoice, numSTMCorrect and the like) is not modelled.  A
    call that raises leaves the object half changed: the model has no object then. *)
From Coq Require Import List ZArith Bool Arith.
From Verif Require Import Base.Py Base.Num Model.Adwin Model.DataStream Model.Knn.
Import ListNotations.

Section Sam.
Context {T : Type} {N : Num T}.
Local Notation sample := (list T * Z)%type.

(** ** nearestNeighbor.cpp *)
(** getDistance, lines 96-105: the square of the Euclidean distance *)
Definition get_distance (a b : list T) : T := fold_left (fun s p => let diff := (fst p - snd p)%num in (s + diff * diff)%num) (combine a b) n0.
(** get1ToNDistances, lines 107-111 *)
Definition distances (x : list T) (l : list sample) : list T := map (fun s => get_distance x (fst s)) l.
(** nArgMin, lines 13-31: the inner loop over j, the indices in [used] are skipped *)
Fixpoint arg_min (used : list nat) (j : nat) (values : list T) (best : option (T * nat)) : option (T * nat) :=
  match values with
  | [] => best
  | v :: r =>
      let better := match best with None => true | Some (m, _) => (v <? m)%num end in
      arg_min used (S j) r (if (better && negb (existsb (Nat.eqb j) used))%bool then Some (v, j) else best)
  end.
(** The outer loop; an index that is not found is never written: what the array then contains is not defined, here an exception *)
Fixpoint n_arg_min (n : nat) (used : list nat) (values : list T) : res (list nat) :=
  match n with
  | O => Ok []
  | S n => match arg_min used 0 values None with
           | None => Raise RuntimeError
           | Some (_, j) => r <- n_arg_min n (used ++ [j]) values ;; Ok (j :: r)
           end
  end.
(** mostCommon, lines 39-59: std::map is ordered by the key *)
Definition count_of (l : Z) (labels : list Z) : nat := length (filter (Z.eqb l) labels).
Definition most_common (labels : list Z) : Z :=
  fst (fold_left (fun acc l => let c := count_of l labels in if Nat.ltb (snd acc) c then (l, c) else acc) (np_unique labels) ((-1)%Z, 0%nat)).
(** linearWeightedLabels, lines 69-88; 0.000000001 *)
Definition tiny : T := (n1 / nofZ 1000000000)%num.
Definition inv_dist (d : T) : T := (n1 / (if (d <? tiny)%num then tiny else d))%num.
Definition weight_of (l : Z) (labels : list Z) (ds : list T) : T :=
  fold_left nadd (map (fun p => inv_dist (snd p)) (filter (fun p => Z.eqb l (fst p)) (combine labels ds))) n0.
Definition linear_weighted (labels : list Z) (ds : list T) : Z :=
  fst (fold_left (fun acc l => let c := weight_of l labels ds in if (snd acc <? c)%num then (l, c) else acc) (np_unique labels) ((-1)%Z, n0)).

(** ** get_maj_label and get_distance_weighted_label, sam_knn.py 464-490; np.int8 keeps the low eight bits *)
Definition int8 (z : Z) : Z := ((z + 128) mod 256 - 128)%Z.
Definition pick {A} (l : list A) (idx : list nat) : res (list A) := mapM (fun i => match nth_error l i with Some a => Ok a | None => Raise IndexError end) idx.
Definition get_label (by_distance : bool) (ds : list T) (labels : list Z) (k : nat) : res Z :=
  nn <- n_arg_min k [] ds ;;
  ls <- pick (map int8 labels) nn ;;
  if by_distance then dn <- pick ds nn ;; Ok (linear_weighted ls (map nsqrt dn)) else Ok (most_common ls).

(** ** The configuration: lines 105-157 *)
Inductive size_option := NoAdaption | MaxACC | MaxACCApprox | OtherOption.
(** n_neighbors, max_window_size, ltm_size, min_stm_size, stm_size_option, use_ltm; KMeans(n_clusters).fit(X).cluster_centers_, numpy.round to
    four decimals and int() *)
Record sam_config := mk_samc {
  m_dist : bool; m_k : nat; m_max : nat; m_ltm : T; m_min : nat; m_opt : size_option; m_use : bool;
  m_kmeans : list (list T) -> nat -> list (list T); m_rnd : T -> T; m_trunc : T -> Z }.
Variable cfg : sam_config.
Local Notation by_distance := (m_dist cfg).
Local Notation k := (m_k cfg).
Local Notation maxw := (m_max cfg).
Local Notation ltm_size := (m_ltm cfg).
Local Notation min_stm := (m_min cfg).
Local Notation opt := (m_opt cfg).
Local Notation use_ltm := (m_use cfg).
Local Notation kmeans := (m_kmeans cfg).
Local Notation rnd := (m_rnd cfg).
Local Notation trunc := (m_trunc cfg).
Definition maxLTM : T := (ltm_size * nofZ (Z.of_nat maxw))%num.
Definition maxSTM : T := (nofZ (Z.of_nat maxw) - maxLTM)%num.
(** interLeavedPredHistories, a dict in insertion order *)
Definition hists := list (nat * list bool).
Fixpoint hget (h : hists) (key : nat) : option (list bool) := match h with [] => None | (i, v) :: r => if Nat.eqb i key then Some v else hget r key end.
Fixpoint hset (h : hists) (key : nat) (v : list bool) : hists := match h with [] => [(key, v)] | (i, x) :: r => if Nat.eqb i key then (key, v) :: r else (i, x) :: hset r key v end.
Definition hpop (h : hists) (key : nat) : hists := filter (fun p => negb (Nat.eqb (fst p) key)) h.
Record sam := mk_sam {
  s_stm : list sample;
  s_ltm : list sample;
  s_dist : nat -> nat -> T;                    (* STMDistances, (max_window_size + 1)^2; absent without size adaption *)
  s_inter : hists;
  s_hs : list bool; s_hl : list bool; s_hc : list bool }. (* STMPredHistory, LTMPredHistory, CMPredHistory *)
Definition sam_init : sam := mk_sam [] [] (fun _ _ => n0) [] [] [] [].

Definition adapts : bool := match opt with NoAdaption => false | _ => true end.
Definition counted (n : nat) : T := nofZ (Z.of_nat n).
(** del l[0:n], np.delete(l, range(n), 0), n times popleft *)
Definition cut {A} (n : nat) (l : list A) : res (list A) := if Nat.leb n (length l) then Ok (skipn n l) else Raise IndexError.
(** STMDistances[:m, :m] = STMDistances[by:m + by, by:m + by] *)
Definition shift_dist (d : nat -> nat -> T) (m by_ : nat) : res (nat -> nat -> T) :=
  if adapts then
    if Nat.leb (m + by_) (S maxw) then Ok (fun i j => if (Nat.ltb i m && Nat.ltb j m)%bool then d (i + by_)%nat (j + by_)%nat else d i j) else Raise ValueError
  else Raise AttributeError.

(** ** cluster_down, lines 164-178 *)
Definition cluster_down (l : list sample) : list sample :=
  flat_map (fun label =>
    let tmp := map fst (filter (fun s => Z.eqb (snd s) label) l) in
    map (fun c => (c, label)) (kmeans tmp (Nat.max (length tmp / 2) 1))) (np_unique (map snd l)).

(** ** size_check_fade_out, lines 180-207: the loop over the keys of the old dictionary *)
Definition shift_key (upd : hists) (key : nat) : res hists :=
  if Nat.eqb key 0 then Ok upd else
  let upd := if Nat.eqb key 1 then hpop upd 0 else upd in
  match hget upd key with
  | None => Raise KeyError
  | Some v => Ok (hset (hpop upd key) (key - 1) v)
  end.
Definition fade_out (s : sam) : res (sam * bool) :=
  if (maxSTM + maxLTM <? counted (length (s_stm s)))%num then
    stm <- cut 1 (s_stm s) ;;
    d <- shift_dist (s_dist s) (length stm) 1 ;;
    inter <- match opt with
             | MaxACCApprox =>
                 h0 <- match hget (s_inter s) 0 with
                       | None => Ok (s_inter s)
                       | Some [] => Raise IndexError
                       | Some (_ :: h) => Ok (hset (s_inter s) 0 h)
                       end ;;
                 foldM shift_key (map fst h0) h0
             | _ => Ok []
             end ;;
    Ok (mk_sam stm (s_ltm s) d inter (s_hs s) (s_hl s) (s_hc s), true)
  else Ok (s, false).
(** ** size_check_STMLTM, lines 209-238 *)
Definition size_ltm (s : sam) : res (sam * bool) :=
  if (maxSTM + maxLTM <? counted (length (s_stm s) + length (s_ltm s)))%num then
    if (maxLTM <? counted (length (s_ltm s)))%num then
      Ok (mk_sam (s_stm s) (cluster_down (s_ltm s)) (s_dist s) (s_inter s) (s_hs s) (s_hl s) (s_hc s), false)
    else
      let n := Z.to_nat (trunc (maxLTM - counted (length (s_ltm s)) + n1)%num) in
      let ltm := cluster_down (s_ltm s ++ firstn n (s_stm s)) in
      stm <- cut n (s_stm s) ;;
      d <- shift_dist (s_dist s) (length stm) n ;;
      hl <- cut n (s_hl s) ;; hs <- cut n (s_hs s) ;; hc <- cut n (s_hc s) ;;
      Ok (mk_sam stm ltm d [] hs hl hc, true)
  else Ok (s, false).
Definition size_check (s : sam) : res (sam * bool) := if use_ltm then size_ltm s else fade_out s.

(** ** clean_samples, lines 240-267 *)
Definition label_at (l : list sample) (j : nat) : Z := snd (nth j l ([], 0%Z)).
Definition without {A} (idx : list nat) (l : list A) : list A :=
  map snd (filter (fun p => negb (existsb (Nat.eqb (fst p)) idx)) (combine (seq 0 (length l)) l)).
(** np.max of a non-empty array *)
Definition maximum (v : T) (l : list T) : T := fold_left (fun m w => if (m <? w)%num then w else m) l v.
Definition clean_one (stm cl : list sample) (i : nat) : res (list sample) :=
  match nth_error stm i with
  | None => Raise IndexError
  | Some (x, y) =>
      let others := firstn i stm ++ skipn (S i) stm in
      let ds := distances x others in
      nn <- n_arg_min k [] ds ;;
      let dl := distances x cl in
      nl <- n_arg_min (Nat.min (length dl) k) [] dl ;;
      match filter (fun j => Z.eqb (label_at others j) y) nn with
      | [] => Ok cl
      | j :: js =>
          let threshold := maximum (nth j ds n0) (map (fun j => nth j ds n0) js) in
          let wrong := filter (fun j => negb (Z.eqb (label_at cl j) y)) nl in
          Ok (without (filter (fun j => (nth j dl n0 <=? threshold)%num) wrong) cl)
      end
  end.
Definition clean_samples (stm cl : list sample) (only_last : bool) : res (list sample) :=
  if (Nat.ltb k (length stm) && negb (Nat.eqb (length cl) 0))%bool then
    foldM (fun cl i => match cl with [] => Ok [] | _ => clean_one stm cl i end) (if only_last then [length stm - 1] else seq 0 (length stm)) cl
  else Ok cl.

(** ** STMSizer *)
(** getInterleavedTestTrainAcc and getInterleavedTestTrainAccPredHistory, lines 554-577: the tests of the samples number [start] and later
    of the window that begins at [off]; the first one has [start = nNeighbours] *)
Definition test_train (d : nat -> nat -> T) (off : nat) (labels : list Z) (start : nat) : res (list bool) :=
  mapM (fun i => l <- get_label by_distance (map (fun j => d (off + i) (off + j)) (seq 0 i)) (firstn i labels) k ;; Ok (Z.eqb l (nth i labels 0%Z))) (seq start (length labels - start)).
(** np.sum(h) / float(len(h)); [None] is nan *)
Definition accuracy (h : list bool) : option T := match h with [] => None | _ => Some (counted (length (filter (fun b => b) h)) / counted (length h))%num end.
(** adaptHistories, lines 579-589 *)
Fixpoint insert_nat (v : nat) (l : list nat) : list nat := match l with [] => [v] | w :: r => if Nat.leb v w then v :: l else w :: insert_nat v r end.
Definition sorted_keys (h : hists) : list nat := fold_right insert_nat [] (map fst h).
Definition adapt_one (h : hists) : res hists :=
  match sorted_keys h with
  | k0 :: delta :: ks =>
      foldM (fun h key => match hget h key with None => Raise KeyError | Some v => Ok (hset (hpop h key) (key - delta) v) end) (delta :: ks) (hpop h k0)
  | _ => Raise IndexError
  end.
Fixpoint adapt (n : nat) (h : hists) : res hists := match n with O => Ok h | S n => h' <- adapt_one h ;; adapt n h' end.
(** numSamplesRange, lines 605-607 and 652-654: the divisors 1, 2, 4, ... with numSamples / d >= minSize *)
Fixpoint divisors (fuel n d : nat) : list nat :=
  match fuel with O => [d] | S f => if Nat.leb (min_stm * (2 * d)) n then d :: divisors f n (2 * d) else [d] end.
(** int(numSamples - numSamples / d) and int(numSamples / d) *)
Definition index_of (n d : nat) : nat := n - (n + d - 1) / d.
(** np.argmax with nan first of all *)
Fixpoint first_nan (l : list (option T)) (i : nat) : option nat := match l with [] => None | None :: _ => Some i | Some _ :: r => first_nan r (S i) end.
Definition arg_max (l : list (option T)) : res nat :=
  match first_nan l 0 with Some i => Ok i | None => np_argmax (map (fun o => match o with Some v => v | None => n0 end) l) end.
Definition rounded (l : list (option T)) : list (option T) := map (option_map rnd) l.
(** Lines 609-615: the keys that are not in numSamples - numSamplesRange *)
Definition stays (n : nat) (ds : list nat) (key : nat) : bool := existsb (fun d => (Nat.eqb (n mod d) 0 && Nat.eqb key (n - n / d))%bool) ds.
Definition set_acc (accs : list (option T)) (i : nat) (a : option T) : list (option T) := set_nth accs i a.
(** getMaxAccWindowSize, lines 591-636 *)
Definition max_acc (labels : list Z) (h : hists) (d : nat -> nat -> T) : res (nat * hists) :=
  let n := length labels in
  if Nat.ltb n (2 * min_stm) then Ok (n, h) else
  let ds := divisors n n 1 in
  let h := filter (fun p => stays n ds (fst p)) h in
  ' (h, accs) <- foldM (fun acc dv =>
      let '(h, accs) := acc in
      let idx := index_of n dv in
      let labs := skipn idx labels in
      hist <- match hget h idx with
              | Some p => more <- test_train d idx labs (length p + k) ;; Ok (p ++ more)
              | None => test_train d idx labs k
              end ;;
      Ok (hset h idx hist, accs ++ [accuracy hist])) ds (h, []) ;;
  best <- arg_max (rounded accs) ;;
  let dv := nth best ds 1 in
  if Nat.ltb 0 best then h <- adapt best h ;; Ok (n / dv, h) else Ok (n, h).
(** getMaxAccApproxWindowSize, lines 638-693 *)
Definition max_acc_approx (labels : list Z) (h : hists) (d : nat -> nat -> T) : res (nat * hists) :=
  let n := length labels in
  if Nat.ltb n (2 * min_stm) then Ok (n, h) else
  let ds := divisors n n 1 in
  ' (h, accs) <- foldM (fun acc dv =>
      let '(h, accs) := acc in
      let idx := index_of n dv in
      let labs := skipn idx labels in
      ' (h, hist) <- match hget h idx with
              | Some p => more <- test_train d idx labs (length p + k) ;; Ok (h, p ++ more)
              | None =>
                  match (if Nat.eqb idx 0 then None else hget h (idx - 1)) with
                  | Some [] => Raise IndexError
                  | Some (_ :: p) => more <- test_train d idx labs (length p + k) ;; Ok (hpop h (idx - 1), p ++ more)
                  | None => hist <- test_train d idx labs k ;; Ok (h, hist)
                  end
              end ;;
      Ok (hset h idx hist, accs ++ [accuracy hist])) ds (h, []) ;;
  let accs := rounded accs in
  best <- arg_max accs ;;
  ' (h, best) <- if Nat.ltb 0 best then
      let more_accurate := filter (fun i => match nth i accs None, nth 0 accs None with Some a, Some b => (b <? a)%num | _, _ => false end) (seq 0 (length accs)) in
      ' (h, accs) <- foldM (fun acc i =>
          let '(h, accs) := acc in
          let idx := index_of n (nth i ds 1) in
          hist <- test_train d idx (skipn idx labels) k ;;
          Ok (hset h idx hist, set_acc accs i (accuracy hist))) more_accurate (h, accs) ;;
      best <- arg_max (rounded accs) ;; Ok (h, best)
    else Ok (h, best) ;;
  if Nat.ltb 0 best then h <- adapt best h ;; Ok (n / nth best ds 1, h) else Ok (n, h).
(** getNewSTMSize, lines 518-547 *)
Definition new_size (labels : list Z) (h : hists) (d : nat -> nat -> T) : res (nat * hists) :=
  match opt with
  | NoAdaption => Ok (length labels, h)
  | MaxACC => max_acc labels h d
  | MaxACCApprox => max_acc_approx labels h d
  | OtherOption => Raise RuntimeError (* Exception('unknown driftStrategy') *)
  end.

(** ** The predictions of the memories: lines 319-364 and 366-401 *)
Record votes := mk_votes { v_stm : Z; v_ltm : Z; v_both : Z; v_answer : Z }.
Definition correct (h : list bool) : nat := length (filter (fun b => b) h).
(** np.argmax([correctSTM, correctLTM, correctBoth]) *)
Definition choice (cs cl cb : nat) : nat := if Nat.ltb cs cl then (if Nat.ltb cl cb then 2 else 1) else if Nat.ltb cs cb then 2 else 0.
Definition all_memories (s : sam) (x : list T) : res votes :=
  let ds := distances x (s_stm s) in
  let ls := map snd (s_stm s) in
  if Nat.eqb (length (s_stm s)) 0 then Ok (mk_votes 0 0 0 0) else
  if Nat.ltb (length (s_stm s)) k then p <- get_label by_distance ds ls (length (s_stm s)) ;; Ok (mk_votes p 0 0 p) else
  let dl := distances x (s_ltm s) in
  ps <- get_label by_distance ds ls k ;;
  pb <- get_label by_distance (ds ++ dl) (ls ++ map snd (s_ltm s)) k ;;
  if Nat.leb k (length (s_ltm s)) then
    pl <- get_label by_distance dl (map snd (s_ltm s)) k ;;
    Ok (mk_votes ps pl pb (nth (choice (correct (s_hs s)) (correct (s_hl s)) (correct (s_hc s))) [ps; pl; pb] 0%Z))
  else Ok (mk_votes ps 0 pb ps).
(** _predict_by_stm, lines 406-414 *)
Definition by_stm (s : sam) (x : list T) : res Z :=
  match s_stm s with
  | [] => Ok 0%Z
  | _ => get_label by_distance (distances x (s_stm s)) (map snd (s_stm s)) (Nat.min k (length (s_stm s)))
  end.
(** predict, lines 449-459 *)
Definition sam_predict (s : sam) (xs : list (list T)) : res (list Z) :=
  mapM (fun x => if use_ltm then v <- all_memories s x ;; Ok (v_answer v) else by_stm s x) xs.

(** ** _partial_fit, lines 269-317 *)
Definition write_row (d : nat -> nat -> T) (row : nat) (vs : list T) : res (nat -> nat -> T) :=
  if Nat.leb row maxw then Ok (fun i j => if (Nat.eqb i row && Nat.ltb j row)%bool then nth j vs n0 else d i j) else Raise IndexError.
Definition sam_learn (s : sam) (x : list T) (y : Z) : res sam :=
  let ds := distances x (s_stm s) in
  s <- (if use_ltm then v <- all_memories s x ;;
          Ok (mk_sam (s_stm s) (s_ltm s) (s_dist s) (s_inter s) (s_hs s ++ [Z.eqb (v_stm v) y]) (s_hl s ++ [Z.eqb (v_ltm v) y]) (s_hc s ++ [Z.eqb (v_both v) y]))
        else Ok s) ;;
  ' (s, shortened) <- size_check (mk_sam (s_stm s ++ [(x, y)]) (s_ltm s) (s_dist s) (s_inter s) (s_hs s) (s_hl s) (s_hc s)) ;;
  ltm <- clean_samples (s_stm s) (s_ltm s) true ;;
  let s := mk_sam (s_stm s) ltm (s_dist s) (s_inter s) (s_hs s) (s_hl s) (s_hc s) in
  if adapts then
    let n := length (s_stm s) in
    d <- write_row (s_dist s) (n - 1) (if shortened then distances x (firstn (n - 1) (s_stm s)) else ds) ;;
    ' (m, h) <- new_size (map snd (s_stm s)) (s_inter s) d ;;
    if Nat.ltb m n then
      let old := firstn (n - m) (s_stm s) in
      let stm := skipn (n - m) (s_stm s) in
      d <- shift_dist d m (n - m) ;;
      if use_ltm then
        hs <- cut (n - m) (s_hs s) ;; hl <- cut (n - m) (s_hl s) ;; hc <- cut (n - m) (s_hc s) ;;
        old <- clean_samples stm old false ;;
        ' (s, _) <- size_check (mk_sam stm (s_ltm s ++ old) d h hs hl hc) ;; Ok s
      else Ok (mk_sam stm (s_ltm s) d h (s_hs s) (s_hl s) (s_hc s))
    else Ok (mk_sam (s_stm s) (s_ltm s) d h (s_hs s) (s_hl s) (s_hc s))
  else Ok s.
(** partial_fit, lines 416-447 *)
Definition sam_fit (s : sam) (rows : list sample) : res sam := foldM (fun s r => sam_learn s (fst r) (snd r)) rows s.
End Sam.
Arguments sam : clear implicits. Arguments sam_config : clear implicits.
