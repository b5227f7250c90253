(** Model of ADWIN, drift_detection/adwin.py.

    Arithmetic is generic ([Num T]); integer quantities (widths, counts, times) are [Z].
    Simplifications:
    - the doubly linked [List] of [Item]s is a Coq list of rows, first (newest, bucket size 1) to last;
    - [bucket_size(row)] = numpy.power(2,row) is computed in unbounded integers (no int64 wrap-around at row 63);
    - attributes that are written but never read by any method (mdbl_delta, list count) are omitted. *)
From Coq Require Import List ZArith Bool.
From Verif Require Import Base.Py Base.Num.
Import ListNotations.
Local Open Scope Z_scope.

(** MAX_BUCKETS, adwin.py:55 *)
Definition MAX_BUCKETS : Z := 5.

(** Python indexing of a sequence: negative indices count from the end, IndexError outside. *)
Definition py_index (len : nat) (i : Z) : option nat :=
  if (0 <=? i) && (i <? Z.of_nat len) then Some (Z.to_nat i)
  else if (i <? 0) && (- Z.of_nat len <=? i) then Some (Z.to_nat (i + Z.of_nat len))
  else None.

Definition py_get {A} (l : list A) (i : Z) : res A :=
  match py_index (length l) i with
  | None => Raise IndexError
  | Some n => match nth_error l n with Some x => Ok x | None => Raise IndexError end
  end.

Fixpoint set_nth {A} (l : list A) (n : nat) (v : A) : list A :=
  match l, n with
  | [], _ => []
  | _ :: r, O => v :: r
  | x :: r, S n' => x :: set_nth r n' v
  end.

Definition py_set {A} (l : list A) (i : Z) (v : A) : res (list A) :=
  match py_index (length l) i with
  | None => Raise IndexError
  | Some n => Ok (set_nth l n v)
  end.

(** range(a, b) *)
Definition py_range (a b : Z) : list Z := map (fun k => a + Z.of_nat k) (seq 0 (Z.to_nat (b - a))).

(** for i in l: s = f(i, s), stopping at the first exception *)
Fixpoint foldM {A S} (f : S -> A -> res S) (l : list A) (s : S) : res S :=
  match l with [] => Ok s | a :: r => s' <- f s a ;; foldM f r s' end.

Section Adwin.
Context {T : Type} {N : Num T}.

(** class Item, adwin.py:438-528 *)
Record item : Type := mkItem {
  it_size : Z;          (* bucket_size_row *)
  it_tot  : list T;     (* bucket_total, numpy array of MAX_BUCKETS + 1 cells *)
  it_var  : list T      (* bucket_variance *)
}.

(** Item.__init__ / reset, adwin.py:454-481 *)
Definition item_new : item :=
  mkItem 0 (repeat n0 (Z.to_nat (MAX_BUCKETS + 1))) (repeat n0 (Z.to_nat (MAX_BUCKETS + 1))).

(** Item.insert_bucket, adwin.py:487-491 *)
Definition item_insert (r : item) (value variance : T) : res item :=
  t <- py_set (it_tot r) (it_size r) value ;;
  v <- py_set (it_var r) (it_size r) variance ;;
  Ok (mkItem (it_size r + 1) t v).

(** one array of Item.compress_bucket_row: the copying loop 497-499, then the clearing loop 501-502 *)
Definition arr_compress (l : list T) (d : Z) : res (list T) :=
  l1 <- foldM (fun l i => x <- py_get l i ;; py_set l (i - d) x) (py_range d (MAX_BUCKETS + 1)) l ;;
  foldM (fun l i => py_set l (MAX_BUCKETS - i + 1) n0) (py_range 1 (d + 1)) l1.

(** Item.compress_bucket_row, adwin.py:496-504 *)
Definition item_compress (r : item) (d : Z) : res item :=
  t <- arr_compress (it_tot r) d ;;
  v <- arr_compress (it_var r) d ;;
  Ok (mkItem (it_size r - d) t v).

(** class ADWIN: attributes, adwin.py:57-85 *)
Record adwin : Type := mkAdwin {
  ad_delta : T;
  ad_last_row : Z;            (* last_bucket_row *)
  ad_rows : list item;        (* list_row_bucket *)
  ad_total : T;               (* _total *)
  ad_variance : T;            (* _variance: sum of squared deviations *)
  ad_width : Z;               (* _width *)
  ad_bucket_number : Z;
  ad_time : Z;                (* mint_time *)
  ad_mdbl_width : Z;
  ad_detect : Z;
  ad_n_detections : Z;
  ad_detect_twice : Z;
  ad_clock : Z;               (* mint_clock *)
  ad_bln_bucket_deleted : bool;
  ad_bucket_num_max : Z;
  ad_in_change : bool         (* in_concept_change *)
}.

(** __init__, adwin.py:57-85 (with __init_buckets 154-165 and BaseDriftDetector.reset) *)
Definition adwin_init (delta : T) : adwin :=
  mkAdwin delta 0 [item_new] n0 n0 0 0 0 0 0 0 0 32 false 0 false.

(** mint_min_window_longitude (71), mint_min_window_length (84) *)
Definition MIN_WINDOW_LONGITUDE : Z := 10.
Definition MIN_WINDOW_LENGTH : Z := 5.

(** reset, adwin.py:87-98 *)
Definition adwin_reset (s : adwin) : adwin := adwin_init (ad_delta s).

(** get_change, adwin.py:100-109; reset_change, 111-112; set_clock, 114-115 *)
Definition adwin_get_change (s : adwin) : bool := ad_bln_bucket_deleted s.
Definition adwin_reset_change (s : adwin) : adwin :=
  mkAdwin (ad_delta s) (ad_last_row s) (ad_rows s) (ad_total s) (ad_variance s) (ad_width s)
    (ad_bucket_number s) (ad_time s) (ad_mdbl_width s) (ad_detect s) (ad_n_detections s)
    (ad_detect_twice s) (ad_clock s) false (ad_bucket_num_max s) (ad_in_change s).
Definition adwin_set_clock (s : adwin) (c : Z) : adwin :=
  mkAdwin (ad_delta s) (ad_last_row s) (ad_rows s) (ad_total s) (ad_variance s) (ad_width s)
    (ad_bucket_number s) (ad_time s) (ad_mdbl_width s) (ad_detect s) (ad_n_detections s)
    (ad_detect_twice s) c (ad_bln_bucket_deleted s) (ad_bucket_num_max s) (ad_in_change s).

(** properties width, total (124-134), estimation (140-144) *)
Definition adwin_estimation (s : adwin) : T :=
  if ad_width s =? 0 then n0 else (ad_total s / nofZ (ad_width s))%num.

(** property variance (136-138): a numpy or Python division; only used with positive width. *)
Definition adwin_variance (s : adwin) : T := (ad_variance s / nofZ (ad_width s))%num.

(** bucket_size, adwin.py:210-212 (numpy raises ValueError for negative powers of integers) *)
Definition bucket_size (row : Z) : res Z := if row <? 0 then Raise ValueError else Ok (2 ^ row).

(** __compress_buckets, adwin.py:243-271.  [cur] is the cursor's row (index [i]), [rest] the rows after it.
    Returns the rows from the cursor on, by how much last_bucket_row and bucket_number grew.
    When there is no next row a new one is appended (add_to_tail), which then holds one bucket, so the loop breaks. *)
Fixpoint compress (i : Z) (cur : item) (rest : list item) : res (list item * Z * Z) :=
  if it_size cur =? MAX_BUCKETS + 1 then
    sz <- bucket_size i ;;
    t0 <- py_get (it_tot cur) 0 ;;
    t1 <- py_get (it_tot cur) 1 ;;
    v1 <- py_get (it_var cur) 1 ;;
    let u1 := (t0 / nofZ sz)%num in
    let u2 := (t1 / nofZ sz)%num in
    let incr := (nofZ (sz * sz) * ((u1 - u2) * (u1 - u2)) / nofZ (sz + sz))%num in
    let tot := (t0 + t1)%num in
    let var := (v1 + incr)%num in
    match rest with
    | [] =>
        next <- item_insert item_new tot var ;;
        cur' <- item_compress cur 2 ;;
        Ok ([cur'; next], 1, 1)
    | nx :: rest' =>
        next <- item_insert nx tot var ;;
        cur' <- item_compress cur 2 ;;
        if it_size next <=? MAX_BUCKETS then Ok (cur' :: next :: rest', 0, 1)
        else '(rs, dr, db) <- compress (i + 1) next rest' ;; Ok (cur' :: rs, dr, db + 1)
    end
  else Ok (cur :: rest, 0, 0).

(** add_element, adwin.py:167-201 (with __insert_element_bucket 203-208) *)
Definition adwin_add (s : adwin) (value : T) : res adwin :=
  let width := ad_width s + 1 in
  match ad_rows s with
  | [] => Raise AttributeError               (* None.insert_bucket *)
  | first :: rest =>
      first' <- item_insert first value n0 ;;
      let bnum := ad_bucket_number s + 1 in
      let bmax := Z.max (ad_bucket_num_max s) bnum in
      let incr :=
        if 1 <? width then
          let d := (value - ad_total s / nofZ (width - 1))%num in
          (nofZ (width - 1) * d * d / nofZ width)%num
        else n0 in
      '(rows, dr, db) <- compress 0 first' rest ;;
      Ok (mkAdwin (ad_delta s) (ad_last_row s + dr) rows (ad_total s + value)%num
            (ad_variance s + incr)%num width (bnum + db) (ad_time s) (ad_mdbl_width s) (ad_detect s)
            (ad_n_detections s) (ad_detect_twice s) (ad_clock s) (ad_bln_bucket_deleted s) bmax
            (ad_in_change s))
  end.

(** delete_element, adwin.py:214-241.  Division by a zero width is a numpy division (nan/inf), not an exception. *)
Definition adwin_delete (s : adwin) : res (adwin * Z) :=
  match rev (ad_rows s) with
  | [] => Raise AttributeError
  | node :: before =>
      n1 <- bucket_size (ad_last_row s) ;;
      let width := ad_width s - n1 in
      t0 <- py_get (it_tot node) 0 ;;
      v0 <- py_get (it_var node) 0 ;;
      let total := (ad_total s - t0)%num in
      let u1 := (t0 / nofZ n1)%num in
      let d := (u1 - total / nofZ width)%num in
      let incr := (v0 + nofZ (n1 * width) * d * d / nofZ (n1 + width))%num in
      node' <- item_compress node 1 ;;
      let '(rows, last) :=
        if it_size node' =? 0 then (rev before, ad_last_row s - 1)
        else (rev (node' :: before), ad_last_row s) in
      Ok (mkAdwin (ad_delta s) last rows total (ad_variance s - incr)%num width
            (ad_bucket_number s - 1) (ad_time s) (ad_mdbl_width s) (ad_detect s)
            (ad_n_detections s) (ad_detect_twice s) (ad_clock s) (ad_bln_bucket_deleted s)
            (ad_bucket_num_max s) (ad_in_change s), n1)
  end.

(** absolute value, numpy.absolute *)
Definition nabs (x : T) : T := if nltb x n0 then (n0 - x)%num else x.

(** __bln_cut_expression, adwin.py:366-373 (parameters that the body does not use are dropped) *)
Definition cut_expression (s : adwin) (c0 c1 : Z) (abs_value : T) : bool :=
  let n := ad_width s in
  let dd := nln (nofZ 2 * nln (nofZ n) / ad_delta s)%num in
  let v := adwin_variance s in
  let m := (n1 / nofZ (c0 - MIN_WINDOW_LENGTH + 1) + n1 / nofZ (c1 - MIN_WINDOW_LENGTH + 1))%num in
  let epsilon := (nsqrt (nofZ 2 * m * v * dd) + nofZ 2 / nofZ 3 * dd * m)%num in
  nltb epsilon (nabs abs_value).

(** Loop variables of one pass, adwin.py:305-312: (n0, n1, u0, u1, v0, v1). *)
Record scan_st : Type := mkScan { sn0 : Z; sn1 : Z; su0 : T; su1 : T; sv0 : T; sv1 : T }.

Inductive scan_res : Type := ScanGo (st : scan_st) | ScanExit | ScanCut.

(** One comparison performed by the scan: sizes and sums of the two sides that are compared (ghost output, used to
    state which cut points are examined). *)
Definition comparison : Type := (Z * Z * T * T)%type.

(** Body of the inner for loop, adwin.py:317-356, for bucket [k] of row number [i]. *)
Definition scan_bucket (s : adwin) (i : Z) (r : item) (st : scan_st) (k : Z)
  : res (scan_res * list comparison) :=
  b <- bucket_size i ;;
  u2 <- py_get (it_tot r) k ;;
  vk <- py_get (it_var r) k ;;
  let v0' :=
    if 0 <? sn0 st then
      let d := (su0 st / nofZ (sn0 st) - u2 / nofZ b)%num in
      (sv0 st + (vk + nofZ (sn0 st) * nofZ b * d * d / nofZ (sn0 st + b)))%num
    else sv0 st in
  let v1' :=
    if 0 <? sn1 st then
      let d := (su1 st / nofZ (sn1 st) - u2 / nofZ b)%num in
      (sv1 st - (vk + nofZ (sn1 st) * nofZ b * d * d / nofZ (sn1 st + b)))%num
    else sv1 st in
  let st' := mkScan (sn0 st + b) (sn1 st - b) (su0 st + u2)%num (su1 st - u2)%num v0' v1' in
  if (i =? 0) && (k =? it_size r - 1) then Ok (ScanExit, [])
  else
    let abs_value := (su0 st' / nofZ (sn0 st') - su1 st' / nofZ (sn1 st'))%num in
    let cmp := [(sn0 st', sn1 st', su0 st', su1 st')] in
    if (MIN_WINDOW_LENGTH <=? sn1 st') && (MIN_WINDOW_LENGTH <=? sn0 st')
       && cut_expression s (sn0 st') (sn1 st') abs_value
    then Ok (ScanCut, cmp) else Ok (ScanGo st', cmp).

(** inner loop: for k in range(cursor.bucket_size_row - 1), adwin.py:317 *)
Fixpoint scan_row (s : adwin) (i : Z) (r : item) (st : scan_st) (ks : list Z)
  : res (scan_res * list comparison) :=
  match ks with
  | [] => Ok (ScanGo st, [])
  | k :: ks' =>
      '(x, c) <- scan_bucket s i r st k ;;
      match x with
      | ScanGo st' => '(y, c') <- scan_row s i r st' ks' ;; Ok (y, c ++ c')
      | _ => Ok (x, c)
      end
  end.

(** outer loop over the rows from last to first, adwin.py:316-359; [rs] is the reversed row list *)
Fixpoint scan_rows (s : adwin) (i : Z) (rs : list item) (st : scan_st)
  : res (scan_res * list comparison) :=
  match rs with
  | [] => Ok (ScanGo st, [])
  | r :: rs' =>
      '(x, c) <- scan_row s i r st (py_range 0 (it_size r - 1)) ;;
      match x with
      | ScanGo st' => '(y, c') <- scan_rows s (i - 1) rs' st' ;; Ok (y, c ++ c')
      | _ => Ok (x, c)
      end
  end.

(** One pass of the scan, adwin.py:304-359 *)
Definition adwin_scan (s : adwin) : res (scan_res * list comparison) :=
  scan_rows s (ad_last_row s) (rev (ad_rows s))
    (mkScan 0 (ad_width s) n0 (ad_total s) n0 (ad_variance s)).

(** Bookkeeping when a cut is found, adwin.py:344-352 (bln_bucket_deleted is a local variable there) *)
Definition note_cut (s : adwin) : adwin :=
  mkAdwin (ad_delta s) (ad_last_row s) (ad_rows s) (ad_total s) (ad_variance s) (ad_width s)
    (ad_bucket_number s) (ad_time s) (ad_mdbl_width s) (ad_time s) (ad_n_detections s)
    (if ad_time s =? 0 then ad_detect_twice s
     else if ad_detect_twice s =? 0 then ad_time s else ad_detect_twice s)
    (ad_clock s) (ad_bln_bucket_deleted s) (ad_bucket_num_max s) (ad_in_change s).

(** The while loop, adwin.py:302-359.  [None]: the given number of passes was not enough (the theorems show that
    this does not happen for [width] passes); the boolean is bln_change. *)
Fixpoint shrink (fuel : nat) (s : adwin) (changed : bool) : res (option (adwin * bool)) :=
  match fuel with
  | O => Ok None
  | S f =>
      '(x, _) <- adwin_scan s ;;
      match x with
      | ScanCut =>
          let s1 := note_cut s in
          if 0 <? ad_width s1 then '(s2, _) <- adwin_delete s1 ;; shrink f s2 true
          else shrink f s1 true
      | _ => Ok (Some (s, changed))
      end
  end.

Definition set_time (s : adwin) (t : Z) : adwin :=
  mkAdwin (ad_delta s) (ad_last_row s) (ad_rows s) (ad_total s) (ad_variance s) (ad_width s)
    (ad_bucket_number s) t (ad_mdbl_width s) (ad_detect s) (ad_n_detections s)
    (ad_detect_twice s) (ad_clock s) (ad_bln_bucket_deleted s) (ad_bucket_num_max s) (ad_in_change s).

(** Epilogue, adwin.py:360-364 *)
Definition finish_detect (s : adwin) (b : bool) : adwin :=
  mkAdwin (ad_delta s) (ad_last_row s) (ad_rows s) (ad_total s) (ad_variance s) (ad_width s)
    (ad_bucket_number s) (ad_time s) (ad_mdbl_width s + ad_width s) (ad_detect s)
    (if b then ad_n_detections s + 1 else ad_n_detections s)
    (ad_detect_twice s) (ad_clock s) (ad_bln_bucket_deleted s) (ad_bucket_num_max s) b.

(** detected_change, adwin.py:273-364. [None]: see [shrink]. *)
Definition adwin_detect (s : adwin) : res (option (adwin * bool)) :=
  let s := set_time s (ad_time s + 1) in
  if ad_clock s =? 0 then Raise ZeroDivisionError
  else if (ad_time s mod ad_clock s =? 0) && (MIN_WINDOW_LONGITUDE <? ad_width s) then
    r <- shrink (S (Z.to_nat (ad_width s))) s false ;;
    Ok (option_map (fun p => (finish_detect (fst p) (snd p), snd p)) r)
  else Ok (Some (finish_detect s false, false)).

(** Public mutating calls. *)
Inductive adwin_op : Type :=
| AAdd (v : T) | ADetect | ADelete | AReset | ASetClock (c : Z) | AResetChange.

Definition adwin_step (s : adwin) (o : adwin_op) : res (option adwin) :=
  match o with
  | AAdd v => s' <- adwin_add s v ;; Ok (Some s')
  | ADetect => r <- adwin_detect s ;; Ok (option_map fst r)
  | ADelete => '(s', _) <- adwin_delete s ;; Ok (Some s')
  | AReset => Ok (Some (adwin_reset s))
  | ASetClock c => Ok (Some (adwin_set_clock s c))
  | AResetChange => Ok (Some (adwin_reset_change s))
  end.

Fixpoint adwin_run (s : adwin) (ops : list adwin_op) : res (option adwin) :=
  match ops with
  | [] => Ok (Some s)
  | o :: r =>
      x <- adwin_step s o ;;
      match x with None => Ok None | Some s' => adwin_run s' r end
  end.

End Adwin.
Arguments item : clear implicits.
Arguments adwin : clear implicits.
Arguments adwin_op : clear implicits.
