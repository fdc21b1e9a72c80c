(** Stand-alone trilateration.  Models standalone_algorithms/trilateteration/src/
    {beacon,trilateration}.{h,cpp}; line numbers refer to trilateration.cpp.
    Identifiers are compared with strcmp; strings without NUL bytes are assumed,
    for which strcmp and the order of std::string agree.  mBeaconPtr is always
    assigned by filterUnknownBeacons before it is read, so it appears only as
    the pairing of a measurement with its beacon.  Messages written by printf
    or collected in mErrorMessage are not modelled. *)
From Verif Require Export Num Base.
Set Implicit Arguments.

(** beacon.h:54-61, the members that are read *)
Record beacon (F : Type) := mkBeacon { bk_id : string; bk_x : F; bk_y : F }.
(** beacon.h:115-119 *)
Record bmeas (F : Type) := mkBm { bm_id : string; bm_rssi : F; bm_dist : F }.
(** trilateration.h: mLocationBeacons, mBeaconMeas, mXY *)
Record trilat (F : Type) := mkTl { tl_map : list (beacon F); tl_meas : list (bmeas F); tl_x : F; tl_y : F }.

(** trilateration.h:11-12 *)
Definition err_none : Z := 0.
Definition err_no_solution : Z := 4.
Definition err_in_trilater : Z := 28.

Section SaTrilat.
Context {F : Type} {NF : Num F} {SO : Sorter}.

(** 20-24 constructor *)
Definition tl0 : trilat F := mkTl [] [] f0 f0.
(** 43-46 updateMeasurements, 49-52 fillLocationBeacons *)
Definition tl_update (s : trilat F) (ms : list (bmeas F)) : trilat F := mkTl (tl_map s) ms (tl_x s) (tl_y s).
Definition tl_fill (s : trilat F) (bs : list (beacon F)) : trilat F := mkTl bs (tl_meas s) (tl_x s) (tl_y s).

(** 410-413 compareBeaconMeasByName *)
Definition name_lt (a b : bmeas F) : bool := String.ltb (bm_id a) (bm_id b).
(** beacon.cpp:234-237 operator< *)
Definition dist_lt (a b : bmeas F) : bool := bm_dist a <! bm_dist b.
(** 232 *)
Definition negative (m : bmeas F) : bool := bm_dist m <! f0.

(** 229-253, the while loop after the first occurrence of [id], which is the
    entry being processed: duplicates of every earlier entry have been erased
    when that entry was processed.  Result: the remaining entries, the number
    of duplicates, the sum of RSSI and whether a negative distance stopped the
    loop (the entries from there on are then left alone).  The sum of
    distances is computed by the code and dropped (264). *)
Fixpoint absorb (id : string) (n : Z) (rssi : F) (l : list (bmeas F)) : list (bmeas F) * Z * F * bool :=
  match l with
  | [] => ([], n, rssi, false)
  | e :: t =>
      if String.eqb (bm_id e) id then
        if negative e then (e :: t, n, rssi, true)
        else absorb id (n + 1) (rssi +! bm_rssi e) t
      else
        let '(k, n', r', err) := absorb id n rssi t in (e :: k, n', r', err)
  end.

(** 214-267, the for loop; [fuel] bounds the number of entries *)
Fixpoint dedup (fuel : nat) (l : list (bmeas F)) : list (bmeas F) * bool :=
  match fuel, l with
  | S fuel, x :: t =>
      if negative x then (x :: t, true)
      else
        let '(k, n, rssi, err) := absorb (bm_id x) 1 (f0 +! bm_rssi x) t in
        if err then (x :: k, true)
        else
          let '(r, e) := dedup fuel k in
          (mkBm (bm_id x) (rssi /! fofZ n) (bm_dist x) :: r, e)
  | _, _ => (l, false)
  end.

(** 209-278 deleteDuplicateMeasurements *)
Definition delete_duplicates (ms : list (bmeas F)) : list (bmeas F) * Z :=
  let sorted := ssort name_lt ms in
  let '(k, neg) := dedup (List.length sorted) sorted in
  (k, if neg then err_in_trilater else if Nat.ltb (List.length k) 3 then err_no_solution else err_none).

(** 416-426 findBeaconForMeas *)
Definition find_beacon (bs : list (beacon F)) (id : string) : option (beacon F) :=
  find (fun b => String.eqb (bk_id b) id) bs.

(** 118-144 filterUnknownBeacons, each measurement with its beacon *)
Fixpoint known (bs : list (beacon F)) (ms : list (bmeas F)) : list (bmeas F * beacon F) :=
  match ms with
  | [] => []
  | m :: t => match find_beacon bs (bm_id m) with
              | Some b => (m, b) :: known bs t
              | None => known bs t
              end
  end.

(** 174-204 calculateTrilaterationCoordinates *)
Definition norm_coeff (k : list (bmeas F * beacon F)) : F :=
  fsum (fun mb => f1 /! fabs (bm_dist (fst mb))) k.
Definition weight (c : F) (m : bmeas F) : F := f0 +! f1 /! fabs (bm_dist m *! c).
Definition add_weighted (k : list (bmeas F * beacon F)) (x y : F) : F * F :=
  let c := norm_coeff k in
  fold_left (fun xy mb => (fst xy +! weight c (fst mb) *! bk_x (snd mb),
                           snd xy +! weight c (fst mb) *! bk_y (snd mb))) k (x, y).

(** 55-101 calculateCoordinates, returning the error code *)
Definition calculate (s : trilat F) : res (trilat F * Z) :=
  let '(ms, e) := delete_duplicates (tl_meas s) in
  if negb (e =? 0)%Z then Ok (tl_update s ms, e)
  else
    sorted <- sort_res dist_lt ms ;;
    let k := known (tl_map s) sorted in
    match k with
    | [] => Ok (tl_update s [], err_no_solution)
    | _ =>
        let '(x, y) := add_weighted k (tl_x s) (tl_y s) in
        Ok (mkTl (tl_map s) (map fst k) x y, err_none)
    end.

(** ** The least-squares branch (90-94, switched off by UseOls = 0) *)
(** 281-314 getLinearSystem: rows of A and b; front() of an empty vector is
    undefined *)
Definition linear_system (k : list (bmeas F * beacon F)) : res (list (F * F * F)) :=
  match k with
  | [] => UB
  | (m1, b1) :: t =>
      let x1 := bk_x b1 in let y1 := bk_y b1 in
      let norm1 := x1 *! x1 +! y1 *! y1 in
      Ok (map (fun mb =>
        let x := bk_x (snd mb) in let y := bk_y (snd mb) in
        (fofZ 2 *! (x -! x1), fofZ 2 *! (y -! y1),
         bm_dist m1 *! bm_dist m1 -! bm_dist (fst mb) *! bm_dist (fst mb) -! norm1 +! (x *! x +! y *! y))) t)
  end.
(** 342-401 solveLinearSystem, returning the local vector xy that the code
    discards.  Without equations the division 347 is by zero. *)
Definition ols (rows : list (F * F * F)) : res (F * F) :=
  match rows with
  | [] => UB
  | _ =>
      let a r := fst (fst r) in let b r := snd (fst r) in
      let m00 := fsum (fun r => a r *! a r) rows in
      let m01 := fsum (fun r => a r *! b r) rows in
      let m10 := fsum (fun r => b r *! a r) rows in
      let m11 := fsum (fun r => b r *! b r) rows in
      let det := m00 *! m11 -! m10 *! m01 in
      let i00 := m11 /! det in let i01 := fopp m01 /! det in
      let i10 := fopp m10 /! det in let i11 := m00 /! det in
      let p r := f0 +! i00 *! a r +! i01 *! b r in
      let q r := f0 +! i10 *! a r +! i11 *! b r in
      Ok (fsum (fun r => p r *! snd r) rows, fsum (fun r => q r *! snd r) rows)
  end.
(** 319-336 getLeastSquaresCoordinates *)
Definition least_squares (k : list (bmeas F * beacon F)) : res (F * F) :=
  rows <- linear_system k ;; ols rows.
End SaTrilat.
