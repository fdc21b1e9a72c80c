(** Radio-map tables and KNN weighting.  Models src/knn/knn_utils.{h,cpp}
    (triangulation itself is in Triangulation.v). *)
From Verif Require Export LevelModel.
Set Implicit Arguments.

(** std::multimap<TransmitterId, pair<ReferencePointId, SignalStatistics>>:
    a list in insertion order; equal_range is the filter by key (equivalent
    elements of a multimap keep their insertion order) *)
Definition rmap (F : Type) := list (string * (string * sigstat F)).

Section Knn.
Context {F : Type} {NF : Num F} {SO : Sorter}.

Definition equal_range (rm : rmap F) (tx : string) : list (string * sigstat F) :=
  map snd (filter (fun e => String.eqb (fst e) tx) rm).

(** knn_utils.cpp:100-112: the multimap of one level *)
Definition level_rmap (l : level F) : rmap F :=
  flat_map (fun rp => map (fun e => (fst e, (rp_id rp, snd e))) (rp_fp rp)) (rm_points (l_rm l)).

(** knn_utils.cpp:88-116 getLevelsRadiomaps: a later level with the same id
    replaces the earlier one *)
Definition levels_rmaps (c : collector F) : list (string * rmap F) :=
  fold_left (fun m l => mset (l_id l) (level_rmap l) m) (col_levels c) [].

(** knn_utils.cpp:124-137: one reference point added to the set of its level *)
Definition ref_tx_step (lid : string) (m : list (string * list string)) (rp : refpoint F) :
    list (string * list string) :=
  match map fst (rp_fp rp) with
  | [] => m
  | ids => mset lid (mget [] lid m ++ ids) m
  end.
(** knn_utils.cpp:118-140 getLevelReferenceTransmittersMap; sets are lists
    used only for membership *)
Definition ref_txs (c : collector F) : list (string * list string) :=
  fold_left (fun m l => fold_left (ref_tx_step (l_id l)) (rm_points (l_rm l)) m) (col_levels c) [].

(** knn_utils.cpp:158-169 calculateTransmitterTrustworthiness *)
Definition trustworthiness (m : radio F) : F :=
  let B := fofZ 10 *! fofZ 3 in
  let txp := if r_power m <! lit 1 100000 then fofZ (-10) else r_power m in
  let distance := fpow (fofZ 10) ((txp -! r_rssi m) /! B) in
  f1 /! fpow distance (lit 18 10).

(** knn_utils.cpp:171-193 calcTransmittersWeights *)
Definition tx_weights (ms : list (radio F)) : list (string * F) :=
  let m := fold_left (fun m r => mset (r_id r) (trustworthiness r) m) ms [] in
  let sum := fsum trustworthiness ms in
  map (fun e => (fst e, snd e /! sum)) m.

(** knn_utils.cpp:207 SigStat: transmitter, measured rssi, database rssi *)
Record sigst := mkSigst { sg_tx : string; sg_meas : F; sg_db : F }.

(** knn_utils.cpp:209-223 rpsStatistics *)
Definition rps_statistics (rm : rmap F) (ms : list (radio F)) : list (string * list sigst) :=
  fold_left (fun acc r =>
    fold_left (fun acc e =>
      mset (fst e) (mget [] (fst e) acc ++ [mkSigst (r_id r) (r_rssi r) (ss_mean (snd e))]) acc)
      (equal_range rm (r_id r)) acc) ms [].

(** MIN_RP_WEIGHT = 1e-6, MIN_WEIGHT_EPSILON = 1e-8 (knn_utils.cpp:17-22) *)
Definition min_rp_weight : F := lit 1 1000000.
Definition min_weight_eps : F := lit 1 100000000.

(** knn_utils.cpp:242-250 the contribution of one pair: (normalizer, weight) *)
Definition pair_contrib (tw : list (string * F)) (s1 s2 : sigst) : F * F :=
  let mdiff := sg_meas s1 -! sg_meas s2 in
  let dbdiff := sg_db s1 -! sg_db s2 in
  let apw := mget f0 (sg_tx s1) tw *! mget f0 (sg_tx s2) tw in
  (apw, fmax (fabs (dbdiff -! mdiff) *! apw) min_rp_weight).
(** knn_utils.cpp:255-258 *)
Definition single_contrib (tw : list (string * F)) (s1 : sigst) : F * F :=
  let apw := mget f0 (sg_tx s1) tw in
  (apw, fmax (fabs (sg_db s1 +! sg_meas s1) *! apw) min_rp_weight).

(** knn_utils.cpp:236-260: contributions in iteration order *)
Fixpoint diff_contribs (tw : list (string * F)) (before l : list sigst) : list (F * F) :=
  match l with
  | [] => []
  | s1 :: t => map (pair_contrib tw s1) before ++ diff_contribs tw (before ++ [s1]) t
  end.
Definition contribs (diff : bool) (tw : list (string * F)) (l : list sigst) : list (F * F) :=
  if diff then diff_contribs tw [] l else map (single_contrib tw) l.

(** knn_utils.cpp:268-293 normalisation of one accumulated weight *)
Definition finish_weight (w norm : F) (n : nat) : F :=
  if min_weight_eps <! w then
    let w := if min_weight_eps <! norm then w /! norm else w in
    let w := fsqrt w in
    let w := if Nat.ltb 0 n then w /! fofnat n else w in
    f1 /! w
  else w.

(** knn_utils.cpp:201-297 calcRpWeightsKnn.  The three maps rpWeights,
    rpNormalize and rpsStatistics have the same keys for the points that pass
    the size test, so they are computed per reference point. *)
Definition rp_weights (rm : rmap F) (ms : list (radio F)) (diff : bool) : list (string * F) :=
  let stats := rps_statistics rm ms in
  let tw := tx_weights ms in
  flat_map (fun e =>
    let l := snd e in
    if Nat.ltb (List.length l) 3 then []
    else
      let cs := contribs diff tw l in
      let norm := fsum fst cs in
      let w := fsum snd cs in
      [(fst e, finish_weight w norm (List.length l))]) stats.

(** knn_utils.h:22-27 *)
Record tri := mkTri { tr1 : string; tr2 : string; tr3 : string }.

(** knn_utils.cpp:299-308 getTriangleWeight *)
Definition triangle_weight (w : list (string * F)) (t : tri) : F :=
  mget f0 (tr1 t) w +! mget f0 (tr2 t) w +! mget f0 (tr3 t) w.

(** knn_utils.cpp:310-350 calcPositionInTriangle; dereferencing the maximum of
    an empty vector is undefined *)
Definition position_in_triangle (ts : list tri) (rm : radiomap F) (w : list (string * F)) : res (XY F) :=
  match ts with
  | [] => UB
  | t0 :: rest =>
      let t := max_elem_from (fun a b => triangle_weight w a <! triangle_weight w b) t0 rest in
      let w1 := mget f0 (tr1 t) w in
      let w2 := mget f0 (tr2 t) w in
      let w3 := mget f0 (tr3 t) w in
      let norm := w1 +! w2 +! w3 in
      if norm <! feps then Ok xy0
      else if negb (has_rp rm (tr1 t)) || negb (has_rp rm (tr2 t)) || negb (has_rp rm (tr3 t)) then Ok xy0
      else
        p1 <- get_rp rm (tr1 t) ;;
        p2 <- get_rp rm (tr2 t) ;;
        p3 <- get_rp rm (tr3 t) ;;
        Ok (mkXY ((w1 *! px (rp_pt p1) +! w2 *! px (rp_pt p2) +! w3 *! px (rp_pt p3)) /! norm)
                 ((w1 *! py (rp_pt p1) +! w2 *! py (rp_pt p2) +! w3 *! py (rp_pt p3)) /! norm))
  end.

(** knn_utils.cpp:352-391 calcKHeaviestRefPointsAverage.  Line 358 calls
    reserve, not resize, so the destination range [begin, end) handed to
    std::partial_sort_copy has length 0 and at most 0 elements are copied. *)
Definition k_heaviest_average (rm : radiomap F) (w : list (string * F)) (k : nat) : res (XY F) :=
  let k := Nat.min k (List.length w) in
  let dest_size := 0%nat in  (* size() after reserve(k) on an empty vector *)
  let heaviest := firstn dest_size (ssort (fun a b : string * F => snd b <! snd a) w) in
  acc <- fold_left (fun (acc : res (F * F * F)) e =>
           '(x, y, n) <- acc ;;
           p <- get_rp rm (fst e) ;;
           Ok (x +! snd e *! px (rp_pt p), y +! snd e *! py (rp_pt p), n +! snd e))
         heaviest (Ok (f0, f0, f0)) ;;
  let '(x, y, n) := acc in
  if n <! feps then Ok xy0 else Ok (mkXY (x /! n) (y /! n)).

(** knn_utils.cpp:393-403 getWhitelistedMeasurements *)
Definition whitelisted (wl : list string) (ms : list (radio F)) : list (radio F) :=
  filter (fun m => existsb (String.eqb (r_id m)) wl) ms.
End Knn.
Arguments mkSigst {F}.
Arguments sigst F : clear implicits.
