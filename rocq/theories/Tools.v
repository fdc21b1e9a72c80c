(** The loader of the verification tools: tools/verification/helpers.cpp.
    JSON text is not modelled: a document is given as the values its fields
    hold (see the comments), and reading an absent key throws. *)
From Verif Require Export LevelModel.
Set Implicit Arguments.
Local Open Scope string_scope.
Local Open Scope list_scope.

Section Tools.
Context {F : Type} {NF : Num F}.

(** helpers.cpp:333-347 getGeoDist (haversine) *)
Definition geo_dist (p1 p2 : Geo F) : F :=
  let lat1 := fpi *! lat p1 /! fofZ 180 in
  let lat2 := fpi *! lat p2 /! fofZ 180 in
  let lng1 := fpi *! lon p1 /! fofZ 180 in
  let lng2 := fpi *! lon p2 /! fofZ 180 in
  let dlat := lat1 -! lat2 in
  let dlng := lng1 -! lng2 in
  let a := fpowi (fsin (dlat /! fofZ 2)) 2
           +! fcos lat1 *! fcos lat2 *! fpowi (fsin (dlng /! fofZ 2)) 2 in
  let c := fofZ 2 *! fatan2 (fsqrt a) (fsqrt (f1 -! a)) in
  fofZ 6378000 *! c.

(** helpers.cpp:17 GRAPH_SAME_POINTS_GEO_DIST *)
Definition same_point (p q : Geo F) : bool := geo_dist p q <! lit 1 10.

(** helpers.cpp:349-367 removeSame: what is left of the vector when the front
    point [p] is returned *)
Definition remove_same (p : Geo F) (pts : list (Geo F)) : list (Geo F) :=
  filter (fun q => negb (same_point q p)) pts.

(** helpers.cpp:405-412 the vertex map, in insertion order; [v] is the last
    number given *)
Fixpoint extract (fuel : nat) (v : Z) (pts : list (Geo F)) : res (list (Z * Geo F)) :=
  match pts with
  | [] => Ok []
  | p :: _ =>
      match fuel with
      | O => OutOfFuel
      | S n => rest <- extract n (v + 1) (remove_same p pts) ;; Ok ((v + 1, p) :: rest)%Z
      end
  end.

(** helpers.cpp:369-380 getVertex.  The map is a std::unordered_map: [ord] is
    the order in which it is iterated, any permutation. *)
Definition find_vertex (ord : list (Z * Geo F) -> list (Z * Geo F)) (vm : list (Z * Geo F))
    (p : Geo F) : res Z :=
  match find (fun e => same_point p (snd e)) (ord vm) with
  | Some e => Ok (fst e)
  | None => Throw
  end.

(** vertexMap[v]: value-initialised when absent (point.h:15-18) *)
Definition vm_get (vm : list (Z * Geo F)) (v : Z) : Geo F :=
  match find (fun e => Z.eqb (fst e) v) vm with
  | Some e => snd e
  | None => mkGeo f0 f0
  end.
End Tools.

(** std::set<int>::insert *)
Fixpoint zset_insert (x : Z) (l : list Z) : list Z :=
  match l with
  | [] => [x]
  | y :: t => if (x <? y)%Z then x :: y :: t
              else if (y <? x)%Z then y :: zset_insert x t
              else y :: t
  end.

(** helpers.cpp:423-425, 427-429: create the set when absent, insert *)
Fixpoint adj_insert (v w : Z) (m : list (Z * list Z)) : list (Z * list Z) :=
  match m with
  | [] => [(v, [w])]
  | (k, s) :: t => if (v <? k)%Z then (v, [w]) :: (k, s) :: t
                   else if (k <? v)%Z then (k, s) :: adj_insert v w t
                   else (k, zset_insert w s) :: t
  end.

(** addedVertices: std::map<int, Vertex> *)
Definition zfind (k : Z) (m : list (Z * Z)) : option Z :=
  match find (fun e => Z.eqb (fst e) k) m with Some e => Some (snd e) | None => None end.
(** insert: keeps the first value *)
Definition zadd (k i : Z) (m : list (Z * Z)) : list (Z * Z) :=
  match zfind k m with Some _ => m | None => (k, i) :: m end.

Section Tools2.
Context {F : Type} {NF : Num F}.

(** helpers.cpp:414-430 the adjacency sets.  The assertion that a line has two
    points is compiled out: only the first two are read, reading past the end
    is undefined. *)
Definition adj_of (ord : list (Z * Geo F) -> list (Z * Geo F)) (vm : list (Z * Geo F))
    (lines : list (list (Geo F))) : res (list (Z * list Z)) :=
  fold_left (fun acc line =>
    m <- acc ;;
    match line with
    | p1 :: p2 :: _ =>
        v1 <- find_vertex ord vm p1 ;;
        v2 <- find_vertex ord vm p2 ;;
        Ok (adj_insert v2 v1 (adj_insert v1 v2 m))
    | _ => UB
    end) lines (Ok []).

Definition next_id (g : graph (Geo F)) : Z := Z.of_nat (List.length (g_verts g)).

(** helpers.cpp:441-455 one neighbour of the vertex with graph id [id1] *)
Definition visit_nb (vm : list (Z * Geo F)) (id1 : Z)
    (acc : res (graph (Geo F) * list (Z * Z))) (v2 : Z) : res (graph (Geo F) * list (Z * Z)) :=
  '(g, am) <- acc ;;
  match zfind v2 am with
  | None =>
      g' <- add_edge (add_vertex g (vm_get vm v2)) id1 (next_id g) ;;
      Ok (g', zadd v2 (next_id g) am)
  | Some id2 => g' <- add_edge g id1 id2 ;; Ok (g', am)
  end.

(** helpers.cpp:434-440 one entry of the adjacency map *)
Definition visit (vm : list (Z * Geo F)) (acc : res (graph (Geo F) * list (Z * Z)))
    (e : Z * list Z) : res (graph (Geo F) * list (Z * Z)) :=
  '(g, am) <- acc ;;
  fold_left (visit_nb vm (next_id g)) (snd e)
    (Ok (add_vertex g (vm_get vm (fst e)), zadd (fst e) (next_id g) am)).

(** helpers.cpp:382-458 parseGraph on the coordinates of a MultiLineString *)
Definition parse_graph (fuel : nat) (ord : list (Z * Geo F) -> list (Z * Geo F))
    (lines : list (list (Geo F))) : res (graph (Geo F)) :=
  vm <- extract fuel 0 (List.concat lines) ;;
  adj <- adj_of ord vm lines ;;
  '(g, _) <- fold_left (visit vm) adj (Ok (graph0, [])) ;;
  Ok g.

(** helpers.cpp:513-566 parseReferencePoint.  An entry is its bssid, type and
    list of (rssi, count). *)
Definition int_ok (z : Z) : bool := ((- 2 ^ 31 <=? z) && (z <? 2 ^ 31))%Z.

(** std::map<int,int>::insert: sorted, keeps the first count of an rssi *)
Fixpoint dist_insert (r c : Z) (m : list (Z * Z)) : list (Z * Z) :=
  match m with
  | [] => [(r, c)]
  | (k, d) :: t => if (r <? k)%Z then (r, c) :: (k, d) :: t
                   else if (k <? r)%Z then (k, d) :: dist_insert r c t
                   else (k, d) :: t
  end.
Definition distribution (vals : list (Z * Z)) : list (Z * Z) :=
  fold_left (fun m v => dist_insert (fst v) (snd v) m) vals [].

(** helpers.cpp:547-553 the int products of one iteration, in range; signed
    overflow is undefined *)
Definition products_ok (e : Z * Z) : bool :=
  let '(r, c) := e in
  int_ok (- r) && int_ok (- r * c) && int_ok (c * r) && int_ok (c * r * r).

(** helpers.cpp:541-562.  nMeas is a std::size_t. *)
Definition signal_stat (ty : txtype) (vals : list (Z * Z)) : res (sigstat F) :=
  let d := distribution vals in
  if forallb products_ok d then
    let n := (fold_left (fun n e => n + snd e) d 0 mod 2 ^ 64)%Z in
    let sum := fold_left (fun s e => s +! fofZ (- fst e * snd e)) d f0 in
    Ok (mkSS ty (sum /! fofZ n) f0 n)
  else UB.

Record jentry := mkEntry { je_bssid : string; je_type : txtype; je_vals : list (Z * Z) }.

(** std::map<TransmitterId, ..>::insert: sorted, keeps the first *)
Definition fp_insert {V : Type} (k : string) (v : V) (m : list (string * V)) : list (string * V) :=
  if amem k m then m else mset k v m.

Definition fingerprints (es : list jentry) : res (list (string * sigstat F)) :=
  fold_left (fun acc e =>
    m <- acc ;; st <- signal_stat (je_type e) (je_vals e) ;; Ok (fp_insert (je_bssid e) st m)) es (Ok []).

(** One feature of the GeoJSON file.  [A] is the list of polygons of a level.
    parseTransmitter (helpers.cpp:460-488): the coordinates are longitude,
    latitude and an optional altitude; A and B are optional. *)
Inductive jfeature (A : Type) :=
| JLevel : string -> A -> jfeature A
| JGraph : string -> list (list (Geo F)) -> jfeature A
| JTx : string -> string -> txtype -> F -> F -> option F -> option F -> option F -> jfeature A
| JRp : string -> string -> F -> F -> list jentry -> jfeature A
| JOther : jfeature A.
Arguments JGraph {A}. Arguments JTx {A}. Arguments JRp {A}. Arguments JOther {A}.

(** helpers.cpp:460-488 parseTransmitter *)
Definition parse_tx (id : string) (ty : txtype) (lng la : F) (alt a b : option F) : gtransmitter F :=
  let dflt (o : option F) d := match o with Some x => x | None => d end in
  mkGTx id la lng (dflt alt f0) (mkPL (dflt a (fofZ (-80))) (dflt b (fofZ 3)) f0) ty.

(** map[k].push_back(x), created empty when absent (helpers.cpp:637-639, 645-647) *)
Definition push_at {V : Type} (k : string) (x : V) (m : list (string * list V)) : list (string * list V) :=
  mset k (mget [] k m ++ [x]) m.

Record jmaps := mkMaps {
  jm_graphs : list (string * graph (Geo F));
  jm_txs : list (string * list (gtransmitter F));
  jm_rps : list (string * list (grefpoint F)) }.

(** helpers.cpp:624-649 one feature in the second pass *)
Definition add_feature {A : Type} (fuel : nat) (ord : list (Z * Geo F) -> list (Z * Geo F))
    (acc : res jmaps) (f : jfeature A) : res jmaps :=
  m <- acc ;;
  match f with
  | JGraph lv lines => g <- parse_graph fuel ord lines ;;
      Ok (mkMaps (fp_insert lv g (jm_graphs m)) (jm_txs m) (jm_rps m))
  | JTx lv id ty lng la alt a b =>
      Ok (mkMaps (jm_graphs m) (push_at lv (parse_tx id ty lng la alt a b) (jm_txs m)) (jm_rps m))
  | JRp lv id lng la es => fp <- fingerprints es ;;
      Ok (mkMaps (jm_graphs m) (jm_txs m) (push_at lv (mkGRP id (mkGeo la lng) fp) (jm_rps m)))
  | _ => Ok m
  end.

(** helpers.cpp:606-617 the first pass *)
Definition add_area {A : Type} (m : list (string * A)) (f : jfeature A) : list (string * A) :=
  match f with JLevel lv a => fp_insert lv a m | _ => m end.

(** helpers.cpp:600-696 ParseGeojson; [geom] is getGeometry followed by the
    conversions of the level collector (bounding box, covered_by predicate) *)
Definition parse_geojson {A : Type} (geom : A -> box F * (F -> F -> bool)) (fuel : nat)
    (ord : list (Z * Geo F) -> list (Z * Geo F)) (fs : list (jfeature A)) : res (list (geolevel F)) :=
  let areas := fold_left (@add_area A) fs [] in
  m <- fold_left (add_feature fuel ord) fs (Ok (mkMaps [] [] [])) ;;
  Ok (map (fun e => mkGeoLevel (fst e) (mget [] (fst e) (jm_txs m)) (mget [] (fst e) (jm_rps m))
                      (fst (geom (snd e))) (snd (geom (snd e)))
                      (mget graph0 (fst e) (jm_graphs m)) (fofZ 100)) areas).

(** One line of the log file (helpers.cpp:316-331): the fields, [None] when
    absent *)
Record jmsg := mkMsg {
  jg_ts : option Z; jg_type : option Z; jg_values : option (list F); jg_bssid : option string;
  jg_rssi : option F; jg_dist : option F; jg_sent : option Z; jg_sats : option Z }.

(** helpers.cpp:21-26, 37-44: NLOHMANN_JSON_SERIALIZE_ENUM reads a value that is
    not in the table as the first entry *)
Definition radio_type_of (t : Z) : rtype :=
  if (t =? 201)%Z then WIFI else if (t =? 203)%Z then BEACON else if (t =? 202)%Z then BLUETOOTH
  else if (t =? 205)%Z then WIFI_RTT else WIFI.
Definition sensor_type_of (t : Z) : stype :=
  if (t =? 101)%Z then ACCELEROMETER else if (t =? 102)%Z then GYROSCOPE else if (t =? 103)%Z then MAGNETOMETER
  else if (t =? 104)%Z then BAROMETER else if (t =? 106)%Z then LOCATION else if (t =? 105)%Z then ORIENTATION
  else ACCELEROMETER.

Definition or0 (o : option F) : F := match o with Some x => x | None => f0 end.

(** helpers.cpp:66-109 from_json.  A Measurement starts value-initialised: a
    Wi-Fi radio measurement with an empty id and zeros. *)
Definition decode (j : jmsg) : res (measurement F) :=
  ts <- at_or_throw (jg_ts j) ;;
  t <- at_or_throw (jg_type j) ;;
  if ((101 <=? t) && (t <=? 106))%Z then
    vs <- at_or_throw (jg_values j) ;;
    Ok (mkSt (MSensor (mkSensor (sensor_type_of t)
          match vs with [x; y; z] => mkV x y z | _ => mkV f0 f0 f0 end)) ts)
  else if ((201 <=? t) && (t <=? 205))%Z then
    id <- at_or_throw (jg_bssid j) ;;
    Ok (mkSt (MRadio (mkRadio (radio_type_of t) id (or0 (jg_rssi j)) f0 (or0 (jg_dist j)) f0)) ts)
  else if (t =? 300)%Z then
    sn <- at_or_throw (jg_sent j) ;; sa <- at_or_throw (jg_sats j) ;;
    Ok (mkSt (MNmea (mkNmea sn sa)) ts)
  else Ok (mkSt (MRadio (mkRadio WIFI "" f0 f0 f0 f0)) ts).

(** helpers.cpp:316-331 GetNavMessages *)
Definition nav_messages (js : list jmsg) : res (list (measurement F)) := mapM decode js.
End Tools2.
Arguments jmsg F : clear implicits.
Arguments jfeature F A : clear implicits.
Arguments jmaps F : clear implicits.
Arguments JLevel {F A}. Arguments JGraph {F A}. Arguments JTx {F A}. Arguments JRp {F A}. Arguments JOther {F A}.
