(** Reading map and log files from JSON values (tools/verification/helpers.cpp)
    and the program tests/navigation_test.cpp from its three files. *)
From Verif Require Export Json Driver.
Set Implicit Arguments.
Local Open Scope string_scope.
Local Open Scope list_scope.

(** the rings of a polygon: outer and inner ones *)
Record poly (F : Type) := mkPoly { py_outer : list (Geo F); py_inners : list (list (Geo F)) }.

Section Doc.
Context {F : Type} {NF : Num F}.

(** get_to(std::vector<double>): arrays only *)
Definition get_vec (j : json F) : res (list F) :=
  match j with JArr l => mapM get_dbl l | _ => Throw end.

(** std::string x = j.at(k) *)
Definition str_at (k : string) (j : json F) : res string := v <- jat k j ;; get_str v.

(** the tables of helpers.cpp:21-26 and 37-44 compared with a JSON number; a
    value that is not in the table is read as the first entry *)
Definition code_is (j : json F) (z : Z) : bool :=
  match j with JInt y => (y =? z)%Z | JFlt f => fofZ z =! f | _ => false end.
Definition radio_type_json (j : json F) : rtype :=
  if code_is j 201 then WIFI else if code_is j 203 then BEACON else if code_is j 202 then BLUETOOTH
  else if code_is j 205 then WIFI_RTT else WIFI.
Definition sensor_type_json (j : json F) : stype :=
  if code_is j 101 then ACCELEROMETER else if code_is j 102 then GYROSCOPE else if code_is j 103 then MAGNETOMETER
  else if code_is j 104 then BAROMETER else if code_is j 106 then LOCATION else if code_is j 105 then ORIENTATION
  else ACCELEROMETER.

(** j.count(k) ? j.at(k) as a double : 0 *)
Definition opt_dbl (k : string) (j : json F) : res F :=
  if jhas k j then v <- jat k j ;; get_dbl v else Ok f0.

(** helpers.cpp:66-109 from_json(Measurement) *)
Definition decode_json (j : json F) : res (measurement F) :=
  ts <- (v <- jat "timestamp" j ;; get_i64 v) ;;
  tj <- jat "type" j ;;
  t <- get_i32 tj ;;
  if ((101 <=? t) && (t <=? 106))%Z then
    vs <- (v <- jat "values" j ;; get_vec v) ;;
    Ok (mkSt (MSensor (mkSensor (sensor_type_json tj)
          match vs with [x; y; z] => mkV x y z | _ => mkV f0 f0 f0 end)) ts)
  else if ((201 <=? t) && (t <=? 205))%Z then
    id <- str_at "bssid" j ;;
    rssi <- opt_dbl "rssi" j ;;
    dist <- opt_dbl "distance" j ;;
    Ok (mkSt (MRadio (mkRadio (radio_type_json tj) id rssi f0 dist f0)) ts)
  else if (t =? 300)%Z then
    sn <- (v <- jat "sentence_number" j ;; get_i32 v) ;;
    sa <- (v <- jat "num_sats" j ;; get_i32 v) ;;
    Ok (mkSt (MNmea (mkNmea sn sa)) ts)
  else Ok (mkSt (MRadio (mkRadio WIFI "" f0 f0 f0 f0)) ts).

(** helpers.cpp:316-331 GetNavMessages, one JSON value per line *)
Definition nav_messages_json (js : list (json F)) : res (list (measurement F)) := mapM decode_json js.

(** helpers.cpp:28-35 TransmitterType *)
Definition txtype_tbl : list (string * txtype) :=
  [("WIFI", TWIFI); ("BEACON", TBEACON); ("BLUETOOTH", TBLUETOOTH); ("EDDYSTONE", TEDDYSTONE);
   ("LOCATOR", TLOCATOR); ("UNKNOWN", TUNKNOWN)].

(** pointCoordinates.at(1), pointCoordinates.at(0) *)
Definition lat_lng (v : list F) : res (Geo F) :=
  match v with x :: y :: _ => Ok (mkGeo y x) | _ => Throw end.
Definition get_point (j : json F) : res (Geo F) := v <- get_vec j ;; lat_lng v.

Definition level_of_json (f : json F) : res string := p <- jat "properties" f ;; str_at "level" p.
Definition coords (f : json F) : res (json F) := g <- jat "geometry" f ;; jat "coordinates" g.

(** helpers.cpp:568-598 parseLevel; resizing to size() - 1 = SIZE_MAX throws
    length_error.  The level id is converted last. *)
Definition polygon_json (j : json F) : res (poly F) :=
  match jelems j with
  | [] => Throw
  | _ => rings <- mapM (fun r => mapM get_point (jelems r)) (jelems j) ;;
         Ok (mkPoly (hd [] rings) (tl rings))
  end.
Definition parse_level_json (f : json F) : res (jfeature F (list (poly F))) :=
  p <- jat "properties" f ;; lj <- jat "level" p ;;
  c <- coords f ;; ps <- mapM polygon_json (jelems c) ;;
  lv <- get_str lj ;; Ok (JLevel lv ps).

(** helpers.cpp:382-403 the reading part of parseGraph *)
Definition parse_graph_json (f : json F) : res (jfeature F (list (poly F))) :=
  lv <- level_of_json f ;; c <- coords f ;;
  lines <- mapM (fun l => mapM get_point (jelems l)) (jelems c) ;;
  Ok (JGraph lv lines).

(** properties.count(k): an optional double *)
Definition opt_num (k : string) (j : json F) : res (option F) :=
  if jhas k j then v <- jat k j ;; x <- get_dbl v ;; Ok (Some x) else Ok None.

(** helpers.cpp:460-488 parseTransmitter: the altitude is read only from
    exactly three coordinates *)
Definition parse_tx_json (f : json F) : res (jfeature F (list (poly F))) :=
  p <- jat "properties" f ;;
  lv <- str_at "level" p ;; a <- opt_num "A" p ;; b <- opt_num "B" p ;; id <- str_at "uuid" p ;;
  tj <- jat "transmitter_type" p ;;
  c <- coords f ;; v <- get_vec c ;; q <- lat_lng v ;;
  Ok (JTx lv id (get_enum TWIFI txtype_tbl tj) (lon q) (lat q)
        (match v with [_; _; z] => Some z | _ => None end) a b).

(** helpers.cpp:513-539 the reading part of parseReferencePoint *)
Definition value_json (j : json F) : res (Z * Z) :=
  r <- (v <- jat "rssi" j ;; get_i32 v) ;; c <- (v <- jat "count" j ;; get_i32 v) ;; Ok (r, c).
Definition entry_json (j : json F) : res jentry :=
  b <- str_at "bssid" j ;; tj <- jat "type" j ;;
  vj <- jat "value" j ;; vs <- mapM value_json (jelems vj) ;;
  Ok (mkEntry b (get_enum TWIFI txtype_tbl tj) vs).
Definition parse_rp_json (f : json F) : res (jfeature F (list (poly F))) :=
  p <- jat "properties" f ;;
  lv <- str_at "level" p ;; id <- str_at "uuid" p ;;
  c <- coords f ;; q <- get_point c ;;
  ej <- jat "entries" p ;; es <- mapM entry_json (jelems ej) ;;
  Ok (JRp lv id (lon q) (lat q) es).

(** helpers.cpp:610-611, 626-627 featureType *)
Definition feature_type (f : json F) : res string := p <- jat "properties" f ;; str_at "type" p.

(** helpers.cpp:606-617 first pass: the level features *)
Definition first_pass (acc : res (list (string * list (poly F)))) (f : json F) : res (list (string * list (poly F))) :=
  m <- acc ;; ty <- feature_type f ;;
  if String.eqb ty "level" then x <- parse_level_json f ;; Ok (add_area m x) else Ok m.

(** helpers.cpp:624-649 second pass: all others *)
Definition second_pass (fuel : nat) (ord : list (Z * Geo F) -> list (Z * Geo F))
    (acc : res (jmaps F)) (f : json F) : res (jmaps F) :=
  m <- acc ;; ty <- feature_type f ;;
  if String.eqb ty "graph" then x <- parse_graph_json f ;; add_feature fuel ord (Ok m) x
  else if String.eqb ty "transmitter" then x <- parse_tx_json f ;; add_feature fuel ord (Ok m) x
  else if String.eqb ty "reference_point" then x <- parse_rp_json f ;; add_feature fuel ord (Ok m) x
  else Ok m.

(** helpers.cpp:600-696 ParseGeojson *)
Definition parse_geojson_json (geom : list (poly F) -> box F * (F -> F -> bool)) (fuel : nat)
    (ord : list (Z * Geo F) -> list (Z * Geo F)) (j : json F) : res (list (geolevel F)) :=
  fs <- jat "features" j ;;
  areas <- fold_left first_pass (jelems fs) (Ok []) ;;
  m <- fold_left (second_pass fuel ord) (jelems fs) (Ok (mkMaps [] [] [])) ;;
  Ok (map (fun e => mkGeoLevel (fst e) (mget [] (fst e) (jm_txs m)) (mget [] (fst e) (jm_rps m))
                      (fst (geom (snd e))) (snd (geom (snd e)))
                      (mget graph0 (fst e) (jm_graphs m)) (fofZ 100)) areas).

(** navigation_test.cpp:55-133: the program on the contents of its three files
    and the batch size *)
Definition program {SO : Sorter} (geom : list (poly F) -> box F * (F -> F -> bool)) (ord : list (Z * Geo F) -> list (Z * Geo F))
    (fuel : nat) (e : env F) (g : garbage F) (h : F) (mapf : json F) (logf : list (json F)) (setf : json F) (n : Z) :
    res (list (list (pline F))) :=
  gs <- parse_geojson_json geom fuel ord mapf ;;
  s <- create_settings setf ;;
  c <- add_geo_levels col0 gs ;;
  k <- mk_config s c ;;
  ms <- nav_messages_json logf ;;
  run_driver fuel e k h (client0 g s) n ms.
End Doc.
