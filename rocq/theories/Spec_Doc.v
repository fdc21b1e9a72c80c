(** Specification of map and log files: when a JSON value shows a feature or a
    measurement. *)
From Verif Require Export Lib JsonDoc Spec_Json Spec_Tools.
Set Implicit Arguments.
Local Open Scope string_scope.
Local Open Scope list_scope.

Section Spec.
Context {F : Type} {NF : Num F}.

(** what nlohmann::json holds: each object has increasing keys *)
Fixpoint wf_json (j : json F) : Prop :=
  match j with
  | JArr l => (fix all (l : list (json F)) : Prop := match l with [] => True | x :: t => wf_json x /\ all t end) l
  | JObj m => keys_sorted m /\
      (fix all (m : list (string * json F)) : Prop := match m with [] => True | e :: t => wf_json (snd e) /\ all t end) m
  | _ => True
  end.

(** the things a loop over a JSON value goes through *)
Inductive items : json F -> list (json F) -> Prop :=
| it_arr l : items (JArr l) l
| it_obj m : items (JObj m) (map snd m)
| it_null : items JNull []
| it_other v : (forall l, v <> JArr l) -> (forall m, v <> JObj m) -> v <> JNull -> items v [v].

Definition field (k : string) (j v : json F) : Prop := exists m, j = JObj m /\ In (k, v) m.
Definition text (k : string) (j : json F) (s : string) : Prop := field k j (JStr s).
Definition numeric (k : string) (j : json F) (x : F) : Prop := exists v, field k j v /\ means_num v x.
(** an int or a long long, fractions truncated *)
Definition int32 (v : json F) (z : Z) : Prop := means_int (- 2 ^ 31) (2 ^ 32) v z /\ (- 2 ^ 31 <= z < 2 ^ 31)%Z.
Definition int64 (v : json F) (z : Z) : Prop := means_int (- 2 ^ 63) (2 ^ 64) v z.
Definition integer (k : string) (j : json F) (z : Z) : Prop := exists v, field k j v /\ int32 v z.
Definition optional (k : string) (j : json F) (o : option F) : Prop :=
  match o with Some x => numeric k j x | None => forall v, ~ field k j v end.
Definition numbers (j : json F) (xs : list F) : Prop := exists l, j = JArr l /\ Forall2 means_num l xs.

(** a point: longitude, latitude, and anything *)
Definition place (j : json F) (p : Geo F) : Prop := exists xs, numbers j (lon p :: lat p :: xs).
Definition places (j : json F) (ps : list (Geo F)) : Prop := exists l, items j l /\ Forall2 place l ps.
Definition lines (j : json F) (ls : list (list (Geo F))) : Prop := exists l, items j l /\ Forall2 places l ls.
Definition polygon (j : json F) (p : poly F) : Prop := lines j (py_outer p :: py_inners p).
Definition coordinates (f c : json F) : Prop := exists g, field "geometry" f g /\ field "coordinates" g c.

Definition txtype_names : list (string * txtype) :=
  [("WIFI", TWIFI); ("BEACON", TBEACON); ("BLUETOOTH", TBLUETOOTH); ("EDDYSTONE", TEDDYSTONE);
   ("LOCATOR", TLOCATOR); ("UNKNOWN", TUNKNOWN)].
Definition named (k : string) (j : json F) (t : txtype) : Prop :=
  exists v, field k j v /\ means_name TWIFI txtype_names v t.

Definition reading (j : json F) (rc : Z * Z) : Prop := integer "rssi" j (fst rc) /\ integer "count" j (snd rc).
Definition fentry (j : json F) (e : jentry) : Prop :=
  text "bssid" j (je_bssid e) /\ named "type" j (je_type e) /\
  exists v l, field "value" j v /\ items v l /\ Forall2 reading l (je_vals e).

(** a feature of a map file *)
Definition shows (f : json F) (x : jfeature F (list (poly F))) : Prop :=
  exists p, field "properties" f p /\
  match x with
  | JLevel lv ps => text "type" p "level" /\ text "level" p lv /\
      exists c l, coordinates f c /\ items c l /\ Forall2 polygon l ps
  | JGraph lv ls => text "type" p "graph" /\ text "level" p lv /\ exists c, coordinates f c /\ lines c ls
  | JTx lv id ty lng la alt a b => text "type" p "transmitter" /\ text "level" p lv /\ text "uuid" p id /\
      named "transmitter_type" p ty /\ optional "A" p a /\ optional "B" p b /\
      exists c xs, coordinates f c /\ numbers c (lng :: la :: xs) /\
        (forall z, alt = Some z <-> xs = [z])
  | JRp lv id lng la es => text "type" p "reference_point" /\ text "level" p lv /\ text "uuid" p id /\
      (exists c, coordinates f c /\ place c (mkGeo la lng)) /\
      exists v l, field "entries" p v /\ items v l /\ Forall2 fentry l es
  | JOther => exists ty, text "type" p ty /\ ~ In ty ["level"; "graph"; "transmitter"; "reference_point"]
  end.

(** a number that is equal to the code *)
Definition is_code (v : json F) (c : Z) : Prop := v = JInt c \/ exists f, v = JFlt f /\ (fofZ c =! f) = true.
(** the first type in the table whose code is the value, else the first type *)
Definition coded {E : Type} (first : E) (tbl : list (Z * E)) (v : json F) (t : E) : Prop :=
  (exists l1 c l2, tbl = l1 ++ (c, t) :: l2 /\ is_code v c /\ Forall (fun e => ~ is_code v (fst e)) l1) \/
  (t = first /\ Forall (fun e => ~ is_code v (fst e)) tbl).
Definition sensor_table : list (Z * stype) :=
  [(101, ACCELEROMETER); (102, GYROSCOPE); (103, MAGNETOMETER); (104, BAROMETER); (106, LOCATION); (105, ORIENTATION)]%Z.
Definition radio_table : list (Z * rtype) := [(201, WIFI); (203, BEACON); (202, BLUETOOTH); (205, WIFI_RTT)]%Z.

Inductive vector_of : list F -> vec3 F -> Prop :=
| v_three x y z : vector_of [x; y; z] (mkV x y z)
| v_other l : List.length l <> 3%nat -> vector_of l (mkV f0 f0 f0).
Definition optional0 (k : string) (j : json F) (x : F) : Prop :=
  numeric k j x \/ (x = f0 /\ forall v, ~ field k j v).

(** a line of a log file *)
Definition says (j : json F) (m : measurement F) : Prop :=
  exists tv ty c, field "timestamp" j tv /\ int64 tv (st_ts m) /\ field "type" j ty /\ int32 ty c /\
  (((101 <= c <= 106)%Z /\ exists v xs t w, field "values" j v /\ numbers v xs /\ vector_of xs w /\
       coded ACCELEROMETER sensor_table ty t /\ st_data m = MSensor (mkSensor t w)) \/
   ((201 <= c <= 205)%Z /\ exists id t r d, text "bssid" j id /\ optional0 "rssi" j r /\ optional0 "distance" j d /\
       coded WIFI radio_table ty t /\ st_data m = MRadio (mkRadio t id r f0 d f0)) \/
   (c = 300%Z /\ exists n s, integer "sentence_number" j n /\ integer "num_sats" j s /\ st_data m = MNmea (mkNmea n s)) \/
   (~ (101 <= c <= 106)%Z /\ ~ (201 <= c <= 205)%Z /\ c <> 300%Z /\
       st_data m = MRadio (mkRadio WIFI "" f0 f0 f0 f0))).
(** a map file that shows [xs], all of it readable *)
Definition map_file (fuel : nat) (j : json F) (xs : list (jfeature F (list (poly F)))) : Prop :=
  wf_json j /\ Forall (Spec_Tools.readable fuel) xs /\
  exists fj fs, field "features" j fj /\ items fj fs /\ Forall2 shows fs xs.
(** a settings file with common settings [c] and level entries [ls] *)
Definition settings_file (j : json F) (c : list (string * json F))
    (ls : list (string * list (string * json F))) : Prop :=
  exists top lj rest, j = JObj top /\ keys_sorted top /\ In ("level_settings", lj) top /\
    In ("common_settings", JArr (JObj c :: rest)) top /\ Forall2 level_entry (jelems lj) ls /\
    keys_sorted c /\ Forall Spec_Json.readable c.
(** a log file of measurements [ms] *)
Definition log_file (js : list (json F)) (ms : list (measurement F)) : Prop :=
  Forall wf_json js /\ Forall2 says js ms.
End Spec.
