(** C84, C85: map and log files, and the program from its three files. *)
From Coq Require Import Lia Sorted SpecFloat.
From Verif Require Import Lib NumOrd NumFloat SortInst Client Spec_Client Driver Spec_Driver Tools Json JsonDoc Spec_Json Spec_Tools Spec_Doc
  Pf_Json Pf_JsonF Pf_Doc Pf_DocF Ex P_Json.
Local Open Scope string_scope.
Local Open Scope list_scope.
#[local] Existing Instance nf. #[local] Existing Instance isorter.

(** ** C84: map and log files *)
(** a map file is read exactly when it has features, each of them shows
    something, and what they show can be put together *)
Theorem C84_map {F : Type} {NF : Num F} (geom : list (poly F) -> box F * (F -> F -> bool)) (fuel : nat)
    (ord : list (Z * Geo F) -> list (Z * Geo F)) (j : json F) (gs : list (geolevel F)) : wf_json j ->
  (parse_geojson_json geom fuel ord j = Ok gs <->
   exists fj fs xs, field "features" j fj /\ items fj fs /\ Forall2 shows fs xs /\ parse_geojson geom fuel ord xs = Ok gs).
Proof.
  intros H. split; [intros E; exact (@geojson_read F NF geom fuel ord j gs H E)|]. intros (fj & fs & xs & A & I & S & E). rewrite <- E. exact (@geojson_shown F NF geom fuel ord j fj fs xs H A I S).
Qed.
Print Assumptions C84_map.
(** what a feature shows is unique *)
Theorem C84_shows_one {F : Type} {NF : Num F} (f : json F) (x y : jfeature F (list (poly F))) :
  wf_json f -> shows f x -> shows f y -> x = y.
Proof. intros H A B. apply (feature_iff _ H) in A. apply (feature_iff _ H) in B. congruence. Qed.
Print Assumptions C84_shows_one.
(** a log is read exactly when every line says a measurement, in order *)
Theorem C84_log {F : Type} {NF : Num F} (js : list (json F)) (ms : list (measurement F)) : Forall wf_json js ->
  (nav_messages_json js = Ok ms <-> Forall2 says js ms).
Proof. apply log_iff. Qed.
Print Assumptions C84_log.
(** on integer types the fields are those of C81 *)
Theorem C84_fields {F : Type} {NF : Num F} (j : json F) (f : jmsg F) : wf_json j ->
  (forall ts, jg_ts f = Some ts -> exists v, field "timestamp" j v /\ int64 v ts) -> jg_ts f <> None ->
  (forall t, jg_type f = Some t -> field "type" j (JInt t) /\ (- 2 ^ 31 <= t < 2 ^ 31)%Z) -> jg_type f <> None ->
  (forall vs, jg_values f = Some vs -> exists v, field "values" j v /\ numbers v vs) ->
  (forall s, jg_bssid f = Some s -> text "bssid" j s) ->
  optional "rssi" j (jg_rssi f) -> optional "distance" j (jg_dist f) ->
  (forall z, jg_sent f = Some z -> integer "sentence_number" j z) ->
  (forall z, jg_sats f = Some z -> integer "num_sats" j z) ->
  forall m, decode f = Ok m -> decode_json j = Ok m.
Proof. apply decode_fields. Qed.
Print Assumptions C84_fields.
(** a fraction is truncated to choose the kind of message but not to choose the
    sensor: type 102.5 is read as an accelerometer, not as a gyroscope *)
Theorem C84_fraction_refuted : exists (j : json SF) (m : measurement SF), wf_json j /\ field "type" j (JFlt (@lit SF nf 205 2)) /\
  @int32 SF nf (JFlt (@lit SF nf 205 2)) 102 /\ @decode_json SF nf j = Ok m /\
  exists v, st_data m = MSensor (mkSensor ACCELEROMETER v).
Proof.
  exists (JObj [("timestamp", JInt 1); ("type", JFlt (@lit SF nf 205 2)); ("values", JArr [JInt 1; JInt 2; JInt 3])]).
  eexists. split; [cbn; repeat split; repeat constructor|]. split; [eexists; split; [reflexivity|cbn; auto]|].
  split; [split; [constructor; vm_compute; reflexivity|lia]|]. split; [vm_compute; reflexivity|eexists; reflexivity].
Qed.
Print Assumptions C84_fraction_refuted.
(** a level whose polygon has no ring stops the program *)
Theorem C84_empty_polygon {F : Type} {NF : Num F} (f p c : json F) (l : list (json F)) (x : jfeature F (list (poly F))) :
  wf_json f -> field "properties" f p -> text "type" p "level" -> coordinates f c -> items c l ->
  (exists q, In q l /\ items q []) -> ~ shows f x.
Proof.
  intros H Hp Ht Hc Hl (q & Hq & Hi) (p' & Hp' & G). assert (p' = p) by exact (@field_fun F _ _ _ _ H Hp' Hp). subst p'.
  assert (Wp := wf_field H Hp).
  destruct x as [lv ps|lv ls|lv id ty lng la alt a b|lv id lng la es|].
  2-4: destruct G as [T _]; assert (E := @field_fun F _ _ _ _ Wp T Ht); discriminate E.
  - destruct G as (_ & _ & c' & l' & Hc' & Hl' & G). assert (c' = c).
    { apply (coords_iff _ H) in Hc'. apply (coords_iff _ H) in Hc. congruence. }
    subst c'. assert (l' = l) by (rewrite (items_eq Hl'), (items_eq Hl); reflexivity). subst l'.
    clear - G Hq Hi. induction G as [|a b l ps Hab _ IH]; [destruct Hq|]. destruct Hq as [->|Hq]; [|auto].
    destruct Hab as (l0 & I0 & G0). rewrite (items_eq I0), <- (items_eq Hi) in G0. inversion G0.
  - destruct G as (ty & T & N). assert (E := @field_fun F _ _ _ _ Wp T Ht). injection E as ->. apply N. cbn. auto.
Qed.
Print Assumptions C84_empty_polygon.
Definition ex_pt (x y : Z) : json SF := JArr [JInt x; JInt y].
Definition ex_feature (p : list (string * json SF)) (c : json SF) : json SF :=
  JObj [("geometry", JObj [("coordinates", c)]); ("properties", JObj p)].
Definition ex_features : list (json SF) := [
  ex_feature [("A", JInt (-75)); ("level", JStr "1"); ("transmitter_type", JStr "BEACON"); ("type", JStr "transmitter"); ("uuid", JStr "a")]
    (JArr [JInt 1; JInt 2; JFlt (@lit SF nf 3 2)]);
  ex_feature [("level", JStr "1"); ("type", JStr "level")]
    (JArr [JArr [JArr [ex_pt 0 0; ex_pt 0 9; ex_pt 9 9]; JArr [ex_pt 4 5; ex_pt 5 6; ex_pt 4 6]]]);
  ex_feature [("entries", JArr [JObj [("bssid", JStr "a"); ("type", JStr "Beacon"); ("value", JArr [JObj [("count", JInt 2); ("rssi", JFlt (@lit SF nf 121 2))]])]]);
              ("level", JStr "1"); ("type", JStr "reference_point"); ("uuid", JStr "r")] (ex_pt 3 4);
  ex_feature [("type", JStr "door")] JNull].
Definition ex_map : json SF := JObj [("features", JArr ex_features)].
Definition ex_shown : list (jfeature SF (list (poly SF))) := let z := @fofZ SF nf in [
  JTx "1" "a" TBEACON (z 1) (z 2) (Some (@lit SF nf 3 2)) (Some (z (-75))) None;
  JLevel "1" [mkPoly [mkGeo (z 0) (z 0); mkGeo (z 9) (z 0); mkGeo (z 9) (z 9)] [[mkGeo (z 5) (z 4); mkGeo (z 6) (z 5); mkGeo (z 6) (z 4)]]];
  JRp "1" "r" (z 3) (z 4) [mkEntry "a" TWIFI [(60, 2)]]; JOther]%Z.
Definition ex_lines : list (json SF) := [
  JObj [("bssid", JStr "a"); ("rssi", JInt (-50)); ("timestamp", JInt 1000); ("type", JInt 203)];
  JObj [("num_sats", JInt 7); ("sentence_number", JInt 1); ("timestamp", JInt 2000); ("type", JInt 300)];
  JObj [("bssid", JStr "a"); ("rssi", JInt (-50)); ("timestamp", JInt 3000); ("type", JInt 203)]].
Definition ex_said : list (measurement SF) := let z := @fofZ SF nf in
  let r := MRadio (mkRadio BEACON "a" (z (-50)%Z) (z 0%Z) (z 0%Z) (z 0%Z)) in
  [mkSt r 1000%Z; mkSt (MNmea (mkNmea 1 7)) 2000%Z; mkSt r 3000%Z].
Lemma ex_wf : wf_json ex_map /\ Forall wf_json ex_lines.
Proof. split; [cbn; repeat split; repeat constructor|repeat constructor]. Qed.
Example C84_example : wf_json ex_map /\ items (JArr ex_features) ex_features /\ Forall2 (@shows SF nf) ex_features ex_shown /\
  Forall wf_json ex_lines /\ Forall2 (@says SF nf) ex_lines ex_said.
Proof.
  split; [apply ex_wf|]. split; [constructor|].
  assert (W : forall f, In f ex_features -> wf_json f) by (intros f Hf; refine (@wf_arr SF ex_features _ f Hf); cbn; repeat split; repeat constructor).
  split; [|split; [apply ex_wf|]].
  - repeat (apply Forall2_cons; [apply feature_iff; [apply W; cbn; tauto|vm_compute; reflexivity]|]). constructor.
  - apply (C84_log (NF := nf)); [apply ex_wf|]. vm_compute. reflexivity.
Qed.

(** ** C85: the program on its three files *)
(** the lines printed are the outputs of the client of the map and the settings,
    fed with the log cut into batches *)
Theorem C85_outputs {F : Type} {NF : Num F} {SO : Sorter} (geom : list (poly F) -> box F * (F -> F -> bool))
    (ord : list (Z * Geo F) -> list (Z * Geo F)) (e : env F) (g : garbage F) (h : F) (fuel : nat)
    (mapf setf : json F) (logf : list (json F)) xs c ls (ms : list (measurement F)) (n : Z) :
  any_order ord -> map_file fuel mapf xs -> settings_file setf c ls -> log_file logf ms ->
  (0 < n)%Z -> (Z.of_nat (List.length ms) + n < 2 ^ 64)%Z -> (List.length ms <= fuel)%nat ->
  exists gs s, parse_geojson geom fuel ord xs = Ok gs /\ Forall (has_setting c s) rows /\
    (forall lv, (exists ab, alookup lv (s_levels s) = Some ab) <-> In lv (map fst ls)) /\
    forall k, built s gs k -> exists bs, cut (Z.to_nat n) ms bs /\
      same_outcome (fun lss r => map (map (@ln_out F)) lss = snd r)
        (program geom ord fuel e g h mapf logf setf n) (navigate_all e k (client0 g s) bs).
Proof. intros O. apply program_outputs, O. Qed.
Print Assumptions C85_outputs.
(** no exception on well-formed files in which every level has its settings *)
Theorem C85_never_throws {F : Type} {NF : Num F} {NO : NumOrd F} {SO : Sorter} (geom : list (poly F) -> box F * (F -> F -> bool))
    (ord : list (Z * Geo F) -> list (Z * Geo F)) (e : env F) (g : garbage F) (h : F) (fuel : nat)
    (mapf setf : json F) (logf : list (json F)) xs c ls (ms : list (measurement F)) (n : Z) :
  any_order ord -> map_file fuel mapf xs -> settings_file setf c ls -> log_file logf ms ->
  (0 < n)%Z -> (Z.of_nat (List.length ms) + n < 2 ^ 64)%Z -> (List.length ms <= fuel)%nat ->
  (forall a, ~ In (JLevel "" a) xs) ->
  (In ("Use_algorithm", JStr "KNN") c \/ forall lv a, In (JLevel lv a) xs -> In lv (map fst ls)) ->
  program geom ord fuel e g h mapf logf setf n <> Throw.
Proof. intros O. apply program_safe; assumption. Qed.
Print Assumptions C85_never_throws.
(** and one exception, before any output, when a level has none *)
Theorem C85_missing_level {F : Type} {NF : Num F} {SO : Sorter} (geom : list (poly F) -> box F * (F -> F -> bool))
    (ord : list (Z * Geo F) -> list (Z * Geo F)) (e : env F) (g : garbage F) (h : F) (fuel : nat)
    (mapf setf : json F) (logf : list (json F)) xs c ls (ms : list (measurement F)) (n : Z) lv a :
  any_order ord -> map_file fuel mapf xs -> settings_file setf c ls -> log_file logf ms ->
  ~ In ("Use_algorithm", JStr "KNN") c -> In (JLevel lv a) xs -> ~ In lv (map fst ls) ->
  program geom ord fuel e g h mapf logf setf n = Throw.
Proof. intros O. apply program_missing, O. Qed.
Print Assumptions C85_missing_level.
Definition ex_sets (id : string) : json SF :=
  JObj [("common_settings", JArr [JObj [("Use_algorithm", JStr "ZONES")]]); ("level_settings", JArr [ex_lv id []])].
Definition ex_geom (p : list (poly SF)) : box SF * (SF -> SF -> bool) :=
  (mkBox (mkXY (@fofZ SF nf 0) (@fofZ SF nf 0)) (mkXY (@fofZ SF nf 9) (@fofZ SF nf 9)), fun _ _ => true).
Definition ex_program (id : string) : res (list (list (pline SF))) :=
  @program SF nf isorter ex_geom (fun l => l) 10 ex_env (ex_garbage 0) (@fofZ SF nf 1) ex_map ex_lines (ex_sets id) 2.
Example C85_example : any_order (fun l : list (Z * Geo SF) => l) /\ @map_file SF nf 10 ex_map ex_shown /\
  @settings_file SF nf (ex_sets "1") [("Use_algorithm", JStr "ZONES")] [("1", [])] /\ @log_file SF nf ex_lines ex_said /\
  (exists lss, ex_program "1" = Ok lss /\ map (map (fun l => (ln_sec l, o_status (ln_out l), o_level (ln_out l)))) lss =
     [[(0%Z, NO_LEVEL, ""); (1%Z, NO_LEVEL, "")]; [(2%Z, OK, "1")]]) /\
  ex_program "2" = Throw.
Proof.
  split; [intros l; apply Permutation_refl|]. destruct C84_example as (W & I & S & Wl & Sl). split; [|split; [|split; [|split]]].
  - split; [exact W|]. split.
    + unfold ex_shown. repeat (apply Forall_cons || apply Forall_nil); cbn [Spec_Tools.readable]; auto.
      intros x rc [<-|[]] (pre & post & E & _). cbn [je_vals] in E. destruct pre as [|q [|? ?]]; try discriminate E. injection E as <- _. unfold no_overflow, Spec_Tools.in_int. lia.
    + exists (JArr ex_features), ex_features. split; [eexists; split; [reflexivity|cbn; auto]|]. auto.
  - do 3 eexists. split; [reflexivity|]. split; [repeat constructor|]. split; [cbn; auto|]. split; [cbn; auto|]. split; [|split; [repeat constructor|]].
    + cbn [jelems]. constructor; [|constructor]. do 2 eexists. split; [reflexivity|]. split; [repeat constructor|]. split; [cbn; auto|]. split; [cbn; auto|repeat constructor].
    + constructor; [|constructor]. apply good_readable. intros mem t E. vm_compute in E. injection E as <- <-. eexists; vm_compute; reflexivity.
  - split; assumption.
  - eexists. split; [vm_compute; reflexivity|]. vm_compute. reflexivity.
  - vm_compute. reflexivity.
Qed.
