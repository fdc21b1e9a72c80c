(** Proofs about reading map and log files. *)
From Coq Require Import Lia.
From Verif Require Export Spec_Doc Lib Pf_Json Pf_JsonF.
Set Implicit Arguments.
Local Open Scope string_scope.
Local Open Scope list_scope.

Lemma bind_iff A B (a : res A) (f : A -> res B) (y : B) : bind a f = Ok y <-> exists x, a = Ok x /\ f x = Ok y.
Proof. destruct a; cbn; split; try discriminate; eauto; intros (x & E & H); congruence. Qed.

Lemma mapM_iff A B (f : A -> res B) l ys : mapM f l = Ok ys <-> Forall2 (fun a b => f a = Ok b) l ys.
Proof.
  split; [apply mapM_forall2|]. induction 1 as [|a b l ys H _ IH]; [reflexivity|]. cbn [mapM]. rewrite H. cbn [bind]. rewrite IH. reflexivity.
Qed.

Lemma Forall2_iff_in A B (P Q : A -> B -> Prop) l ys : (forall a b, In a l -> (P a b <-> Q a b)) ->
  (Forall2 P l ys <-> Forall2 Q l ys).
Proof.
  intros H. split; intros G; induction G as [|a b l ys Hab _ IH]; constructor;
    try (apply H; [left; reflexivity|exact Hab]); apply IH; intros a' b' Hi; apply H; right; exact Hi.
Qed.

Lemma Forall2_imp_in A B (P Q : A -> B -> Prop) l ys : (forall a b, In a l -> P a b -> Q a b) -> Forall2 P l ys -> Forall2 Q l ys.
Proof. intros H G. induction G as [|a b l ys Hab _ IH]; constructor; [apply H; [left; reflexivity|exact Hab]|apply IH; intros a' b' Hi; apply H; right; exact Hi]. Qed.

Section Pf.
Context {F : Type} {NF : Num F}.
Implicit Types j v f : json F.

Lemma wf_arr l : wf_json (JArr l : json F) -> forall x, In x l -> wf_json x.
Proof. cbn. induction l as [|a l IH]; intros H x; [intros []|]. destruct H as [Ha Hl]. intros [<-|Hi]; auto. Qed.
Lemma wf_obj (m : list (string * json F)) : wf_json (JObj m) -> keys_sorted m /\ forall e, In e m -> wf_json (snd e).
Proof.
  cbn. intros [Hs H]. split; [exact Hs|]. clear Hs. induction m as [|a m IH]; intros x; [intros []|].
  destruct H as [Ha Hm]. intros [<-|Hi]; auto.
Qed.
Arguments wf_obj {m} _.
Lemma wf_field k j v : wf_json j -> field k j v -> wf_json v.
Proof. intros H (m & -> & Hi). apply (proj2 (wf_obj H) _ Hi). Qed.
Arguments wf_field {k} {j} {v} _ _.
Lemma wf_items j l : wf_json j -> items j l -> forall x, In x l -> wf_json x.
Proof.
  intros H I x. destruct I as [l|m| |v N1 N2 N3].
  - apply wf_arr, H.
  - intros Hi. apply in_map_iff in Hi. destruct Hi as (e & <- & He). apply (proj2 (wf_obj H) _ He).
  - intros [].
  - intros [<-|[]]. exact H.
Qed.
Arguments wf_items {j} {l} _ _.
Lemma items_elems j : items j (jelems j).
Proof. destruct j; cbn; constructor; congruence. Qed.
Lemma items_eq j l : items j l -> l = jelems j.
Proof. destruct 1 as [l|m| |v N1 N2 N3]; try reflexivity. destruct v; try reflexivity; [destruct N3|destruct (N1 l)|destruct (N2 l)]; reflexivity. Qed.
Arguments items_eq {j} {l} _.

Lemma jat_iff k j v : wf_json j -> (jat k j = Ok v <-> field k j v).
Proof.
  intros H. split.
  - destruct j as [| | | | | |m]; cbn; try discriminate. destruct (alookup k m) as [w|] eqn:E; [|discriminate].
    cbn. intros [= ->]. exists m. split; [reflexivity|]. apply alookup_in, E.
  - intros (m & -> & Hi). exact (@jat_obj F k m v (proj1 (wf_obj H)) Hi).
Qed.
Arguments jat_iff k {j} v _.
Lemma field_fun k j v v' : wf_json j -> field k j v -> field k j v' -> v = v'.
Proof. intros H A B. apply (jat_iff k v H) in A. apply (jat_iff k v' H) in B. congruence. Qed.
Lemma get_str_iff v s : get_str v = Ok s <-> v = JStr s.
Proof. destruct v; cbn; split; try discriminate; congruence. Qed.
Lemma get_dbl_iff v x : get_dbl v = Ok x <-> means_num v x.
Proof. split; [destruct v; cbn; try discriminate; intros [= <-]; constructor|destruct 1; reflexivity]. Qed.
Lemma str_at_iff k j s : wf_json j -> (str_at k j = Ok s <-> text k j s).
Proof.
  intros H. unfold str_at. rewrite bind_iff. split.
  - intros (v & A & B). apply (jat_iff k v H) in A. apply get_str_iff in B. subst v. exact A.
  - intros A. exists (JStr s). split; [apply (jat_iff k _ H), A|reflexivity].
Qed.
Arguments str_at_iff k {j} s _.
Lemma wrap_range n z : (0 < n)%Z -> (- 2 ^ (n - 1) <= wrap_signed n z < 2 ^ (n - 1))%Z.
Proof.
  intros Hn. unfold wrap_signed. assert (E : (2 ^ n = 2 * 2 ^ (n - 1))%Z).
  { rewrite <- Z.pow_succ_r by lia. f_equal. lia. }
  pose proof (Z.mod_pos_bound (z + 2 ^ (n - 1)) (2 ^ n)). assert (0 < 2 ^ (n - 1))%Z by (apply Z.pow_pos_nonneg; lia). lia.
Qed.
Lemma wrap_eq n z q r : (0 < n)%Z -> (- 2 ^ (n - 1) <= r < - 2 ^ (n - 1) + 2 ^ n)%Z -> z = (q * 2 ^ n + r)%Z -> wrap_signed n z = r.
Proof.
  intros Hn Hr ->. unfold wrap_signed.
  replace (q * 2 ^ n + r + 2 ^ (n - 1))%Z with (r + 2 ^ (n - 1) + q * 2 ^ n)%Z by lia.
  rewrite Z_mod_plus_full, Z.mod_small by lia. lia.
Qed.
Lemma wrap_quot n z : (0 < n)%Z -> exists q, z = (q * 2 ^ n + wrap_signed n z)%Z.
Proof.
  intros Hn. exists ((z + 2 ^ (n - 1)) / 2 ^ n)%Z. unfold wrap_signed.
  assert (0 < 2 ^ n)%Z by (apply Z.pow_pos_nonneg; lia).
  pose proof (Z.div_mod (z + 2 ^ (n - 1)) (2 ^ n)). lia.
Qed.
Lemma get_i32_iff v z : get_i32 v = Ok z <-> int32 v z.
Proof.
  unfold int32. destruct v as [|b|y|f|s|l|m]; cbn [get_i32]; try (split; [discriminate|intros [H _]; inversion H]).
  - destruct b; cbn; (split; [intros [= <-]; split; [constructor|lia]|intros [H _]; inversion H; reflexivity]).
  - split.
    + intros [= <-]. pose proof (@wrap_range 32 y ltac:(lia)). destruct (@wrap_quot 32 y ltac:(lia)) as [q Hq].
      split; [|cbn in *; lia]. apply mi_int with q; [cbn in *; lia|exact Hq].
    + intros [H _]. inversion H; subst. f_equal. apply wrap_eq with q; [lia|cbn in *; lia|reflexivity].
  - destruct (ftoZ f) as [y|] eqn:E.
    + destruct (((- 2 ^ 31 <=? y) && (y <? 2 ^ 31))%Z) eqn:R.
      * split; [intros [= <-]; split; [constructor; exact E|lia]|intros [H _]; inversion H; congruence].
      * split; [discriminate|]. intros [H Hr]. inversion H; subst. assert (z = y) by congruence. subst. lia.
    + split; [discriminate|]. intros [H _]. inversion H; congruence.
Qed.
Lemma get_i64_iff v z : get_i64 v = Ok z <-> int64 v z.
Proof.
  unfold int64. destruct v as [|b|y|f|s|l|m]; cbn [get_i64]; try (split; [discriminate|intros H; inversion H]).
  - destruct b; cbn; (split; [intros [= <-]; constructor|intros H; inversion H; reflexivity]).
  - split.
    + intros [= <-]. pose proof (@wrap_range 64 y ltac:(lia)). destruct (@wrap_quot 64 y ltac:(lia)) as [q Hq].
      apply mi_int with q; [cbn in *; lia|exact Hq].
    + intros H. inversion H; subst. f_equal. apply wrap_eq with q; [lia|cbn in *; lia|reflexivity].
  - destruct (ftoZ f) as [y|] eqn:E.
    + split; [intros [= <-]; constructor; exact E|intros H; inversion H; congruence].
    + split; [discriminate|]. intros H. inversion H; congruence.
Qed.
Lemma int_at_iff k j z : wf_json j -> ((v <- jat k j ;; get_i32 v) = Ok z <-> integer k j z).
Proof.
  intros H. rewrite bind_iff. unfold integer. split; intros (v & A & B); exists v;
    (split; [apply (jat_iff k v H), A|apply get_i32_iff, B]).
Qed.
Arguments int_at_iff k {j} z _.
Lemma get_vec_iff v xs : get_vec v = Ok xs <-> numbers v xs.
Proof.
  unfold numbers. destruct v as [| | | | |l|]; cbn [get_vec]; try (split; [discriminate|intros (l0 & E & _); discriminate]).
  rewrite mapM_iff. split.
  - intros H. exists l. split; [reflexivity|]. apply (Forall2_imp_in (P := fun a b => get_dbl a = Ok b)); [|exact H]. intros a b _; apply get_dbl_iff.
  - intros (l' & [= <-] & H). apply (Forall2_imp_in (P := means_num)); [|exact H]. intros a b _; apply get_dbl_iff.
Qed.
Lemma lat_lng_iff xs (p : Geo F) : lat_lng xs = Ok p <-> exists r, xs = lon p :: lat p :: r.
Proof.
  split.
  - destruct xs as [|x [|y r]]; try discriminate. intros [= <-]. exists r. reflexivity.
  - intros [r ->]. destruct p. reflexivity.
Qed.
Lemma get_point_iff v p : get_point v = Ok p <-> place v p.
Proof.
  unfold get_point, place. rewrite bind_iff. split.
  - intros (xs & A & B). apply get_vec_iff in A. apply lat_lng_iff in B. destruct B as [r ->]. exists r. exact A.
  - intros (r & A). eexists. split; [apply get_vec_iff, A|]. apply lat_lng_iff. exists r. reflexivity.
Qed.
Lemma loop_iff A (g : json F -> res A) (P : json F -> A -> Prop) j ys :
  (forall x y, In x (jelems j) -> (g x = Ok y <-> P x y)) ->
  (mapM g (jelems j) = Ok ys <-> exists l, items j l /\ Forall2 P l ys).
Proof.
  intros H. rewrite mapM_iff. split.
  - intros G. exists (jelems j). split; [apply items_elems|]. apply (Forall2_imp_in (P := fun a b => g a = Ok b)); [|exact G].
    intros a b Hi. apply H, Hi.
  - intros (l & I & G). apply items_eq in I. subst l. apply (Forall2_imp_in (P := P)); [|exact G]. intros a b Hi. apply H, Hi.
Qed.
Lemma places_iff v ps : mapM get_point (jelems v) = Ok ps <-> places v ps.
Proof. apply loop_iff. intros; apply get_point_iff. Qed.
Lemma lines_iff v ls : mapM (fun l => mapM get_point (jelems l)) (jelems v) = Ok ls <-> lines v ls.
Proof. apply (@loop_iff _ (fun l => mapM get_point (jelems l)) places). intros; apply places_iff. Qed.
Lemma polygon_iff v p : polygon_json v = Ok p <-> polygon v p.
Proof.
  unfold polygon_json, polygon. split.
  - destruct (jelems v) eqn:E; [discriminate|]. rewrite <- E. intros H. apply bind_iff in H. destruct H as (rs & A & [= <-]).
    cbn [py_outer py_inners]. assert (L := mapM_length _ _ A). rewrite E in L. destruct rs as [|r rs]; [discriminate|]. apply lines_iff, A.
  - intros H. apply lines_iff in H. assert (L := mapM_length _ _ H). destruct (jelems v) eqn:E; [discriminate|]. rewrite <- E in *.
    rewrite H. cbn [bind hd tl]. destruct p. reflexivity.
Qed.
Lemma coords_iff f c : wf_json f -> (coords f = Ok c <-> coordinates f c).
Proof.
  intros H. unfold coords, coordinates. rewrite bind_iff. split; intros (g & A & B); exists g.
  - apply (jat_iff _ g H) in A. split; [exact A|]. apply (jat_iff "coordinates" c (wf_field H A)), B.
  - split; [apply (jat_iff _ g H), A|]. apply (jat_iff "coordinates" c (wf_field H A)), B.
Qed.
Arguments coords_iff {f} c _.
Lemma wf_coordinates f c : wf_json f -> coordinates f c -> wf_json c.
Proof. intros H (g & A & B). exact (wf_field (wf_field H A) B). Qed.
Arguments wf_coordinates {f} {c} _ _.
Lemma enum_iff v t : get_enum TWIFI txtype_tbl v = t <-> means_name TWIFI txtype_names v t.
Proof.
  split; [intros <-; apply (@enum_means F txtype TWIFI txtype_names v)|].
  destruct 1 as [s e Hi|v N].
  - cbn in Hi. repeat (destruct Hi as [[= <- <-]|Hi]; [reflexivity|]). destruct Hi.
  - destruct v; try reflexivity. cbn [get_enum]. destruct (alookup s txtype_tbl) eqn:E; [|reflexivity].
    apply alookup_in in E. destruct (N _ _ E eq_refl).
Qed.
Lemma jhas_iff k j : wf_json j -> (jhas k j = true <-> exists v, field k j v).
Proof.
  intros H. destruct j as [| | | | | |m]; cbn; try (split; [discriminate|intros (v & m & E & _); discriminate]).
  unfold amem. split.
  - destruct (alookup k m) as [v|] eqn:E; [|discriminate]. intros _. exists v, m. split; [reflexivity|apply alookup_in, E].
  - intros (v & m' & [= <-] & Hi). rewrite (@in_alookup_nodup _ k v m (keys_sorted_nodup (proj1 (wf_obj H))) Hi). reflexivity.
Qed.
Arguments jhas_iff k {j} _.
Lemma dbl_at_iff k j x : wf_json j -> ((v <- jat k j ;; get_dbl v) = Ok x <-> numeric k j x).
Proof.
  intros H. rewrite bind_iff. unfold numeric. split; intros (v & A & B); exists v;
    (split; [apply (jat_iff k v H), A|apply get_dbl_iff, B]).
Qed.
Arguments dbl_at_iff k {j} x _.
Lemma opt_num_iff k j o : wf_json j -> (opt_num k j = Ok o <-> optional k j o).
Proof.
  intros H. unfold opt_num, optional. destruct (jhas k j) eqn:E.
  - apply (jhas_iff k H) in E. destruct E as [w Hw]. destruct o as [x|].
    + rewrite <- (dbl_at_iff k x H), !bind_iff. split.
      * intros (v & A & B). apply bind_iff in B. destruct B as (y & B & [= ->]). eauto.
      * intros (v & A & B). exists v. split; [exact A|]. rewrite B. reflexivity.
    + split; [|intros N; destruct (N w Hw)]. intros G. apply bind_iff in G. destruct G as (v & _ & G). apply bind_iff in G. destruct G as (y & _ & G). discriminate.
  - destruct o as [x|].
    + split; [discriminate|]. intros (v & A & _). assert (jhas k j = true) by (apply (jhas_iff k H); eauto). congruence.
    + split; [|reflexivity]. intros _ v A. assert (jhas k j = true) by (apply (jhas_iff k H); eauto). congruence.
Qed.
Arguments opt_num_iff k {j} o _.
Lemma opt_dbl_iff k j x : wf_json j -> (opt_dbl k j = Ok x <-> optional0 k j x).
Proof.
  intros H. unfold opt_dbl, optional0. destruct (jhas k j) eqn:E.
  - apply (jhas_iff k H) in E. destruct E as [w Hw]. rewrite (dbl_at_iff k x H). split; [auto|].
    intros [G|[_ N]]; [exact G|destruct (N w Hw)].
  - split.
    + intros [= <-]. right. split; [reflexivity|]. intros v A. assert (jhas k j = true) by (apply (jhas_iff k H); eauto). congruence.
    + intros [(v & A & _)|[-> _]]; [|reflexivity]. assert (jhas k j = true) by (apply (jhas_iff k H); eauto). congruence.
Qed.
Arguments opt_dbl_iff k {j} x _.
Lemma value_iff j rc : wf_json j -> (value_json j = Ok rc <-> reading j rc).
Proof.
  intros H. unfold value_json, reading. rewrite bind_iff. split.
  - intros (r & A & B). apply bind_iff in B. destruct B as (c & B & [= <-]). split; [apply (int_at_iff "rssi" r H), A|apply (int_at_iff "count" c H), B].
  - intros [A B]. exists (fst rc). split; [apply (int_at_iff "rssi" _ H), A|]. apply bind_iff. exists (snd rc).
    split; [apply (int_at_iff "count" _ H), B|]. destruct rc; reflexivity.
Qed.
Arguments value_iff {j} rc _.
Lemma wf_elems j x : wf_json j -> In x (jelems j) -> wf_json x.
Proof. intros H. apply (wf_items H (items_elems j)). Qed.
Arguments wf_elems {j} x _ _.
Lemma entry_iff j e : wf_json j -> (entry_json j = Ok e <-> fentry j e).
Proof.
  intros H. unfold entry_json, fentry. split.
  - intros G. apply bind_iff in G. destruct G as (b & A & G). apply bind_iff in G. destruct G as (tj & B & G).
    apply bind_iff in G. destruct G as (vj & C & G). apply bind_iff in G. destruct G as (vs & D & [= <-]). cbn [je_bssid je_type je_vals].
    apply (str_at_iff "bssid" b H) in A. apply (jat_iff _ _ H) in B. apply (jat_iff _ _ H) in C. split; [exact A|]. split.
    + exists tj. split; [exact B|]. apply enum_iff. reflexivity.
    + apply (@loop_iff _ value_json reading) in D; [|intros; apply value_iff; apply (wf_elems _ (wf_field H C)); assumption].
      destruct D as (l & I & D). exists vj, l. auto.
  - intros (A & (tj & B & T) & vj & l & C & I & D). apply bind_iff. exists (je_bssid e). split; [apply (str_at_iff _ _ H), A|].
    apply bind_iff. exists tj. split; [apply (jat_iff _ _ H), B|]. apply bind_iff. exists vj. split; [apply (jat_iff _ _ H), C|].
    apply bind_iff. exists (je_vals e). split.
    + apply (@loop_iff _ value_json reading); [intros; apply value_iff; apply (wf_elems _ (wf_field H C)); assumption|]. exists l. auto.
    + apply enum_iff in T. rewrite T. destruct e; reflexivity.
Qed.
Arguments entry_iff {j} e _.

(** one feature, by its type *)
Definition feature_json f : res (jfeature F (list (poly F))) :=
  ty <- feature_type f ;;
  if String.eqb ty "level" then parse_level_json f
  else if String.eqb ty "graph" then parse_graph_json f
  else if String.eqb ty "transmitter" then parse_tx_json f
  else if String.eqb ty "reference_point" then parse_rp_json f
  else Ok JOther.

Lemma feature_type_iff f ty : wf_json f -> (feature_type f = Ok ty <-> exists p, field "properties" f p /\ text "type" p ty).
Proof.
  intros H. unfold feature_type. rewrite bind_iff. split; intros (p & A & B); exists p.
  - apply (jat_iff _ _ H) in A. split; [exact A|]. apply (str_at_iff "type" ty (wf_field H A)), B.
  - split; [apply (jat_iff _ _ H), A|]. apply (str_at_iff "type" ty (wf_field H A)), B.
Qed.
Arguments feature_type_iff {f} ty _.

Lemma level_iff f p x : wf_json f -> field "properties" f p -> (parse_level_json f = Ok x <->
  exists lv ps, x = JLevel lv ps /\ text "level" p lv /\ exists c l, coordinates f c /\ items c l /\ Forall2 polygon l ps).
Proof.
  intros H Hp. assert (Wp := wf_field H Hp). unfold parse_level_json. rewrite (proj2 (jat_iff "properties" p H) Hp). cbn [bind]. split.
  - intros G. apply bind_iff in G. destruct G as (lj & A & G). apply bind_iff in G. destruct G as (c & B & G).
    apply bind_iff in G. destruct G as (ps & C & G). apply bind_iff in G. destruct G as (lv & D & [= <-]).
    exists lv, ps. split; [reflexivity|]. apply (jat_iff _ _ Wp) in A. apply get_str_iff in D. subst lj. split; [exact A|].
    apply (coords_iff c H) in B. apply (@loop_iff _ polygon_json polygon) in C; [|intros; apply polygon_iff].
    destruct C as (l & I & C). exists c, l. auto.
  - intros (lv & ps & -> & A & c & l & B & I & C). apply bind_iff. exists (JStr lv). split; [apply (jat_iff _ _ Wp), A|].
    apply bind_iff. exists c. split; [apply (coords_iff c H), B|]. apply bind_iff. exists ps.
    split; [apply (@loop_iff _ polygon_json polygon); [intros; apply polygon_iff|exists l; auto]|]. reflexivity.
Qed.
Arguments level_iff {f} {p} x _ _.
Lemma graph_iff f p x : wf_json f -> field "properties" f p -> (parse_graph_json f = Ok x <->
  exists lv ls, x = JGraph lv ls /\ text "level" p lv /\ exists c, coordinates f c /\ lines c ls).
Proof.
  intros H Hp. assert (Wp := wf_field H Hp). unfold parse_graph_json, level_of_json. rewrite (proj2 (jat_iff "properties" p H) Hp). cbn [bind]. split.
  - intros G. apply bind_iff in G. destruct G as (lv & A & G). apply bind_iff in G. destruct G as (c & B & G).
    apply bind_iff in G. destruct G as (ls & C & [= <-]). exists lv, ls. split; [reflexivity|].
    split; [apply (str_at_iff _ _ Wp), A|]. exists c. split; [apply (coords_iff c H), B|apply lines_iff, C].
  - intros (lv & ls & -> & A & c & B & C). apply bind_iff. exists lv. split; [apply (str_at_iff _ _ Wp), A|].
    apply bind_iff. exists c. split; [apply (coords_iff c H), B|]. apply bind_iff. exists ls. split; [apply lines_iff, C|reflexivity].
Qed.
Arguments graph_iff {f} {p} x _ _.
Lemma tx_iff f p x : wf_json f -> field "properties" f p -> (parse_tx_json f = Ok x <->
  exists lv id ty lng la alt a b, x = JTx lv id ty lng la alt a b /\ text "level" p lv /\ text "uuid" p id /\
      named "transmitter_type" p ty /\ optional "A" p a /\ optional "B" p b /\
      exists c xs, coordinates f c /\ numbers c (lng :: la :: xs) /\ (forall z, alt = Some z <-> xs = [z])).
Proof.
  intros H Hp. assert (Wp := wf_field H Hp). unfold parse_tx_json. rewrite (proj2 (jat_iff "properties" p H) Hp). cbn [bind]. split.
  - intros G. apply bind_iff in G. destruct G as (lv & A & G). apply bind_iff in G. destruct G as (a & B & G).
    apply bind_iff in G. destruct G as (b & C & G). apply bind_iff in G. destruct G as (id & D & G).
    apply bind_iff in G. destruct G as (tj & E & G). apply bind_iff in G. destruct G as (c & K & G).
    apply bind_iff in G. destruct G as (xs & L & G). apply bind_iff in G. destruct G as (q & M & [= <-]).
    do 8 eexists. split; [reflexivity|]. split; [apply (str_at_iff _ _ Wp), A|]. split; [apply (str_at_iff _ _ Wp), D|].
    split; [exists tj; split; [apply (jat_iff _ _ Wp), E|apply enum_iff; reflexivity]|].
    split; [apply (opt_num_iff _ _ Wp), B|]. split; [apply (opt_num_iff _ _ Wp), C|].
    apply lat_lng_iff in M. destruct M as [r ->]. exists c, r. split; [apply (coords_iff c H), K|]. split; [apply get_vec_iff, L|].
    intros z. destruct r as [|z' [|? ?]]; split; intros; congruence.
  - intros (lv & id & ty & lng & la & alt & a & b & -> & A & D & (tj & E & T) & B & C & c & xs & K & L & Z).
    apply bind_iff. exists lv. split; [apply (str_at_iff _ _ Wp), A|]. apply bind_iff. exists a. split; [apply (opt_num_iff _ _ Wp), B|].
    apply bind_iff. exists b. split; [apply (opt_num_iff _ _ Wp), C|]. apply bind_iff. exists id. split; [apply (str_at_iff _ _ Wp), D|].
    apply bind_iff. exists tj. split; [apply (jat_iff _ _ Wp), E|]. apply bind_iff. exists c. split; [apply (coords_iff c H), K|].
    apply bind_iff. eexists. split; [apply get_vec_iff, L|]. cbn [lat_lng bind lon lat]. apply enum_iff in T. rewrite T.
    do 2 f_equal. destruct xs as [|z [|? ?]].
    + destruct alt as [z|]; [|reflexivity]. destruct (Z z) as [Q _]. discriminate (Q eq_refl).
    + destruct (Z z) as [_ Q]. rewrite (Q eq_refl). reflexivity.
    + destruct alt as [z0|]; [|reflexivity]. destruct (Z z0) as [Q _]. discriminate (Q eq_refl).
Qed.
Arguments tx_iff {f} {p} x _ _.
Lemma rp_iff f p x : wf_json f -> field "properties" f p -> (parse_rp_json f = Ok x <->
  exists lv id lng la es, x = JRp lv id lng la es /\ text "level" p lv /\ text "uuid" p id /\
      (exists c, coordinates f c /\ place c (mkGeo la lng)) /\ exists v l, field "entries" p v /\ items v l /\ Forall2 fentry l es).
Proof.
  intros H Hp. assert (Wp := wf_field H Hp). unfold parse_rp_json. rewrite (proj2 (jat_iff "properties" p H) Hp). cbn [bind]. split.
  - intros G. apply bind_iff in G. destruct G as (lv & A & G). apply bind_iff in G. destruct G as (id & B & G).
    apply bind_iff in G. destruct G as (c & C & G). apply bind_iff in G. destruct G as (q & D & G).
    apply bind_iff in G. destruct G as (ej & E & G). apply bind_iff in G. destruct G as (es & K & [= <-]).
    do 5 eexists. split; [reflexivity|]. split; [apply (str_at_iff _ _ Wp), A|]. split; [apply (str_at_iff _ _ Wp), B|].
    split; [exists c; split; [apply (coords_iff c H), C|apply get_point_iff; destruct q; exact D]|].
    apply (jat_iff _ _ Wp) in E. apply (@loop_iff _ entry_json fentry) in K; [|intros; apply entry_iff; apply (wf_elems _ (wf_field Wp E)); assumption].
    destruct K as (l & I & K). exists ej, l. auto.
  - intros (lv & id & lng & la & es & -> & A & B & (c & C & D) & ej & l & E & I & K).
    apply bind_iff. exists lv. split; [apply (str_at_iff _ _ Wp), A|]. apply bind_iff. exists id. split; [apply (str_at_iff _ _ Wp), B|].
    apply bind_iff. exists c. split; [apply (coords_iff c H), C|]. apply bind_iff. eexists. split; [apply get_point_iff, D|].
    apply bind_iff. exists ej. split; [apply (jat_iff _ _ Wp), E|]. apply bind_iff. exists es.
    split; [|reflexivity]. apply (@loop_iff _ entry_json fentry); [intros; apply entry_iff; apply (wf_elems _ (wf_field Wp E)); assumption|]. exists l. auto.
Qed.
Arguments rp_iff {f} {p} x _ _.

Lemma feature_iff f x : wf_json f -> (feature_json f = Ok x <-> shows f x).
Proof.
  intros H. unfold feature_json. split.
  - intros G. apply bind_iff in G. destruct G as (ty & A & G). apply (feature_type_iff ty H) in A. destruct A as (p & Hp & T).
    destruct (String.eqb_spec ty "level") as [-> |N1].
    { apply (level_iff x H Hp) in G. destruct G as (lv & ps & -> & G). exists p. split; [exact Hp|]. split; [exact T|]. exact G. }
    destruct (String.eqb_spec ty "graph") as [-> |N2].
    { apply (graph_iff x H Hp) in G. destruct G as (lv & ps & -> & G). exists p. split; [exact Hp|]. split; [exact T|]. exact G. }
    destruct (String.eqb_spec ty "transmitter") as [-> |N3].
    { apply (tx_iff x H Hp) in G. destruct G as (lv & id & t & lng & la & alt & a & b & -> & G). exists p. split; [exact Hp|]. split; [exact T|]. exact G. }
    destruct (String.eqb_spec ty "reference_point") as [-> |N4].
    { apply (rp_iff x H Hp) in G. destruct G as (lv & id & lng & la & es & -> & G). exists p. split; [exact Hp|]. split; [exact T|]. exact G. }
    injection G as <-. exists p. split; [exact Hp|]. exists ty. split; [exact T|]. cbn [In]. intuition congruence.
  - intros (p & Hp & G). apply bind_iff.
    destruct x as [lv ps|lv ls|lv id ty lng la alt a b|lv id lng la es|].
    + destruct G as [T G]. exists "level". split; [apply (feature_type_iff _ H); eauto|]. cbn [String.eqb Ascii.eqb Bool.eqb].
      apply (level_iff _ H Hp). eauto.
    + destruct G as [T G]. exists "graph". split; [apply (feature_type_iff _ H); eauto|]. cbn [String.eqb Ascii.eqb Bool.eqb].
      apply (graph_iff _ H Hp). eauto.
    + destruct G as [T G]. exists "transmitter". split; [apply (feature_type_iff _ H); eauto|]. cbn [String.eqb Ascii.eqb Bool.eqb].
      apply (tx_iff _ H Hp). do 8 eexists. split; [reflexivity|exact G].
    + destruct G as [T G]. exists "reference_point". split; [apply (feature_type_iff _ H); eauto|]. cbn [String.eqb Ascii.eqb Bool.eqb].
      apply (rp_iff _ H Hp). do 5 eexists. split; [reflexivity|exact G].
    + destruct G as (ty & T & N). exists ty. split; [apply (feature_type_iff _ H); eauto|]. cbn [In] in N.
      destruct (String.eqb_spec ty "level"); [subst; tauto|]. destruct (String.eqb_spec ty "graph"); [subst; tauto|].
      destruct (String.eqb_spec ty "transmitter"); [subst; tauto|]. destruct (String.eqb_spec ty "reference_point"); [subst; tauto|]. reflexivity.
Qed.
Arguments feature_iff {f} x _.

(** the two passes *)
Lemma first_pass_fail fs : forall a, (forall m, a <> Ok m) -> fold_left first_pass fs a = a.
Proof. induction fs as [|f fs IH]; intros a N; [reflexivity|]. cbn [fold_left]. assert (E : first_pass a f = a) by (destruct a; [destruct (N l eq_refl)|..]; reflexivity). rewrite E. apply IH, N. Qed.
Lemma second_pass_fail fuel ord fs : forall a, (forall m, a <> Ok m) -> fold_left (@second_pass F NF fuel ord) fs a = a.
Proof. induction fs as [|f fs IH]; intros a N; [reflexivity|]. cbn [fold_left]. assert (E : second_pass fuel ord a f = a) by (destruct a; [destruct (N j eq_refl)|..]; reflexivity). rewrite E. apply IH, N. Qed.
Lemma parse_level_shape f x : parse_level_json f = Ok x -> exists lv ps, x = JLevel lv ps.
Proof. unfold parse_level_json. intros G. repeat (apply bind_iff in G; destruct G as (? & _ & G)). injection G as <-. eauto. Qed.
Lemma parse_other_shape f x : (parse_graph_json f = Ok x \/ parse_tx_json f = Ok x \/ parse_rp_json f = Ok x) ->
  forall lv ps, x <> JLevel lv ps.
Proof.
  unfold parse_graph_json, parse_tx_json, parse_rp_json. intros [G|[G|G]] lv ps; repeat (apply bind_iff in G; destruct G as (? & _ & G)); injection G as <-; discriminate.
Qed.
Lemma first_pass_step f x m : feature_json f = Ok x -> first_pass (Ok m) f = Ok (add_area m x).
Proof.
  unfold feature_json, first_pass. cbn [bind]. destruct (feature_type f) as [ty| | |]; try discriminate. cbn [bind].
  destruct (String.eqb ty "level"); [intros ->; reflexivity|].
  destruct (String.eqb ty "graph"). { intros G. assert (N := @parse_other_shape f x (or_introl G)). destruct x; try reflexivity. destruct (N _ _ eq_refl). }
  destruct (String.eqb ty "transmitter"). { intros G. assert (N := @parse_other_shape f x (or_intror (or_introl G))). destruct x; try reflexivity. destruct (N _ _ eq_refl). }
  destruct (String.eqb ty "reference_point"). { intros G. assert (N := @parse_other_shape f x (or_intror (or_intror G))). destruct x; try reflexivity. destruct (N _ _ eq_refl). }
  intros [= <-]. reflexivity.
Qed.
Lemma second_pass_step fuel ord f x m : feature_json f = Ok x -> second_pass fuel ord (Ok m) f = add_feature fuel ord (Ok m) x.
Proof.
  unfold feature_json, second_pass. cbn [bind]. destruct (feature_type f) as [ty| | |]; try discriminate. cbn [bind].
  destruct (String.eqb_spec ty "level") as [-> |N].
  { cbn [String.eqb Ascii.eqb Bool.eqb]. intros G. apply parse_level_shape in G. destruct G as (lv & ps & ->). reflexivity. }
  destruct (String.eqb ty "graph"); [intros ->; reflexivity|]. destruct (String.eqb ty "transmitter"); [intros ->; reflexivity|].
  destruct (String.eqb ty "reference_point"); [intros ->; reflexivity|]. intros [= <-]. reflexivity.
Qed.
Lemma add_feature_fail A fuel ord (fs : list (jfeature F A)) : forall a, (forall m, a <> Ok m) -> fold_left (add_feature fuel ord) fs a = a.
Proof. induction fs as [|f fs IH]; intros a N; [reflexivity|]. cbn [fold_left]. assert (E : add_feature fuel ord a f = a) by (destruct a; [destruct (N j eq_refl)|..]; reflexivity). rewrite E. apply IH, N. Qed.
Lemma passes fs xs : Forall2 (fun f x => feature_json f = Ok x) fs xs ->
  (forall m, fold_left first_pass fs (Ok m) = Ok (fold_left (@add_area F _) xs m)) /\
  forall fuel ord a, fold_left (second_pass fuel ord) fs a = fold_left (add_feature fuel ord) xs a.
Proof.
  induction 1 as [|f x fs xs H _ [I1 I2]]; [split; reflexivity|]. split.
  - intros m. cbn [fold_left]. rewrite (@first_pass_step f x m H). apply I1.
  - intros fuel ord a. cbn [fold_left]. assert (E : second_pass fuel ord a f = add_feature fuel ord a x).
    { destruct a; [apply second_pass_step, H|reflexivity..]. }
    rewrite E. apply I2.
Qed.
(** every feature is read when both passes end *)
Lemma passes_read fuel ord fs : forall a b m n, fold_left first_pass fs (Ok a) = Ok m -> fold_left (second_pass fuel ord) fs (Ok b) = Ok n ->
  exists xs, Forall2 (fun f x => feature_json f = Ok x) fs xs.
Proof.
  induction fs as [|f fs IH]; intros a b m n H1 H2; [exists []; constructor|]. cbn [fold_left] in H1, H2.
  destruct (first_pass (Ok a) f) as [a'| | |] eqn:E1; try (rewrite first_pass_fail in H1 by (intros; discriminate); discriminate).
  destruct (second_pass fuel ord (Ok b) f) as [b'| | |] eqn:E2; try (rewrite second_pass_fail in H2 by (intros; discriminate); discriminate).
  destruct (IH _ _ _ _ H1 H2) as [xs Hxs].
  assert (X : exists x, feature_json f = Ok x).
  { unfold first_pass in E1. unfold second_pass in E2. unfold feature_json. cbn [bind] in *.
    destruct (feature_type f) as [ty| | |]; try discriminate. cbn [bind] in *.
    destruct (String.eqb ty "level"); [apply bind_iff in E1; destruct E1 as (x & E1 & _); eauto|].
    destruct (String.eqb ty "graph"); [apply bind_iff in E2; destruct E2 as (x & E2 & _); eauto|].
    destruct (String.eqb ty "transmitter"); [apply bind_iff in E2; destruct E2 as (x & E2 & _); eauto|].
    destruct (String.eqb ty "reference_point"); [apply bind_iff in E2; destruct E2 as (x & E2 & _); eauto|]. eauto. }
  destruct X as [x Hx]. exists (x :: xs). constructor; assumption.
Qed.
Lemma features_iff fj xs : wf_json fj ->
  (Forall2 (fun f x => feature_json f = Ok x) (jelems fj) xs <-> Forall2 shows (jelems fj) xs).
Proof. intros H. apply Forall2_iff_in. intros f x Hi. apply feature_iff, (wf_elems _ H Hi). Qed.
Arguments features_iff {fj} xs _.

Lemma geojson_shown geom fuel ord j fj fs xs : wf_json j -> field "features" j fj -> items fj fs -> Forall2 shows fs xs ->
  parse_geojson_json geom fuel ord j = parse_geojson geom fuel ord xs.
Proof.
  intros H Hf I S. unfold parse_geojson_json. rewrite (proj2 (jat_iff _ _ H) Hf). cbn [bind].
  apply items_eq in I. subst fs. apply (features_iff _ (wf_field H Hf)) in S. destruct (passes S) as [P1 P2].
  rewrite P1, P2. reflexivity.
Qed.
Lemma geojson_read geom fuel ord j gs : wf_json j -> parse_geojson_json geom fuel ord j = Ok gs ->
  exists fj fs xs, field "features" j fj /\ items fj fs /\ Forall2 shows fs xs /\ parse_geojson geom fuel ord xs = Ok gs.
Proof.
  intros H E. assert (E' := E). unfold parse_geojson_json in E. apply bind_iff in E. destruct E as (fj & A & E). apply bind_iff in E. destruct E as (m & B & E).
  apply bind_iff in E. destruct E as (n & C & _). apply (jat_iff _ _ H) in A. destruct (@passes_read fuel ord (jelems fj) _ _ _ _ B C) as [xs S].
  apply (features_iff _ (wf_field H A)) in S. exists fj, (jelems fj), xs. split; [exact A|]. split; [apply items_elems|]. split; [exact S|].
  rewrite <- E'. symmetry. exact (@geojson_shown geom fuel ord j fj _ xs H A (items_elems fj) S).
Qed.

(** log lines *)
Lemma code_is_iff v c : code_is v c = true <-> is_code v c.
Proof.
  unfold is_code. destruct v; cbn [code_is]; try (split; [discriminate|intros [E|(f & E & _)]; discriminate]).
  - rewrite Z.eqb_eq. split; [intros ->; auto|]. intros [[= ->]|(f & E & _)]; [reflexivity|discriminate].
  - split; [intros E; right; eauto|]. intros [E|(g & [= <-] & E)]; [discriminate|exact E].
Qed.
Fixpoint first_code {E : Type} (d : E) (tbl : list (Z * E)) v : E :=
  match tbl with [] => d | (c, t) :: r => if code_is v c then t else first_code d r v end.
Lemma first_code_iff (E : Type) (d : E) tbl v t : first_code d tbl v = t <-> coded d tbl v t.
Proof.
  unfold coded. induction tbl as [|[c x] r IH]; cbn [first_code].
  - split; [intros <-; right; split; [reflexivity|constructor]|]. intros [(l1 & c & l2 & E0 & _)|[-> _]]; [destruct l1; discriminate|reflexivity].
  - destruct (code_is v c) eqn:Ec.
    + assert (Hc := proj1 (code_is_iff _ _) Ec). split.
      * intros <-. left. exists [], c, r. auto.
      * intros [([|e l1] & c' & l2 & E0 & _ & N)|[_ N]]; [injection E0; congruence| |].
        -- injection E0 as <- _. inversion N; subst. cbn [fst] in *. tauto.
        -- inversion N; subst. cbn [fst] in *. tauto.
    + assert (Hc : ~ is_code v c) by (intros H; apply code_is_iff in H; congruence). rewrite IH. split.
      * intros [(l1 & c' & l2 & -> & Hi & N)|[-> N]]; [left; exists ((c, x) :: l1), c', l2; auto|right; auto].
      * intros [([|e l1] & c' & l2 & E0 & Hi & N)|[-> N]].
        -- injection E0 as -> _ _. tauto.
        -- injection E0 as <- ->. inversion N; subst. left. exists l1, c', l2. auto.
        -- inversion N; subst. auto.
Qed.
Lemma sensor_type_first v : sensor_type_json v = first_code ACCELEROMETER sensor_table v.
Proof. reflexivity. Qed.
Lemma radio_type_first v : radio_type_json v = first_code WIFI radio_table v.
Proof. reflexivity. Qed.
Lemma vector_iff (xs : list F) w : match xs with [x; y; z] => mkV x y z | _ => mkV f0 f0 f0 end = w <-> vector_of xs w.
Proof.
  split.
  - intros <-. destruct xs as [|x [|y [|z [|? ?]]]]; try (constructor; fail); apply v_other; cbn; lia.
  - destruct 1 as [x y z|l N]; [reflexivity|]. destruct l as [|x [|y [|z [|? ?]]]]; try reflexivity. destruct (N eq_refl).
Qed.

Lemma decode_iff j m : wf_json j -> (decode_json j = Ok m <-> says j m).
Proof.
  intros H. unfold decode_json, says. split.
  - intros G. apply bind_iff in G. destruct G as (ts & A & G). apply bind_iff in A. destruct A as (tv & A & B).
    apply bind_iff in G. destruct G as (ty & C & G). apply bind_iff in G. destruct G as (c & D & G).
    exists tv, ty, c. split; [apply (jat_iff _ _ H), A|].
    assert (Et : st_ts m = ts).
    { destruct ((101 <=? c)%Z && (c <=? 106)%Z); [apply bind_iff in G; destruct G as (? & _ & [= <-]); reflexivity|].
      destruct ((201 <=? c)%Z && (c <=? 205)%Z); [do 3 (apply bind_iff in G; destruct G as (? & _ & G)); injection G as <-; reflexivity|].
      destruct (c =? 300)%Z; [do 2 (apply bind_iff in G; destruct G as (? & _ & G)); injection G as <-; reflexivity|]. injection G as <-. reflexivity. }
    split; [rewrite Et; apply get_i64_iff, B|]. split; [apply (jat_iff _ _ H), C|]. split; [apply get_i32_iff, D|].
    destruct ((101 <=? c)%Z && (c <=? 106)%Z) eqn:E1.
    { left. split; [lia|]. apply bind_iff in G. destruct G as (xs & G & [= <-]). apply bind_iff in G. destruct G as (v & G1 & G2).
      do 4 eexists. split; [apply (jat_iff _ _ H), G1|]. split; [apply get_vec_iff, G2|]. split; [apply vector_iff; reflexivity|].
      split; [apply first_code_iff; reflexivity|]. reflexivity. }
    destruct ((201 <=? c)%Z && (c <=? 205)%Z) eqn:E2.
    { right; left. split; [lia|]. apply bind_iff in G. destruct G as (id & G1 & G). apply bind_iff in G. destruct G as (r & G2 & G).
      apply bind_iff in G. destruct G as (d & G3 & [= <-]). do 4 eexists. split; [apply (str_at_iff _ _ H), G1|].
      split; [apply (opt_dbl_iff _ _ H), G2|]. split; [apply (opt_dbl_iff _ _ H), G3|]. split; [apply first_code_iff; reflexivity|]. reflexivity. }
    destruct (Z.eqb_spec c 300) as [E3|E3].
    { right; right; left. split; [exact E3|]. apply bind_iff in G. destruct G as (n & G1 & G). apply bind_iff in G. destruct G as (s & G2 & [= <-]).
      exists n, s. split; [apply (int_at_iff _ _ H), G1|]. split; [apply (int_at_iff _ _ H), G2|reflexivity]. }
    right; right; right. split; [lia|]. split; [lia|]. split; [exact E3|]. injection G as <-. reflexivity.
  - intros (tv & ty & c & A & B & C & D & G). apply bind_iff. exists (st_ts m). split.
    { apply bind_iff. exists tv. split; [apply (jat_iff _ _ H), A|apply get_i64_iff, B]. }
    apply bind_iff. exists ty. split; [apply (jat_iff _ _ H), C|]. apply bind_iff. exists c. split; [apply get_i32_iff, D|].
    destruct m as [dt t]. cbn [st_ts st_data] in *.
    destruct G as [(R & v & xs & ty' & w & G1 & G2 & G3 & G4 & ->)|[(R & id & ty' & r & d & G1 & G2 & G3 & G4 & ->)|[(R & n & s & G1 & G2 & ->)|(R1 & R2 & R3 & ->)]]].
    + assert (((101 <=? c)%Z && (c <=? 106)%Z) = true) as -> by lia. apply bind_iff. exists xs.
      split; [apply bind_iff; exists v; split; [apply (jat_iff _ _ H), G1|apply get_vec_iff, G2]|].
      apply vector_iff in G3. rewrite G3. apply first_code_iff in G4. rewrite sensor_type_first, G4. reflexivity.
    + assert (((101 <=? c)%Z && (c <=? 106)%Z) = false) as -> by lia. assert (((201 <=? c)%Z && (c <=? 205)%Z) = true) as -> by lia.
      apply bind_iff. exists id. split; [apply (str_at_iff _ _ H), G1|]. apply bind_iff. exists r. split; [apply (opt_dbl_iff _ _ H), G2|].
      apply bind_iff. exists d. split; [apply (opt_dbl_iff _ _ H), G3|]. apply first_code_iff in G4. rewrite radio_type_first, G4. reflexivity.
    + subst c. cbn [Z.leb Z.compare Pos.compare Pos.compare_cont andb Z.eqb Pos.eqb]. apply bind_iff. exists n. split; [apply (int_at_iff _ _ H), G1|].
      apply bind_iff. exists s. split; [apply (int_at_iff _ _ H), G2|reflexivity].
    + assert (((101 <=? c)%Z && (c <=? 106)%Z) = false) as -> by lia. assert (((201 <=? c)%Z && (c <=? 205)%Z) = false) as -> by lia.
      destruct (Z.eqb_spec c 300); [congruence|reflexivity].
Qed.
Lemma log_iff js ms : Forall wf_json js -> (nav_messages_json js = Ok ms <-> Forall2 says js ms).
Proof.
  intros H. unfold nav_messages_json. rewrite mapM_iff. apply Forall2_iff_in. intros j m Hi. apply decode_iff.
  rewrite Forall_forall in H. apply H, Hi.
Qed.

Lemma opt_or0 k (j : json F) o : optional k j o -> optional0 k j (or0 o).
Proof. destruct o as [x|]; cbn; [left; exact H|right; split; [reflexivity|exact H]]. Qed.
Lemma wrap_id z : (- 2 ^ 31 <= z < 2 ^ 31)%Z -> @int32 F NF (JInt z) z.
Proof. intros H. split; [|exact H]. apply mi_int with 0%Z; lia. Qed.
Lemma decode_fields (j : json F) (f : jmsg F) : wf_json j ->
  (forall ts, jg_ts f = Some ts -> exists v, field "timestamp" j v /\ int64 v ts) -> jg_ts f <> None ->
  (forall t, jg_type f = Some t -> field "type" j (JInt t) /\ (- 2 ^ 31 <= t < 2 ^ 31)%Z) -> jg_type f <> None ->
  (forall vs, jg_values f = Some vs -> exists v, field "values" j v /\ numbers v vs) ->
  (forall s, jg_bssid f = Some s -> text "bssid" j s) ->
  optional "rssi" j (jg_rssi f) -> optional "distance" j (jg_dist f) ->
  (forall z, jg_sent f = Some z -> integer "sentence_number" j z) ->
  (forall z, jg_sats f = Some z -> integer "num_sats" j z) ->
  forall m, decode f = Ok m -> decode_json j = Ok m.
Proof.
  intros H Hts _ Hty _ Hv Hb Hr Hd Hn Hs m E. unfold decode in E.
  destruct (jg_ts f) as [ts|]; [|discriminate]. destruct (jg_type f) as [t|]; [|discriminate]. cbn [at_or_throw bind] in E.
  destruct (Hts ts eq_refl) as (tv & T1 & T2). destruct (Hty t eq_refl) as [Y1 Y2].
  unfold decode_json. rewrite (proj2 (jat_iff _ _ H) T1). cbn [bind]. rewrite (proj2 (get_i64_iff _ _) T2). cbn [bind].
  rewrite (proj2 (jat_iff _ _ H) Y1). cbn [bind]. rewrite (proj2 (get_i32_iff _ _) (wrap_id Y2)). cbn [bind].
  destruct ((101 <=? t)%Z && (t <=? 106)%Z).
  - destruct (jg_values f) as [vs|]; [|discriminate]. cbn [at_or_throw bind] in E. destruct (Hv vs eq_refl) as (v & V1 & V2).
    rewrite (proj2 (jat_iff _ _ H) V1). cbn [bind]. rewrite (proj2 (get_vec_iff _ _) V2). cbn [bind]. exact E.
  - destruct ((201 <=? t)%Z && (t <=? 205)%Z).
    + destruct (jg_bssid f) as [b|]; [|discriminate]. cbn [at_or_throw bind] in E.
      rewrite (proj2 (str_at_iff _ _ H) (Hb b eq_refl)). cbn [bind].
      rewrite (proj2 (opt_dbl_iff _ _ H) (@opt_or0 _ _ _ Hr)). cbn [bind]. rewrite (proj2 (opt_dbl_iff _ _ H) (@opt_or0 _ _ _ Hd)). cbn [bind]. exact E.
    + destruct (t =? 300)%Z; [|exact E].
      destruct (jg_sent f) as [n|]; [|discriminate]. cbn [at_or_throw bind] in E. destruct (jg_sats f) as [s|]; [|discriminate].
      rewrite (proj2 (int_at_iff _ _ H) (Hn n eq_refl)). cbn [bind]. rewrite (proj2 (int_at_iff _ _ H) (Hs s eq_refl)). exact E.
Qed.
End Pf.
Arguments wf_obj {F} {m} _.
Arguments wf_field {F} {k} {j} {v} _ _.
Arguments wf_items {F} {j} {l} _ _.
Arguments items_eq {F} {j} {l} _.
Arguments jat_iff {F} k {j} v _.
Arguments str_at_iff {F} k {j} s _.
Arguments int_at_iff {F} {NF} k {j} z _.
Arguments coords_iff {F} {f} c _.
Arguments wf_coordinates {F} {f} {c} _ _.
Arguments jhas_iff {F} k {j} _.
Arguments dbl_at_iff {F} {NF} k {j} x _.
Arguments opt_num_iff {F} {NF} k {j} o _.
Arguments opt_dbl_iff {F} {NF} k {j} x _.
Arguments value_iff {F} {NF} {j} rc _.
Arguments wf_elems {F} {j} x _ _.
Arguments entry_iff {F} {NF} {j} e _.
Arguments feature_type_iff {F} {f} ty _.
Arguments level_iff {F} {NF} {f} {p} x _ _.
Arguments graph_iff {F} {NF} {f} {p} x _ _.
Arguments tx_iff {F} {NF} {f} {p} x _ _.
Arguments rp_iff {F} {NF} {f} {p} x _ _.
Arguments feature_iff {F} {NF} {f} x _.
Arguments features_iff {F} {NF} {fj} xs _.
