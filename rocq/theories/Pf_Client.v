(** Proofs of C01-C04, C08-C12: structure of the client loop. *)
From Verif Require Import Lib Client Spec_Preproc Pf_Preproc Spec_Client.
From Coq Require Import Sorted Permutation.
Set Implicit Arguments.
Local Open Scope list_scope.

Section Loop.
Context {F : Type} {NF : Num F} {SO : Sorter}.
Implicit Types (e : env F) (k : config F) (c : client F) (m : measurement F) (ms b : list (measurement F)).

Lemma nav_loop_process e k b : forall before c prev,
  (forall m, In m before -> (st_ts m <= prev)%Z) -> (before <> [] -> exists m, In m before /\ st_ts m = prev) ->
  (before = [] -> match b with m :: _ => prev = st_ts m | [] => True end) ->
  nav_loop e k c prev b = process e k c (accepted_after before b).
Proof.
  induction b as [|m b IH]; intros before c prev Hle Hex Hnil; [reflexivity|].
  cbn [nav_loop accepted_after]. 
  assert (E : forallb (fun x => (st_ts x <=? st_ts m)%Z) before = negb (st_ts m <? prev)%Z).
  { destruct (Z.ltb_spec (st_ts m) prev) as [L|L]; cbn.
    - destruct before as [|x0 bf]; [specialize (Hnil eq_refl); lia|].
      destruct Hex as (x & Hx & Ex); [discriminate|].
      destruct (forallb _ _) eqn:Ef; [|reflexivity]. rewrite forallb_forall in Ef.
      specialize (Ef x Hx). lia.
    - apply forallb_forall. intros x Hx. specialize (Hle x Hx). lia. }
  rewrite E. destruct (Z.ltb_spec (st_ts m) prev) as [L|L]; cbn [negb].
  - apply IH.
    + intros x Hx. apply in_app_or in Hx. destruct Hx as [Hx|[<-|[]]]; [auto|lia].
    + intros _. destruct before as [|x0 bf]; [specialize (Hnil eq_refl); lia|].
      destruct Hex as (x & Hx & Ex); [discriminate|]. exists x. split; [apply in_or_app; auto|exact Ex].
    + intros Hn. destruct before; discriminate.
  - cbn [process]. destruct (nav_step e k c m) as [[c1 o]| | |]; cbn [bind]; try reflexivity.
    rewrite (IH (before ++ [m]) c1 (st_ts m)); [reflexivity|..].
    + intros x Hx. apply in_app_or in Hx. destruct Hx as [Hx|[<-|[]]]; [specialize (Hle x Hx); lia|lia].
    + intros _. exists m. split; [apply in_elt|reflexivity].
    + intros Hn. destruct before; discriminate.
Qed.

Lemma navigate_process e k c b : b <> [] -> navigate e k c b = process e k (clear_states c) (accepted b).
Proof.
  destruct b as [|m b]; [congruence|]. intros _. unfold navigate.
  apply nav_loop_process with (before := []); [intros ? []|congruence|reflexivity].
Qed.

Lemma nav_step_states e k c m l :
  nav_step e k (with_states c l) m =
  match nav_step e k c m with
  | Ok (c', o) => Ok (with_states c' (l ++ match back (c_states c') with Some x => [x] | None => [] end), o)
  | Throw => Throw | UB => UB | OutOfFuel => OutOfFuel
  end.
Proof.
  unfold nav_step. cbv zeta.
  change (c_pre (with_states c l)) with (c_pre c). change (c_sf (with_states c l)) with (c_sf c).
  change (c_lev (with_states c l)) with (c_lev c). change (c_outd (with_states c l)) with (c_outd c).
  change (c_flag (with_states c l)) with (c_flag c).
  change (c_states (with_states c l)) with l.
  destruct (update_measurements _ _ _ _) as [pre| | |]; cbn [bind]; try reflexivity.
  destruct (sf_step _ _ _ _ _) as [[sf mi]| | |]; cbn [bind]; try reflexivity.
  destruct (extract_radio _ _ _ _ _) as [[pre1 ms]| | |]; cbn [bind]; try reflexivity.
  destruct (detect _ _) as [det| | |]; cbn [bind]; try reflexivity.
  destruct (level_step _ _ _ _) as [lev lid].
  destruct (outdoor_position _ _ _ _ _ _ _) as [[outd outp]| | |]; cbn [bind]; try reflexivity.
  assert (El : forall lid, locate k (with_states c l) (pp_cur pre) lid ms outp mi = locate k c (pp_cur pre) lid ms outp mi)
    by reflexivity.
  rewrite El. destruct (locate _ _ _ _ _ _ _) as [oc| | |]; cbn [bind]; try reflexivity.
  destruct (output _ _ _ _ _ _) as [o| | |]; cbn [bind]; try reflexivity.
  cbn [c_states]. rewrite back_app. reflexivity.
Qed.
Lemma nav_step_adds e k c m c' o : nav_step e k c m = Ok (c', o) -> exists x, c_states c' = c_states c ++ [x].
Proof.
  intros H. unfold nav_step in H. cbv zeta in H. inv_bind H. inv_bind Hb. destruct a0 as [sf mi].
  inv_bind Hb0. destruct a0 as [pre1 ms]. inv_bind Hb. destruct (level_step _ _ _ _) as [lev lid].
  inv_bind Hb0. destruct a1 as [outd outp]. inv_bind Hb. inv_bind Hb0. injection Hb as <- <-. eexists; reflexivity.
Qed.

Lemma process_states e k ms : forall c c' os, process e k c ms = Ok (c', os) ->
  List.length os = List.length ms /\ exists l, List.length l = List.length ms /\ c_states c' = c_states c ++ l /\
  forall l0, process e k (with_states c l0) ms = Ok (with_states c' (l0 ++ l), os).
Proof.
  induction ms as [|m ms IH]; intros c c' os H.
  - injection H as <- <-. split; [reflexivity|]. exists []. rewrite app_nil_r.
    repeat split; auto. intros l0. rewrite app_nil_r. reflexivity.
  - cbn [process] in H. inv_bind H. destruct a as [c1 o]. inv_bind Hb. destruct a as [c2 os2].
    injection Hb0 as <- <-. destruct (IH _ _ _ Ha0) as (Hl & l & Hll & Hs & Hw).
    destruct (nav_step_adds _ _ _ _ Ha) as (x & Hx).
    split; [cbn; congruence|]. exists (x :: l). split; [cbn; congruence|].
    split; [rewrite Hs, Hx, <- app_assoc; reflexivity|].
    intros l0. cbn [process]. rewrite nav_step_states, Ha. cbn [bind].
    rewrite Hx, back_app, Hw. cbn [bind]. rewrite <- app_assoc. reflexivity.
Qed.

Lemma skipn_here A (l l' : list A) : skipn (List.length l) (l ++ l') = l'.
Proof. rewrite skipn_app, skipn_all, Nat.sub_diag. reflexivity. Qed.
Lemma process_with e k ms : forall c l0,
  process e k (with_states c l0) ms =
  ('(c', os) <- process e k c ms ;;
   Ok (with_states c' (l0 ++ skipn (List.length (c_states c)) (c_states c')), os)).
Proof.
  induction ms as [|m ms IH]; intros c l0.
  - cbn. rewrite skipn_all, app_nil_r. reflexivity.
  - cbn [process]. rewrite nav_step_states.
    destruct (nav_step e k c m) as [[c1 o]| | |] eqn:E1; cbn [bind]; try reflexivity.
    destruct (nav_step_adds _ _ _ _ E1) as (x & Hx). rewrite Hx, back_app, IH.
    destruct (process e k c1 ms) as [[c2 os]| | |] eqn:E2; cbn [bind]; try reflexivity.
    destruct (process_states _ _ _ _ E2) as (_ & l & _ & Hs & _).
    rewrite Hs, skipn_here, Hx, <- !app_assoc, skipn_here. reflexivity.
Qed.

(** C01 *)
Lemma navigate_counts e k c b c' os : b <> [] -> navigate e k c b = Ok (c', os) ->
  List.length os = List.length (accepted b) /\ List.length (c_states c') = List.length (accepted b).
Proof.
  intros Hb H. rewrite navigate_process in H by exact Hb.
  destruct (process_states _ _ _ _ H) as (H1 & l & H2 & H3 & _). split; [exact H1|].
  rewrite H3. cbn. exact H2.
Qed.

(** pointwise correspondence: i-th output and i-th state come from the i-th accepted measurement *)
Lemma process_app e k ms1 ms2 : forall c,
  process e k c (ms1 ++ ms2) =
  ('(c1, o1) <- process e k c ms1 ;; '(c2, o2) <- process e k c1 ms2 ;; Ok (c2, o1 ++ o2)).
Proof.
  induction ms1 as [|m ms1 IH]; intros c; cbn [process app bind].
  - destruct (process e k c ms2) as [[c2 o2]| | |]; reflexivity.
  - destruct (nav_step e k c m) as [[c1 o]| | |]; cbn [bind]; try reflexivity.
    rewrite IH. destruct (process e k c1 ms1) as [[c2 o2]| | |]; cbn [bind]; try reflexivity.
    destruct (process e k c2 ms2) as [[c3 o3]| | |]; cbn [bind]; reflexivity.
Qed.
Lemma process_nth e k ms : forall c c' os i m, process e k c ms = Ok (c', os) -> nth_error ms i = Some m ->
  exists ci ci' oi, process e k c (firstn i ms) = Ok (ci, firstn i os) /\
  nav_step e k ci m = Ok (ci', oi) /\ nth_error os i = Some oi /\
  nth_error (c_states c') (List.length (c_states c) + i) = back (c_states ci').
Proof.
  intros c c' os i m H Hi. destruct (nth_error_split _ _ Hi) as (a & t & E & El).
  rewrite E in H. rewrite process_app in H. inv_bind H. destruct a0 as [c1 o1].
  inv_bind Hb. destruct a0 as [c2 o2]. injection Hb0 as <- <-. cbn [process] in Ha0. inv_bind Ha0.
  destruct a0 as [c3 o3]. inv_bind Hb. destruct a0 as [c4 o4]. injection Hb0 as <- <-.
  destruct (process_states _ _ _ _ Ha) as (L1 & l1 & S1 & S2 & _).
  destruct (nav_step_adds _ _ _ _ Ha1) as (x & Hx).
  destruct (process_states _ _ _ _ Ha0) as (L2 & l2 & S3 & S4 & _).
  exists c1, c3, o3. rewrite E. rewrite <- El at 1. rewrite firstn_app, Nat.sub_diag, firstn_all, app_nil_r.
  split; [|split; [exact Ha1|split]].
  - rewrite Ha. repeat f_equal. rewrite <- El, <- L1, firstn_app, Nat.sub_diag, firstn_all, app_nil_r. reflexivity.
  - rewrite nth_error_app2 by lia. replace (i - List.length o1)%nat with 0%nat by lia. reflexivity.
  - rewrite S4, Hx, S2, back_app. rewrite <- !app_assoc.
    rewrite nth_error_app2 by lia. rewrite nth_error_app2 by lia.
    replace (_ - _ - _)%nat with 0%nat by lia. reflexivity.
Qed.

(** C02 *)
Lemma navigate_all_app e k bs1 bs2 : forall c,
  navigate_all e k c (bs1 ++ bs2) =
  ('(c1, o1) <- navigate_all e k c bs1 ;; '(c2, o2) <- navigate_all e k c1 bs2 ;; Ok (c2, o1 ++ o2)).
Proof.
  induction bs1 as [|b bs1 IH]; intros c; cbn [navigate_all app bind].
  - destruct (navigate_all e k c bs2) as [[c2 o2]| | |]; reflexivity.
  - destruct (navigate e k c b) as [[c1 o]| | |]; cbn [bind]; try reflexivity.
    rewrite IH. destruct (navigate_all e k c1 bs1) as [[c2 o2]| | |]; cbn [bind]; try reflexivity.
    destruct (navigate_all e k c2 bs2) as [[c3 o3]| | |]; cbn [bind]; reflexivity.
Qed.
Lemma empty_batch e k c bs1 bs2 :
  navigate_all e k c (bs1 ++ [] :: bs2) =
  ('(c1, o1) <- navigate_all e k c bs1 ;; '(c2, o2) <- navigate_all e k c1 bs2 ;; Ok (c2, o1 ++ [] :: o2)).
Proof.
  rewrite navigate_all_app. destruct (navigate_all e k c bs1) as [[c1 o1]| | |]; cbn [bind]; try reflexivity.
  cbn [navigate_all navigate bind]. destruct (navigate_all e k c1 bs2) as [[c2 o2]| | |]; reflexivity.
Qed.

(** C03 *)
Lemma accepted_after_app before b1 b2 :
  accepted_after before (b1 ++ b2) = accepted_after before b1 ++ accepted_after (before ++ b1) b2.
Proof.
  revert before; induction b1 as [|m b1 IH]; intros before; cbn [app accepted_after].
  - rewrite app_nil_r. reflexivity.
  - rewrite IH, <- app_assoc. cbn [app]. destruct (forallb _ _); reflexivity.
Qed.
Lemma forallb_app A (p : A -> bool) l1 l2 : forallb p (l1 ++ l2) = forallb p l1 && forallb p l2.
Proof. induction l1 as [|x l IH]; cbn; [reflexivity|]. rewrite IH, andb_assoc. reflexivity. Qed.
(** earlier elements not newer than a member of [before] do not matter *)
Lemma accepted_after_irrel old before b m0 : In m0 before ->
  (forall m, In m old -> (st_ts m <= st_ts m0)%Z) ->
  accepted_after (old ++ before) b = accepted_after before b.
Proof.
  intros H0 Hold. revert before H0; induction b as [|m b IH]; intros before H0; [reflexivity|].
  cbn [accepted_after]. rewrite <- app_assoc. rewrite (IH (before ++ [m])) by (apply in_or_app; auto).
  rewrite forallb_app. unfold measurement in *.
  destruct (forallb _ before) eqn:E; [|rewrite andb_false_r; reflexivity].
  rewrite forallb_forall in E. specialize (E _ H0).
  assert (forallb (fun x : stamped (mdata F) => (st_ts x <=? st_ts m)%Z) old = true) as ->; [|reflexivity].
  apply forallb_forall. intros x Hx. specialize (Hold x Hx). lia.
Qed.
Lemma accepted_app b1 m2 b2 : (forall m, In m b1 -> (st_ts m <= st_ts m2)%Z) ->
  accepted (b1 ++ m2 :: b2) = accepted b1 ++ accepted (m2 :: b2).
Proof.
  intros H. unfold accepted. rewrite accepted_after_app. f_equal. cbn [app accepted_after forallb].
  assert (forallb (fun x : stamped (mdata F) => (st_ts x <=? st_ts m2)%Z) b1 = true) as ->.
  { apply forallb_forall. intros x Hx. specialize (H x Hx). lia. }
  f_equal. apply (accepted_after_irrel b1 [m2] b2) with (m0 := m2); [left; reflexivity|exact H].
Qed.

Lemma with_states_id c : with_states c (c_states c) = c.
Proof. destruct c; reflexivity. Qed.
Lemma with_states_twice c l l' : with_states (with_states c l) l' = with_states c l'.
Proof. reflexivity. Qed.

Lemma split_batch e k c b1 m2 b2 : b1 <> [] -> (forall m, In m b1 -> (st_ts m <= st_ts m2)%Z) ->
  navigate e k c (b1 ++ m2 :: b2) =
  ('(c1, o1) <- navigate e k c b1 ;; '(c2, o2) <- navigate e k c1 (m2 :: b2) ;;
   Ok (with_states c2 (c_states c1 ++ c_states c2), o1 ++ o2)).
Proof.
  intros H1 H. rewrite !navigate_process by (try exact H1; destruct b1; discriminate).
  rewrite accepted_app by exact H. rewrite process_app.
  destruct (process e k (clear_states c) (accepted b1)) as [[c1 o1]| | |] eqn:E1; cbn [bind]; try reflexivity.
  rewrite navigate_process by discriminate.
  change (clear_states c1) with (with_states c1 []). rewrite process_with.
  destruct (process e k c1 (accepted (m2 :: b2))) as [[c2 o2]| | |] eqn:E2; cbn [bind]; try reflexivity.
  destruct (process_states _ _ _ _ E2) as (_ & l & _ & Hs & Hw).
  cbn [c_states with_states]. rewrite with_states_twice. cbn [app]. rewrite Hs, skipn_here, <- Hs, with_states_id. reflexivity.
Qed.

(** any chunking of an ordered stream *)
Lemma ssorted_app_le (l1 l2 : list Z) : StronglySorted Z.le (l1 ++ l2) ->
  StronglySorted Z.le l2 /\ forall x y, In x l1 -> In y l2 -> (x <= y)%Z.
Proof.
  induction l1 as [|x l1 IH]; cbn; intros H; [split; [exact H|intros ? ? []]|].
  inversion H as [|? ? H1 H2]; subst. destruct (IH H1) as [I1 I2]. split; [exact I1|].
  intros a b [<-|Ha] Hb; [|auto]. rewrite Forall_forall in H2. apply H2, in_or_app; auto.
Qed.
Lemma chunking e k bs : forall c c' os, Forall (fun b => b <> []) bs -> bs <> [] ->
  time_sorted (List.concat bs) -> navigate_all e k c bs = Ok (c', os) ->
  exists l, navigate e k c (List.concat bs) = Ok (with_states c' l, List.concat os).
Proof.
  induction bs as [|b bs IH]; intros c c' os Hn Hb Hs H; [congruence|].
  cbn [navigate_all] in H. inv_bind H. destruct a as [c1 o1]. inv_bind Hb0. destruct a as [c2 o2].
  injection Hb1 as <- <-. inversion Hn as [|? ? Hn1 Hn2]; subst. cbn [List.concat].
  destruct bs as [|b2 bs].
  - injection Ha0 as <- <-. cbn. rewrite !app_nil_r. exists (c_states c1). rewrite with_states_id. exact Ha.
  - assert (Hs2 : time_sorted (List.concat (b2 :: bs)) /\
      forall x y, In x b -> In y (List.concat (b2 :: bs)) -> (st_ts x <= st_ts y)%Z).
    { unfold time_sorted in *. cbn [List.concat] in Hs. rewrite map_app in Hs. apply ssorted_app_le in Hs. destruct Hs as [S1 S2].
      split; [exact S1|]. intros x y Hx Hy. apply S2; apply in_map; assumption. }
    destruct Hs2 as [Hs2 Hle].
    destruct (IH c1 c2 o2 Hn2 ltac:(discriminate) Hs2 Ha0) as (l & Hl).
    destruct b2 as [|m2 b2]; [inversion Hn2; congruence|]. cbn [List.concat app] in *.
    exists (c_states c1 ++ l). rewrite split_batch; [|exact Hn1|].
    + rewrite Ha. cbn [bind]. rewrite Hl. reflexivity.
    + intros x Hx. apply Hle; [exact Hx|left; reflexivity].
Qed.

(** C04 *)
Lemma accepted_sorted ms : time_sorted ms -> accepted ms = ms.
Proof.
  unfold accepted, time_sorted. intros Hs.
  assert (G : forall b before, (forall x y, In x before -> In y b -> (st_ts x <= st_ts y)%Z) ->
    StronglySorted Z.le (map (@st_ts _) b) -> accepted_after before b = b).
  { induction b as [|m b IH]; intros before Hle Hb; [reflexivity|]. cbn [accepted_after].
    assert (forallb (fun x : stamped (mdata F) => (st_ts x <=? st_ts m)%Z) before = true) as ->.
    { apply forallb_forall. intros x Hx. specialize (Hle x m Hx (or_introl eq_refl)). lia. }
    cbn in Hb. inversion Hb as [|? ? H1 H2]; subst. f_equal. apply IH; [|exact H1].
    intros x y Hx Hy. apply in_app_or in Hx. destruct Hx as [Hx|[<-|[]]].
    - apply Hle; [exact Hx|right; exact Hy].
    - rewrite Forall_forall in H2. apply H2, in_map, Hy. }
  apply G; [intros ? ? []|exact Hs].
Qed.
Lemma ordered_batch e k c b : b <> [] -> time_sorted b -> navigate e k c b = process e k (clear_states c) b.
Proof. intros Hb Hs. rewrite navigate_process by exact Hb. rewrite accepted_sorted by exact Hs. reflexivity. Qed.
Lemma singles e k ms : forall c c' os, navigate_all e k c (map (fun m => [m]) ms) = Ok (c', os) ->
  List.length os = List.length ms /\ Forall (fun o => List.length o = 1%nat) os.
Proof.
  induction ms as [|m ms IH]; intros c c' os H.
  - injection H as <- <-. split; [reflexivity|constructor].
  - cbn [map navigate_all] in H. inv_bind H. destruct a as [c1 o1]. inv_bind Hb. destruct a as [c2 o2].
    injection Hb0 as <- <-. destruct (IH _ _ _ Ha0) as [H1 H2]. split; [cbn; congruence|].
    constructor; [|exact H2].
    destruct (navigate_counts e k c (b := [m]) ltac:(discriminate) Ha) as [E _]. rewrite E. reflexivity.
Qed.

(** * One step *)
Lemma nav_step_inv e k c m c' o : nav_step e k c m = Ok (c', o) ->
  exists pre sf mi pre1 rs det lev lid outd outp oc ns,
    update_measurements (cf_set k) (cf_col k) (c_pre c) m = Ok pre /\
    sf_step (e_fuel e) (cf_set k) (c_sf c) (pp_sensor pre) (pp_cur pre) = Ok (sf, mi) /\
    extract_radio (cf_set k) (cf_buf k) (cf_col k) pre (mi_lastTs mi) = Ok (pre1, rs) /\
    detect k rs = Ok det /\ level_step (s_baro (cf_set k)) (c_lev c) det (pp_sensor pre) = (lev, lid) /\
    outdoor_position (cf_set k) (cf_col k) (c_outd c) (pp_cur pre) (pp_sensor pre) (pp_nmea pre) (c_flag c) = Ok (outd, outp) /\
    locate k c (pp_cur pre) (drop_level (cf_set k) (pp_cur pre) (pp_signal pre) (mi_lastTs mi) lid) rs outp mi = Ok oc /\
    output e k (oc_pos oc) (oc_stat oc) (oc_azim oc) rs = Ok o /\
    c' = mkClient lev (oc_knn oc) pre1 outd (oc_post oc) sf (c_states c ++ [ns]) (oc_pos oc) (oc_flag oc) (oc_ph oc) (oc_pg oc).
Proof.
  intros H. unfold nav_step in H. cbv zeta in H. inv_bind H. rename a into pre. inv_bind Hb. destruct a as [sf mi].
  inv_bind Hb0. destruct a as [pre1 rs]. inv_bind Hb. rename a into det. destruct (level_step _ _ _ _) as [lev lid] eqn:El.
  inv_bind Hb0. destruct a as [outd outp]. inv_bind Hb. rename a into oc. inv_bind Hb0. injection Hb as <- <-.
  do 12 eexists. repeat match goal with |- _ /\ _ => split; [eassumption|] end. reflexivity.
Qed.

Lemma extract_radio_keeps s bc (col : collector F) pre ls pre1 rs : extract_radio s bc col pre ls = Ok (pre1, rs) ->
  pp_cur pre1 = pp_cur pre /\ pp_signal pre1 = pp_signal pre /\ pp_sensor pre1 = pp_sensor pre /\ pp_nmea pre1 = pp_nmea pre.
Proof.
  unfold extract_radio. destruct (buffer_extract _ _ _) as [b out]. intros H. inv_bind H. inv_bind Hb.
  injection Hb0 as <- <-. auto.
Qed.
Lemma update_cur s (col : collector F) p m p' : update_measurements s col p m = Ok p' -> pp_cur p' = st_ts m.
Proof.
  unfold update_measurements. destruct (st_data m) as [r|d|d]; intros H.
  - inv_bind H. destruct a; injection Hb as <-; reflexivity.
  - injection H as <-; reflexivity.
  - injection H as <-; reflexivity.
Qed.
Lemma drop_no_signal s cur sig mot lid : (1000 * s_nosignal s <= cur - sig)%Z ->
  @drop_level F s cur sig mot lid = ""%string.
Proof.
  intros H. unfold drop_level. apply Z.leb_le in H. rewrite H. destruct (_ && _); reflexivity.
Qed.

(** C08 *)
Lemma no_signal_step e k c m c' o : has_level (cf_col k) "" = false -> nav_step e k c m = Ok (c', o) ->
  (1000 * s_nosignal (cf_set k) <= st_ts m - pp_signal (c_pre c'))%Z ->
  c_knn c' = c_knn c /\ c_post c' = c_post c /\ c_prevhead c' = c_prevhead c /\ c_prevgyro c' = c_prevgyro c /\
  exists outp,
    outdoor_position (cf_set k) (cf_col k) (c_outd c) (st_ts m) (pp_sensor (c_pre c')) (pp_nmea (c_pre c')) (c_flag c)
      = Ok (c_outd c', outp) /\
    c_pos c' = if p_empty outp then c_pos c else outp.
Proof.
  intros Hl H Hs. destruct (nav_step_inv _ _ _ _ H) as (pre & sf & mi & pre1 & ms & det & lev & lid & outd & outp & oc & ns
    & H1 & H2 & H3 & H4 & H5 & H6 & H7 & H8 & ->).
  cbn [c_pre c_knn c_post c_pos c_outd c_prevhead c_prevgyro] in *.
  destruct (extract_radio_keeps _ _ _ _ _ H3) as (E1 & E2 & E3 & E4). assert (E5 := update_cur _ _ _ _ H1).
  rewrite E2, <- E5 in Hs. rewrite drop_no_signal in H7 by exact Hs.
  unfold locate in H7. rewrite Hl in H7. rewrite E3, E4, <- E5.
  destruct (p_empty outp) eqn:Ep; cbn [negb] in H7; injection H7 as <-; cbn; repeat split; auto; exists outp; rewrite Ep; auto.
Qed.

(** C09 *)
Lemma output_status e k p st az (rs : list (radio F)) o : wf_collector (cf_col k) ->
  output e k p st az rs = Ok o -> p_empty p = false -> same_place (cf_col k) p o.
Proof.
  intros Hw H Hp. unfold output in H. rewrite Hp in H. inv_bind H. destruct a as [[la lo] al]. inv_bind Hb. injection Hb0 as <-.
  repeat split. intros Hne. apply String.eqb_neq in Hne. rewrite Hne in Ha. inv_bind Ha. inv_bind Hb. injection Hb0 as <- <- _.
  assert (G : In a0 (col_levels (cf_col k)) /\ l_id a0 = p_level p).
  { unfold get_level in Ha1. destruct (alookup (p_level p) (col_index (cf_col k))) as [i|] eqn:E; [|discriminate].
    apply Hw in E. destruct E as (l & E1 & E2). cbn in Ha1. rewrite E1 in Ha1. injection Ha1 as <-.
    split; [eapply nth_error_In; exact E1|exact E2]. }
  exists a0. destruct G. repeat split; auto.
Qed.
Lemma output_empty e k p st az (rs : list (radio F)) o : output e k p st az rs = Ok o -> p_empty p = true ->
  o_status o = (if status_eqb st OK then NAVIGATION_ERROR else st).
Proof. unfold output. intros H Hp. rewrite Hp in H. injection H as <-. reflexivity. Qed.
Lemma update_no_radio s (col : collector F) p m p' : wf_collector col -> no_radio s col m ->
  update_measurements s col p m = Ok p' ->
  pp_signal p' = pp_signal p /\ pp_buf p' = pp_buf p /\
  (no_location m -> s_type (st_data (pp_sensor p)) <> LOCATION -> s_type (st_data (pp_sensor p')) <> LOCATION).
Proof.
  intros Hw Hn H. unfold no_radio, no_location in *. destruct m as [d ts]. cbn [st_data] in *. destruct d as [r|d|d].
  - destruct (@update_radio_spec F NF s col p r ts Hw) as (p1 & E & _ & E2 & _ & [(Ha & _)|(_ & E3 & E4)]); [contradiction|].
    rewrite E in H; injection H as <-. rewrite E2, E3, E4. auto.
  - injection H as <-. cbn. auto.
  - injection H as <-. cbn. auto.
Qed.

Lemma outdoor_expired s (col : collector F) o ts sen nm fl o' p :
  s_type (st_data sen) <> LOCATION -> (s_gpsvalid s <! (fofZ (ts - p_ts (ou_last o)) /! fofZ 1000)) = true ->
  outdoor_position s col o ts sen nm fl = Ok (o', p) -> p_empty p = true /\ ou_last o' = ou_last o.
Proof.
  intros Ht Hv H. unfold outdoor_position in H.
  assert (E : gps_of s sen = None) by (unfold gps_of; destruct (s_type (st_data sen)); congruence).
  rewrite E in H. cbv zeta in H.
  destruct (fl || (s_maxgpsdev s <! fnan)); cbn [ou_last] in H; rewrite Hv in H; injection H as <- <-; auto.
Qed.


Lemma stale_step e k c m c' o : wf_collector (cf_col k) -> has_level (cf_col k) "" = false ->
  p_empty (c_pos c) = false -> stale k c m -> nav_step e k c m = Ok (c', o) ->
  p_empty (c_pos c') = false /\ pp_signal (c_pre c') = pp_signal (c_pre c) /\ o_status o = OK.
Proof.
  intros Hw Hl Hp [Hn Hs] H.
  assert (Esig : pp_signal (c_pre c') = pp_signal (c_pre c)).
  { destruct (nav_step_inv _ _ _ _ H) as (pre & sf & mi & pre1 & ms & det & lev & lid & outd & outp & oc & ns
      & H1 & H2 & H3 & H4 & H5 & H6 & H7 & H8 & ->). cbn [c_pre].
    destruct (extract_radio_keeps _ _ _ _ _ H3) as (_ & E2 & _ & _).
    destruct (update_no_radio _ _ _ Hw Hn H1) as (E & _ & _). congruence. }
  rewrite <- Esig in Hs. destruct (no_signal_step _ _ _ _ Hl H Hs) as (_ & _ & _ & _ & outp & _ & E).
  assert (Ep : p_empty (c_pos c') = false) by (rewrite E; destruct (p_empty outp) eqn:Eo; assumption).
  split; [exact Ep|]. split; [exact Esig|].
  destruct (nav_step_inv _ _ _ _ H) as (pre & sf & mi & pre1 & ms & det & lev & lid & outd & outp' & oc & ns
      & H1 & H2 & H3 & H4 & H5 & H6 & H7 & H8 & ->). cbn [c_pos] in Ep.
  apply (output_status _ _ _ _ _ _ Hw H8 Ep).
Qed.

Lemma stale_process e k ms : forall c c' os, wf_collector (cf_col k) -> has_level (cf_col k) "" = false ->
  p_empty (c_pos c) = false -> Forall (stale k c) ms -> process e k c ms = Ok (c', os) ->
  p_empty (c_pos c') = false /\ pp_signal (c_pre c') = pp_signal (c_pre c) /\ Forall (fun o => o_status o = OK) os.
Proof.
  induction ms as [|m ms IH]; intros c c' os Hw Hl Hp Hs H.
  - injection H as <- <-. auto.
  - cbn [process] in H. inv_bind H. destruct a as [c1 o1]. inv_bind Hb. destruct a as [c2 o2]. injection Hb0 as <- <-.
    inversion Hs as [|? ? Hs1 Hs2]; subst.
    destruct (stale_step _ Hw Hl Hp Hs1 Ha) as (E1 & E2 & E3).
    destruct (IH c1 c2 o2 Hw Hl E1) as (E4 & E5 & E6); [|exact Ha0|].
    + eapply Forall_impl; [|exact Hs2]. intros x [X1 X2]. split; [exact X1|]. rewrite E2; exact X2.
    + split; [exact E4|]. split; [congruence|]. constructor; assumption.
Qed.
Lemma accepted_incl before ms : forall x, In x (accepted_after before ms) -> In x ms.
Proof.
  revert before; induction ms as [|m ms IH]; intros before x; cbn [accepted_after]; [auto|].
  destruct (forallb _ _); cbn; intros H; [destruct H as [<-|H]; [auto|]|]; right; eapply IH; exact H.
Qed.
Lemma accepted_forall (P : measurement F -> Prop) ms : Forall P ms -> Forall P (accepted ms).
Proof. intros H. rewrite Forall_forall in *. intros x Hx. apply H. eapply accepted_incl; exact Hx. Qed.

Lemma stale_history e k bs : forall c c' os, wf_collector (cf_col k) -> has_level (cf_col k) "" = false ->
  p_empty (c_pos c) = false -> Forall (Forall (stale k c)) bs -> navigate_all e k c bs = Ok (c', os) ->
  p_empty (c_pos c') = false /\ Forall (Forall (fun o => o_status o = OK)) os.
Proof.
  induction bs as [|b bs IH]; intros c c' os Hw Hl Hp Hs H.
  - injection H as <- <-. auto.
  - cbn [navigate_all] in H. inv_bind H. destruct a as [c1 o1]. inv_bind Hb. destruct a as [c2 o2]. injection Hb0 as <- <-.
    inversion Hs as [|? ? Hs1 Hs2]; subst.
    assert (E : p_empty (c_pos c1) = false /\ pp_signal (c_pre c1) = pp_signal (c_pre c) /\ Forall (fun o => o_status o = OK) o1).
    { destruct b as [|m b]; [injection Ha as <- <-; auto|].
      rewrite navigate_process in Ha by discriminate.
      eapply stale_process with (c := clear_states c); [exact Hw|exact Hl|exact Hp|exact (accepted_forall Hs1)|exact Ha]. }
    destruct E as (E1 & E2 & E3).
    destruct (IH c1 c2 o2 Hw Hl E1) as (E4 & E5); [|exact Ha0|split; [exact E4|constructor; assumption]].
    eapply Forall_impl; [|exact Hs2]. intros x X. eapply Forall_impl; [|exact X]. intros y [Y1 Y2].
    split; [exact Y1|]. rewrite E2; exact Y2.
Qed.

(** with GNSS gone as well, the very same position is repeated *)
Lemma deaf_step e k c m c' o : wf_collector (cf_col k) -> has_level (cf_col k) "" = false ->
  p_empty (c_pos c) = false -> s_type (st_data (pp_sensor (c_pre c))) <> LOCATION ->
  deaf k c m -> nav_step e k c m = Ok (c', o) ->
  c_pos c' = c_pos c /\ same_place (cf_col k) (c_pos c) o /\ s_type (st_data (pp_sensor (c_pre c'))) <> LOCATION /\
  pp_signal (c_pre c') = pp_signal (c_pre c) /\ ou_last (c_outd c') = ou_last (c_outd c).
Proof.
  intros Hw Hl Hp Ht (Hs & Hnl & Hv) H.
  destruct (stale_step _ Hw Hl Hp Hs H) as (Ep & Esig & _).
  destruct Hs as [Hn Hs].
  assert (Et : s_type (st_data (pp_sensor (c_pre c'))) <> LOCATION).
  { destruct (nav_step_inv _ _ _ _ H) as (pre & sf & mi & pre1 & ms & det & lev & lid & outd & outp & oc & ns
      & H1 & H2 & H3 & H4 & H5 & H6 & H7 & H8 & ->). cbn [c_pre].
    destruct (extract_radio_keeps _ _ _ _ _ H3) as (_ & _ & E3 & _). rewrite E3.
    destruct (update_no_radio _ _ _ Hw Hn H1) as (_ & _ & E). auto. }
  rewrite <- Esig in Hs. destruct (no_signal_step _ _ _ _ Hl H Hs) as (_ & _ & _ & _ & outp & Eo & E).
  destruct (outdoor_expired _ _ _ _ _ _ _ Et Hv Eo) as [E1 E2]. rewrite E1 in E.
  split; [exact E|]. split; [|auto]. 
  destruct (nav_step_inv _ _ _ _ H) as (pre & sf & mi & pre1 & ms & det & lev & lid & outd & outp' & oc & ns
      & H1 & H2 & H3 & H4 & H5 & H6 & H7 & H8 & ->). cbn [c_pos] in *.
  rewrite <- E. rewrite E in Ep. apply (output_status _ _ _ _ _ _ Hw H8). rewrite E; exact Hp.
Qed.
Lemma deaf_process e k ms : forall c c' os, wf_collector (cf_col k) -> has_level (cf_col k) "" = false ->
  p_empty (c_pos c) = false -> s_type (st_data (pp_sensor (c_pre c))) <> LOCATION ->
  Forall (deaf k c) ms -> process e k c ms = Ok (c', os) ->
  c_pos c' = c_pos c /\ Forall (same_place (cf_col k) (c_pos c)) os /\ s_type (st_data (pp_sensor (c_pre c'))) <> LOCATION /\
  pp_signal (c_pre c') = pp_signal (c_pre c) /\ ou_last (c_outd c') = ou_last (c_outd c).
Proof.
  induction ms as [|m ms IH]; intros c c' os Hw Hl Hp Ht Hs H.
  - injection H as <- <-. auto.
  - cbn [process] in H. inv_bind H. destruct a as [c1 o1]. inv_bind Hb. destruct a as [c2 o2]. injection Hb0 as <- <-.
    inversion Hs as [|? ? Hs1 Hs2]; subst.
    destruct (deaf_step _ Hw Hl Hp Ht Hs1 Ha) as (E1 & E2 & E3 & E4 & E5).
    destruct (IH c1 c2 o2 Hw Hl) as (E6 & E7 & E8 & E9 & E10); [congruence|exact E3| |exact Ha0|].
    + eapply Forall_impl; [|exact Hs2]. intros x [[X1 X2] [X3 X4]]. repeat split; auto; [rewrite E4|rewrite E5]; assumption.
    + rewrite E1 in *. repeat split; auto; congruence.
Qed.
Lemma deaf_history e k bs : forall c c' os, wf_collector (cf_col k) -> has_level (cf_col k) "" = false ->
  p_empty (c_pos c) = false -> s_type (st_data (pp_sensor (c_pre c))) <> LOCATION ->
  Forall (Forall (deaf k c)) bs -> navigate_all e k c bs = Ok (c', os) ->
  c_pos c' = c_pos c /\ Forall (Forall (same_place (cf_col k) (c_pos c))) os.
Proof.
  induction bs as [|b bs IH]; intros c c' os Hw Hl Hp Ht Hs H.
  - injection H as <- <-. auto.
  - cbn [navigate_all] in H. inv_bind H. destruct a as [c1 o1]. inv_bind Hb. destruct a as [c2 o2]. injection Hb0 as <- <-.
    inversion Hs as [|? ? Hs1 Hs2]; subst.
    assert (E : c_pos c1 = c_pos c /\ Forall (same_place (cf_col k) (c_pos c)) o1 /\ s_type (st_data (pp_sensor (c_pre c1))) <> LOCATION /\
      pp_signal (c_pre c1) = pp_signal (c_pre c) /\ ou_last (c_outd c1) = ou_last (c_outd c)).
    { destruct b as [|m b]; [injection Ha as <- <-; auto|].
      rewrite navigate_process in Ha by discriminate.
      eapply deaf_process with (c := clear_states c); [exact Hw|exact Hl|exact Hp|exact Ht|exact (accepted_forall Hs1)|exact Ha]. }
    destruct E as (E1 & E2 & E3 & E4 & E5).
    destruct (IH c1 c2 o2 Hw Hl) as (E6 & E7); [congruence|exact E3| |exact Ha0|].
    + eapply Forall_impl; [|exact Hs2]. intros x X. eapply Forall_impl; [|exact X].
      intros y [[Y1 Y2] [Y3 Y4]]. repeat split; auto; [rewrite E4|rewrite E5]; assumption.
    + rewrite E1 in *. split; [exact E6|constructor; assumption].
Qed.

(** an empty position stays empty, and that is reported *)
Lemma mute_step e k c m c' o : wf_collector (cf_col k) -> has_level (cf_col k) "" = false ->
  p_empty (c_pos c) = true -> s_type (st_data (pp_sensor (c_pre c))) <> LOCATION ->
  deaf k c m -> nav_step e k c m = Ok (c', o) ->
  c_pos c' = c_pos c /\ o_status o = NO_LEVEL /\ s_type (st_data (pp_sensor (c_pre c'))) <> LOCATION /\
  pp_signal (c_pre c') = pp_signal (c_pre c) /\ ou_last (c_outd c') = ou_last (c_outd c).
Proof.
  intros Hw Hl Hp Ht ((Hn & Hs) & Hnl & Hv) H.
  destruct (nav_step_inv _ _ _ _ H) as (pre & sf & mi & pre1 & ms & det & lev & lid & outd & outp & oc & ns
      & H1 & H2 & H3 & H4 & H5 & H6 & H7 & H8 & ->). cbn [c_pre c_pos c_outd].
  destruct (extract_radio_keeps _ _ _ _ _ H3) as (_ & Ex2 & Ex3 & _).
  destruct (update_no_radio _ _ _ Hw Hn H1) as (E1 & _ & E2). specialize (E2 Hnl Ht).
  assert (Ecur := update_cur _ _ _ _ H1).
  rewrite Ecur in H6, H7. destruct (outdoor_expired _ _ _ _ _ _ _ E2 Hv H6) as [E3 E4].
  rewrite drop_no_signal in H7 by (rewrite E1; exact Hs).
  unfold locate in H7. rewrite Hl, E3 in H7. cbn [negb] in H7. injection H7 as <-. cbn [oc_pos oc_stat oc_azim] in *.
  rewrite Ex2, Ex3. repeat split; auto. apply (output_empty _ _ _ _ _ _ H8 Hp).
Qed.
Lemma mute_process e k ms : forall c c' os, wf_collector (cf_col k) -> has_level (cf_col k) "" = false ->
  p_empty (c_pos c) = true -> s_type (st_data (pp_sensor (c_pre c))) <> LOCATION ->
  Forall (deaf k c) ms -> process e k c ms = Ok (c', os) ->
  c_pos c' = c_pos c /\ Forall (fun o => o_status o = NO_LEVEL) os /\ s_type (st_data (pp_sensor (c_pre c'))) <> LOCATION /\
  pp_signal (c_pre c') = pp_signal (c_pre c) /\ ou_last (c_outd c') = ou_last (c_outd c).
Proof.
  induction ms as [|m ms IH]; intros c c' os Hw Hl Hp Ht Hs H.
  - injection H as <- <-. auto.
  - cbn [process] in H. inv_bind H. destruct a as [c1 o1]. inv_bind Hb. destruct a as [c2 o2]. injection Hb0 as <- <-.
    inversion Hs as [|? ? Hs1 Hs2]; subst.
    destruct (mute_step _ Hw Hl Hp Ht Hs1 Ha) as (E1 & E2 & E3 & E4 & E5).
    destruct (IH c1 c2 o2 Hw Hl) as (E6 & E7 & E8 & E9 & E10); [congruence|exact E3| |exact Ha0|].
    + eapply Forall_impl; [|exact Hs2]. intros x [[X1 X2] [X3 X4]]. repeat split; auto; [rewrite E4|rewrite E5]; assumption.
    + rewrite E1 in *. repeat split; auto; congruence.
Qed.
Lemma mute_history e k bs : forall c c' os, wf_collector (cf_col k) -> has_level (cf_col k) "" = false ->
  p_empty (c_pos c) = true -> s_type (st_data (pp_sensor (c_pre c))) <> LOCATION ->
  Forall (Forall (deaf k c)) bs -> navigate_all e k c bs = Ok (c', os) ->
  c_pos c' = c_pos c /\ Forall (Forall (fun o => o_status o = NO_LEVEL)) os.
Proof.
  induction bs as [|b bs IH]; intros c c' os Hw Hl Hp Ht Hs H.
  - injection H as <- <-. auto.
  - cbn [navigate_all] in H. inv_bind H. destruct a as [c1 o1]. inv_bind Hb. destruct a as [c2 o2]. injection Hb0 as <- <-.
    inversion Hs as [|? ? Hs1 Hs2]; subst.
    assert (E : c_pos c1 = c_pos c /\ Forall (fun o => o_status o = NO_LEVEL) o1 /\ s_type (st_data (pp_sensor (c_pre c1))) <> LOCATION /\
      pp_signal (c_pre c1) = pp_signal (c_pre c) /\ ou_last (c_outd c1) = ou_last (c_outd c)).
    { destruct b as [|m b]; [injection Ha as <- <-; auto|].
      rewrite navigate_process in Ha by discriminate.
      eapply mute_process with (c := clear_states c); [exact Hw|exact Hl|exact Hp|exact Ht|exact (accepted_forall Hs1)|exact Ha]. }
    destruct E as (E1 & E2 & E3 & E4 & E5).
    destruct (IH c1 c2 o2 Hw Hl) as (E6 & E7); [congruence|exact E3| |exact Ha0|].
    + eapply Forall_impl; [|exact Hs2]. intros x X. eapply Forall_impl; [|exact X].
      intros y [[Y1 Y2] [Y3 Y4]]. repeat split; auto; [rewrite E4|rewrite E5]; assumption.
    + rewrite E1 in *. split; [exact E6|constructor; assumption].
Qed.

(** C10 *)
Lemma motion_time fuel (s : settings F) sf sm ts sf' mi : sf_step fuel s sf sm ts = Ok (sf', mi) ->
  @mi_lastTs F mi = 0%Z \/ mi_lastTs mi = ts.
Proof.
  intros H. unfold sf_step in H. inv_bind H. inv_bind Hb. destruct a0 as [pd st]. inv_bind Hb0.
  destruct (if s_calcaz s then _ else _) as [az azv]. destruct st; injection Hb as <- <-; cbn; auto.
Qed.
Lemma drop_noaction s z cur sig mot lid : (0 < s_noaction s)%Z -> (0 < z)%Z -> mot = 0%Z \/ mot = cur ->
  drop_level (with_noaction s z) cur sig mot lid = @drop_level F s cur sig mot lid.
Proof.
  intros H1 H2 Hm. unfold drop_level. cbn [s_nosignal s_noaction with_noaction].
  assert (E : forall y, (0 < y)%Z -> (1000 * y <=? cur - sig)%Z && (1000 * y <=? cur - mot)%Z && (0 <? mot)%Z = false).
  { intros y Hy. destruct Hm as [-> | ->]; [rewrite andb_false_r; reflexivity|].
    destruct (Z.leb_spec (1000 * y) (cur - cur)); [lia|]. rewrite andb_false_r; reflexivity. }
  rewrite !E by assumption. reflexivity.
Qed.
Definition config_noaction (k : config F) (z : Z) : config F :=
  mkConfig (with_noaction (cf_set k) z) (cf_col k) (cf_buf k) (cf_post k) (cf_kt k).
Lemma na_update s z (col : collector F) p m :
  update_measurements (with_noaction s z) col p m = update_measurements s col p m.
Proof. destruct s; reflexivity. Qed.
Lemma na_sf fuel (s : settings F) z sf sm ts : sf_step fuel (with_noaction s z) sf sm ts = sf_step fuel s sf sm ts.
Proof. destruct s; reflexivity. Qed.
Lemma na_extract s z bc (col : collector F) p ls :
  extract_radio (with_noaction s z) bc col p ls = extract_radio s bc col p ls.
Proof. destruct s; reflexivity. Qed.
Lemma na_detect k z rs : detect (config_noaction k z) rs = detect k rs.
Proof. destruct k as [s ? ? ? ?]; destruct s; reflexivity. Qed.
Lemma na_outdoor s z (col : collector F) o ts sm n fl :
  outdoor_position (with_noaction s z) col o ts sm n fl = outdoor_position s col o ts sm n fl.
Proof. destruct s; reflexivity. Qed.
Lemma na_indoor k z mp l ts rs : indoor (config_noaction k z) mp l ts rs = indoor k mp l ts rs.
Proof. destruct k as [s ? ? ? ?]; destruct s; reflexivity. Qed.
Lemma na_fuse (s : settings F) z o ts pin pout st :
  fuse_positions (with_noaction s z) o ts pin pout st = fuse_positions s o ts pin pout st.
Proof. destruct s; reflexivity. Qed.
Lemma na_processed (s : settings F) z pcf o f ts lm l :
  processed (with_noaction s z) pcf o f ts lm l = processed s pcf o f ts lm l.
Proof. destruct s; reflexivity. Qed.
Lemma na_locate k z c ts lid rs outp mi : locate (config_noaction k z) c ts lid rs outp mi = locate k c ts lid rs outp mi.
Proof.
  unfold locate. cbn [cf_set cf_col cf_post config_noaction]. destruct (has_level _ _); [|reflexivity].
  destruct (get_level _ _) as [l| | |]; cbn [bind]; [|reflexivity..]. rewrite na_indoor.
  destruct (indoor _ _ _ _ _) as [[kn [st inp]]| | |]; cbn [bind]; [|reflexivity..].
  rewrite na_fuse. destruct (fuse_positions _ _ _ _ _ _) as [po f].
  destruct (heading_step _ _ _ _) as [[[[az azv] ph] pg]| | |]; cbn [bind]; [|reflexivity..].
  rewrite na_processed. reflexivity.
Qed.
Lemma na_output e k z p st az (rs : list (radio F)) : output e (config_noaction k z) p st az rs = output e k p st az rs.
Proof. destruct k as [s ? ? ? ?]; destruct s; reflexivity. Qed.
Lemma noaction_step e k z c m : (0 < s_noaction (cf_set k))%Z -> (0 < z)%Z ->
  nav_step e (config_noaction k z) c m = nav_step e k c m.
Proof.
  intros H1 H2. unfold nav_step. cbn [cf_set cf_col cf_buf config_noaction]. rewrite na_update.
  destruct (update_measurements _ _ _ _) as [pre| | |]; cbn [bind]; [|reflexivity..]. rewrite na_sf.
  destruct (sf_step _ _ _ _ _) as [[sf mi]| | |] eqn:E; cbn [bind]; [|reflexivity..].
  apply motion_time in E. rewrite na_extract.
  destruct (extract_radio _ _ _ _ _) as [[pre1 rs]| | |]; cbn [bind]; [|reflexivity..]. rewrite na_detect.
  destruct (detect _ _) as [det| | |]; cbn [bind]; [|reflexivity..].
  change (s_baro (with_noaction (cf_set k) z)) with (s_baro (cf_set k)).
  destruct (level_step _ _ _ _) as [lev lid]. rewrite na_outdoor.
  destruct (outdoor_position _ _ _ _ _ _ _) as [[outd outp]| | |]; cbn [bind]; [|reflexivity..].
  rewrite drop_noaction by assumption. rewrite na_locate.
  destruct (locate _ _ _ _ _ _ _) as [oc| | |]; cbn [bind]; [|reflexivity..]. rewrite na_output. reflexivity.
Qed.
Lemma noaction_loop e k z ms : (0 < s_noaction (cf_set k))%Z -> (0 < z)%Z -> forall c prev,
  nav_loop e (config_noaction k z) c prev ms = nav_loop e k c prev ms.
Proof.
  intros H1 H2. induction ms as [|m ms IH]; intros c prev; [reflexivity|]. cbn [nav_loop].
  destruct (_ <? _)%Z; [apply IH|]. rewrite noaction_step by assumption.
  destruct (nav_step e k c m) as [[c1 o]| | |]; cbn [bind]; try reflexivity. rewrite IH. reflexivity.
Qed.
Lemma noaction_history e k z bs : (0 < s_noaction (cf_set k))%Z -> (0 < z)%Z -> forall c,
  navigate_all e (config_noaction k z) c bs = navigate_all e k c bs.
Proof.
  intros H1 H2. induction bs as [|b bs IH]; intros c; [reflexivity|]. cbn [navigate_all].
  assert (E : navigate e (config_noaction k z) c b = navigate e k c b).
  { destruct b as [|m b]; [reflexivity|]. unfold navigate. apply noaction_loop; assumption. }
  rewrite E. destruct (navigate e k c b) as [[c1 o]| | |]; cbn [bind]; try reflexivity. rewrite IH. reflexivity.
Qed.
Lemma mk_config_noaction s (col : collector F) z :
  mk_config (with_noaction s z) col = (k <- mk_config s col ;; Ok (config_noaction k z)).
Proof.
  unfold mk_config. change (is_knn (with_noaction s z)) with (is_knn s).
  change (zone_tables (with_noaction s z) col) with (zone_tables s col).
  destruct (if is_knn s then Ok [] else zone_tables s col) as [zt| | |]; cbn [bind]; try reflexivity.
  destruct (if is_knn s then triangulate col else Ok []) as [tr| | |]; cbn [bind]; try reflexivity.
  change (buffer_config (with_noaction s z)) with (buffer_config s).
  destruct (buffer_config s) as [bc| | |]; cbn [bind]; try reflexivity.
  change (post_config (with_noaction s z)) with (post_config s).
  destruct (post_config s) as [pc| | |]; cbn [bind]; reflexivity.
Qed.

(** C11 *)
Lemma rejected_step e k c m m' : wf_collector (cf_col k) -> same_but_rejected (cf_set k) (cf_col k) m m' ->
  nav_step e k c m = nav_step e k c m'.
Proof.
  intros Hw [->|(Ht & (r & Er & Hr) & (r' & Er' & Hr'))]; [reflexivity|].
  destruct m as [d ts], m' as [d' ts']. cbn [st_data st_ts] in *. subst.
  assert (E : update_measurements (cf_set k) (cf_col k) (c_pre c) (mkSt (MRadio r) ts') =
              update_measurements (cf_set k) (cf_col k) (c_pre c) (mkSt (MRadio r') ts')).
  { destruct (valid_signal_spec (cf_set k) r Hw) as (v & Ev & Hv).
    destruct (valid_signal_spec (cf_set k) r' Hw) as (v' & Ev' & Hv').
    unfold update_measurements. cbn [st_data st_ts]. rewrite Ev, Ev'.
    destruct v; [exfalso; tauto|]. destruct v'; [exfalso; tauto|]. reflexivity. }
  unfold nav_step. rewrite E. reflexivity.
Qed.
Lemma same_ts s (col : collector F) m m' : same_but_rejected s col m m' -> st_ts m = st_ts m'.
Proof. intros [->|(E & _)]; congruence. Qed.
Lemma rejected_loop e k ms ms' : wf_collector (cf_col k) -> Forall2 (same_but_rejected (cf_set k) (cf_col k)) ms ms' ->
  forall c prev, nav_loop e k c prev ms = nav_loop e k c prev ms'.
Proof.
  intros Hw. induction 1 as [|m m' ms ms' Hm _ IH]; intros c prev; [reflexivity|].
  cbn [nav_loop]. rewrite (same_ts Hm), (rejected_step e k c Hw Hm), IH.
  destruct (_ <? _)%Z; [reflexivity|]. destruct (nav_step e k c m') as [[c1 o]| | |]; cbn [bind]; try reflexivity.
  rewrite IH. reflexivity.
Qed.
Lemma rejected_history e k bs bs' : wf_collector (cf_col k) ->
  Forall2 (Forall2 (same_but_rejected (cf_set k) (cf_col k))) bs bs' ->
  forall c, navigate_all e k c bs = navigate_all e k c bs'.
Proof.
  intros Hw. induction 1 as [|b b' bs bs' Hb _ IH]; intros c; [reflexivity|].
  cbn [navigate_all].
  assert (E : navigate e k c b = navigate e k c b').
  { destruct Hb as [|m m' ms ms' Hm Hms]; [reflexivity|]. unfold navigate. rewrite (same_ts Hm).
    apply rejected_loop; [exact Hw|]. constructor; assumption. }
  rewrite E. destruct (navigate e k c b') as [[c1 o]| | |]; cbn [bind]; try reflexivity. rewrite IH. reflexivity.
Qed.

(** C12 *)
Lemma first_update s (col : collector F) (bf : buffer F) (cu : Z) g m p' :
  update_measurements s col (mkPre bf cu (g_signal g) (g_sensor g) (g_nmea g)) m = Ok p' ->
  (pp_signal p' = g_signal g /\ pp_sensor p' = g_sensor g) \/
  (pp_signal p' = g_signal g /\ pp_nmea p' = g_nmea g) \/
  (pp_sensor p' = g_sensor g /\ pp_nmea p' = g_nmea g).
Proof.
  unfold update_measurements. destruct (st_data m) as [r|d|d]; intros H.
  - inv_bind H. destruct a; injection Hb as <-; cbn; auto.
  - injection H as <-; cbn; auto.
  - injection H as <-; cbn; auto.
Qed.
End Loop.
