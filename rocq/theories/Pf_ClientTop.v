(** The client lemmas for clients created by the constructors. *)
From Coq Require Import Reals Lra Sorted.
From Verif Require Import Lib LibR NumOrd NumReal Client Spec_Preproc Spec_Client Pf_Preproc Pf_Client Pf_ClientInv Pf_ClientThrow Pf_Angle.
Set Implicit Arguments.

(** C01 *)
Lemma ssorted_snoc l (z : Z) : (forall x, In x l -> (x <= z)%Z) -> StronglySorted Z.le l -> StronglySorted Z.le (l ++ [z]).
Proof.
  induction l as [|x l IH]; intros G S; cbn; [repeat constructor|].
  inversion_clear S. constructor; [apply IH; [intros; apply G; right|]; assumption|].
  apply Forall_app. split; [assumption|]. constructor; [apply G; left; reflexivity|constructor].
Qed.
Lemma accepted_snoc {F : Type} (b : list (measurement F)) m : accepted (b ++ [m]) =
  accepted b ++ (if existsb (fun x => st_ts m <? st_ts x)%Z b then [] else [m]).
Proof.
  unfold accepted. rewrite accepted_after_app. f_equal. cbn.
  replace (forallb (fun x => st_ts x <=? st_ts m)%Z b) with (negb (existsb (fun x => st_ts m <? st_ts x)%Z b)).
  - match goal with |- context [existsb ?f b] => destruct (existsb f b) end; reflexivity.
  - induction b as [|x b IH]; [reflexivity|]. cbn. rewrite <- IH, negb_orb, <- Z.leb_antisym. reflexivity.
Qed.
Lemma accepted_spec {F : Type} (b : list (measurement F)) m :
  accepted (b ++ [m]) = accepted b ++ (if existsb (fun x => st_ts m <? st_ts x)%Z b then [] else [m]) /\
  StronglySorted Z.le (map (@st_ts _) (accepted b)) /\
  (forall x, In x b -> exists y, In y (accepted b) /\ (st_ts x <= st_ts y)%Z).
Proof.
  split; [apply accepted_snoc|]. clear m.
  induction b as [|m b [IH1 IH2]] using rev_ind; [split; [constructor|intros x []]|].
  rewrite accepted_snoc. destruct (existsb (fun x => st_ts m <? st_ts x)%Z b) eqn:E.
  - rewrite app_nil_r. split; [exact IH1|]. intros x Hx. apply in_app_or in Hx. destruct Hx as [Hx|[<-|[]]]; [auto|].
    apply existsb_exists in E. destruct E as (y & Hy & Hl). apply Z.ltb_lt in Hl.
    destruct (IH2 y Hy) as (z & Hz & Hle). exists z. split; [exact Hz|lia].
  - assert (Hall : forall x, In x b -> (st_ts x <= st_ts m)%Z).
    { intros x Hx. apply Z.nlt_ge. intros L. assert (existsb (fun x => st_ts m <? st_ts x)%Z b = true); [|congruence].
      apply existsb_exists. exists x. split; [exact Hx|]. apply Z.ltb_lt, L. }
    split.
    + rewrite map_app. cbn. assert (G : forall x, In x (map (@st_ts _) (accepted b)) -> (x <= st_ts m)%Z).
      { intros x Hx. apply in_map_iff in Hx. destruct Hx as (y & <- & Hy). apply Hall. eapply accepted_incl; exact Hy. }
      exact (ssorted_snoc G IH1).
    + intros x Hx. apply in_app_or in Hx. destruct Hx as [Hx|[<-|[]]].
      * destruct (IH2 x Hx) as (y & Hy & L). exists y. split; [apply in_or_app; auto|exact L].
      * exists m. split; [apply in_or_app; right; left; reflexivity|lia].
Qed.

Section Top.
Context {F : Type} {NF : Num F} {SO : Sorter}.
Implicit Types (s : settings F) (gs : list (geolevel F)) (k : config F) (e : env F) (c : client F).

Lemma geo_level_id (g : geolevel F) l : local_level g = Ok l -> l_id l = gl_id g.
Proof. unfold local_level. intros H. inv_bind H. injection Hb as <-. reflexivity. Qed.
Lemma geo_levels_ids gs : forall (c c' : collector F), add_geo_levels c gs = Ok c' ->
  map (@l_id F) (col_levels c') = map (@l_id F) (col_levels c) ++ map (@gl_id F) gs.
Proof.
  induction gs as [|g gs IH]; intros c c' H; [injection H as <-; rewrite app_nil_r; reflexivity|].
  unfold add_geo_levels in *. cbn [fold_left bind] in H.
  destruct (add_geo_level c g) as [c1| | |] eqn:E;
    try (exfalso; eapply (fold_throw (@add_geo_level F NF) gs); [|exact H]; discriminate).
  rewrite (IH c1 c' H). unfold add_geo_level in E. inv_bind E. injection Hb as <-. cbn.
  rewrite map_app, <- app_assoc. cbn. rewrite (geo_level_id _ Ha). reflexivity.
Qed.
Lemma built_ids s gs k : built s gs k -> map (@l_id F) (col_levels (cf_col k)) = map (@gl_id F) gs /\ cf_set k = s.
Proof.
  intros (c & Hc & Hk). unfold mk_config in Hk. inv_bind Hk. inv_bind Hb. inv_bind Hb0. inv_bind Hb. injection Hb0 as <-.
  cbn. split; [|reflexivity]. apply (geo_levels_ids _ _ Hc).
Qed.

(** C01 *)
Lemma navigate_nth e k c b c' os i m : b <> [] -> navigate e k c b = Ok (c', os) -> nth_error (accepted b) i = Some m ->
  exists ci ci' oi, process e k (clear_states c) (firstn i (accepted b)) = Ok (ci, firstn i os) /\
    nav_step e k ci m = Ok (ci', oi) /\ nth_error os i = Some oi /\
    nth_error (c_states c') i = back (c_states ci').
Proof.
  intros Hb H Hm. rewrite navigate_process in H by exact Hb.
  exact (@process_nth F NF SO e k (accepted b) (clear_states c) c' os i m H Hm).
Qed.

(** C06 *)
Lemma level_known e s gs k c bs c' os : (f0 =! f0) = true -> built s gs k -> reachable e k c ->
  navigate_all e k c bs = Ok (c', os) ->
  Forall (Forall (fun o => o_status o = OK -> In (o_level o) (map (@gl_id F) gs))) os.
Proof.
  intros H0 Hb Hr H. destruct (built_ids Hb) as [Hi _].
  eapply Forall_impl; [|exact (report_history _ H0 Hr H)]. intros l Hl.
  eapply Forall_impl; [|exact Hl]. intros o [[_ [Ho _]]|[Ho _]] E; [|contradiction].
  rewrite <- Hi. exact Ho.
Qed.

(** C08 *)
Lemma no_signal e s gs k c m c' o : built s gs k -> NoDup (map (@gl_id F) gs) -> ~ In ""%string (map (@gl_id F) gs) ->
  nav_step e k c m = Ok (c', o) -> (1000 * s_nosignal s <= st_ts m - pp_signal (c_pre c'))%Z ->
  c_knn c' = c_knn c /\ c_post c' = c_post c /\ c_prevhead c' = c_prevhead c /\ c_prevgyro c' = c_prevgyro c /\
  exists outp, outdoor_position s (cf_col k) (c_outd c) (st_ts m) (pp_sensor (c_pre c')) (pp_nmea (c_pre c')) (c_flag c) =
    Ok (c_outd c', outp) /\ c_pos c' = if p_empty outp then c_pos c else outp.
Proof.
  intros Hb Hn He H Hs. destruct (built_sound Hb Hn He) as [S <-].
  eapply no_signal_step; [apply (sd_noempty S)|exact H|exact Hs].
Qed.

(** C09 *)
Lemma stale_built e s gs k c bs c' os : built s gs k -> NoDup (map (@gl_id F) gs) -> ~ In ""%string (map (@gl_id F) gs) ->
  p_empty (c_pos c) = false -> Forall (Forall (stale k c)) bs -> navigate_all e k c bs = Ok (c', os) ->
  p_empty (c_pos c') = false /\ Forall (Forall (fun o => o_status o = OK)) os.
Proof.
  intros Hb Hn He Hp Hs H. destruct (built_sound Hb Hn He) as [S _].
  eapply stale_history; [apply (sd_wf S)|apply (sd_noempty S)|eassumption..].
Qed.
Lemma deaf_built e s gs k c bs c' os : built s gs k -> NoDup (map (@gl_id F) gs) -> ~ In ""%string (map (@gl_id F) gs) ->
  s_type (st_data (pp_sensor (c_pre c))) <> LOCATION ->
  Forall (Forall (deaf k c)) bs -> navigate_all e k c bs = Ok (c', os) ->
  c_pos c' = c_pos c /\
  Forall (Forall (fun o => if p_empty (c_pos c) then o_status o = NO_LEVEL else same_place (cf_col k) (c_pos c) o)) os.
Proof.
  intros Hb Hn He Ht Hs H. destruct (built_sound Hb Hn He) as [S _].
  destruct (p_empty (c_pos c)) eqn:E.
  - eapply mute_history; [apply (sd_wf S)|apply (sd_noempty S)|eassumption..].
  - eapply deaf_history; [apply (sd_wf S)|apply (sd_noempty S)|eassumption..].
Qed.

(** C10 *)
Lemma noaction_built e s gs k z : (0 < s_noaction s)%Z -> (0 < z)%Z -> built s gs k ->
  exists k', built (with_noaction s z) gs k' /\
    forall c bs, navigate_all e k' c bs = navigate_all e k c bs.
Proof.
  intros Hs Hz Hb. destruct (built_ids Hb) as [_ <-]. destruct Hb as (c0 & Hc & Hk).
  exists (config_noaction k z). split.
  - exists c0. split; [exact Hc|]. rewrite mk_config_noaction, Hk. reflexivity.
  - intros c bs. apply noaction_history; assumption.
Qed.

(** C12 *)
Lemma first_call e k g m c' o : nav_step e k (client0 g (cf_set k)) m = Ok (c', o) ->
  (pp_signal (c_pre c') = g_signal g /\ pp_sensor (c_pre c') = g_sensor g) \/
  (pp_signal (c_pre c') = g_signal g /\ pp_nmea (c_pre c') = g_nmea g) \/
  (pp_sensor (c_pre c') = g_sensor g /\ pp_nmea (c_pre c') = g_nmea g).
Proof.
  intros H. destruct (nav_step_inv _ _ _ _ H) as (pre & sf & mi & pre1 & rs & det & lev & lid & outd & outp & oc & ns
    & H1 & H2 & H3 & H4 & H5 & H6 & H7 & H8 & ->). cbn [c_pre].
  destruct (extract_radio_keeps _ _ _ _ _ H3) as (E1 & E2 & E3 & E4). rewrite E2, E3, E4.
  eapply first_update. exact H1.
Qed.

(** C13 *)
Lemma azimuth_reachable e k c m c' o x : (f0 =! f0) = true -> reachable e k c -> nav_step e k c m = Ok (c', o) ->
  o_orient o = Some x -> c_flag c' = true ->
  let va := azimuth_of (cf_set k) (sf_cf (c_sf c')) in
  to_mpp (e_fuel e) (report_azimuth (cf_set k) (fst va) (snd va)) = Ok x.
Proof. intros H0 Hr H Ho Hf. apply (@orient_step F NF SO e k c m c' o x H0 (inv_reachable H0 Hr) H Ho), Hf. Qed.
End Top.

Lemma azimuth_const {SO : Sorter} (e : env RX) (k : config RX) (c : client RX) m c' o x : reachable e k c ->
  nav_step e k c m = Ok (c', o) -> o_orient o = Some x -> c_flag c' = true ->
  s_calcaz (cf_set k) = false -> azimuth_outdated (cf_conf (cf_set k)) (sf_cf (c_sf c')) = true ->
  x = Some (if s_enu (cf_set k) then 0 else PI / 2)%R.
Proof.
  intros Hr H Ho Hf Hz Hd. assert (G := @azimuth_reachable RX _ SO e k c m c' o x (f0_eqb (F := RX)) Hr H Ho Hf). cbv zeta in G.
  unfold azimuth_of in G. rewrite Hz, Hd in G. cbn [fst snd] in G.
  unfold report_azimuth in G. assert (P := PI_RGT_0).
  assert (E2 : (fpi2 : RX) = Some (PI / 2)%R) by exact (@rx_div PI 2 ltac:(lra)).
  rewrite E2 in G.
  destruct (s_enu (cf_set k)).
  - match type of G with to_mpp _ ?a = _ => replace a with (Some 0%R : RX) in G end.
    + destruct (e_fuel e) as [|n] eqn:E; [discriminate|]. rewrite <- E in G. rewrite to_mpp_in_range in G by (rewrite ?E; lia || lra).
      injection G as <-. reflexivity.
    + cbn. f_equal. lra.
  - match type of G with to_mpp _ ?a = _ => replace a with (Some (PI/2)%R : RX) in G end.
    + destruct (e_fuel e) as [|n] eqn:E; [discriminate|]. rewrite <- E in G. rewrite to_mpp_in_range in G by (rewrite ?E; lia || lra).
      injection G as <-. reflexivity.
    + cbn. f_equal. lra.
Qed.
