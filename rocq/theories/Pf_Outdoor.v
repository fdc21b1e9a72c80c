(** Proofs of C26-C30. *)
From Coq Require Import Reals Lra.
From Verif Require Import Lib LibR NumOrd NumReal Estimators Client Spec_Preproc Spec_Client Spec_Outdoor
  Pf_Preproc Pf_Client Pf_ClientInv Pf_ClientThrow Pf_ClientTop.
Set Implicit Arguments.

(** * Sigma filter *)
Lemma lastn_length A n (l : list A) : List.length (lastn n l) = Nat.min n (List.length l).
Proof. unfold lastn. rewrite skipn_length. lia. Qed.
Lemma lastn_all A n (l : list A) : (List.length l <= n)%nat -> lastn n l = l.
Proof. intros H. unfold lastn. replace (List.length l - n)%nat with 0%nat by lia. reflexivity. Qed.
Lemma tl_skipn A k (l : list A) : tl (skipn k l) = skipn (S k) l.
Proof. revert l; induction k as [|k IH]; intros [|x l]; try reflexivity. cbn [skipn]. rewrite IH. reflexivity. Qed.
Lemma lastn_snoc A n (l : list A) x : (1 <= n)%nat -> lastn n (l ++ [x]) =
  if Nat.eqb (List.length (lastn n l)) n then tl (lastn n l) ++ [x] else lastn n l ++ [x].
Proof.
  intros Hn. rewrite lastn_length. unfold lastn. rewrite app_length. cbn [List.length].
  destruct (Nat.eqb_spec (Nat.min n (List.length l)) n) as [E|E].
  - rewrite tl_skipn, skipn_app.
    replace (List.length l + 1 - n)%nat with (S (List.length l - n)) by lia.
    replace (S (List.length l - n) - List.length l)%nat with 0%nat by lia. reflexivity.
  - replace (List.length l + 1 - n)%nat with 0%nat by lia. replace (List.length l - n)%nat with 0%nat by lia. reflexivity.
Qed.

Lemma fsum_xy (f : XY RX -> RX) (g : R * R -> R) l : (forall p, f (rxy p) = Some (g p)) ->
  fsum f (map rxy l) = Some (rsum (map g l)).
Proof.
  intros H. unfold fsum. rewrite rx_f0. rewrite <- (Rplus_0_l (rsum (map g l))). generalize 0%R.
  induction l as [|p l IH]; intros s; cbn [map fold_left]; [rewrite rsum_nil; f_equal; lra|].
  rewrite H, rx_add, IH, rsum_cons. f_equal; lra.
Qed.
Lemma rvar_nonneg l : (0 <= rvar l)%R.
Proof.
  unfold rvar. destruct l as [|x l]; [cbn; rewrite rsum_nil; unfold Rdiv; rewrite Rmult_0_l; lra|].
  apply Rmult_le_pos.
  - apply rsum_nonneg. intros y Hy. apply in_map_iff in Hy. destruct Hy as (z & <- & _). apply Rle_0_sqr.
  - left. apply Rinv_0_lt_compat. apply lt_0_INR. cbn; lia.
Qed.
Definition within_b (delta : R) (l : list R) (x : R) : bool := Rleb (Rabs (rmean l - x)) (3 * sqrt (rvar l) + delta).
Lemma within_b_spec delta l x : within_b delta l x = true <-> within delta l x.
Proof. unfold within_b, within. rewrite Rleb_true, Rabs_minus_sym. tauto. Qed.

Lemma sigma_add_real n delta (w : list (R * R)) p : (1 <= n)%nat ->
  sigma_add n (Some delta : RX) (map rxy w) (rxy p) =
  if Nat.eqb (List.length w) n
  then (map rxy (tl w ++ [p]), within_b delta (map fst w) (fst p) && within_b delta (map snd w) (snd p))
  else (map rxy (w ++ [p]), false).
Proof.
  intros Hn. unfold sigma_add. rewrite map_length. destruct (Nat.eqb_spec (List.length w) n) as [E|E].
  - assert (Hp : (0 < INR n)%R) by (apply lt_0_INR; lia).
    assert (Hn0 : INR n <> 0%R) by lra.
    rewrite (@fsum_xy (@px RX) fst) by reflexivity. rewrite (@fsum_xy (@py RX) snd) by reflexivity.
    rewrite fofnat_real, !rx_div by exact Hn0.
    replace (rsum (map fst w) / INR n)%R with (rmean (map fst w)) by (unfold rmean; rewrite map_length, E; reflexivity).
    replace (rsum (map snd w) / INR n)%R with (rmean (map snd w)) by (unfold rmean; rewrite map_length, E; reflexivity).
    rewrite (@fsum_xy _ (fun q => (fst q - rmean (map fst w)) * (fst q - rmean (map fst w)))%R) by reflexivity.
    rewrite (@fsum_xy _ (fun q => (snd q - rmean (map snd w)) * (snd q - rmean (map snd w)))%R) by reflexivity.
    rewrite !rx_div by exact Hn0.
    assert (V : forall g, (rsum (map (fun q : R * R => (g q - rmean (map g w)) * (g q - rmean (map g w))) w) / INR n)%R = rvar (map g w)).
    { intros g. unfold rvar. rewrite map_map, map_length, E. reflexivity. }
    rewrite (V fst), (V snd).
    rewrite !rx_sqrt by apply rvar_nonneg. rewrite rx_ofZ.
    rewrite map_app. f_equal. destruct w; reflexivity.
  - rewrite map_app. reflexivity.
Qed.

Lemma sigma_run_real n delta ps : (1 <= n)%nat -> forall done,
  exists oks, sigma_run n (Some delta : RX) (map rxy (lastn n done)) (map rxy ps) = (map rxy (lastn n (done ++ ps)), oks) /\
  List.length oks = List.length ps /\
  forall i p ok, nth_error ps i = Some p -> nth_error oks i = Some ok ->
    (ok = true <-> (n <= List.length done + i)%nat /\
       within delta (map fst (lastn n (done ++ firstn i ps))) (fst p) /\
       within delta (map snd (lastn n (done ++ firstn i ps))) (snd p)).
Proof.
  intros Hn. induction ps as [|p ps IH]; intros done.
  - exists []. cbn. rewrite app_nil_r. split; [reflexivity|]. split; [reflexivity|]. intros [|i] ? ? H; discriminate.
  - cbn [map sigma_run]. rewrite sigma_add_real by exact Hn.
    destruct (IH (done ++ [p])) as (oks & E & L & H). rewrite lastn_snoc in E by exact Hn.
    rewrite <- app_assoc in E. cbn [app] in E.
    destruct (Nat.eqb_spec (List.length (lastn n done)) n) as [En|En]; rewrite E; eexists; (split; [reflexivity|]);
      (split; [cbn; rewrite L; reflexivity|]); intros [|i] q ok Hq Hok; cbn [nth_error firstn] in *.
    + injection Hq as <-. injection Hok as <-. rewrite app_nil_r, andb_true_iff, !within_b_spec.
      rewrite lastn_length in En. split; [intros [A B]; split; [lia|auto]|intros [_ A]; exact A].
    + specialize (H i q ok Hq Hok). rewrite <- app_assoc in H. cbn [app] in H. rewrite H, app_length. cbn [List.length].
      split; intros (A & B); (split; [lia|exact B]).
    + injection Hq as <-. injection Hok as <-. rewrite lastn_length in En. split; [discriminate|]. intros [A _]. lia.
    + specialize (H i q ok Hq Hok). rewrite <- app_assoc in H. cbn [app] in H. rewrite H, app_length. cbn [List.length].
      split; intros (A & B); (split; [lia|exact B]).
Qed.

Section Out.
Context {F : Type} {NF : Num F} {SO : Sorter}.
Implicit Types (s : settings F) (c : collector F) (o : outdoor F) (x : ocall F).

Lemma gps_on_level_spec s la lo (l : level F) :
  gps_on_level s la lo l = true <-> s_gpsoutside s = true \/ gnss_inside la lo l.
Proof.
  unfold gps_on_level, gnss_inside, covered_by_box. cbv zeta. rewrite orb_true_iff, !andb_true_iff, !negb_true_iff. tauto.
Qed.
Lemma find_split A (f : A -> bool) l (x : A) : find f l = Some x ->
  exists b a, l = b ++ x :: a /\ f x = true /\ Forall (fun y => f y = false) b.
Proof.
  induction l as [|y l IH]; cbn; [discriminate|]. destruct (f y) eqn:E; intros H.
  - injection H as ->. exists [], l. auto.
  - destruct (IH H) as (b & a & -> & H1 & H2). exists (y :: b), a. auto.
Qed.

(** the three possible outcomes of a call *)
Lemma outdoor_cases s c o x o' p :
  outdoor_position s c o (ca_ts x) (ca_sensor x) (ca_nmea x) (ca_indoor x) = Ok (o', p) ->
  (s_type (st_data (ca_sensor x)) <> LOCATION /\ ou_last o' = ou_last o /\
     p = (if s_gpsvalid s <! (fofZ (ca_ts x - p_ts (ou_last o)) /! fofZ 1000) then pos0 else ou_last o)) \/
  (s_type (st_data (ca_sensor x)) = LOCATION /\ ou_last o' = ou_last o /\ p = pos0) \/
  (ou_last o' = p /\ fix_of s c x p).
Proof.
  unfold outdoor_position, gps_of. destruct (ca_sensor x) as [[ty v] sts] eqn:Es. cbn [st_data s_type s_val].
  assert (Hl : forall b : bool, ou_last (if b then mkOutd (ou_last o) [] else o) = ou_last o) by (intros []; reflexivity).
  cbv zeta. intros H.
  destruct ty.
  1-4,6: left; rewrite Hl in H; (split; [discriminate|]);
    match type of H with (if ?b then _ else _) = _ => destruct b end; injection H as <- <-; (split; [apply Hl|reflexivity]).
  right. cbn [s_type s_val] in H.
  destruct (find _ (col_levels c)) as [l|] eqn:Ef.
  - inv_bind H. destruct a as [buf valid].
    destruct (negb valid || _) eqn:Ev; injection Hb as <- <-.
    + left. split; [reflexivity|]. split; [|reflexivity]. apply Hl.
    + right. split; [reflexivity|]. destruct (find_split _ _ Ef) as (bf & af & E1 & E2 & E3).
      exists (vx v), (vy v), (vz v), bf, l, af. rewrite Es. cbn.
      split; [destruct v; reflexivity|]. split; [exact E1|].
      split; [apply gps_on_level_spec, E2|].
      split.
      { eapply Forall_impl; [|exact E3]. intros l' Hl'. cbv beta in Hl'. split.
        - destruct (s_gpsoutside s) eqn:E; [|reflexivity]. assert (X := proj2 (gps_on_level_spec s (vx v) (vy v) l')). rewrite X in Hl' by auto. discriminate.
        - intros A. assert (X := proj2 (gps_on_level_spec s (vx v) (vy v) l')). rewrite X in Hl' by auto. discriminate. }
      split; [reflexivity|]. auto 10.
  - injection H as <- <-. left. split; [reflexivity|]. split; [apply Hl|reflexivity].
Qed.

(** ** C27 *)
Lemma provenance s c cs : forall o o' ps, outdoor_run s c o cs = Ok (o', ps) ->
  List.length ps = List.length cs /\
  forall i p x, nth_error ps i = Some p -> nth_error cs i = Some x -> p_empty p = false ->
    fix_of s c x p \/
    (s_type (st_data (ca_sensor x)) <> LOCATION /\
     (s_gpsvalid s <! (fofZ (ca_ts x - p_ts p) /! fofZ 1000)) = false /\
     (p = ou_last o \/ exists j y, (j < i)%nat /\ nth_error cs j = Some y /\ fix_of s c y p /\ nth_error ps j = Some p)).
Proof.
  induction cs as [|x cs IH]; intros o o' ps H; cbn [outdoor_run] in H.
  - injection H as <- <-. split; [reflexivity|]. intros [|i] ? ? E; discriminate.
  - inv_bind H. destruct a as [o1 p1]. inv_bind Hb. destruct a as [o2 ps2]. injection Hb0 as <- <-.
    destruct (IH _ _ _ Ha0) as [L H]. split; [cbn; rewrite L; reflexivity|].
    intros [|i] p y Hp Hy Hn; cbn [nth_error] in *.
    + injection Hp as <-. injection Hy as <-. destruct (outdoor_cases _ _ _ _ Ha) as [(A & B & C)|[(A & B & C)|[A B]]].
      * right. split; [exact A|]. destruct (s_gpsvalid s <! _) eqn:E; [subst p1; discriminate|]. subst p1. auto.
      * subst p1; discriminate.
      * left; exact B.
    + destruct (H i p y Hp Hy Hn) as [A|(A & B & [C|(j & z & C1 & C2 & C3 & C4)])]; [left; exact A|right|right].
      * split; [exact A|]. split; [exact B|]. destruct (outdoor_cases _ _ _ _ Ha) as [(_ & E & _)|[(_ & E & _)|[E1 E2]]].
        -- left. congruence.
        -- left. congruence.
        -- right. exists 0%nat, x. cbn. split; [lia|]. split; [reflexivity|]. rewrite E1 in C. subst p. auto.
      * split; [exact A|]. split; [exact B|]. right. exists (S j), z. cbn. split; [lia|auto].
Qed.
Lemma dev_bound {NO : NumOrd F} (a b : F) : (fmax a b <! b) = false.
Proof. unfold fmax. destruct (a <! b) eqn:E; [apply flt_irrefl|exact E]. Qed.

(** ** C26: buffer *)
Lemma sigma_add_len win (d : F) buf p : (1 <= win)%nat -> (List.length buf <= win)%nat ->
  (List.length (fst (sigma_add win d buf p)) <= win)%nat.
Proof.
  intros Hw Hb. unfold sigma_add. destruct (Nat.eqb_spec (List.length buf) win) as [E|E]; cbn [fst]; rewrite app_length; cbn [List.length].
  - destruct buf; cbn in *; lia.
  - lia.
Qed.
Lemma outdoor_buf s c o ts m n fl o' p : outdoor_position s c o ts m n fl = Ok (o', p) ->
  (List.length (ou_buf o) <= s_sigmawin s)%nat -> (List.length (ou_buf o') <= s_sigmawin s)%nat.
Proof.
  unfold outdoor_position. cbv zeta. intros H Hb.
  match type of H with context [if ?b then mkOutd (ou_last o) [] else o] => set (o1 := if b then mkOutd (ou_last o) [] else o) in * end.
  assert (Hb1 : (List.length (ou_buf o1) <= s_sigmawin s)%nat) by (subst o1; match goal with |- context [if ?b then _ else _] => destruct b end; cbn; lia).
  clearbody o1. destruct (gps_of s m) as [[[la lo] dv]|].
  - destruct (find _ (col_levels c)) as [l|]; [|injection H as <- <-; exact Hb1].
    inv_bind H. destruct a as [buf valid].
    assert (Hl : (List.length buf <= s_sigmawin s)%nat).
    { destruct (negb _ && s_sigma s); [|injection Ha as <- <-; exact Hb1].
      destruct (Nat.eqb_spec (List.length (ou_buf o1)) (s_sigmawin s)) as [E|E]; cbn [andb] in Ha.
      - destruct (Nat.eqb_spec (List.length (ou_buf o1)) 0) as [E0|E0]; [discriminate|].
        assert (A := sigma_add_len (s_sigmadelta s) (ou_buf o1) (gps_to_local (mkGeo la lo) (l_bind l)) (win := s_sigmawin s)).
        injection Ha as Ha. rewrite Ha in A. apply A; lia.
      - assert (A := sigma_add_len (s_sigmadelta s) (ou_buf o1) (gps_to_local (mkGeo la lo) (l_bind l)) (win := s_sigmawin s)).
        injection Ha as Ha. rewrite Ha in A. apply A; lia. }
    destruct (negb valid || _); injection Hb0 as <- <-; exact Hl.
  - match type of H with (if ?b then _ else _) = _ => destruct b end; injection H as <- <-; exact Hb1.
Qed.
Lemma buf_reachable e k (cl : client F) : reachable e k cl ->
  (List.length (ou_buf (c_outd cl)) <= s_sigmawin (cf_set k))%nat.
Proof.
  intros (g & bs & os & H).
  eapply (@history_ind F NF SO e k (fun c : client F => List.length (ou_buf (c_outd c)) <= s_sigmawin (cf_set k))%nat (fun _ => True));
    [| | |exact H]; cbn.
  - intros c0 l Hc. exact Hc.
  - intros c0 m c1 o Hc Hs. split; [|trivial].
    destruct (nav_step_inv _ _ _ _ Hs) as (pre & sf & mi & pre1 & rs & det & lev & lid & outd & outp & oc & ns
      & H1 & H2 & H3 & H4 & H5 & H6 & H7 & H8 & ->). cbn. eapply outdoor_buf; eassumption.
  - lia.
Qed.
(** window 0 *)
Lemma window_zero s c o ts m n fl la lo acc l : s_sigma s = true -> s_sigmawin s = 0%nat ->
  ou_buf o = [] -> ts <> p_ts (ou_last o) -> st_data m = mkSensor LOCATION (mkV la lo acc) ->
  In l (col_levels c) -> (s_gpsoutside s = true \/ gnss_inside la lo l) ->
  outdoor_position s c o ts m n fl = UB.
Proof.
  intros H1 H2 H3 H4 H5 H6 H7. unfold outdoor_position, gps_of. rewrite H5. cbn [s_type s_val vx vy vz]. cbv zeta.
  assert (Hl : forall b : bool, ou_last (if b then mkOutd (ou_last o) [] else o) = ou_last o) by (intros []; reflexivity).
  assert (Hb : forall b : bool, ou_buf (if b then mkOutd (ou_last o) [] else o) = []) by (intros []; [reflexivity|exact H3]).
  rewrite Hl, Hb, H1, H2. apply Z.eqb_neq in H4. rewrite H4. cbn [negb andb List.length Nat.eqb].
  destruct (find _ (col_levels c)) eqn:E; [reflexivity|].
  apply find_none with (x := l) in E; [|exact H6]. apply gps_on_level_spec in H7. congruence.
Qed.
End Out.
