(** C103, C104: the example and test programs of the stand-alone algorithms. *)
From Coq Require Import Reals Lra Lia Sorted Permutation String.
From Verif Require Import Lib NumOrd NumReal NumFloat LibR SortInst SaPos Spec_SaPos SaPed SaTrilat Spec_SaTrilat Pf_SaTrilat SaDemo Spec_SaDemo Pf_SaDemo Ex P_SaPos P_SaTrilat.
Local Open Scope string_scope.
Local Open Scope list_scope.
#[local] Existing Instance nf.
#[local] Existing Instance isorter.
Local Notation x2 x := (Some x : RX).

(** ** C103: position_estimation/examples/main.cpp *)
(** for any two files, damaged anywhere: one line at most per measurement but
    the first, in the order of time, each with coordinates, a precision between
    1 m and 21.1 m and the time of an accepted measurement of a known transmitter *)
Theorem C103_positions {SO : Sorter} (c : sapcfg) txf msf (txs : list (txline RX)) lines :
  readable txf txs -> readable msf lines -> (0 < sc_shift (sp_buf c))%Z ->
  Forall (fun q => let '(_, x, y, _) := q in exists X Y, x = x2 X /\ y = x2 Y) txs ->
  Forall (fun q => (0 <= fst (fst (fst q)))%Z) lines ->
  exists out, position_main c txf msf = Ok out /\ (List.length out <= Nat.pred (List.length lines))%nat /\
    StronglySorted (fun a b => (sa_ts a <= sa_ts b)%Z) out /\
    Forall (fun p => exists X Y d q, p = mkSapos (x2 X) (x2 Y) (x2 d) false (fst (fst (fst q))) /\ (1 < d < 1 + exp 3)%R /\
      In q lines /\ usable c txs q) out.
Proof.
  intros R1 R2 Hs Hx Ht. destruct (@position_run SO c txf msf txs lines R1 R2 Hs Hx Ht) as (out & E & HW & HS & HL).
  exists out. split; [exact E|]. split; [exact HL|]. split; [exact HS|]. eapply Forall_impl; [|exact HW].
  intros p (X & Y & d & Ep & Hd & (q & Q1 & Q2 & Q3) & _). exists X, Y, d, q. rewrite <- Q3. auto.
Qed.
Print Assumptions C103_positions.

(** when all accepted measurements of known transmitters name transmitters at
    one place, every line has exactly that place *)
Theorem C103_one_place {SO : Sorter} (c : sapcfg) txf msf (txs : list (txline RX)) lines U V out :
  readable txf txs -> readable msf lines -> (0 < sc_shift (sp_buf c))%Z ->
  Forall (fun q => let '(_, x, y, _) := q in exists X Y, x = x2 X /\ y = x2 Y) txs ->
  Forall (fun q => (0 <= fst (fst (fst q)))%Z) lines ->
  (forall ts id rssi ty x y, In (ts, id, rssi, ty) lines -> heard c (ts, id, rssi, ty) -> placed txs id x y -> x = x2 U /\ y = x2 V) ->
  position_main c txf msf = Ok out -> Forall (fun p => sa_x p = x2 U /\ sa_y p = x2 V) out.
Proof.
  intros R1 R2 Hs Hx Ht HO E. destruct (@position_run SO c txf msf txs lines R1 R2 Hs Hx Ht) as (out' & E' & HW & _).
  rewrite E in E'. apply Pf_Radio.Ok_inj in E'. subst out'. eapply Forall_impl; [|exact HW].
  intros p (X & Y & d & Ep & _ & _ & H). destruct (H U V HO) as [<- <-]. rewrite Ep. split; reflexivity.
Qed.
Print Assumptions C103_one_place.

(** a line that cannot be read hides everything after it, in all three readers *)
Theorem C103_cut {F} {NF : Num F} {SO : Sorter} (c : sapcfg) txf msf r1 r2 (first : option (Z * vec3 F)) acc r3 :
  position_main c (txf ++ None :: r1) (msf ++ None :: r2) = position_main c txf msf /\
  pedometer_main (first :: acc ++ None :: r3) = pedometer_main (None :: acc).
Proof.
  assert (C : forall A (l r : list (option A)), read_lines (l ++ None :: r) = read_lines l)
    by (intros A l r; induction l as [|[a|] l IH]; cbn [app read_lines]; [|rewrite IH|]; reflexivity).
  unfold position_main, demo_txs, demo_meas, pedometer_main. cbn [tl]. rewrite !C. auto.
Qed.
Print Assumptions C103_cut.

(** a damaged pair of files *)
Definition ex_txf {F} {NF : Num F} : list (option (txline F)) :=
  [Some ("a", fofZ 3, fofZ 4, "BEACON"); Some ("b", fofZ 3, fofZ 4, "WIFI"); None; Some ("c", fofZ 9, fofZ 9, "WIFI")].
Definition ex_msf {F} {NF : Num F} : list (option (msline F)) :=
  [Some (1000%Z, "a", fofZ (-60), "BEACON"); Some (2500%Z, "b", fofZ (-70), "type=WIFI"); Some (3000%Z, "c", fofZ (-50), "WIFI");
   Some (5000%Z, "a", fofZ (-65), "BLE"); Some (5000%Z, "a", fofZ 20, "BLE"); None; Some (9000%Z, "a", fofZ (-65), "BLE")].
Example C103_example_double : match position_main ex_sap ex_txf (ex_msf (F := SF)) with
  | Ok out => map (fun p => (sa_x p, sa_y p, sa_ts p)) out = [(fofZ 3, fofZ 4, 2500%Z); (fofZ 3, fofZ 4, 2500%Z)]
  | _ => False end.
Proof. vm_compute. reflexivity. Qed.
Example C103_example : exists txs lines, readable (ex_txf (F := RX)) txs /\ readable (ex_msf (F := RX)) lines /\ (0 < sc_shift (sp_buf ex_sap))%Z /\
  Forall (fun q => let '(_, x, y, _) := q in exists X Y, x = x2 X /\ y = x2 Y) txs /\
  Forall (fun q => (0 <= fst (fst (fst q)))%Z) lines /\ List.length lines = 5%nat /\
  (forall ts id rssi ty x y, In (ts, id, rssi, ty) lines -> heard ex_sap (ts, id, rssi, ty) -> placed txs id x y -> x = x2 3 /\ y = x2 4).
Proof.
  exists (read_lines ex_txf), (read_lines ex_msf). split; [apply read_readable; reflexivity|]. split; [apply read_readable; reflexivity|].
  split; [reflexivity|]. cbn [ex_txf ex_msf read_lines]. split; [repeat (apply Forall_cons; [do 2 eexists; split; reflexivity|]); apply Forall_nil|].
  split; [repeat (apply Forall_cons; [cbn; lia|]); apply Forall_nil|]. split; [reflexivity|].
  intros ts id rssi ty x y _ _ (l1 & ty' & l2 & E & _). destruct l1 as [|q1 [|q2 [|q3 l1]]]; try discriminate E.
  - injection E as _ <- <- _. split; reflexivity.
  - injection E as _ _ <- <- _. split; reflexivity.
Qed.

(** ** C104: test_trilateration.cpp *)
(** the test accepts any coordinates *)
Theorem C104_vacuous {F} {NF : Num F} {SO : Sorter} (bs : list (beacon F)) ms s err :
  calculate (tl_fill (tl_update tl0 ms) bs) = Ok (s, err) ->
  (verdict (tl_x s) (tl_y s) err = false -> err = 28%Z \/ err = 4%Z) /\
  (~ negatives ms -> (3 <= distinct ms)%nat -> ~ nothing_known bs ms -> forall x y, verdict x y err = true).
Proof.
  intros E. pose proof (C60_codes _ _ _ E) as (H1 & H2 & H3 & _). cbn [tl_fill tl_update tl0 tl_meas tl_map] in *. unfold verdict. split.
  - destruct (Z.eqb_spec err 0) as [->|N]; [rewrite andb_false_r; discriminate|]. intros _.
    unfold calculate in E. cbn [tl_fill tl_update tl0 tl_meas tl_map tl_x tl_y] in E. unfold delete_duplicates in E. destruct (dedup _ _) as [k neg].
    destruct neg; [cbn in E; injection E as _ <-; left; reflexivity|]. destruct (Nat.ltb (List.length k) 3); [cbn in E; injection E as _ <-; right; reflexivity|].
    cbn [err_none Z.eqb negb] in E. destruct (sort_res dist_lt k) as [s0| | |]; try discriminate E. cbn [bind] in E.
    destruct (known bs s0); [injection E as _ <-; right; reflexivity|]. destruct (add_weighted _ _ _). injection E as _ <-. exfalso. apply N. reflexivity.
  - intros A B C x y. assert (err = 0%Z) as -> by tauto. rewrite andb_false_r. reflexivity.
Qed.
Print Assumptions C104_vacuous.

(** in doubles the program prints two coordinates that differ from the expected
    ones, and that the test is passed *)
Theorem C104_verdict_refuted : exists x y : SF, trilateration_main = Ok (x, y, true, 0%Z) /\
  (x =! lit 53692 1000) = false /\ (y =! lit 29977 1000) = false.
Proof. do 2 eexists. split; [vm_compute; reflexivity|]. split; [vm_compute; reflexivity|vm_compute; reflexivity]. Qed.
Print Assumptions C104_verdict_refuted.

(** what the program prints, without rounding *)
Local Open Scope R_scope.
Definition wsum (a b c : R) : R := (a / (447 / 100) + b / (1413 / 100) + c / (1585 / 100)) / (1 / (447 / 100) + 1 / (1413 / 100) + 1 / (1585 / 100)).
Theorem C104_report {SO : Sorter} : exists x y, trilateration_main = Ok (x2 x, x2 y, true, 0%Z) /\
  x = wsum (5469 / 100) (5468 / 100) (4905 / 100) /\ y = wsum (2951 / 100) (2951 / 100) (3216 / 100) /\
  536928 / 10000 < x < 536929 / 10000 /\ 299775 / 10000 < y < 299776 / 10000.
Proof.
  set (bs := test_beacons : list (beacon RX)). set (ms := test_meas : list (bmeas RX)).
  assert (G : Forall good_meas ms).
  { subst ms. unfold test_meas. repeat (apply Forall_cons; [split; [rewrite rx_lit by lra; eexists; reflexivity|]|]); try apply Forall_nil;
      (eexists; split; [cbn [bm_dist]; apply rx_lit; lra|lra]). }
  assert (B : Forall good_beacon bs).
  { subst bs. unfold test_beacons. repeat (apply Forall_cons; [split; cbn [bk_x bk_y]; rewrite rx_lit by lra; eexists; reflexivity|]); apply Forall_nil. }
  destruct (@C60_total SO (tl_fill (tl_update tl0 ms) bs)) as ((s & e) & E).
  { eapply Forall_impl; [|exact G]. intros m (_ & d & Ed & _). exists d. exact Ed. }
  assert (He : e = 0%Z).
  { apply (proj2 (proj1 (proj2 (proj2 (C60_codes _ _ _ E))))). cbn [tl_fill tl_update tl_meas tl_map]. split; [|split].
    - intros (m & Hm & Em). rewrite Forall_forall in G. destruct (G m Hm) as (_ & d & Ed & Hd). rewrite Ed, rx_f0, rx_ltb, Rltb_true in Em. lra.
    - apply Nat.leb_le. reflexivity.
    - intros N. apply (N (bk_id (hd (mkBeacon "" f0 f0) bs))); [left; reflexivity|]. eexists. split; [left|]; reflexivity. }
  subst e. destruct (@C61_position SO (tl_fill (tl_update tl0 ms) bs) s 0 0) as (k & (K1 & K2 & K3 & K4) & _ & _ & X & Y); auto.
  cbn [tl_fill tl_update tl_meas tl_map] in K3, K4.
  set (ent := fun id => if String.eqb id (bm_id (nth 0 ms (mkBm "" f0 f0))) then (447 / 100, 5469 / 100, 2951 / 100)
     else if String.eqb id (bm_id (nth 1 ms (mkBm "" f0 f0))) then (1413 / 100, 5468 / 100, 2951 / 100) else (1585 / 100, 4905 / 100, 3216 / 100)).
  assert (Hent : forall mb, In mb k -> dx mb = (fst (fst (ent (bm_id (fst mb)))), snd (fst (ent (bm_id (fst mb))))) /\
     dy mb = (fst (fst (ent (bm_id (fst mb)))), snd (ent (bm_id (fst mb))))).
  { intros [m b] Hm. rewrite Forall_forall in K4. destruct (K4 _ Hm) as ((l1 & l2 & Eb & Ei & _) & m0 & H0 & E0 & Ed). cbn [fst snd] in *.
    unfold dx, dy. cbn [fst snd]. rewrite <- Ed, <- E0. rewrite <- Ei in E0. clear Ed Ei K4 Hm. clear K1 K2 K3.
    assert (Hb : In b bs) by (rewrite Eb; apply in_or_app; right; left; reflexivity). clear Eb l1 l2.
    subst ms bs. cbn [test_meas test_beacons In] in H0, Hb.
    destruct H0 as [<-|[<-|[<-|[<-|[]]]]]; destruct Hb as [<-|[<-|[<-|[]]]]; cbn [bm_id bk_id] in E0; try discriminate E0;
      cbn [bm_id bm_dist bk_x bk_y]; rewrite !rx_lit by lra; split; reflexivity. }
  assert (P : Permutation (ids (map fst k)) (map (@bk_id RX) bs)).
  { apply NoDup_Permutation; [exact K2| |].
    - subst bs. cbn [test_beacons map bk_id]. repeat constructor; cbn [In]; intuition discriminate.
    - intros id. rewrite K3. split.
      + intros (_ & b & Hb & <-). apply in_map, Hb.
      + intros H. apply in_map_iff in H. destruct H as (b & <- & Hb). split; [|exists b; auto].
        subst bs ms. cbn [test_meas test_beacons In ids map bm_id] in *. destruct Hb as [<-|[<-|[<-|[]]]]; cbn [bk_id]; auto. }
  assert (DX : map dx k = map (fun id => (fst (fst (ent id)), snd (fst (ent id)))) (ids (map fst k)))
    by (unfold ids; rewrite !map_map; apply map_ext_in; intros mb Hmb; apply Hent, Hmb).
  assert (DY : map dy k = map (fun id => (fst (fst (ent id)), snd (ent id))) (ids (map fst k)))
    by (unfold ids; rewrite !map_map; apply map_ext_in; intros mb Hmb; apply Hent, Hmb).
  assert (I : forall f, inv_weighted (map f (ids (map fst k))) = inv_weighted (map f (map (@bk_id RX) bs))).
  { intros f. apply (Permutation_map f) in P. unfold inv_weighted. f_equal; apply rsum_perm, Permutation_map, P. }
  rewrite DX, I in X. rewrite DY, I in Y. unfold trilateration_main. fold ms bs. rewrite E. cbn [bind]. rewrite X, Y.
  exists (wsum (5469 / 100) (5468 / 100) (4905 / 100)), (wsum (2951 / 100) (2951 / 100) (3216 / 100)).
  assert (V : forall u v : RX, verdict u v 0 = true) by (intros; unfold verdict; rewrite andb_false_r; reflexivity).
  rewrite V. split.
  - f_equal. f_equal. f_equal. f_equal; f_equal; unfold inv_weighted; subst bs ent; cbn [test_beacons map bk_id fst snd]; rewrite !rsum_cons, !rsum_nil;
      unfold ms; cbn [test_meas nth bm_id]; rewrite ?String.eqb_refl; cbn [String.eqb Ascii.eqb Bool.eqb fst snd]; unfold wsum; field; lra.
  - split; [reflexivity|]. split; [reflexivity|]. unfold wsum. lra.
Qed.
Print Assumptions C104_report.
(** the beacons and the measurements of the program satisfy the hypotheses of [C104_vacuous] *)
Example C104_example : exists s, calculate (tl_fill (tl_update tl0 (test_meas : list (bmeas SF))) test_beacons) = Ok (s, 0%Z) /\
  (3 <= distinct (test_meas : list (bmeas SF)))%nat /\ verdict (tl_x s) (tl_y s) 0 = true /\ verdict (tl_x s) (tl_y s) 4 = false.
Proof.
  eexists. split; [vm_compute; reflexivity|]. split; [apply Nat.leb_le; reflexivity|]. split; [vm_compute; reflexivity|vm_compute; reflexivity].
Qed.
