(** How old the signals behind a fix can be (C93). *)
From Coq Require Import Lia Sorted.
From Verif Require Import Base Num Lib LevelModel Client Spec_Preproc Spec_Client Spec_Fresh
  Pf_Level Pf_Preproc Pf_Client Pf_ClientInv Pf_ClientThrow Pf_Radio Pf_Place Pf_Radius.
Set Implicit Arguments.
Local Open Scope string_scope.
Local Open Scope list_scope.

Lemma ssorted_app_l (q r : list Z) : StronglySorted Z.le (q ++ r) -> StronglySorted Z.le q.
Proof.
  induction q as [|x q IH]; intros H; [constructor|]. cbn in H. inversion H as [|? ? H1 H2]; subst. constructor; [apply IH, H1|].
  rewrite Forall_forall in *. intros y Hy. apply H2, in_or_app. auto.
Qed.
(** histories of time-ordered logs, with the part of the log already seen *)
Lemma history_prefix {F : Type} {NF : Num F} {SO : Sorter} e (k : config F) (G : list (measurement F))
    (P : list (measurement F) -> client F -> Prop) (Q : measurement F -> noutput F -> Prop) :
  (forall a c l, P a c -> P a (with_states c l)) ->
  (forall a m b c c' o, G = a ++ m :: b -> P a c -> nav_step e k c m = Ok (c', o) -> P (a ++ [m]) c' /\ Q m o) ->
  forall bs a c c' os, G = a ++ List.concat bs -> time_sorted (List.concat bs) -> P a c -> navigate_all e k c bs = Ok (c', os) ->
  P (a ++ List.concat bs) c' /\ Forall2 Q (List.concat bs) (List.concat os).
Proof.
  intros Hs Hq.
  assert (PR : forall ms a b c c' os, G = a ++ ms ++ b -> P a c -> process e k c ms = Ok (c', os) -> P (a ++ ms) c' /\ Forall2 Q ms os).
  { induction ms as [|m ms IH]; intros a b c c' os HG Hc H; [injection H as <- <-; rewrite app_nil_r; auto|].
    cbn [process] in H. inv_bind H. destruct a0 as [c1 o1]. inv_bind Hb. destruct a0 as [c2 o2]. injection Hb0 as <- <-.
    destruct (Hq a m (ms ++ b) _ _ _ HG Hc Ha) as [E1 E2]. assert (HG' : G = (a ++ [m]) ++ ms ++ b) by (rewrite <- app_assoc; exact HG).
    destruct (IH (a ++ [m]) b _ _ _ HG' E1 Ha0) as [E3 E4]. rewrite <- app_assoc in E3. auto. }
  induction bs as [|b bs IH]; intros a c c' os HG Ht Hc H.
  - injection H as <- <-. cbn. rewrite app_nil_r. auto.
  - cbn [navigate_all] in H. inv_bind H. destruct a0 as [c1 o1]. inv_bind Hb. destruct a0 as [c2 o2]. injection Hb0 as <- <-.
    cbn [List.concat] in *.
    assert (Ht' : time_sorted b /\ time_sorted (List.concat bs)).
    { unfold time_sorted in *. rewrite map_app in Ht. split; [|apply ssorted_app_le in Ht; apply Ht].
      eapply ssorted_app_l, Ht. }
    destruct Ht' as [Ht1 Ht2].
    assert (E : P (a ++ b) c1 /\ Forall2 Q b o1).
    { destruct b as [|m b]; [injection Ha as <- <-; rewrite app_nil_r; auto|].
      rewrite ordered_batch in Ha by (try discriminate; exact Ht1).
      eapply PR; [exact HG| |exact Ha]. apply (Hs a c []), Hc. }
    destruct E as [E1 E2]. assert (HG' : G = (a ++ b) ++ List.concat bs) by (rewrite <- app_assoc; exact HG).
    destruct (IH (a ++ b) _ _ _ HG' Ht2 E1 Ha0) as [E3 E4].
    split; [rewrite app_assoc; exact E3|]. apply Forall2_app; assumption.
Qed.

Lemma same_level {F : Type} (c : collector F) l l' : wf_collector c -> In l (col_levels c) -> In l' (col_levels c) -> l_id l = l_id l' -> l = l'.
Proof.
  intros [Hn _] H1 H2 E. apply In_nth_error in H1, H2. destruct H1 as (i & H1), H2 as (j & H2).
  assert (X : nth_error (map (@l_id F) (col_levels c)) i = nth_error (map (@l_id F) (col_levels c)) j) by (rewrite !nth_error_map, H1, H2; cbn; congruence).
  rewrite NoDup_nth_error in Hn. apply Hn in X; [congruence|]. apply nth_error_Some. rewrite nth_error_map, H1. discriminate.
Qed.

Section Fresh.
Context {F : Type} {NF : Num F} {SO : Sorter}.
Context (k : config F) (G : list (measurement F)) (gap : Z).
Notation s := (cf_set k).
Notation col := (cf_col k).
Notation keep := (bc_keep (cf_buf k)).
Notation shift := (bc_shift (cf_buf k)).
Notation dead := (pc_dead (cf_post k)).
Context (HS : sound k) (HB : bare s) (Husb : bc_usestops (cf_buf k) = false).
Context (Hkeep : (0 <= keep)%Z) (Hshift : (0 < shift)%Z) (Hns : (0 < s_nosignal s)%Z) (Hna : (0 < s_noaction s)%Z).
Context (Hg1 : (gap < 1000 * s_nosignal s)%Z) (Hg2 : (gap < 1000 * s_noaction s)%Z).
Context (HT : time_sorted G) (Hpos : Forall (fun m => (0 < st_ts m)%Z) G) (Hloc : Forall (@no_location F) G).
Context (HG : never_silent s col gap G).

(** [i] was heard at [t] *)
Definition heard (i : string) (t : Z) : Prop := exists m, In m G /\ heard_from s col m i /\ st_ts m = t.
(** a place reported at [p_ts p] is that of a transmitter heard shortly before *)
Definition est (now : Z) (p : position F) : Prop := p_empty p = true \/
  (p_ts p <= now)%Z /\ exists i t l x, heard i t /\ (p_ts p - (keep + shift + gap) < t <= p_ts p)%Z /\
    In l (col_levels col) /\ In (i, x) (l_txs l) /\ p_x p = zx (t_pt x) /\ p_y p = zy (t_pt x) /\ p_level p = l_id l.

Notation buf c := (pp_buf (c_pre c)).
(** nothing heard yet *)
Definition silent (a : list (measurement F)) (c : client F) : Prop :=
  ~ Exists (a_signal s col) a /\ b_cur (buf c) = 0%Z /\ b_last (buf c) = 0%Z /\ b_ms (buf c) = [] /\ p_empty (po_in (c_post c)) = true /\ p_empty (c_pos c) = true.
Definition live (a : list (measurement F)) (c : client F) : Prop :=
  (exists m, In m a /\ a_signal s col m /\ st_ts m = b_cur (buf c)) /\
  (forall m, In m a -> a_signal s col m -> (st_ts m <= b_cur (buf c))%Z) /\ pp_signal (c_pre c) = b_cur (buf c) /\
  (b_last (buf c) <= b_cur (buf c) < b_last (buf c) + shift)%Z /\
  Forall (fun m => heard (r_id (st_data m)) (st_ts m) /\ (b_last (buf c) - keep <= st_ts m <= b_cur (buf c))%Z) (b_ms (buf c)) /\
  (exists m, In m a /\ est (st_ts m) (po_in (c_post c))) /\
  (p_empty (c_pos c) = false -> has_level col (lh_cur (le_hist (c_lev c))) = true).
Record fresh (a : list (measurement F)) (c : client F) : Prop := mkFresh {
  fr_sen : s_type (st_data (pp_sensor (c_pre c))) <> LOCATION; fr_outd : ou_last (c_outd c) = pos0;
  fr_out : p_empty (po_out (c_post c)) = true; fr_st : silent a c \/ live a c }.

(** ** Radio *)
Lemma extract_from p lm p' rs : extract_radio s (cf_buf k) col p lm = Ok (p', rs) ->
  ((b_cur (pp_buf p) - b_last (pp_buf p) < shift)%Z /\ rs = [] /\ b_ms (pp_buf p') = b_ms (pp_buf p) /\ b_last (pp_buf p') = b_last (pp_buf p) \/
   (shift <= b_cur (pp_buf p) - b_last (pp_buf p))%Z /\ (forall r, In r rs -> exists m, In m (b_ms (pp_buf p)) /\ r_id (st_data m) = r_id r) /\
   b_last (pp_buf p') = b_cur (pp_buf p) /\ forall m, In m (b_ms (pp_buf p')) -> In m (b_ms (pp_buf p)) /\ (b_cur (pp_buf p) - keep <= st_ts m)%Z) /\
  b_cur (pp_buf p') = b_cur (pp_buf p) /\ pp_signal p' = pp_signal p /\ pp_sensor p' = pp_sensor p.
Proof.
  intros H. destruct (extract_radio_keeps _ _ _ _ _ H) as (_ & K2 & K3 & _).
  unfold extract_radio in H. destruct (buffer_extract (cf_buf k) (pp_buf p) lm) as [b out] eqn:E.
  inv_bind H. rename a into sel. inv_bind Hb. injection Hb0 as E1 E2. rewrite <- E1 in *. subst a. cbn [pp_buf pp_signal pp_sensor] in *. clear E1.
  assert (Hids : forall r, In r rs -> In (r_id r) (map (@r_id F) out)).
  { assert (Hs : forall r, In r sel -> In r out).
    { destruct (s_closest s) eqn:Ec.
      - destruct (closest_spec s out Ec Ha) as (dr & P & _). intros r Hr. apply (Permutation_in _ (Permutation_sym P)), in_or_app. auto.
      - unfold closest_aps in Ha. rewrite Ec in Ha. injection Ha as <-. auto. }
    apply mapM_forall2 in Ha0. clear -Hs Ha0. induction Ha0 as [|x y l l' H H1 IH]; intros r Hr; [destruct Hr|]. destruct Hr as [<-|Hr].
    - assert (Er : r_id y = r_id x).
      { unfold set_distance in H. destruct (negb _); [|injection H as <-; reflexivity].
        destruct (find_level_by_tx _ _); [|injection H as <-; reflexivity]. inv_bind H. inv_bind Hb. injection Hb0 as <-. reflexivity. }
      rewrite Er. apply in_map, Hs. left; reflexivity.
    - apply IH; [|exact Hr]. intros q Hq. apply Hs. right; exact Hq. }
  destruct (Z.lt_ge_cases (b_cur (pp_buf p) - b_last (pp_buf p)) shift) as [T|T].
  - destruct (extract_gated (cf_buf k) (pp_buf p) lm T) as (X & _). rewrite E in X. cbn in X. subst out.
    assert (rs = []) as -> by (destruct rs as [|r rs]; [reflexivity|destruct (Hids r (or_introl eq_refl))]).
    unfold buffer_extract in E. cbv zeta in E. destruct (Z.ltb_spec (b_cur (pp_buf p) - b_last (pp_buf p)) shift); [|exfalso; clear -T H; lia].
    injection E as <-. cbn. split; [left; auto|auto].
  - assert (Hr : forall r, In r rs -> exists m, In m (b_ms (pp_buf p)) /\ r_id (st_data m) = r_id r).
    { intros r Hr. apply Hids in Hr. destruct (extract_averages (cf_buf k) (pp_buf p) lm T) as (_ & Ha2 & _). rewrite E in Ha2. cbn [snd] in Ha2.
      apply Ha2, Hr. }
    assert (Ei := buffer_incl (cf_buf k) (pp_buf p) lm). rewrite E in Ei. cbn [fst] in Ei.
    unfold buffer_extract in E. cbv zeta in E. rewrite Husb in E. cbn [andb] in E.
    destruct (Z.ltb_spec (b_cur (pp_buf p) - b_last (pp_buf p)) shift); [exfalso; clear -T H; lia|].
    destruct (_ =? _)%Z; injection E as <- _; cbn [b_ms b_last b_cur] in *.
    + split; [right; repeat split; auto; destruct H0|auto].
    + split; [right|auto]. split; [exact T|]. split; [exact Hr|]. split; [reflexivity|]. intros m Hm. split; [apply Ei, Hm|].
      rewrite drop_old_filter in Hm by (apply ssort_sorted, ts_lt_swo). apply filter_In in Hm. destruct Hm as [_ Hm]. clear -Hm. lia.
Qed.
Lemma zone_est now l rs st p : In l (col_levels col) -> zone_position (kt_zone (cf_kt k)) l now rs = Ok (st, p) ->
  (forall r, In r rs -> exists t, heard (r_id r) t /\ (now - (keep + shift + gap) < t <= now)%Z) -> est now p.
Proof.
  intros Hl H Hr. unfold zone_position in H. destruct rs as [|r rs]; [injection H as <- <-; left; reflexivity|].
  destruct (level_radio l (r :: rs)) as [|m0 rest] eqn:El; [injection H as <- <-; left; reflexivity|].
  set (n := max_elem_from _ _ _) in H.
  assert (Hn : In n (level_radio l (r :: rs))) by (rewrite El; apply max_elem_in).
  apply filter_In in Hn. destruct Hn as [Hn1 Hn2]. destruct (Hr _ Hn1) as (t & Ht1 & Ht2).
  cbv zeta in H. inv_bind H. rewrite Hn2 in Ha. inv_bind Ha. rename a0 into x. injection Hb0 as <-.
  destruct (mget _ _ _) as [A B]. apply Ok_inj, pair_equal_spec in Hb. destruct Hb as [_ <-]. right.
  split; [cbn [p_ts]; lia|]. exists (r_id n), t, l, x. split; [exact Ht1|]. split; [exact Ht2|]. split; [exact Hl|].
  split; [|split; [reflexivity|split; reflexivity]]. unfold get_tx, at_or_throw in Ha0. destruct (alookup _ _) eqn:E; [|discriminate]. injection Ha0 as <-. apply alookup_In, E.
Qed.

(** ** Level *)
Lemma known_has l : In l (col_levels col) -> has_level col (l_id l) = true.
Proof.
  intros Hl. apply In_nth_error in Hl. destruct Hl as (i & Hi). unfold has_level, amem.
  assert (E : alookup (l_id l) (col_index col) = Some i) by (apply (proj2 (sd_wf HS)); eauto). rewrite E. reflexivity.
Qed.
Lemma detect_known rs d : detect k rs = Ok d -> d = "" \/ has_level col d = true.
Proof.
  intros H. assert (K := known_has).
  assert (FK : forall (g : level F -> string -> F -> res (string * F)) ls acc r, (forall l b w q, g l b w = Ok q -> fst q = b \/ fst q = l_id l) ->
    fold_left (fun (acc : res (string * F)) l => '(b, w) <- acc ;; g l b w) ls acc = Ok r ->
    exists a, acc = Ok a /\ (fst r = fst a \/ exists l, In l ls /\ fst r = l_id l)).
  { clear. intros g ls. induction ls as [|l ls IH]; intros acc r Hg H; [exists r; auto|]. cbn [fold_left] in H.
    destruct (IH _ _ Hg H) as (a & Ha & Hr). destruct acc as [[b w]| | |]; try discriminate. cbn [bind] in Ha. exists (b, w). split; [reflexivity|].
    destruct Hr as [Hr|(l' & H1 & H2)]; [|right; exists l'; split; [right; exact H1|exact H2]].
    destruct (Hg _ _ _ _ Ha) as [E|E]; [left; cbn; congruence|right; exists l; split; [left; reflexivity|congruence]]. }
  assert (FD : forall (g : level F -> string -> F -> res (string * F)) z r, (forall l b w q, g l b w = Ok q -> fst q = b \/ fst q = l_id l) ->
    fold_left (fun (acc : res (string * F)) l => '(b, w) <- acc ;; g l b w) (col_levels col) (Ok ("", z)) = Ok r -> fst r = "" \/ has_level col (fst r) = true).
  { intros g z r Hg Hr. destruct (FK _ _ _ _ Hg Hr) as (a & E & [E1|(l & E1 & E2)]).
    - injection E as <-. left. exact E1.
    - right. rewrite E2. apply K, E1. }
  unfold detect in H. destruct (use_rm_level s).
  - unfold detect_rm in H. inv_bind H. injection Hb as <-.
    refine (FD (fun l b w => rm <- at_or_throw (alookup (l_id l) (kt_rmaps (cf_kt k))) ;; _) _ _ _ Ha).
    intros l b w q Hq. cbv beta in Hq. inv_bind Hq. cbv zeta in Hb. apply Ok_inj in Hb. subst q. destruct (_ <! _); cbn; auto.
  - unfold detect_tx in H. inv_bind H. injection Hb as <-.
    refine (FD (fun l b w => match level_radio l rs with [] => Ok (b, w) | _ => _ end) _ _ _ Ha).
    intros l b w q Hq. cbv beta in Hq. destruct (level_radio l rs); [injection Hq as <-; auto|]. inv_bind Hq. apply Ok_inj in Hb. subst q. destruct (_ <! _); cbn; auto.
Qed.
Lemma level_known e0 d m lev lid : d = "" \/ has_level col d = true -> level_step (s_baro s) e0 d m = (lev, lid) ->
  lid = lh_cur (le_hist lev) /\ (has_level col (lh_cur (le_hist e0)) = true -> has_level col lid = true).
Proof.
  intros Hd H. rewrite (br_baro HB) in H. unfold level_step in H. unfold hist_step in H.
  destruct (String.eqb_spec d ""); [injection H as <- <-; cbn; auto|]. destruct Hd as [|Hd]; [congruence|].
  destruct (_ <? _)%Z; injection H as <- <-; cbn; [auto|]. destruct (lh_init _); auto.
Qed.

(** ** Position *)
Lemma fused_in o now pin st po f : p_empty (po_out o) = true -> fuse_positions s o now pin pos0 st = (po, f) ->
  f = po_in po /\ p_empty (po_out po) = true /\ po_in po = if p_empty pin then po_in o else pin.
Proof.
  intros Ho H. unfold fuse_positions in H. injection H as <- <-. unfold fused. cbn [p_empty pos0 negb]. rewrite andb_false_r.
  unfold fill_states. cbn [p_empty pos0]. destruct (p_empty pin) eqn:E; cbn [po_in po_out negb andb]; rewrite Ho, ?orb_true_r, ?andb_false_r; cbn.
  - auto.
  - destruct (_ && _); auto.
Qed.
Lemma processed_bare pc o f now lm l o' p : processed s pc o f now lm l = Ok (o', p) ->
  po_in o' = po_in o /\ po_out o' = po_out o /\
  (p_empty p = true \/ p_empty f = false /\ (now - p_ts f < pc_dead pc)%Z /\ p_level p = p_level f /\
     p_x p = put (px (bmin (l_box l))) (px (bmax (l_box l))) (p_x f) /\ p_y p = put (py (bmin (l_box l))) (py (bmax (l_box l))) (p_y f)).
Proof.
  intros H. destruct (keeps_post _ _ _ _ _ _ _ H) as (K1 & K2 & _). split; [exact K1|]. split; [exact K2|]. clear K1 K2.
  unfold processed in H. cbv zeta in H. destruct (p_empty f) eqn:Ee; [injection H as <- <-; left; reflexivity|].
  destruct (negb (inside_map s l f)); [injection H as <- <-; left; reflexivity|].
  destruct (Z.leb_spec (pc_dead pc) (now - p_ts f)) as [T|T]; [injection H as <- <-; left; reflexivity|].
  rewrite (br_smooth HB), (br_time HB) in H. cbn [bind] in H. unfold hold_or_move in H. rewrite (br_stops HB) in H. cbn [andb] in H.
  unfold project in H. rewrite (br_graph HB) in H. cbn [bind] in H. apply Ok_inj, pair_equal_spec in H. destruct H as [_ <-].
  right. split; [reflexivity|]. split; [exact T|]. repeat split; reflexivity.
Qed.

(** ** The client *)
Lemma outdoor_pos0 o now m n fl o' p : s_type (st_data m) <> LOCATION -> ou_last o = pos0 ->
  outdoor_position s col o now m n fl = Ok (o', p) -> ou_last o' = pos0 /\ p = pos0.
Proof.
  intros Hm Ho H. unfold outdoor_position in H. cbv zeta in H.
  set (oo := if fl || _ then _ else o) in H.
  assert (E : ou_last oo = pos0) by (unfold oo; destruct (fl || _); exact Ho).
  unfold gps_of in H. destruct (s_type _); try congruence; dif H; injection H as <- <-; auto.
Qed.
Lemma in_past a m b m0 : G = a ++ m :: b -> In m0 a -> (st_ts m0 <= st_ts m)%Z.
Proof.
  intros E H. assert (X := HT). rewrite E in X. unfold time_sorted in X. rewrite map_app in X. apply ssorted_app_le in X.
  apply (proj2 X); [apply in_map, H|left; reflexivity].
Qed.
Lemma update_fresh p m p' : no_location m -> s_type (st_data (pp_sensor p)) <> LOCATION -> update_measurements s col p m = Ok p' ->
  pp_cur p' = st_ts m /\ s_type (st_data (pp_sensor p')) <> LOCATION /\
  ((~ a_signal s col m /\ pp_buf p' = pp_buf p /\ pp_signal p' = pp_signal p) \/
   (exists i r, heard_from s col m i /\ r_id r = i /\ pp_signal p' = st_ts m /\
     b_ms (pp_buf p') = b_ms (pp_buf p) ++ [mkSt r (st_ts m)] /\ b_cur (pp_buf p') = st_ts m /\
     b_last (pp_buf p') = if (b_cur (pp_buf p) =? 0)%Z then st_ts m else b_last (pp_buf p))).
Proof.
  intros Hl Hs H. split; [eapply update_cur; exact H|]. destruct m as [[r|d|d] ts].
  - destruct (update_radio_spec s p r ts (sd_wf HS)) as (p1 & E & _ & E2 & _ & C); rewrite E in H; injection H as <-. rewrite E2. split; [exact Hs|].
    destruct C as [(A & B & C)|(A & B & C)].
    + right. exists (r_id r), (radio_set r (r_rssi r +! f0) (r_dist r)). split; [exists r; auto|]. rewrite C, B. unfold buffer_add. cbn. repeat split.
    + left. split; [|auto]. intros (i & r' & E1 & _ & E3). injection E1 as <-. auto.
  - injection H as <-. cbn. split; [exact Hl|]. left. split; [|auto]. intros (i & r' & E1 & _). discriminate.
  - injection H as <-. cbn. split; [exact Hs|]. left. split; [|auto]. intros (i & r' & E1 & _). discriminate.
Qed.
Lemma no_drop cur sig mot lid : (cur - sig <= gap \/ cur = sig)%Z -> drop_level s cur sig mot lid = lid.
Proof.
  intros H. unfold drop_level. cbv zeta. destruct (Z.leb_spec (1000 * s_nosignal s) (cur - sig)) as [T|T]; [exfalso; clear -Hns Hg1 H T; lia|].
  destruct (Z.leb_spec (1000 * s_noaction s) (cur - sig)) as [T'|T']; [exfalso; clear -Hna Hg2 H T'; lia|]. reflexivity.
Qed.
Notation age := (dead + (keep + shift) + gap)%Z.
Lemma fresh_step e a m b c c' o : G = a ++ m :: b -> fresh a c -> nav_step e k c m = Ok (c', o) ->
  fresh (a ++ [m]) c' /\ (o_status o = OK -> fresh_fix s col age G m o).
Proof.
  intros EG [F1 F2 F3 F4] H.
  assert (Hm : In m G) by (rewrite EG; apply in_or_app; right; left; reflexivity).
  assert (Hma : In m (a ++ [m])) by (apply in_or_app; right; left; reflexivity).
  assert (Hp : (0 < st_ts m)%Z) by (rewrite Forall_forall in Hpos; apply Hpos, Hm).
  assert (Hl : no_location m) by (rewrite Forall_forall in Hloc; apply Hloc, Hm).
  assert (Hle := fun m0 => @in_past a m b m0 EG).
  destruct (nav_step_inv _ _ _ _ H) as (pre & sf & mi & pre1 & rs & det & lev & lid & outd & outp & oc & ns
    & H1 & H2 & H3 & H4 & H5 & H6 & H7 & H8 & ->). clear H H2.
  destruct (@update_fresh _ m _ Hl F1 H1) as (U1 & U2 & U3). clear H1. rewrite U1 in *. clear U1.
  destruct (extract_from _ _ H3) as (X1 & X2 & X3 & X4). clear H3.
  apply outdoor_pos0 in H6; [|exact U2|exact F2]. destruct H6 as [O1 ->].
  apply detect_known in H4. destruct (level_known _ _ H4 H5) as [V1 V2]. clear H4 H5.
  (* the buffer before extraction *)
  assert (W : (~ Exists (a_signal s col) (a ++ [m]) /\ b_cur (pp_buf pre) = 0%Z /\ b_last (pp_buf pre) = 0%Z /\ b_ms (pp_buf pre) = [] /\
                p_empty (po_in (c_post c)) = true /\ p_empty (c_pos c) = true) \/
    ((exists m0, In m0 (a ++ [m]) /\ a_signal s col m0 /\ st_ts m0 = b_cur (pp_buf pre)) /\
     (forall m0, In m0 (a ++ [m]) -> a_signal s col m0 -> (st_ts m0 <= b_cur (pp_buf pre))%Z) /\ pp_signal pre = b_cur (pp_buf pre) /\
     (b_last (pp_buf pre) <= b_cur (pp_buf pre))%Z /\
     (b_cur (pp_buf pre) < b_last (pp_buf pre) + shift \/ b_cur (pp_buf pre) = st_ts m /\ st_ts m - gap - shift < b_last (pp_buf pre))%Z /\
     Forall (fun m => heard (r_id (st_data m)) (st_ts m) /\ (b_last (pp_buf pre) - keep <= st_ts m <= b_cur (pp_buf pre))%Z) (b_ms (pp_buf pre)) /\
     est (st_ts m) (po_in (c_post c)) /\ (st_ts m - b_cur (pp_buf pre) <= gap \/ st_ts m = b_cur (pp_buf pre))%Z /\
     (p_empty (c_pos c) = false -> has_level col lid = true))).
  { destruct F4 as [(S1 & S2 & S3 & S4 & S5 & S6)|(L1 & L2 & L3 & L4 & L5 & L6 & L7)]; destruct U3 as [(N & E1 & E2)|(i & r & N & Er & E1 & E2 & E3 & E4)].
    - left. rewrite E1. split; [|auto]. intros X. apply Exists_app in X. destruct X as [X|X]; [auto|]. inversion X as [? ? Y|? ? Y]; subst; [auto|inversion Y].
    - right. rewrite S2 in E4. cbn [Z.eqb] in E4. rewrite E1, E2, E3, E4, S4. cbn [app].
      assert (NS : a_signal s col m) by (exists i; exact N).
      split; [exists m; auto|]. split.
      { intros x Hx Hsx. apply in_app_or in Hx. destruct Hx as [Hx|[<-|[]]]; [|lia]. exfalso. apply S1, Exists_exists. eauto. }
      split; [reflexivity|]. split; [lia|]. split; [left; lia|]. split.
      { constructor; [|constructor]. cbn [st_data st_ts]. split; [exists m; rewrite Er; auto|]. lia. }
      split; [left; exact S5|]. split; [right; reflexivity|]. rewrite S6. discriminate.
    - assert (Q : (st_ts m - b_cur (buf c) <= gap)%Z).
      { destruct (HG _ _ EG) as (m1 & M1 & M2 & M3); [apply Exists_exists; destruct L1 as (x & y1 & y2 & _); eauto|].
        specialize (L2 _ M1 M2). lia. }
      right. rewrite E1, E2. split; [destruct L1 as (x & y1 & y2 & y3); exists x; split; [apply in_or_app; auto|auto]|]. split.
      { intros x Hx Hsx. apply in_app_or in Hx. destruct Hx as [Hx|[<-|[]]]; [auto|]. destruct (N Hsx). }
      split; [exact L3|]. split; [lia|]. split; [left; lia|]. split; [exact L5|]. split.
      { destruct L6 as (x & y1 & [y2|(y2 & y3)]); [left; exact y2|right]. split; [|exact y3]. specialize (Hle _ y1). lia. }
      split; [left; exact Q|]. intros X. apply V2, L7, X.
    - assert (Q : (st_ts m - b_cur (buf c) <= gap)%Z).
      { destruct (HG _ _ EG) as (m1 & M1 & M2 & M3); [apply Exists_exists; destruct L1 as (x & y1 & y2 & _); eauto|].
        specialize (L2 _ M1 M2). lia. }
      assert (Q' : (0 < b_cur (buf c) <= st_ts m)%Z).
      { destruct L1 as (x & y1 & y2 & y3). rewrite <- y3. split; [|apply Hle, y1]. rewrite Forall_forall in Hpos. apply Hpos. rewrite EG. apply in_or_app; auto. }
      assert (NS : a_signal s col m) by (exists i; exact N).
      destruct (Z.eqb_spec (b_cur (buf c)) 0) as [Z0|_]; [exfalso; lia|].
      right. rewrite E1, E2, E3, E4. split; [exists m; auto|]. split.
      { intros x Hx Hsx. apply in_app_or in Hx. destruct Hx as [Hx|[<-|[]]]; [|lia]. specialize (L2 x Hx Hsx). lia. }
      split; [reflexivity|]. split; [lia|]. split; [right; lia|]. split.
      { apply Forall_app. split.
        - eapply Forall_impl; [|exact L5]. cbv beta. intros x (Y1 & Y2). split; [exact Y1|lia].
        - constructor; [|constructor]. cbn [st_data st_ts]. split; [exists m; rewrite Er; auto|]. lia. }
      split.
      { destruct L6 as (x & y1 & [y2|(y2 & y3)]); [left; exact y2|right]. split; [|exact y3]. specialize (Hle _ y1). lia. }
      split; [right; reflexivity|]. intros X. apply V2, L7, X. }
  clear F4 U3 V2.
  assert (Rs : forall r, In r rs -> exists t, heard (r_id r) t /\ (st_ts m - (keep + shift + gap) < t <= st_ts m)%Z).
  { intros r Hr. destruct X1 as [(_ & -> & _)|(T1 & T2 & _)]; [destruct Hr|].
    destruct (T2 r Hr) as (m0 & Y1 & Y2). destruct W as [(_ & W1 & W2 & _)|(_ & _ & _ & W4 & W5 & W6 & _)]; [exfalso; lia|].
    rewrite Forall_forall in W6. destruct (W6 _ Y1) as [Y3 Y4]. exists (st_ts m0). rewrite <- Y2. split; [exact Y3|]. lia. }
  assert (D : drop_level s (st_ts m) (pp_signal pre) (mi_lastTs mi) lid = lid \/ p_empty (po_in (c_post c)) = true /\ p_empty (c_pos c) = true /\ rs = []).
  { destruct W as [(_ & W1 & W2 & _ & W3 & W4)|(_ & _ & W3 & _ & _ & _ & _ & W7 & _)].
    - right. split; [exact W3|]. split; [exact W4|]. destruct X1 as [(_ & X & _)|(X & _)]; [exact X|exfalso; lia].
    - left. rewrite W3. apply no_drop. exact W7. }
  (* the outcome *)
  assert (K : est (st_ts m) (po_in (oc_post oc)) /\ p_empty (po_out (oc_post oc)) = true /\
    (p_empty (po_in (c_post c)) = true -> rs = [] -> p_empty (po_in (oc_post oc)) = true) /\
    (p_empty (oc_pos oc) = true \/
     (drop_level s (st_ts m) (pp_signal pre) (mi_lastTs mi) lid = lid -> has_level col lid = true) /\
     p_empty (po_in (oc_post oc)) = false /\ (st_ts m - p_ts (po_in (oc_post oc)) < dead)%Z /\ p_level (oc_pos oc) = p_level (po_in (oc_post oc)) /\
     exists l, In l (col_levels col) /\
       p_x (oc_pos oc) = put (px (bmin (l_box l))) (px (bmax (l_box l))) (p_x (po_in (oc_post oc))) /\
       p_y (oc_pos oc) = put (py (bmin (l_box l))) (py (bmax (l_box l))) (p_y (po_in (oc_post oc))))).
  { assert (Ein : est (st_ts m) (po_in (c_post c))) by (destruct W as [W|W]; [left; apply W|apply W]).
    unfold locate in H7. destruct (has_level col (drop_level _ _ _ _ _)) eqn:Eh.
    - inv_bind H7. rename a0 into l. apply get_level_in in Ha. inv_bind Hb. destruct a0 as [kn [st inp]].
      destruct (fuse_positions s (c_post c) _ inp pos0 st) as [po f] eqn:Ef. inv_bind Hb0. destruct a0 as [[[az azv] ph] pg].
      inv_bind Hb. destruct a0 as [po1 p]. injection Hb0 as <-. cbn [oc_knn oc_post oc_pos oc_flag oc_ph oc_pg].
      destruct (fused_in F3 Ef) as (Q1 & Q2 & Q3). apply processed_bare in Ha2. destruct Ha2 as (P1 & P2 & P3). subst f. rewrite P1, P2.
      assert (Ip : est (st_ts m) inp /\ (rs = [] -> p_empty inp = true)).
      { unfold indoor in Ha0. assert (Ek : is_knn s = false) by (unfold is_knn; destruct (s_algo s) eqn:Ea; [reflexivity..|destruct (br_algo HB Ea)]).
        rewrite Ek in Ha0. inv_bind Ha0. destruct a0 as [st1 p1]. injection Hb as <- <- <-. split; [eapply zone_est; eassumption|].
        intros ->. cbn in Ha2. injection Ha2 as <- <-. reflexivity. }
      destruct Ip as [I1 I2].
      split; [rewrite Q3; destruct (p_empty inp); assumption|]. split; [exact Q2|]. split.
      { intros Z1 Z2. rewrite Q3, (I2 Z2). exact Z1. }
      destruct P3 as [P3|(P3 & P4 & P5 & P6 & P7)]; [left; exact P3|right]. split; [intros X; rewrite <- X; exact Eh|]. split; [exact P3|].
      split; [exact P4|]. split; [exact P5|]. exists l. auto.
    - cbn [negb p_empty pos0] in H7. injection H7 as <-. cbn [oc_post oc_pos].
      split; [exact Ein|]. split; [exact F3|]. split; [auto|]. left.
      destruct D as [D|(_ & D & _)]; [|exact D]. rewrite D in Eh. destruct (p_empty (c_pos c)) eqn:Ec; [reflexivity|].
      destruct W as [(_ & _ & _ & _ & _ & W)|(_ & _ & _ & _ & _ & _ & _ & _ & W)]; [congruence|]. rewrite W in Eh by reflexivity. discriminate. }
  clear H7. destruct K as (K1 & K2 & K3 & K4). split.
  - constructor; cbn [c_pre c_outd c_post].
    + rewrite X4. exact U2.
    + exact O1.
    + exact K2.
    + unfold silent, live. cbn [c_pre c_post c_pos c_lev]. destruct W as [(W0 & W1 & W2 & W3 & W4 & W5)|(W1 & W2 & W3 & W4 & W5 & W6 & W7 & W8 & W9)].
      * left. split; [exact W0|]. rewrite X2. destruct X1 as [(_ & Z1 & Z2 & Z3)|(Z1 & _)]; [|exfalso; lia].
        rewrite Z2, Z3. split; [exact W1|]. split; [exact W2|]. split; [exact W3|]. assert (Z4 := K3 W4 Z1). split; [exact Z4|].
        destruct K4 as [K4|(_ & K4 & _)]; [exact K4|congruence].
      * right. rewrite X2, X3. split; [exact W1|]. split; [exact W2|]. split; [exact W3|].
        assert (Z : (b_last (pp_buf pre1) <= b_cur (pp_buf pre) < b_last (pp_buf pre1) + shift)%Z /\
          Forall (fun m => heard (r_id (st_data m)) (st_ts m) /\ (b_last (pp_buf pre1) - keep <= st_ts m <= b_cur (pp_buf pre))%Z) (b_ms (pp_buf pre1))).
        { destruct X1 as [(Z1 & _ & Z2 & Z3)|(Z1 & _ & Z2 & Z3)].
          - rewrite Z2, Z3. split; [lia|exact W6].
          - rewrite Z2. split; [lia|]. apply Forall_forall. intros x Hx. destruct (Z3 x Hx) as [Y1 Y2]. rewrite Forall_forall in W6.
            destruct (W6 x Y1) as [Y3 Y4]. split; [exact Y3|lia]. }
        destruct Z as [Z1 Z2]. split; [exact Z1|]. split; [exact Z2|]. split; [exists m; auto|].
        intros X. destruct K4 as [K4|(K4 & _)]; [congruence|]. rewrite <- V1. apply K4. destruct D as [D|(_ & D & D')]; [exact D|].
        rewrite W3. apply no_drop. exact W8.
  - intros Ho. destruct (p_empty (oc_pos oc)) eqn:Ee.
    { unfold output in H8. rewrite Ee in H8. injection H8 as <-. cbn in Ho. destruct (oc_stat oc); discriminate. }
    destruct K4 as [K4|(_ & Y1 & Y2 & Y3 & l0 & Y4 & Y5 & Y6)]; [congruence|].
    destruct K1 as [K1|(K1 & i & t & l & x & (m1 & M1 & M2 & M3) & M4 & M5 & M6 & M7 & M8 & M9)]; [congruence|].
    destruct (output_status _ _ _ _ _ _ (sd_wf HS) H8 Ee) as (_ & Q1 & _ & _ & Q2).
    exists m1, i, l, x. split; [exact M1|]. split; [exact M2|]. split; [lia|]. split; [exact M5|]. split; [exact M6|]. split; [congruence|].
    exists l0. split; [exact Y4|]. destruct Q2 as (l' & L1 & L2 & L3).
    { rewrite Y3, M9. intros X. assert (Z := known_has _ M5). rewrite X, (sd_noempty HS) in Z. discriminate. }
    assert (l' = l). { eapply same_level; [apply (sd_wf HS)|exact L1|exact M5|congruence]. }
    subst l'. rewrite L3, Y5, Y6, M7, M8. reflexivity.
Qed.
Lemma fresh0 g : s_type (st_data (g_sensor g)) <> LOCATION -> fresh [] (client0 g s).
Proof.
  intros Hg. constructor; cbn; auto. left. unfold silent. cbn. repeat split; auto. intros X; inversion X.
Qed.
Lemma fresh_history e g bs c os : s_type (st_data (g_sensor g)) <> LOCATION -> G = List.concat bs ->
  navigate_all e k (client0 g s) bs = Ok (c, os) ->
  Forall2 (fun m o => o_status o = OK -> fresh_fix s col age G m o) (List.concat bs) (List.concat os).
Proof.
  intros Hg E H.
  refine (proj2 (@history_prefix F NF SO e k G fresh (fun m o => o_status o = OK -> fresh_fix s col age G m o) _ _ bs [] _ _ _ E _ (fresh0 _ Hg) H)).
  - intros a c0 l []. constructor; auto.
  - intros a m b c0 c1 o. apply fresh_step.
  - rewrite <- E. exact HT.
Qed.
End Fresh.

Lemma fresh_all {F : Type} {NF : Num F} {SO : Sorter} e (s : settings F) gs k g bs c os gap :
  built s gs k -> NoDup (map (@gl_id F) gs) -> ~ In "" (map (@gl_id F) gs) -> bare s ->
  (0 < bc_shift (cf_buf k))%Z -> (0 < s_nosignal s)%Z -> (0 < s_noaction s)%Z -> (gap < 1000 * s_nosignal s)%Z -> (gap < 1000 * s_noaction s)%Z ->
  s_type (st_data (g_sensor g)) <> LOCATION -> time_sorted (List.concat bs) ->
  Forall (fun m => (0 < st_ts m)%Z /\ no_location m) (List.concat bs) -> never_silent s (cf_col k) gap (List.concat bs) ->
  navigate_all e k (client0 g s) bs = Ok (c, os) ->
  Forall2 (fun m o => o_status o = OK ->
    fresh_fix s (cf_col k) (pc_dead (cf_post k) + (bc_keep (cf_buf k) + bc_shift (cf_buf k)) + gap) (List.concat bs) m o) (List.concat bs) (List.concat os).
Proof.
  intros B Hn He HB Hsh Hns Hna Hg1 Hg2 Hg Ht Hp Hq H. destruct (built_sound B Hn He) as [S Es].
  assert (HK : (0 <= bc_keep (cf_buf k))%Z /\ bc_usestops (cf_buf k) = s_stops s).
  { clear -B. destruct B as (cl & _ & HB). unfold mk_config in HB. inv_bind HB. inv_bind Hb. inv_bind Hb0. inv_bind Hb. injection Hb0 as Ek.
    subst k. cbn [cf_buf cf_set] in *. unfold buffer_config in Ha1. inv_bind Ha1. inv_bind Hb. inv_bind Hb0. injection Hb as <-. cbn [bc_keep bc_usestops].
    split; [|reflexivity]. destruct (_ =? 0)%Z; cbn [orb]; [lia|]. match goal with |- context [(?x <? ?y)%Z] => destruct (Z.ltb_spec x y) end; lia. }
  clear B. subst s.
  eapply (@fresh_history F NF SO k (List.concat bs) gap); try eassumption; try reflexivity.
  - rewrite (proj2 HK). apply HB.
  - apply HK.
  - eapply Forall_impl; [|exact Hp]. intros m [A _]. exact A.
  - eapply Forall_impl; [|exact Hp]. intros m [_ A]. exact A.
Qed.
