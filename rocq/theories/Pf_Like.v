(** Proofs for C98. *)
From Coq Require Import Reals Lra Psatz.
From Verif Require Import Lib NumReal LibR Like Spec_Radio Spec_Geo Spec_Like Pf_Radio Pf_Geo.
Set Implicit Arguments.

Lemma from_among_length {F} {NF : Num F} ids (ms : list (radio F)) : List.length (whitelisted ids ms) = from_among ids ms.
Proof.
  induction ms as [|m r IH]; [reflexivity|]. unfold whitelisted in *. cbn [filter from_among].
  destruct (existsb (String.eqb (r_id m)) ids) eqn:E, (in_dec string_dec (r_id m) ids) as [I|N]; cbn [List.length plus]; try congruence.
  - exfalso. apply N. apply existsb_exists in E. destruct E as (x & Hx & E). apply String.eqb_eq in E. subst x. exact Hx.
  - exfalso. apply not_true_iff_false in E. apply E. apply existsb_exists. exists (r_id m). split; [exact I|apply String.eqb_refl].
Qed.

Section Seq.
Context {F : Type} {NF : Num F} {SO : Sorter}.
Lemma sufficient_exact (kt : ktables F) l ms need :
  (alookup (l_id l) (kt_refs kt) = None -> sufficient kt l ms need = Throw) /\
  (alookup (l_id l) (kt_refs kt) <> None -> exists b, sufficient kt l ms need = Ok b /\ (b = true <-> enough kt need l ms)).
Proof.
  unfold sufficient, enough. destruct (alookup (l_id l) (kt_refs kt)) as [ids|] eqn:E; split; intros H; try congruence; try reflexivity.
  cbn [at_or_throw bind]. eexists. split; [reflexivity|]. rewrite Nat.leb_le, from_among_length. split; [eauto|]. intros (i & [= <-] & L). exact L.
Qed.
Lemma preliminary_enough (s : settings F) kt st l ms : enough kt (s_minmsr s) l ms ->
  forall st', preliminary s kt st l ms = Ok st' <-> exists ids rm, alookup (l_id l) (kt_refs kt) = Some ids /\ alookup (l_id l) (kt_rmaps kt) = Some rm /\
    radiomap_point s kt l (rp_weights rm (whitelisted ids ms) (s_diff s)) = Ok st'.
Proof.
  intros (ids & E & L) st'. unfold preliminary. rewrite E. cbn [at_or_throw bind]. rewrite <- from_among_length in L. apply Nat.leb_le in L. rewrite L.
  destruct (alookup (l_id l) (kt_rmaps kt)) as [rm|]; cbn [at_or_throw bind].
  - split; [intros H; exists ids, rm; auto|]. intros (i & r & [= <-] & [= <-] & H). exact H.
  - split; [discriminate|]. intros (i & r & _ & H & _). discriminate.
Qed.
Lemma preliminary_few (s : settings F) kt st l ms st' : ~ enough kt (s_minmsr s) l ms -> preliminary s kt st l ms = Ok st' -> st' = st.
Proof.
  intros N H. unfold preliminary in H. destruct (alookup (l_id l) (kt_refs kt)) as [ids|] eqn:E; cbn [at_or_throw bind] in H; [|discriminate].
  destruct (Nat.leb_spec (s_minmsr s) (List.length (whitelisted ids ms))) as [L|L].
  - exfalso. apply N. exists ids. split; [exact E|]. rewrite <- from_among_length. exact L.
  - apply Ok_inj in H. auto.
Qed.
Lemma enough_dec (kt : ktables F) need l ms : {enough kt need l ms} + {~ enough kt need l ms}.
Proof.
  unfold enough. destruct (alookup (l_id l) (kt_refs kt)) as [ids|].
  - destruct (le_dec need (from_among ids ms)) as [L|L]; [left; eauto|right]. intros (i & [= <-] & H). contradiction.
  - right. intros (i & H & _). discriminate.
Qed.
Lemma last_call (s : settings F) kt : forall calls st st', preliminary_all s kt st calls = Ok st' ->
  (Forall (fun c => ~ enough kt (s_minmsr s) (fst c) (snd c)) calls /\ st' = st) \/
  exists pre l ms post st1, calls = pre ++ (l, ms) :: post /\ enough kt (s_minmsr s) l ms /\
    Forall (fun c => ~ enough kt (s_minmsr s) (fst c) (snd c)) post /\ preliminary s kt st1 l ms = Ok st'.
Proof.
  induction calls as [|[l ms] r IH]; intros st st' H; cbn [preliminary_all] in H.
  - apply Ok_inj in H. left. auto.
  - destruct (bind_ok _ _ H) as (st1 & H1 & H2). destruct (IH _ _ H2) as [[N ->]|(pre & l' & ms' & post & s1 & -> & En & N & E)].
    + destruct (enough_dec kt (s_minmsr s) l ms) as [En|Nn].
      * right. exists [], l, ms, r, st. auto.
      * left. split; [constructor; auto|]. eapply preliminary_few; eassumption.
    + right. exists ((l, ms) :: pre), l', ms', post, s1. auto.
Qed.
End Seq.

Local Open Scope R_scope.
Lemma area_step (l : level RX) ms x y : Forall (real_tx l) ms ->
  (in_intersection_area l ms (Some x) (Some y) = Ok true /\ Forall (within l x y) ms) \/
  exists pre m post, ms = pre ++ m :: post /\ Forall (within l x y) pre /\
    ((in_intersection_area l ms (Some x) (Some y) = Ok false /\ beyond l x y m) \/
     (in_intersection_area l ms (Some x) (Some y) = Throw /\ tx_place l (r_id m) = None)).
Proof.
  induction ms as [|m r IH]; intros H; [left; auto|]. assert (Hm := Forall_inv H). specialize (IH (Forall_inv_tail H)).
  cbn [in_intersection_area]. destruct Hm as [[d Hd] Ht]. unfold get_tx. unfold within at 2. unfold beyond, tx_place.
  destruct (alookup (r_id m) (l_txs l)) as [t|] eqn:E; cbn [at_or_throw bind].
  - destruct (Ht _ eq_refl) as [[u Hu] [v Hv]]. rewrite Hd, Hu, Hv, !rx_sub, !rx_mul, rx_add, rx_sqrt, rx_sub, rx_lit, rx_opp, rx_ltb; [|lra|apply sq_nonneg].
    destruct (Rltb _ _) eqn:C; [apply Rltb_true in C|apply Rltb_false in C].
    + right. exists [], m, r. split; [reflexivity|]. split; [constructor|]. left. split; [reflexivity|]. rewrite E. exists u, v. rewrite Hu, Hv, Hd. cbn [rval]. split; [reflexivity|lra].
    + assert (W : within l x y m). { exists u, v. unfold tx_place. rewrite E, Hu, Hv, Hd. cbn [rval]. split; [reflexivity|lra]. }
      destruct IH as [[-> A]|(pre & m' & post & -> & A & B)]; [left; auto|]. right. exists (m :: pre), m', post. split; [reflexivity|]. split; [constructor; assumption|]. exact B.
  - right. exists [], m, r. split; [reflexivity|]. split; [constructor|]. right. split; [reflexivity|]. rewrite E. reflexivity.
Qed.
Lemma within_not l x y m : within l x y m -> ~ beyond l x y m /\ tx_place l (r_id m) <> None.
Proof.
  intros (u & v & E & H). split; [|congruence]. intros (u' & v' & E' & H'). rewrite E in E'. injection E' as <- <-. lra.
Qed.
Lemma area_true (l : level RX) ms x y : Forall (real_tx l) ms ->
  in_intersection_area l ms (Some x) (Some y) = Ok true <-> Forall (within l x y) ms.
Proof.
  intros H. destruct (@area_step l ms x y H) as [[-> A]|(pre & m & post & -> & A & B)]; [tauto|].
  split.
  - intros E. destruct B as [[B _]|[B _]]; congruence.
  - intros W. apply Forall_app in W. destruct W as [_ W]. apply Forall_inv, within_not in W. destruct W, B as [[_ B]|[_ B]]; contradiction.
Qed.
(** circles are convex *)
Lemma circle_convex u v x1 y1 x2 y2 r k : 0 <= k <= 1 ->
  sqrt ((u - x1) * (u - x1) + (v - y1) * (v - y1)) <= r -> sqrt ((u - x2) * (u - x2) + (v - y2) * (v - y2)) <= r ->
  sqrt ((u - (x1 + k * (x2 - x1))) * (u - (x1 + k * (x2 - x1))) + (v - (y1 + k * (y2 - y1))) * (v - (y1 + k * (y2 - y1)))) <= r.
Proof.
  intros Hk H1 H2. assert (R0 : 0 <= r) by (eapply Rle_trans; [apply sqrt_pos|exact H1]).
  assert (S1 : (u - x1) * (u - x1) + (v - y1) * (v - y1) <= r * r).
  { apply Rsqr_incr_1 in H1; [|apply sqrt_pos|exact R0]. rewrite Rsqr_sqrt in H1 by apply sq_nonneg. exact H1. }
  assert (S2 : (u - x2) * (u - x2) + (v - y2) * (v - y2) <= r * r).
  { apply Rsqr_incr_1 in H2; [|apply sqrt_pos|exact R0]. rewrite Rsqr_sqrt in H2 by apply sq_nonneg. exact H2. }
  rewrite <- (sqrt_square r R0). apply sqrt_le_1; [apply sq_nonneg|nra|].
  set (a := u - x1) in *. set (b := v - y1) in *. set (c := u - x2) in *. set (d := v - y2) in *.
  replace (u - (x1 + k * (x2 - x1))) with ((1 - k) * a + k * c) by (unfold a, c; ring).
  replace (v - (y1 + k * (y2 - y1))) with ((1 - k) * b + k * d) by (unfold b, d; ring).
  assert (Q : ((1 - k) * a + k * c) * ((1 - k) * a + k * c) + ((1 - k) * b + k * d) * ((1 - k) * b + k * d)
    = (1 - k) * (a * a + b * b) + k * (c * c + d * d) - k * (1 - k) * ((a - c) * (a - c) + (b - d) * (b - d))) by ring.
  rewrite Q. assert (K : 0 <= k * (1 - k)) by nra. assert (Z : 0 <= (a - c) * (a - c) + (b - d) * (b - d)) by apply sq_nonneg.
  assert (0 <= k * (1 - k) * ((a - c) * (a - c) + (b - d) * (b - d))) by (apply Rmult_le_pos; assumption).
  assert ((1 - k) * (a * a + b * b) <= (1 - k) * (r * r)) by (apply Rmult_le_compat_l; lra).
  assert (k * (c * c + d * d) <= k * (r * r)) by (apply Rmult_le_compat_l; lra). lra.
Qed.
