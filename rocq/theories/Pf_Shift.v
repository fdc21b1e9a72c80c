(** Proofs for C92. *)
From Coq Require Import Lia Permutation.
From Verif Require Import Lib Client Spec_Shift SortInst.
Set Implicit Arguments.
Local Open Scope Z_scope.

(** insertion sort is generic *)
Lemma ins_generic A (f : A -> A) lt x l : (forall b, In b l -> lt (f x) (f b) = lt x b) -> ins lt (f x) (map f l) = map f (ins lt x l).
Proof.
  induction l as [|y t IH]; intros H; cbn; [reflexivity|].
  rewrite (H y) by (left; reflexivity). destruct (lt x y); cbn; [reflexivity|]. f_equal. apply IH. intros b Hb. apply H. right. exact Hb.
Qed.
Lemma isorter_generic : generic_sort isorter.
Proof.
  intros A f lt l H. change (isort lt (map f l) = map f (isort lt l)). induction l as [|x t IH]; [reflexivity|].
  change (ins lt (f x) (isort lt (map f t)) = map f (ins lt x (isort lt t))). rewrite IH by (intros; apply H; right; assumption). apply ins_generic.
  intros b Hb. apply H; [left; reflexivity|]. right.
  apply (Permutation_in _ (Permutation_sym (isort_perm lt t))). exact Hb.
Qed.

(** two outcomes of the same kind with related values *)
Definition rrel {A B : Type} (R : A -> B -> Prop) (r : res A) (r' : res B) : Prop :=
  match r, r' with
  | Ok a, Ok b => R a b
  | Throw, Throw => True
  | UB, UB => True
  | OutOfFuel, OutOfFuel => True
  | _, _ => False
  end.
Lemma rrel_bind A B A' B' (R : A -> A' -> Prop) (Q : B -> B' -> Prop) r r' f f' :
  rrel R r r' -> (forall a a', R a a' -> rrel Q (f a) (f' a')) -> rrel Q (bind r f) (bind r' f').
Proof. destruct r, r'; cbn; intros H G; try contradiction; auto. Qed.
Lemma rrel_refl A (r : res A) : rrel eq r r.
Proof. destruct r; cbn; auto. Qed.
Lemma rrel_imp A B (R Q : A -> B -> Prop) r r' : rrel R r r' -> (forall a b, R a b -> Q a b) -> rrel Q r r'.
Proof. destruct r, r'; cbn; auto. Qed.
Lemma fold_left_rel A A' B (R : A -> A' -> Prop) (f : A -> B -> A) (f' : A' -> B -> A') l : (forall a a' b, In b l -> R a a' -> R (f a b) (f' a' b)) ->
  forall a a', R a a' -> R (fold_left f l a) (fold_left f' l a').
Proof. induction l as [|x t IH]; cbn; intros H a a' Ra; [exact Ra|]. apply IH; [intros; apply H; auto|]. apply H; auto. Qed.

Lemma skip_while_map A (f : A -> A) c c' (l : list A) : (forall x, In x l -> c' (f x) = c x) ->
  rrel (fun a b => b = map f a /\ incl a l) (skip_while c l) (skip_while c' (map f l)).
Proof.
  induction l as [|x t IH]; intros H; cbn [skip_while map]; [exact I|]. rewrite (H x) by (left; reflexivity). destruct (c x).
  - eapply rrel_imp; [apply IH; intros; apply H; right; assumption|]. intros a b [-> Hi]. split; [reflexivity|]. intros y Hy. right. apply Hi, Hy.
  - cbn. split; [reflexivity|]. apply incl_refl.
Qed.
Lemma max_elem_map A (f : A -> A) lt l : (forall a b, lt (f a) (f b) = lt a b) -> forall b, max_elem_from lt (f b) (map f l) = f (max_elem_from lt b l).
Proof. intros H. induction l as [|x t IH]; intros b; cbn; [reflexivity|]. rewrite H. rewrite <- IH. destruct (lt b x); reflexivity. Qed.
Lemma min_elem_map A (f : A -> A) lt l : (forall a b, lt (f a) (f b) = lt a b) -> forall b, min_elem_from lt (f b) (map f l) = f (min_elem_from lt b l).
Proof. intros H. induction l as [|x t IH]; intros b; cbn; [reflexivity|]. rewrite H. rewrite <- IH. destruct (lt x b); reflexivity. Qed.
Lemma back_map A B (f : A -> B) l : back (map f l) = option_map f (back l).
Proof. unfold back. rewrite <- map_rev. destruct (rev l); reflexivity. Qed.

Section Shift.
Context {F : Type} {NF : Num F} {SO : Sorter} (Gen : generic_sort SO).
Context (d lo : Z) (Hlo : 2000 <= lo).

Definition good (z : Z) : Prop := lo <= z /\ lo <= z + d.
Definition gr (z z' : Z) : Prop := good z /\ z' = z + d.
(** a stored time that is a sentinel [s] until it is first set *)
Definition zr (s z z' : Z) : Prop := (z = s /\ z' = s) \/ gr z z'.
Lemma sub_sh a b : a + d - (b + d) = a - b. Proof. lia. Qed.
Lemma gr_sub a a' b b' : gr a a' -> gr b b' -> a' - b' = a - b.
Proof. intros [_ ->] [_ ->]. lia. Qed.

Lemma fsum_later A (f : stamped A -> F) l : (forall m, f (later d m) = f m) -> fsum f (map (later d) l) = fsum f l.
Proof. intros H. unfold fsum. rewrite <- fold_left_rev_right, <- map_rev, <- (fold_left_rev_right _ l). induction (rev l) as [|x t IH]; cbn; [reflexivity|]. rewrite IH, H. reflexivity. Qed.
Lemma fsum_eq A B (f : A -> F) (g : B -> F) l l' : map f l = map g l' -> fsum f l = fsum g l'.
Proof.
  unfold fsum. generalize (f0 : F). revert l'. induction l as [|x t IH]; intros [|y t'] a; cbn; intros H; try discriminate; [reflexivity|].
  injection H as Hx Ht. rewrite Hx. apply IH, Ht.
Qed.

(** * Pedometer *)
Definition mlater (m : magnitude F) : magnitude F := mkMagn (mg_ts m + d) (mg_val m).
Definition acc_ok (l : list (stamped (sensor F))) : Prop := Forall (fun m => good (st_ts m)) l.
Definition mag_ok (l : list (magnitude F)) : Prop := Forall (fun m => good (mg_ts m)) l.
Definition ped_rel (p p' : pedometer F) : Prop :=
  acc_ok (pd_acc p) /\ mag_ok (pd_mags p) /\ pd_acc p' = map (later d) (pd_acc p) /\ pd_mags p' = map mlater (pd_mags p) /\
  pd_times p' = pd_times p /\ pd_size p' = pd_size p /\ zr (-1) (pd_possible p) (pd_possible p') /\ zr (-1) (pd_steptime p) (pd_steptime p').

Lemma sum_mag_later l : sum_mag (map (later d) l) = sum_mag (l : list (stamped (sensor F))).
Proof. unfold sum_mag. apply fsum_later. reflexivity. Qed.

Lemma filtered_rel acc last : good last ->
  rrel (fun g g' => (g = mkMagn 0 f0 /\ g' = g) \/ (good (mg_ts g) /\ g' = mlater g))
    (filtered_magnitude acc last) (filtered_magnitude (map (later d) acc) (last + d)).
Proof.
  intros Hg. unfold filtered_magnitude.
  eapply rrel_bind; [apply skip_while_map; intros x _; cbn [later st_ts]; rewrite sub_sh; reflexivity|]. intros a a' [-> _].
  eapply rrel_bind; [apply skip_while_map; intros x _; cbn [later st_ts]; rewrite sub_sh; reflexivity|]. intros f f' [-> _].
  rewrite !map_length, !sum_mag_later. destruct (_ || _); cbn; [left; split; reflexivity|].
  right. split; [exact Hg|reflexivity].
Qed.

Lemma ped_update_rel p p' m : ped_rel p p' -> good (st_ts m) -> rrel ped_rel (ped_update p m) (ped_update p' (later d m)).
Proof.
  intros (A & M & EA & EM & ET & ES & ZP & ZS) Hg. unfold ped_update. cbn [later st_data st_ts].
  rewrite EM, map_length.
  destruct (s_type (st_data m)); try (cbn; repeat split; cbn; assumption).
  rewrite EA. change ([later d m]) with (map (later d) [m]). rewrite <- map_app.
  assert (A' : acc_ok (pd_acc p ++ [m])) by (apply Forall_app; split; [exact A|repeat constructor; apply Hg]).
  eapply rrel_bind; [apply filtered_rel, Hg|]. intros g g' HG.
  eapply rrel_bind; [apply skip_while_map; intros x _; cbn [later st_ts]; rewrite sub_sh; reflexivity|]. intros a a' [-> Hi].
  cbn. assert (A2 : acc_ok a) by (unfold acc_ok in *; rewrite Forall_forall in *; intros x Hx; apply A', Hi, Hx).
  destruct HG as [[-> ->]|[Hgg ->]].
  - cbn. repeat split; cbn; assumption.
  - cbn [mlater mg_ts]. unfold good in Hgg.
    rewrite (proj2 (Z.eqb_neq (mg_ts g) 0)), (proj2 (Z.eqb_neq (mg_ts g + d) 0)) by lia.
    repeat split; cbn; try assumption.
    + apply Forall_app. split; [exact M|]. repeat constructor; apply Hgg.
    + rewrite map_app. reflexivity.
Qed.

Lemma step_window_later r l : step_window (r + d) (map mlater l) = map mlater (step_window r l).
Proof. induction l as [|m t IH]; cbn [step_window map]; [reflexivity|]. cbn [mlater mg_ts]. rewrite sub_sh. f_equal. destruct (_ <=? _); [exact IH|reflexivity]. Qed.
Lemma step_length_later r l : step_length (mlater r) (map mlater l) = step_length r l.
Proof.
  unfold step_length. cbn [mlater mg_ts]. rewrite step_window_later, <- map_rev.
  destruct (rev (step_window (mg_ts r) l)) as [|m t]; [reflexivity|]. cbn [map].
  rewrite (@max_elem_map _ mlater), (@min_elem_map _ mlater) by reflexivity. reflexivity.
Qed.

Definition pls_rel (a a' : @ped_loop_state F) : Prop :=
  let '(p, s, t, l) := a in let '(p', s', t', l') := a' in
  zr (-1) p p' /\ zr (-1) s s' /\ t' = t /\ map (@sp_len F) l' = map (@sp_len F) l.
Lemma zr_gap z0 z z' : good z -> zr (-1) z0 z' -> (z0 = -1 /\ z' = -1) \/ (z + d - z' = z - z0).
Proof. intros Hg [[-> ->]|[_ ->]]; [left; split; reflexivity|right; lia]. Qed.
Lemma ped_body_rel mags tb acc acc' i : mag_ok mags -> rrel pls_rel acc acc' ->
  rrel pls_rel (ped_body mags tb acc i) (ped_body (map mlater mags) tb acc' i).
Proof.
  intros M Ra. unfold ped_body. eapply rrel_bind; [exact Ra|]. intros [[[p s] t] l] [[[p' s'] t'] l'] (Zp & Zs & -> & El).
  destruct i as [|j]; [exact I|]. rewrite !nth_error_map.
  destruct (nth_error mags (S j)) as [cur|] eqn:Ec; [|exact I]. destruct (nth_error mags j) as [prev|]; [|exact I]. cbn [option_map].
  assert (Hg : good (mg_ts cur)). { unfold mag_ok in M. rewrite Forall_forall in M. apply M. eapply nth_error_In, Ec. }
  cbn [mlater mg_val mg_ts]. unfold good in Hg.
  assert (E1 : (300 <? mg_ts cur + d - p') = (300 <? mg_ts cur - p)).
  { destruct (@zr_gap _ _ _ Hg Zp) as [[-> ->]|E]; [|rewrite E; reflexivity]. rewrite !(proj2 (Z.ltb_lt _ _)) by lia. reflexivity. }
  rewrite E1. destruct (_ && _) eqn:B.
  - rewrite firstn_map, <- map_rev, step_length_later. unfold rrel, pls_rel.
    split; [right; split; [exact Hg|reflexivity]|]. split; [right; split; [exact Hg|reflexivity]|]. split; [|rewrite !map_app, El; reflexivity].
    destruct (@zr_gap _ _ _ Hg Zs) as [[-> ->]|E]; [|rewrite E; reflexivity]. rewrite !(proj2 (Z.ltb_ge _ _)) by lia. reflexivity.
  - cbn. repeat split; assumption.
Qed.
Definition steps_rel (x x' : pedometer F * list (step F)) : Prop :=
  ped_rel (fst x) (fst x') /\ map (@sp_len F) (snd x') = map (@sp_len F) (snd x).
Lemma ped_steps_rel p p' : ped_rel p p' -> rrel steps_rel (ped_steps p) (ped_steps p').
Proof.
  intros (A & M & EA & EM & ET & ES & ZP & ZS). unfold ped_steps. rewrite EM, ET, ES, map_length.
  destruct (Nat.leb _ 3). { cbn. repeat split; cbn; try assumption. }
  eapply rrel_bind with (R := pls_rel).
  { apply fold_left_rel with (R := rrel pls_rel); [intros; apply ped_body_rel; assumption|]. cbn. auto. }
  intros [[[q s] t] l] [[[q' s'] t'] l'] (Zp & Zs & -> & El).
  rewrite back_map. destruct (back (pd_mags p)) as [b|] eqn:Eb.
  - cbn [option_map mlater mg_ts].
    eapply rrel_bind; [apply skip_while_map; intros x _; cbn [mlater mg_ts]; rewrite sub_sh; reflexivity|]. intros a a' [-> Hi].
    cbn. split; [|exact El]. repeat split; cbn; try assumption. unfold mag_ok in *. rewrite Forall_forall in *. intros x Hx. apply M, Hi, Hx.
  - apply back_none in Eb. rewrite Eb. exact I.
Qed.

(** * Complementary filter and sensor fusion *)
Definition cf_rel (c c' : cfilter F) : Prop :=
  zr (-1) (cf_cur c) (cf_cur c') /\ zr (-1) (cf_gyro c) (cf_gyro c') /\ zr (-1) (cf_devts c) (cf_devts c') /\
  cf_interr c' = cf_interr c /\ cf_q c' = cf_q c /\ cf_magaz c' = cf_magaz c /\ cf_devaz c' = cf_devaz c /\ cf_gyroh c' = cf_gyroh c /\
  cf_magn c' = later d (cf_magn c) /\ cf_acc c' = later d (cf_acc c).
Lemma low_pass_later a b : low_pass (later d a) (later d b) = later d (low_pass a b).
Proof. unfold low_pass. cbn [later st_ts st_data]. rewrite sub_sh. reflexivity. Qed.
Lemma zr_sentinel z z' : zr (-1) z z' -> (z' =? -1) = (z =? -1).
Proof. unfold zr, gr, good. intros [[-> ->]|[? ->]]; [reflexivity|]. rewrite !(proj2 (Z.eqb_neq _ _)) by lia. reflexivity. Qed.
Lemma cf_update_rel fuel k c c' m : cf_rel c c' -> good (st_ts m) ->
  rrel (fun x x' => cf_rel x x' /\ gr (cf_cur x) (cf_cur x')) (cf_update fuel k c m) (cf_update fuel k c' (later d m)).
Proof.
  intros (Zc & Zg & Zd & E1 & E2 & E3 & E4 & E5 & E6 & E7) Hg. unfold cf_update. cbn [later st_data st_ts].
  assert (G : gr (st_ts m) (st_ts m + d)) by (split; [exact Hg|reflexivity]).
  assert (Gz : zr (-1) (st_ts m) (st_ts m + d)) by (right; exact G).
  rewrite (zr_sentinel Zg), E1, E2, E3, E4, E5, E6, E7.
  rewrite !low_pass_later.
  destruct (s_type (st_data m)).
  - cbn. repeat split; cbn; auto; apply G.
  - match goal with |- context [let '(q, ie) := ?x in _] => destruct x as [q ie] end.
    eapply rrel_bind; [apply rrel_refl|]. intros az ? <-. cbn. repeat split; cbn; auto; apply G.
  - assert (Hd : st_ts m + d - (if cf_gyro c =? -1 then st_ts m + d else cf_gyro c') = st_ts m - (if cf_gyro c =? -1 then st_ts m else cf_gyro c)).
    { destruct (cf_gyro c =? -1) eqn:B; [lia|]. apply Z.eqb_neq in B. destruct Zg as [[? ?]|[_ ->]]; [contradiction|]. lia. }
    cbn. cbv zeta. rewrite Hd. repeat split; cbn; auto; apply G.
  - cbn. repeat split; cbn; auto; apply G.
  - cbn. repeat split; cbn; auto; apply G.
  - cbn. repeat split; cbn; auto; apply G.
Qed.
Lemma outdated_rel k c c' : cf_rel c c' -> gr (cf_cur c) (cf_cur c') -> azimuth_outdated k c' = azimuth_outdated k c.
Proof.
  intros (_ & _ & Zd & _) G. unfold azimuth_outdated. rewrite (zr_sentinel Zd).
  destruct Zd as [[-> ->]|Gd]; [rewrite !orb_true_r; reflexivity|]. rewrite (gr_sub G Gd). reflexivity.
Qed.
Definition sf_rel (x x' : sfusion F) : Prop :=
  cf_rel (sf_cf x) (sf_cf x') /\ ped_rel (sf_ped x) (sf_ped x') /\ sf_steps x' = sf_steps x /\ sf_prevhead x' = sf_prevhead x.
Definition mo_rel (m m' : motion F) : Prop :=
  m' = mkMotion (mi_step m) (mi_dangle m) (mi_dist m) (mi_count m) (mi_head m) (mi_azim m) (mi_lastTs m') (mi_azvalid m) (mi_gyro m) /\
  zr 0 (mi_lastTs m) (mi_lastTs m').
Lemma sf_step_rel fuel s x x' m ts : sf_rel x x' -> good (st_ts m) -> good ts ->
  rrel (fun a a' => sf_rel (fst a) (fst a') /\ mo_rel (snd a) (snd a')) (sf_step fuel s x m ts) (sf_step fuel s x' (later d m) (ts + d)).
Proof.
  intros (C & P & E1 & E2) Hg Ht. unfold sf_step.
  eapply rrel_bind; [eapply ped_update_rel; eassumption|]. intros p p' Hp.
  eapply rrel_bind; [eapply ped_steps_rel; eassumption|]. intros [q st] [q' st'] [Hq Hs]. cbn [fst snd] in Hq, Hs.
  eapply rrel_bind; [eapply cf_update_rel; eassumption|]. intros c c' [Hc Gc].
  rewrite (outdated_rel (cf_conf s) Hc Gc).
  assert (Hf : fused_azimuth c' = fused_azimuth c) by (unfold fused_azimuth; destruct Hc as (_ & _ & _ & _ & -> & _); reflexivity). rewrite Hf.
  assert (Hm : cf_magaz c' = cf_magaz c /\ cf_devaz c' = cf_devaz c /\ cf_gyroh c' = cf_gyroh c) by (destruct Hc as (_ & _ & _ & _ & _ & -> & -> & -> & _); auto).
  destruct Hm as (-> & -> & ->). rewrite E1, E2.
  match goal with |- context [let '(az, azv) := ?x in _] => destruct x as [az azv] end.
  assert (Hl : List.length st' = List.length st) by (rewrite <- (map_length (@sp_len F) st'), Hs, map_length; reflexivity).
  destruct st as [|a st], st' as [|a' st']; try discriminate Hl.
  - cbn. split; [split; [exact Hc|]; split; [exact Hq|split; reflexivity]|]. split; [reflexivity|left; split; reflexivity].
  - rewrite Hl, (@fsum_eq _ _ _ _ _ _ Hs). cbn [rrel fst snd]. split; [split; [exact Hc|]; split; [exact Hq|split; reflexivity]|].
    split; [reflexivity|]. right. split; [exact Ht|reflexivity].
Qed.

(** * Preprocessor *)
Definition buf_rel (b b' : buffer F) : Prop :=
  Forall (fun m => good (st_ts m)) (b_ms b) /\ b_ms b' = map (later d) (b_ms b) /\ zr 0 (b_step b) (b_step b') /\
  ((b_cur b = 0 /\ b_cur b' = 0 /\ b_last b = 0 /\ b_last b' = 0) \/ (gr (b_cur b) (b_cur b') /\ gr (b_last b) (b_last b'))).
Lemma buffer_add_rel b b' m : buf_rel b b' -> good (st_ts m) -> buf_rel (buffer_add b m) (buffer_add b' (later d m)).
Proof.
  intros (A & E & Zs & T) Hg. unfold buffer_add. cbn [later st_data st_ts]. repeat split; cbn.
  - apply Forall_app. split; [exact A|]. repeat constructor; apply Hg.
  - rewrite E, map_app. reflexivity.
  - exact Zs.
  - right. split; [split; [exact Hg|reflexivity]|].
    destruct T as [(-> & -> & _)|[Gc Gl]]; [split; [exact Hg|reflexivity]|].
    destruct Gc as [Hc ->]. unfold good in Hc. rewrite !(proj2 (Z.eqb_neq _ _)) by lia. exact Gl.
Qed.
Lemma average_later g : average_run (later d (fst g), map (later d) (snd g)) = average_run (g : stamped (radio F) * list (stamped (radio F))).
Proof. unfold average_run. cbn [fst snd]. rewrite map_length, !fsum_later by reflexivity. reflexivity. Qed.
Lemma runs_from_later x acc l : runs_from (later d x) (map (later d) acc) (map (later d) l) =
  map (fun g => (later d (fst g), map (later d) (snd g))) (runs_from x acc (l : list (stamped (radio F)))).
Proof.
  revert x acc. induction l as [|e t IH]; intros x acc; cbn [runs_from map fst snd].
  - rewrite <- map_rev. reflexivity.
  - change (id_lt (later d x) (later d e)) with (id_lt x e). destruct (id_lt x e); cbn [map fst snd].
    + rewrite <- map_rev. f_equal. apply (IH e [e]).
    + apply (IH x (e :: acc)).
Qed.
Lemma runs_later l : map (@average_run F NF) (runs (map (later d) l)) = map (@average_run F NF) (runs l).
Proof.
  destruct l as [|x t]; [reflexivity|]. cbn [map runs]. pose proof (runs_from_later x [x] t) as E. cbn [map] in E. rewrite E, map_map.
  apply map_ext. intros g. apply average_later.
Qed.
Lemma drop_old_later from l : drop_old (from + d) (map (later d) l) = map (later d) (drop_old from (l : list (stamped (radio F)))).
Proof.
  induction l as [|m t IH]; cbn [drop_old map]; [reflexivity|]. cbn [later st_ts].
  replace (from + d <=? st_ts m + d) with (from <=? st_ts m) by (destruct (from <=? st_ts m) eqn:B, (from + d <=? st_ts m + d) eqn:C; try reflexivity; [apply Z.leb_le in B; apply Z.leb_gt in C|apply Z.leb_gt in B; apply Z.leb_le in C]; lia).
  destruct (from <=? st_ts m); [reflexivity|exact IH].
Qed.
Lemma sort_in lt (l : list (stamped (radio F))) x : strict_weak_on lt l -> In x (ssort lt l) -> In x l.
Proof. intros H Hx. eapply Permutation_in; [apply Permutation_sym, ssort_perm, H|exact Hx]. Qed.
Lemma id_swo (l : list (stamped (radio F))) : strict_weak_on id_lt l.
Proof.
  unfold id_lt. split; [|split]; intros.
  - apply str_ltb_irrefl.
  - eapply str_ltb_trans; eassumption.
  - eapply str_ltb_neg_trans; eassumption.
Qed.
Lemma ts_swo (l : list (stamped (radio F))) : strict_weak_on ts_lt l.
Proof.
  unfold ts_lt. split; [|split]; intros *; intros; rewrite ?Z.ltb_lt, ?Z.ltb_ge in *; lia.
Qed.
Lemma drop_old_in from (l : list (stamped (radio F))) x : In x (drop_old from l) -> In x l.
Proof. induction l as [|m t IH]; cbn; [auto|]. destruct (from <=? st_ts m); auto. Qed.
Lemma buffer_extract_rel c b b' ls ls' : 0 < bc_shift c -> buf_rel b b' -> zr 0 ls ls' ->
  buf_rel (fst (buffer_extract c b ls)) (fst (buffer_extract c b' ls')) /\ snd (buffer_extract c b' ls') = snd (buffer_extract c b ls).
Proof.
  intros Hsh (A & E & Zs & T) Zl. unfold buffer_extract.
  assert (Zst : zr 0 (if 0 <? ls then ls else b_step b) (if 0 <? ls' then ls' else b_step b')).
  { destruct Zl as [[-> ->]|[Hg ->]]; [exact Zs|]. unfold good in Hg. rewrite !(proj2 (Z.ltb_lt _ _)) by lia. right. split; [exact Hg|reflexivity]. }
  set (stp := if 0 <? ls then ls else b_step b) in *. set (stp' := if 0 <? ls' then ls' else b_step b') in *.
  assert (T' := T). destruct T' as [(C1 & C2 & L1 & L2)|[Gc Gl]].
  - rewrite C1, C2, L1, L2. cbn [Z.sub Z.opp Z.add]. rewrite (proj2 (Z.ltb_lt 0 (bc_shift c)) Hsh). cbn [fst snd].
    split; [|reflexivity]. repeat split; cbn; try assumption. left. repeat split.
  - rewrite (gr_sub Gc Gl). destruct (b_cur b - b_last b <? bc_shift c); cbn [fst snd].
    { split; [|reflexivity]. repeat split; cbn; try assumption. }
    rewrite E, (@Gen _ (later d) id_lt (b_ms b)) by reflexivity. rewrite runs_later.
    set (srt := ssort id_lt (b_ms b)).
    assert (As : Forall (fun m => good (st_ts m)) srt).
    { rewrite Forall_forall in *. intros x Hx. apply A. eapply sort_in; [apply id_swo|exact Hx]. }
    assert (Est : (bc_usestops c && (0 <? stp')) && (bc_stop c <? b_cur b' - stp') = (bc_usestops c && (0 <? stp)) && (bc_stop c <? b_cur b - stp)).
    { destruct Zst as [[-> ->]|G]; [cbn; rewrite !andb_false_r; reflexivity|]. rewrite (gr_sub Gc G). destruct G as [Hg ->]. unfold good in Hg.
      rewrite !(proj2 (Z.ltb_lt 0 _)) by lia. reflexivity. }
    rewrite Est. destruct ((bc_usestops c && (0 <? stp)) && (bc_stop c <? b_cur b - stp)); cbn [fst snd].
    { split; [|reflexivity]. repeat split; cbn; try assumption. right. split; assumption. }
    destruct (bc_keep c =? 0); cbn [fst snd].
    { split; [|reflexivity]. repeat split; cbn; try assumption; [constructor|]. right. split; assumption. }
    split; [|reflexivity]. repeat split; cbn; try assumption.
    + rewrite Forall_forall in *. intros x Hx. apply As. eapply sort_in; [apply ts_swo|]. eapply drop_old_in, Hx.
    + rewrite (@Gen _ (later d) ts_lt srt).
      * destruct Gc as [_ ->]. replace (b_cur b + d - bc_keep c) with (b_cur b - bc_keep c + d) by lia. apply drop_old_later.
      * intros a b0 _ _. unfold ts_lt, later. cbn [st_ts]. destruct (st_ts a <? st_ts b0) eqn:B.
        -- apply Z.ltb_lt in B. apply Z.ltb_lt. lia.
        -- apply Z.ltb_ge in B. apply Z.ltb_ge. lia.
    + right. split; assumption.
Qed.
Definition pre_rel (p p' : preproc F) : Prop :=
  buf_rel (pp_buf p) (pp_buf p') /\ pp_signal p' = pp_signal p + d /\
  pp_sensor p' = later d (pp_sensor p) /\ good (st_ts (pp_sensor p)) /\ st_data (pp_nmea p') = st_data (pp_nmea p).
Lemma update_rel s c p p' m : pre_rel p p' -> good (st_ts m) ->
  rrel (fun q q' => pre_rel q q' /\ gr (pp_cur q) (pp_cur q')) (update_measurements s c p m) (update_measurements s c p' (later d m)).
Proof.
  intros (B & S & Sn & G & Nm) Hg. unfold update_measurements. cbn [later st_data st_ts].
  assert (GG : gr (st_ts m) (st_ts m + d)) by (split; [exact Hg|reflexivity]).
  destruct (st_data m) as [r|x|x].
  - eapply rrel_bind; [apply rrel_refl|]. intros v ? <-. destruct v; cbn; (split; [|exact GG]); unfold pre_rel; cbn [pp_buf pp_signal pp_sensor pp_nmea].
    + split; [apply (@buffer_add_rel _ _ (mkSt r (st_ts m))); assumption|]. auto.
    + auto.
  - cbn. split; [|exact GG]. unfold pre_rel; cbn [pp_buf pp_signal pp_sensor pp_nmea]. auto.
  - cbn. split; [|exact GG]. unfold pre_rel; cbn [pp_buf pp_signal pp_sensor pp_nmea]. auto.
Qed.
Lemma extract_rel s bc c p p' ls ls' : 0 < bc_shift bc -> pre_rel p p' -> zr 0 ls ls' ->
  rrel (fun x x' => pre_rel (fst x) (fst x') /\ snd x' = snd x) (extract_radio s bc c p ls) (extract_radio s bc c p' ls').
Proof.
  intros Hsh (B & R) Zl. unfold extract_radio. destruct (@buffer_extract_rel bc _ _ _ _ Hsh B Zl) as [Hb Ho].
  destruct (buffer_extract bc (pp_buf p) ls) as [b out], (buffer_extract bc (pp_buf p') ls') as [b' out']. cbn [fst snd] in Hb, Ho. subst out'.
  eapply rrel_bind; [apply rrel_refl|]. intros sel ? <-. eapply rrel_bind; [apply rrel_refl|]. intros o ? <-. cbn.
  split; [|reflexivity]. split; [exact Hb|exact R].
Qed.

(** * Positions *)
Definition pos_rel (p p' : position F) : Prop :=
  (p' = p /\ p_empty p = true /\ p_ts p = 0) \/ (good (p_ts p) /\ p' = pos_set_ts p (p_ts p + d)).
Lemma pos_rel0 : pos_rel pos0 pos0. Proof. left. repeat split. Qed.
Lemma pos_fields p p' : pos_rel p p' -> p_x p' = p_x p /\ p_y p' = p_y p /\ p_level p' = p_level p /\ p_dev p' = p_dev p /\
  p_empty p' = p_empty p /\ p_prov p' = p_prov p /\ p_head p' = p_head p.
Proof. intros [(-> & _)|[_ ->]]; cbn; auto 10. Qed.
Lemma pos_time p p' : pos_rel p p' -> p_empty p = false -> gr (p_ts p) (p_ts p').
Proof. intros [(_ & E & _)|[G ->]] H; [congruence|]. split; [exact G|reflexivity]. Qed.
Lemma pos_new x y l dv t t' e pr h : gr t t' -> pos_rel (mkPos x y l dv t e pr h) (mkPos x y l dv t' e pr h).
Proof. intros [G ->]. right. split; [exact G|reflexivity]. Qed.
Lemma pos_xy p p' x y : pos_rel p p' -> pos_rel (pos_set_xy p x y) (pos_set_xy p' x y).
Proof. intros [(-> & E & T)|[G ->]]; [left|right]; auto. Qed.
Lemma pos_dev p p' x : pos_rel p p' -> pos_rel (pos_set_dev p x) (pos_set_dev p' x).
Proof. intros [(-> & E & T)|[G ->]]; [left|right]; auto. Qed.
Lemma pos_ts p p' t t' : pos_rel p p' -> gr t t' -> pos_rel (pos_set_ts p t) (pos_set_ts p' t').
Proof. intros [(-> & E & T)|[G ->]] [Gt ->]; right; auto. Qed.
Ltac pf H := let a := fresh in pose proof (pos_fields H) as a; destruct a as (? & ? & ? & ? & ? & ? & ?).

(** * Smoothers *)
Definition ab_rel (a a' : absm F) : Prop :=
  ab_called a' = ab_called a /\ ab_vx a' = ab_vx a /\ ab_vy a' = ab_vy a /\ pos_rel (ab_pos a) (ab_pos a') /\
  (ab_called a = true -> p_empty (ab_pos a) = false).
Lemma ltb_sh a a' b b' : gr a a' -> gr b b' -> (a' <? b') = (a <? b).
Proof. intros [_ ->] [_ ->]. destruct (a <? b) eqn:B; [apply Z.ltb_lt in B; apply Z.ltb_lt|apply Z.ltb_ge in B; apply Z.ltb_ge]; lia. Qed.
Lemma leb_sh a a' b b' : gr a a' -> gr b b' -> (a' <=? b') = (a <=? b).
Proof. intros [_ ->] [_ ->]. destruct (a <=? b) eqn:B; [apply Z.leb_le in B; apply Z.leb_le|apply Z.leb_gt in B; apply Z.leb_gt]; lia. Qed.
Lemma eqb_sh a a' b b' : gr a a' -> gr b b' -> (a' =? b') = (a =? b).
Proof. intros [_ ->] [_ ->]. destruct (a =? b) eqn:B; [apply Z.eqb_eq in B; apply Z.eqb_eq|apply Z.eqb_neq in B; apply Z.eqb_neq]; lia. Qed.
Lemma ab_rel_smooth s al a a' p p' : ab_rel a a' -> pos_rel p p' -> p_empty p = false ->
  ab_rel (fst (ab_smooth s al a p)) (fst (ab_smooth s al a' p')) /\
  pos_rel (snd (ab_smooth s al a p)) (snd (ab_smooth s al a' p')) .
Proof.
  intros (E1 & E2 & E3 & Ro & Cal) Rp Hp. assert (Gp := pos_time Rp Hp). unfold ab_smooth. pf Ro. pf Rp.
  destruct (ab_called a) eqn:Ca.
  - assert (Go := pos_time Ro (Cal eq_refl)). rewrite (ltb_sh Go Gp), (gr_sub Gp Go).
    assert (Hg : ab_gain s (ab_pos a') p' = ab_gain s (ab_pos a) p) by (unfold ab_gain; repeat match goal with H : p_dev _ = _ |- _ => rewrite H; clear H end; reflexivity).
    rewrite Hg, E1, E2, E3. repeat match goal with H : p_x _ = _ |- _ => rewrite H; clear H | H : p_y _ = _ |- _ => rewrite H; clear H end.
    cbv zeta. destruct (p_ts (ab_pos a) <? p_ts p); [|cbn [fst snd]; split; [|exact Ro]; repeat split; auto; congruence].
    match goal with |- context [if negb true || ?b || ?c || ?e then _ else _] => destruct (negb true || b || c || e) end; cbn [fst snd].
    { split; [|exact Rp]. repeat split; cbn; auto. }
    match goal with |- context [if fisfinite ?a && fisfinite ?b then pos_set_xy p ?a ?b else p] =>
      assert (Rq : pos_rel (if fisfinite a && fisfinite b then pos_set_xy p a b else p) (if fisfinite a && fisfinite b then pos_set_xy p' a b else p'));
      [destruct (fisfinite a && fisfinite b); [apply pos_xy, Rp|exact Rp]|];
      assert (Eq : p_empty (if fisfinite a && fisfinite b then pos_set_xy p a b else p) = false) by (destruct (fisfinite a && fisfinite b); exact Hp);
      set (q := if fisfinite a && fisfinite b then pos_set_xy p a b else p) in *;
      set (q' := if fisfinite a && fisfinite b then pos_set_xy p' a b else p') in *
    end.
    destruct (s_accsmooth s); cbn [fst snd].
    + destruct (pos_fields Rq) as (_ & _ & _ & -> & _). split; [|apply pos_dev, Rq]. repeat split; cbn [ab_called ab_vx ab_vy ab_pos]; auto. apply pos_dev, Rq.
    + split; [|exact Rq]. repeat split; cbn [ab_called ab_vx ab_vy ab_pos]; auto.
  - rewrite E1. cbn [negb orb]. cbv zeta.
    assert (Hlt : (p_ts (ab_pos a') <? p_ts p') = (p_ts (ab_pos a) <? p_ts p)).
    { destruct Ro as [(-> & _ & T)|[G ->]].
      - rewrite T. destruct Gp as [Hg ->]. unfold good in Hg. rewrite !(proj2 (Z.ltb_lt _ _)) by lia. reflexivity.
      - apply ltb_sh; [split; [exact G|reflexivity]|exact Gp]. }
    rewrite Hlt. destruct (p_ts (ab_pos a) <? p_ts p); cbn [fst snd].
    + split; [|exact Rp]. repeat split; cbn; auto.
    + split; [|exact Ro]. repeat split; auto; congruence.
Qed.
Definition lsq_rel (q q' : lsq F) : Prop :=
  lq_called q' = lq_called q /\ lq_x q' = lq_x q /\ lq_y q' = lq_y q /\ (lq_called q = true -> gr (lq_start q) (lq_start q')).
Lemma lsq_rel_smooth s al q q' p p' : lsq_rel q q' -> pos_rel p p' -> p_empty p = false ->
  rrel (fun x x' => lsq_rel (fst x) (fst x') /\ pos_rel (snd x) (snd x')) (lsq_smooth s al q p) (lsq_smooth s al q' p').
Proof.
  intros (E1 & E2 & E3 & St) Rp Hp. assert (Gp := pos_time Rp Hp). unfold lsq_smooth. pf Rp. rewrite E1, E2, E3.
  destruct (lq_called q) eqn:Ca; cbn [negb].
  - assert (Gs := St eq_refl). rewrite (gr_sub Gp Gs). repeat match goal with H : p_x _ = _ |- _ => rewrite H; clear H | H : p_y _ = _ |- _ => rewrite H; clear H end.
    eapply rrel_bind; [apply rrel_refl|]. intros fx ? <-. eapply rrel_bind; [apply rrel_refl|]. intros fy ? <-.
    destruct (pf_predict _ fx _) as [gx xs], (pf_predict _ fy _) as [gy ys]. destruct (_ && _); cbn [rrel fst snd].
    + split; [|exact Rp]. repeat split; cbn; auto; apply Gp.
    + split; [repeat split; cbn; auto; apply Gs|]. destruct (_ && _); [apply pos_xy, Rp|exact Rp].
  - cbn. split; [|exact Rp]. repeat split; cbn; auto; apply Gp.
Qed.
Definition sm_rel (m m' : smoother F) : Prop :=
  match m, m' with SAB a, SAB a' => ab_rel a a' | SLsq q, SLsq q' => lsq_rel q q' | _, _ => False end.
Lemma sm_reset_rel m m' p p' : sm_rel m m' -> pos_rel p p' -> p_empty p = false -> sm_rel (sm_reset m p) (sm_reset m' p').
Proof.
  intros R Rp Hp. destruct m, m'; try contradiction; cbn in *.
  - destruct R as (E1 & _). repeat split; cbn; auto.
  - destruct R as (E1 & E2 & E3 & _). repeat split; cbn; rewrite ?E2, ?E3; auto; apply (pos_time Rp Hp).
Qed.
Lemma sm_smooth_rel s al m m' p p' : sm_rel m m' -> pos_rel p p' -> p_empty p = false ->
  rrel (fun x x' => sm_rel (fst x) (fst x') /\ pos_rel (snd x) (snd x')) (sm_smooth s al m p) (sm_smooth s al m' p').
Proof.
  intros R Rp Hp. destruct m as [a|q], m' as [a'|q']; try contradiction; cbn [sm_smooth sm_rel] in *.
  - destruct (ab_rel_smooth s al R Rp Hp) as [H1 H2]. destruct (ab_smooth s al a p), (ab_smooth s al a' p'). cbn in *. auto.
  - eapply rrel_bind; [apply lsq_rel_smooth; eassumption|]. intros [x y] [x' y'] [H1 H2]. cbn in *. auto.
Qed.
Definition tm_rel (m m' : tsm F) : Prop := pos_rel (tm_prev m) (tm_prev m') /\ pos_rel (tm_next m) (tm_next m').
Lemma time_smooth_rel m m' p p' ts ts' : tm_rel m m' -> pos_rel p p' -> gr ts ts' ->
  tm_rel (fst (time_smooth m p ts)) (fst (time_smooth m' p' ts')) /\ pos_rel (snd (time_smooth m p ts)) (snd (time_smooth m' p' ts')).
Proof.
  intros [R1 R2] Rp G. unfold time_smooth. pf R1. pf R2. pf Rp.
  assert (Hlt : (ts' <? p_ts p') = (ts <? p_ts p)).
  { destruct Rp as [(-> & _ & T)|[Gp ->]]; [|apply ltb_sh; [exact G|split; [exact Gp|reflexivity]]].
    rewrite T. destruct G as [Hg ->]. unfold good in Hg. rewrite !(proj2 (Z.ltb_ge _ _)) by lia. reflexivity. }
  rewrite Hlt. clear Hlt. destruct (ts <? p_ts p); cbn [fst snd]; [split; [split; assumption|exact Rp]|].
  repeat match goal with H : p_level _ = _ |- _ => rewrite H; clear H | H : p_empty _ = _ |- _ => rewrite H; clear H end.
  destruct (_ || _); cbn [fst snd]; [split; [split; assumption|exact Rp]|].
  destruct (p_empty (tm_prev m) || p_empty (tm_next m) || p_empty p) eqn:Ee; cbn [fst snd]; [split; [split; assumption|exact Rp]|].
  apply orb_false_iff in Ee. destruct Ee as [Ee Ep]. apply orb_false_iff in Ee. destruct Ee as [Ev En].
  assert (Gn := pos_time R2 En). assert (Gp := pos_time Rp Ep). rewrite (ltb_sh Gn Gp).
  assert (Rm : exists u u', (if p_ts (tm_next m) <? p_ts p then mkTsm (tm_next m) p else m) = u /\ (if p_ts (tm_next m) <? p_ts p then mkTsm (tm_next m') p' else m') = u' /\
     tm_rel u u' /\ gr (p_ts (tm_prev u)) (p_ts (tm_prev u')) /\ gr (p_ts (tm_next u)) (p_ts (tm_next u'))).
  { eexists _, _. split; [reflexivity|]. split; [reflexivity|]. destruct (_ <? _); cbn [tm_prev tm_next].
    - split; [split; assumption|]. split; assumption.
    - split; [split; assumption|]. split; [apply pos_time; assumption|exact Gn]. }
  destruct Rm as (u & u' & -> & -> & [U1 U2] & Gu1 & Gu2). rewrite (eqb_sh Gu2 Gu1), (gr_sub G Gu2), (gr_sub Gu2 Gu1).
  destruct (_ =? _); cbn [fst snd]; [split; [split|]; assumption|].
  cbv zeta. destruct (_ <! _); cbn [fst snd]; [split; [split|]; assumption|].
  split; [split; assumption|]. destruct (pos_fields U1) as (-> & -> & _), (pos_fields U2) as (-> & -> & _). apply pos_ts; [apply pos_xy, U2|exact G].
Qed.

(** * Fusion and post-processing *)
Definition post_rel (o o' : post F) : Prop :=
  po_idev o' = po_idev o /\ po_odev o' = po_odev o /\ tm_rel (po_time o) (po_time o') /\ sm_rel (po_sm o) (po_sm o') /\
  pos_rel (po_in o) (po_in o') /\ pos_rel (po_out o) (po_out o') /\ pos_rel (po_last o) (po_last o') /\
  zr 0 (po_extr o) (po_extr o') /\ zr (-1) (po_step o) (po_step o').
Lemma prior_rel s p p' dv ts ts' : pos_rel p p' -> gr ts ts' -> prior_dev s p' dv ts' = prior_dev s p dv ts.
Proof.
  intros R G. unfold prior_dev. pf R. match goal with H : p_empty _ = _ |- _ => rewrite H end. destruct (p_empty p) eqn:E; [reflexivity|].
  rewrite (gr_sub G (pos_time R E)). reflexivity.
Qed.
Lemma fill_rel s o o' a a' b b' : post_rel o o' -> pos_rel a a' -> pos_rel b b' -> post_rel (fill_states s o a b) (fill_states s o' a' b').
Proof.
  intros (E1 & E2 & T & S & I & O & L & X & Z) Ra Rb. unfold fill_states. pf Ra. pf Rb.
  repeat match goal with H : p_empty _ = _ |- _ => rewrite H; clear H end.
  destruct (p_empty a) eqn:Ea, (p_empty b) eqn:Eb;
    repeat match goal with H : p_dev _ = _ |- _ => rewrite H; clear H end; rewrite ?E1, ?E2;
    try rewrite (prior_rel s _ I (pos_time Ra Ea)); try rewrite (prior_rel s _ O (pos_time Rb Eb));
    unfold post_rel; cbn [po_idev po_odev po_time po_sm po_in po_out po_last po_extr po_step]; auto 20.
Qed.
Lemma delay_rel a a' b b' : gr a a' -> gr b b' -> delay a' b' = (delay a b : F).
Proof. intros Ga Gb. unfold delay. rewrite (leb_sh Gb Ga), (gr_sub Ga Gb). reflexivity. Qed.
Lemma gr_max a a' b b' : gr a a' -> gr b b' -> gr (Z.max a b) (Z.max a' b').
Proof. intros [Ga ->] [Gb ->]. unfold gr, good in *. lia. Qed.
Lemma fused_rel s o o' ts ts' a a' b b' st : post_rel o o' -> gr ts ts' -> pos_rel a a' -> pos_rel b b' -> pos_rel (fused s o ts a b st) (fused s o' ts' a' b' st).
Proof.
  intros (E1 & E2 & _ & _ & I & O & _) G Ra Rb. unfold fused. pf Ra. pf Rb. pf I. pf O.
  repeat match goal with H : p_empty _ = _ |- _ => rewrite H; clear H end.
  destruct (s_instgps s && negb (p_empty b)); [exact Rb|]. destruct (_ && _); [exact Ra|].
  destruct (negb (s_gps s) || p_empty (po_out o)) eqn:Eo; [exact I|]. apply orb_false_iff in Eo. destruct Eo as [_ Eo].
  destruct (p_empty (po_in o)) eqn:Ei; [exact O|]. cbv zeta.
  assert (Gi := pos_time I Ei). assert (Go := pos_time O Eo). rewrite (delay_rel G Gi), (delay_rel G Go), E1, E2.
  destruct (s_posold s <! delay ts (p_ts (po_in o))); [exact O|]. destruct (s_posold s <! delay ts (p_ts (po_out o))); [exact I|].
  repeat match goal with H : p_dev _ = _ |- _ => rewrite H; clear H | H : p_x _ = _ |- _ => rewrite H; clear H | H : p_y _ = _ |- _ => rewrite H; clear H | H : p_level _ = _ |- _ => rewrite H; clear H | H : p_head _ = _ |- _ => rewrite H; clear H end.
  destruct (s_fusegps s && _).
  - apply pos_new, gr_max; assumption.
  - destruct (_ <! _); [exact I|exact O].
Qed.
Lemma project_rel s l p p' : pos_rel p p' -> rrel pos_rel (project s l p) (project s l p').
Proof.
  intros R. unfold project. destruct (pos_fields R) as (-> & -> & _). destruct (s_graphproj s); [|exact R].
  eapply rrel_bind; [apply rrel_refl|]. intros q ? <-. cbn. destruct (_ && _); [apply pos_xy, R|exact R].
Qed.
Lemma zr_pos z z' s : s <= 0 -> zr s z z' -> (0 <? z') = (0 <? z) /\ ((0 <? z) = true -> gr z z').
Proof.
  intros Hs [[-> ->]|G]; [split; [reflexivity|]; intros H; apply Z.ltb_lt in H; lia|].
  split; [|intros; exact G]. destruct G as [Hg ->]. unfold good in Hg. rewrite !(proj2 (Z.ltb_lt _ _)) by lia. reflexivity.
Qed.
Lemma hold_rel s c o o' step step' ts ts' r r' : (s_stops s = true -> pc_stopupd c < lo) -> post_rel o o' -> zr (-1) step step' -> gr ts ts' -> pos_rel r r' ->
  pos_rel (fst (hold_or_move s c o step ts r)) (fst (hold_or_move s c o' step' ts' r')) /\
  zr 0 (snd (hold_or_move s c o step ts r)) (snd (hold_or_move s c o' step' ts' r')).
Proof.
  intros Hu (E1 & E2 & T & S & I & O & L & X & Z) Zs G R. unfold hold_or_move.
  destruct (zr_pos (s := -1) ltac:(lia) Zs) as [Hp Hq].
  assert (Ht : (0 <? step') && (pc_stopdet c <=? ts' - step') = (0 <? step) && (pc_stopdet c <=? ts - step)).
  { rewrite Hp. destruct (0 <? step) eqn:B; [|reflexivity]. rewrite (gr_sub G (Hq eq_refl)). reflexivity. }
  rewrite Ht. clear Ht Hp Hq. destruct (pos_fields L) as (-> & -> & _). destruct (pos_fields R) as (-> & -> & _). destruct (pos_fields I) as (_ & _ & _ & -> & _).
  cbv zeta. destruct (s_stops s) eqn:Es; cbn [andb].
  - match goal with |- context [if ?b then _ else _] => destruct b end.
    + assert (Hx : (pc_stopupd c <? ts' - po_extr o') = (pc_stopupd c <? ts - po_extr o)).
      { destruct X as [[-> ->]|Gx]; [|rewrite (gr_sub G Gx); reflexivity]. specialize (Hu eq_refl). destruct G as [Hg ->]. unfold good in Hg.
        rewrite !(proj2 (Z.ltb_lt _ _)) by lia. reflexivity. }
      rewrite Hx. destruct (_ && _); cbn [fst snd].
      * split; [apply pos_ts; assumption|right; exact G].
      * split; [apply pos_ts; assumption|exact X].
    + cbn [fst snd]. split; [apply pos_dev, pos_ts; assumption|exact X].
  - cbn [fst snd]. split; [apply pos_dev, pos_ts; assumption|exact X].
Qed.
Lemma processed_rel s c o o' f f' ts ts' lm lm' l : (s_stops s = true -> pc_stopupd c < lo) ->
  post_rel o o' -> pos_rel f f' -> gr ts ts' -> zr 0 lm lm' ->
  rrel (fun x x' => post_rel (fst x) (fst x') /\ pos_rel (snd x) (snd x')) (processed s c o f ts lm l) (processed s c o' f' ts' lm' l).
Proof.
  intros Hu (E1 & E2 & T & S & I & O & L & X & Z) Rf G Zl. unfold processed.
  destruct (zr_pos (s := 0) ltac:(lia) Zl) as [Hp Hq]. rewrite Hp.
  assert (Zst : zr (-1) (if 0 <? lm then lm else po_step o) (if 0 <? lm then lm' else po_step o')).
  { destruct (0 <? lm) eqn:B; [right; apply Hq; reflexivity|exact Z]. }
  set (stp := if 0 <? lm then lm else po_step o) in *. set (stp' := if 0 <? lm then lm' else po_step o') in *. clearbody stp stp'.
  rewrite E1, E2. cbv zeta. cbn [po_idev po_odev po_time po_sm po_in po_out po_last po_extr po_step].
  assert (P0 : post_rel (mkPost (po_idev o) (po_odev o) (po_time o) (po_sm o) (po_in o) (po_out o) (po_last o) (po_extr o) stp)
                        (mkPost (po_idev o) (po_odev o) (po_time o') (po_sm o') (po_in o') (po_out o') (po_last o') (po_extr o') stp')).
  { unfold post_rel. cbn [po_idev po_odev po_time po_sm po_in po_out po_last po_extr po_step]. auto 20. }
  assert (Hins : inside_map s l f' = inside_map s l f) by (unfold inside_map; destruct (pos_fields Rf) as (-> & -> & _); reflexivity). rewrite Hins.
  destruct (pos_fields Rf) as (_ & _ & Hl & _ & He & _). rewrite Hl, He. destruct (pos_fields L) as (_ & _ & Hll & _). rewrite Hll.
  destruct (p_empty f) eqn:Ef; [cbn; split; [exact P0|apply pos_rel0]|].
  destruct (negb (inside_map s l f)); [cbn; split; [exact P0|apply pos_rel0]|].
  assert (Gf := pos_time Rf Ef). rewrite (gr_sub G Gf).
  destruct (pc_dead c <=? ts - p_ts f); [cbn; split; [exact P0|apply pos_rel0]|].
  eapply rrel_bind with (R := fun x x' => sm_rel (fst x) (fst x') /\ pos_rel (snd x) (snd x')).
  { destruct (s_usesmooth s); [|cbn; auto]. apply sm_smooth_rel; [|exact Rf|exact Ef]. destruct (negb _); [apply sm_reset_rel; assumption|exact S]. }
  intros [sm r] [sm' r'] [Rsm Rr]. cbn [fst snd] in Rsm, Rr.
  assert (Rt : tm_rel (fst (if s_timesmooth s then time_smooth (po_time o) r ts else (po_time o, r))) (fst (if s_timesmooth s then time_smooth (po_time o') r' ts' else (po_time o', r'))) /\
               pos_rel (snd (if s_timesmooth s then time_smooth (po_time o) r ts else (po_time o, r))) (snd (if s_timesmooth s then time_smooth (po_time o') r' ts' else (po_time o', r')))).
  { destruct (s_timesmooth s); [apply time_smooth_rel; assumption|cbn; auto]. }
  destruct (if s_timesmooth s then time_smooth (po_time o) r ts else (po_time o, r)) as [tm q].
  destruct (if s_timesmooth s then time_smooth (po_time o') r' ts' else (po_time o', r')) as [tm' q']. cbn [fst snd] in Rt. destruct Rt as [Rtm Rq].
  match goal with |- context [hold_or_move s c ?po stp ts q] => match goal with |- context [hold_or_move s c ?po' stp' ts' q'] =>
    destruct (@hold_rel s c po po' stp stp' ts ts' q q' Hu P0 Zst G Rq) as [H1 H2];
    destruct (hold_or_move s c po stp ts q) as [la ex], (hold_or_move s c po' stp' ts' q') as [la' ex'] end end. cbn [fst snd] in H1, H2.
  eapply rrel_bind; [apply project_rel, H1|]. intros p p' Rp. cbn [rrel fst snd].
  assert (Rc : pos_rel (clamp_round (l_box l) p) (clamp_round (l_box l) p')).
  { unfold clamp_round. destruct (pos_fields Rp) as (-> & -> & _). apply pos_xy, Rp. }
  split; [|exact Rc]. unfold post_rel. cbn [po_idev po_odev po_time po_sm po_in po_out po_last po_extr po_step]. auto 20.
Qed.

(** * GNSS *)
Definition out_rel (o o' : outdoor F) : Prop :=
  ou_buf o' = ou_buf o /\ pos_rel (ou_last o) (ou_last o') /\ (p_empty (ou_last o) = true -> ou_last o = pos0 /\ ou_last o' = pos0).
Lemma outdoor_rel s c o o' ts ts' m n n' fl : out_rel o o' -> gr ts ts' -> st_data n' = st_data n ->
  rrel (fun x x' => out_rel (fst x) (fst x') /\ pos_rel (snd x) (snd x')) (outdoor_position s c o ts m n fl) (outdoor_position s c o' ts' (later d m) n' fl).
Proof.
  intros (Eb & R & E0) G En. unfold outdoor_position. change (gps_of s (later d m)) with (gps_of s m). cbv zeta.
  assert (Hn : num_sats n' = num_sats n) by (unfold num_sats; rewrite En; reflexivity). rewrite Hn.
  set (dv := match gps_of s m with Some (_, _, x) => x | None => fnan end).
  assert (Q : exists u u', (if fl || (s_maxgpsdev s <! dv) then mkOutd (ou_last o) [] else o) = u /\ (if fl || (s_maxgpsdev s <! dv) then mkOutd (ou_last o') [] else o') = u' /\
     out_rel u u' /\ ou_last u = ou_last o /\ ou_last u' = ou_last o').
  { eexists _, _. split; [reflexivity|]. split; [reflexivity|]. destruct (_ || _); unfold out_rel; cbn; auto 10. }
  destruct Q as (u & u' & -> & -> & (Ub & UR & U0) & L1 & L2). clear o o' Eb R E0 L1 L2.
  assert (P : out_rel u u') by (split; [|split]; assumption).
  destruct (gps_of s m) as [[[la lo'] dv']|].
  - destruct (find _ _) as [l|]; [|cbn; split; [exact P|apply pos_rel0]]. rewrite Ub.
    assert (He : (ts' =? p_ts (ou_last u')) = (ts =? p_ts (ou_last u))).
    { destruct (p_empty (ou_last u)) eqn:E.
      - destruct (U0 eq_refl) as [-> ->]. cbn. destruct G as [Hg ->]. unfold good in Hg. rewrite !(proj2 (Z.eqb_neq _ _)) by lia. reflexivity.
      - apply eqb_sh; [exact G|apply pos_time; assumption]. }
    rewrite He. eapply rrel_bind; [apply rrel_refl|]. intros [bf v] ? <-. destruct (_ || _); cbn [rrel fst snd].
    + split; [|apply pos_rel0]. split; [reflexivity|]. split; assumption.
    + assert (N := @pos_new (px (gps_to_local (mkGeo la lo') (l_bind l))) (py (gps_to_local (mkGeo la lo') (l_bind l))) (l_id l) dv' ts ts' false GNSS f0 G).
      split; [|exact N]. split; [reflexivity|]. split; [exact N|]. cbn. discriminate.
  - destruct (p_empty (ou_last u)) eqn:E.
    + destruct (U0 eq_refl) as [-> ->]. destruct (_ <! _), (_ <! _); cbn; (split; [exact P|apply pos_rel0]).
    + rewrite (gr_sub G (pos_time UR E)). destruct (_ <! _); cbn; (split; [exact P|]); [apply pos_rel0|exact UR].
Qed.

(** * Client *)
Lemma indoor_rel k mp mp' l ts ts' ms : pos_rel mp mp' -> gr ts ts' ->
  rrel (fun x x' => pos_rel (fst x) (fst x') /\ fst (snd x') = fst (snd x) /\ pos_rel (snd (snd x)) (snd (snd x'))) (indoor k mp l ts ms) (indoor k mp' l ts' ms).
Proof.
  intros R G. unfold indoor. destruct (is_knn (cf_set k)).
  - unfold knn_position. destruct ms as [|m0 ms]; [cbn; auto|].
    eapply rrel_bind; [apply rrel_refl|]. intros ids ? <-. destruct (Nat.ltb _ _); [cbn; auto|].
    eapply rrel_bind; [apply rrel_refl|]. intros rm ? <-. cbv zeta. destruct (s_triangles (cf_set k)).
    + destruct (alookup _ _) as [[|t ts0]|]; try (cbn; auto; fail).
      eapply rrel_bind; [apply rrel_refl|]. intros p ? <-. cbn [rrel fst snd]. split; [apply pos_new, G|]. split; [reflexivity|apply pos_new, G].
    + eapply rrel_bind; [apply rrel_refl|]. intros p ? <-. cbn [rrel fst snd]. split; [apply pos_new, G|]. split; [reflexivity|apply pos_new, G].
  - eapply rrel_bind with (R := fun x x' => fst x' = fst x /\ pos_rel (snd x) (snd x')).
    + unfold zone_position. destruct ms as [|m0 ms]; [cbn; split; [reflexivity|apply pos_rel0]|].
      destruct (level_radio l (m0 :: ms)) as [|m1 rest]; [cbn; split; [reflexivity|apply pos_rel0]|]. cbv zeta.
      eapply rrel_bind; [apply rrel_refl|]. intros p ? <-. destruct (mget _ _ _) as [A B]. cbn [rrel fst snd]. split; [reflexivity|apply pos_new, G].
    + intros [st p] [st' p'] [E Rp]. cbn in *. auto.
Qed.
Lemma heading_rel ph pg f f' m m' : pos_rel f f' -> mo_rel m m' -> heading_step ph pg f' m' = heading_step ph pg f m.
Proof. intros R [-> _]. unfold heading_step. destruct (pos_fields R) as (_ & _ & _ & _ & -> & _ & ->). reflexivity. Qed.
Definition oc_rel (x x' : @outcome F) : Prop :=
  pos_rel (oc_knn x) (oc_knn x') /\ post_rel (oc_post x) (oc_post x') /\ pos_rel (oc_pos x) (oc_pos x') /\ oc_flag x' = oc_flag x /\
  oc_ph x' = oc_ph x /\ oc_pg x' = oc_pg x /\ oc_azim x' = oc_azim x /\ oc_stat x' = oc_stat x.
Definition client_rel (c c' : client F) : Prop :=
  c_lev c' = c_lev c /\ pos_rel (c_knn c) (c_knn c') /\ pre_rel (c_pre c) (c_pre c') /\ out_rel (c_outd c) (c_outd c') /\
  post_rel (c_post c) (c_post c') /\ sf_rel (c_sf c) (c_sf c') /\ c_states c' = c_states c /\ pos_rel (c_pos c) (c_pos c') /\
  c_flag c' = c_flag c /\ c_prevhead c' = c_prevhead c /\ c_prevgyro c' = c_prevgyro c.
Lemma locate_rel k c c' ts ts' lid ms p p' m m' : (s_stops (cf_set k) = true -> pc_stopupd (cf_post k) < lo) ->
  client_rel c c' -> gr ts ts' -> pos_rel p p' -> mo_rel m m' -> rrel oc_rel (locate k c ts lid ms p m) (locate k c' ts' lid ms p' m').
Proof.
  intros Hu (_ & Kn & _ & _ & Po & _ & _ & Cp & _ & Eh & Eg) G Rp Rm. unfold locate.
  destruct (has_level (cf_col k) lid).
  - eapply rrel_bind; [apply rrel_refl|]. intros l ? <-.
    eapply rrel_bind; [apply indoor_rel; [exact Kn|exact G]|]. intros [kn [st i]] [kn' [st' i']] (H1 & H2 & H3). cbn [fst snd] in H1, H2, H3. subst st'.
    unfold fuse_positions. assert (Pf := fill_rel (cf_set k) Po H3 Rp). set (o1 := fill_states (cf_set k) (c_post c) i p) in *. set (o1' := fill_states (cf_set k) (c_post c') i' p') in *.
    cbv zeta. assert (Rf := fused_rel (cf_set k) st Pf G H3 Rp). set (f := fused (cf_set k) o1 ts i p st) in *. set (f' := fused (cf_set k) o1' ts' i' p' st) in *.
    rewrite Eh, Eg, (heading_rel _ _ Rf Rm). eapply rrel_bind; [apply rrel_refl|]. intros [[[az azv] ph] pg] ? <-.
    eapply rrel_bind; [apply processed_rel; [exact Hu|exact Pf|exact Rf|exact G|apply (proj2 Rm)]|].
    intros [po q] [po' q'] [R1 R2]. cbn [fst snd] in R1, R2. cbn [rrel]. destruct (pos_fields Rf) as (_ & _ & _ & _ & _ & _ & Hh). rewrite Hh.
    destruct (pos_fields H3) as (_ & _ & _ & _ & Hi & _). rewrite Hi. unfold oc_rel. cbn. auto 10.
  - destruct Rm as [Em _]. assert (Ha : mi_azim m' = mi_azim m) by (rewrite Em; reflexivity). destruct (pos_fields Rp) as (_ & _ & _ & _ & -> & _).
    destruct (negb (p_empty p)); cbn [rrel]; unfold oc_rel; cbn; auto 10.
Qed.
Lemma output_rel e k p p' st az ms : pos_rel p p' -> output e k p' st az ms = output e k p st az ms.
Proof. intros R. unfold output. destruct (pos_fields R) as (-> & -> & -> & -> & -> & -> & _). reflexivity. Qed.
Lemma drop_rel (s : settings F) cur cur' sig mot mot' lid : gr cur cur' -> zr 0 mot mot' -> drop_level s cur' (sig + d) mot' lid = drop_level s cur sig mot lid.
Proof.
  intros [Hg ->] Zm. unfold drop_level. rewrite sub_sh. destruct (zr_pos (s := 0) ltac:(lia) Zm) as [Hp Hq]. rewrite Hp.
  destruct (0 <? mot) eqn:B; [|rewrite !andb_false_r; reflexivity]. destruct (Hq eq_refl) as [_ ->]. rewrite sub_sh. reflexivity.
Qed.
Lemma nav_step_rel e k c c' m : 0 < bc_shift (cf_buf k) -> (s_stops (cf_set k) = true -> pc_stopupd (cf_post k) < lo) ->
  client_rel c c' -> good (st_ts m) ->
  rrel (fun x x' => client_rel (fst x) (fst x') /\ snd x' = snd x) (nav_step e k c m) (nav_step e k c' (later d m)).
Proof.
  intros Hsh Hu CR Hg. assert (CR0 := CR). destruct CR0 as (Lv & Kn & Pr & Ou & Po & Sf & St & Cp & Fl & Eh & Eg). unfold nav_step. cbv zeta.
  eapply rrel_bind; [apply update_rel; [exact Pr|exact Hg]|]. intros q q' [Rq Gq].
  assert (Rq0 := Rq). destruct Rq0 as (_ & Sg & Sn & Gs & Nm). rewrite Sn.
  assert (Ec : pp_cur q' = pp_cur q + d) by apply Gq. rewrite Ec at 1.
  eapply rrel_bind; [apply sf_step_rel; [exact Sf|exact Gs|apply Gq]|]. intros [sf mi] [sf' mi'] [Rs Rm]. cbn [fst snd] in Rs, Rm.
  eapply rrel_bind; [apply extract_rel; [exact Hsh|exact Rq|apply Rm]|]. intros [q2 ms] [q2' ms'] [Rq2 Ems]. cbn [fst snd] in Rq2, Ems. subst ms'.
  eapply rrel_bind; [apply rrel_refl|]. intros det ? <-. rewrite Lv.
  change (level_step (s_baro (cf_set k)) (c_lev c) det (later d (pp_sensor q))) with (level_step (s_baro (cf_set k)) (c_lev c) det (pp_sensor q)).
  destruct (level_step (s_baro (cf_set k)) (c_lev c) det (pp_sensor q)) as [lev lid]. rewrite Fl.
  eapply rrel_bind; [apply outdoor_rel; [exact Ou|exact Gq|exact Nm]|]. intros [od op] [od' op'] [Ro Rop]. cbn [fst snd] in Ro, Rop.
  rewrite Sg, (drop_rel (cf_set k) _ lid Gq (proj2 Rm)).
  eapply rrel_bind; [apply locate_rel; [exact Hu|exact CR|exact Gq|exact Rop|exact Rm]|]. intros oc oc' (O1 & O2 & O3 & O4 & O5 & O6 & O7 & O8).
  rewrite (output_rel e k _ _ _ O3), O7, O8. eapply rrel_bind; [apply rrel_refl|]. intros o ? <-. cbn [rrel fst snd]. split; [|reflexivity].
  assert (Ens : mi_count mi' = mi_count mi /\ mi_dist mi' = mi_dist mi) by (destruct Rm as [-> _]; split; reflexivity). destruct Ens as [-> ->].
  destruct O2 as (P1 & P2 & P3 & P4 & P5 & P6 & P7). destruct (pos_fields P5) as (-> & -> & _). destruct (pos_fields P6) as (-> & -> & _).
  unfold client_rel. cbn. rewrite St. unfold post_rel. auto 20.
Qed.
Lemma nav_loop_rel e k : 0 < bc_shift (cf_buf k) -> (s_stops (cf_set k) = true -> pc_stopupd (cf_post k) < lo) -> forall ms c c' prev,
  client_rel c c' -> Forall (fun m => good (st_ts m)) ms ->
  rrel (fun x x' => client_rel (fst x) (fst x') /\ snd x' = snd x) (nav_loop e k c prev ms) (nav_loop e k c' (prev + d) (map (later d) ms)).
Proof.
  intros Hsh Hu. induction ms as [|m t IH]; intros c c' prev CR Hm; cbn [nav_loop map]; [cbn; auto|].
  inversion Hm as [|? ? Hg Ht]; subst. cbn [later st_ts].
  replace (st_ts m + d <? prev + d) with (st_ts m <? prev) by (destruct (st_ts m <? prev) eqn:B, (st_ts m + d <? prev + d) eqn:C; try reflexivity; rewrite ?Z.ltb_lt, ?Z.ltb_ge in *; lia).
  destruct (st_ts m <? prev); [apply IH; assumption|].
  eapply rrel_bind; [apply nav_step_rel; assumption|]. intros [c1 o] [c1' o'] [R1 E1]. cbn [fst snd] in R1, E1. subst o'.
  eapply rrel_bind; [apply IH; assumption|]. intros [c2 os] [c2' os'] [R2 E2]. cbn [fst snd] in R2, E2. subst os'. cbn. auto.
Qed.
Lemma navigate_all_rel e k : 0 < bc_shift (cf_buf k) -> (s_stops (cf_set k) = true -> pc_stopupd (cf_post k) < lo) -> forall bs c c',
  client_rel c c' -> Forall (Forall (fun m => good (st_ts m))) bs ->
  rrel (fun x x' => client_rel (fst x) (fst x') /\ snd x' = snd x) (navigate_all e k c bs) (navigate_all e k c' (map (map (later d)) bs)).
Proof.
  intros Hsh Hu. induction bs as [|b t IH]; intros c c' CR Hm; cbn [navigate_all map]; [cbn; auto|].
  inversion Hm as [|? ? Hg Ht]; subst.
  eapply rrel_bind with (R := fun x x' => client_rel (fst x) (fst x') /\ snd x' = snd x).
  { destruct b as [|m b]; [cbn; auto|]. unfold navigate. cbn [map]. apply (@nav_loop_rel e k Hsh Hu (m :: b)); [|exact Hg].
    destruct CR as (Lv & Kn & Pr & Ou & Po & Sf & St & Cp & Fl & Eh & Eg). unfold clear_states, client_rel. cbn. auto 20. }
  intros [c1 o] [c1' o'] [R1 E1]. cbn [fst snd] in R1, E1. subst o'.
  eapply rrel_bind; [apply IH; assumption|]. intros [c2 os] [c2' os'] [R2 E2]. cbn [fst snd] in R2, E2. subst os'. cbn. auto.
Qed.
Lemma client0_rel g s : good (st_ts (g_sensor g)) -> client_rel (client0 g s) (client0 (later_garbage d g) s).
Proof.
  intros Hg. unfold client_rel, client0. cbn.
  assert (Z : forall z, zr z z z) by (left; auto). assert (P := pos_rel0).
  split; [reflexivity|]. split; [exact P|].
  split. { split; [split; [constructor|]; split; [reflexivity|]; split; [apply Z|left; auto]|]. cbn. auto. }
  split. { split; [reflexivity|]. split; [exact P|]. cbn. auto. }
  split. { unfold post_rel. cbn. split; [reflexivity|]. split; [reflexivity|]. split; [split; exact P|].
    split; [destruct (s_abfilter s); cbn; [unfold ab_rel; cbn; repeat split; try exact P; try discriminate|unfold lsq_rel; cbn; repeat split; discriminate]|]. auto 10. }
  split. { unfold sf_rel. cbn. split; [unfold cf_rel; cbn; auto 20|]. split; [|auto]. unfold ped_rel. cbn. split; [constructor|]. split; [constructor|]. auto 10. }
  auto 10.
Qed.
End Shift.

Lemma shift_observed F (NF : Num F) (SO : Sorter) (e : env F) (k : config F) (g : garbage F) bs d lo : generic_sort SO ->
  0 < bc_shift (cf_buf k) -> 2000 <= lo -> (s_stops (cf_set k) = true -> pc_stopupd (cf_post k) < lo) ->
  (forall t, In t (st_ts (g_sensor g) :: map (fun m => st_ts m) (List.concat bs)) -> lo <= t /\ lo <= t + d) ->
  observed (navigate_all e k (client0 (later_garbage d g) (cf_set k)) (map (map (later d)) bs)) = observed (navigate_all e k (client0 g (cf_set k)) bs).
Proof.
  intros Gen Hsh Hlo Hu Ht.
  assert (R := @navigate_all_rel F NF SO Gen d lo Hlo e k Hsh Hu bs (client0 g (cf_set k)) (client0 (later_garbage d g) (cf_set k))).
  assert (R' : rrel (fun x x' => client_rel d lo (fst x) (fst x') /\ snd x' = snd x) (navigate_all e k (client0 g (cf_set k)) bs) (navigate_all e k (client0 (later_garbage d g) (cf_set k)) (map (map (later d)) bs))).
  { apply R.
    - apply client0_rel. apply Ht. left. reflexivity.
    - apply Forall_forall. intros b Hb. apply Forall_forall. intros m Hm. apply Ht. right. apply in_map, in_concat. exists b. auto. }
  unfold observed. destruct (navigate_all e k (client0 g (cf_set k)) bs) as [[c os]| | |], (navigate_all e k (client0 (later_garbage d g) (cf_set k)) _) as [[c' os']| | |]; cbn in R'; try contradiction; try reflexivity.
  destruct R' as [(_ & _ & _ & _ & _ & _ & E & _) ->]. cbn. rewrite E. reflexivity.
Qed.
