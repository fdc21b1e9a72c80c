(** C117: in doubles, averages of signals in whole units (or in any fixed power
    of two of one) are exact up to one rounding, and do not depend on the order
    of arrival; averages of other doubles do and may leave their range. *)
From Coq Require Import Reals Lra Lia SpecFloat.
From Verif Require Import Lib NumFloat NumExact SortInst Preproc Spec_Preproc Pf_Preproc SaPos Spec_SaPos Spec_Mean Pf_Mean Ex.
Local Open Scope string_scope.
Local Open Scope list_scope.
#[local] Existing Instance isorter.

(** [is_multiple g z x]: x is finite and stands for z * 2^g *)
Theorem C117_multiple g z x : unit_ok g -> (- 2 ^ 53 < z < 2 ^ 53)%Z -> is_multiple g z x ->
  double x /\ sf_real x = (IZR z * powerRZ 2 g)%R.
Proof. intros Hg Hz ->. exact (@multiple_value z g Hg Hz). Qed.
Print Assumptions C117_multiple.

(** comparisons of multiples are those of the integers *)
Theorem C117_compare t g a b x y : unit_ok g -> (- 2 ^ 53 < a < 2 ^ 53)%Z -> (- 2 ^ 53 < b < 2 ^ 53)%Z ->
  is_multiple g a x -> is_multiple g b y ->
  @fltb SF (num_float t) x y = (a <? b)%Z /\ @fleb SF (num_float t) x y = (a <=? b)%Z /\ @feqb SF (num_float t) x y = (a =? b)%Z.
Proof.
  intros Hg Ha Hb -> ->. cbn [fltb fleb feqb num_float]. unfold SFltb, SFleb, SFeqb. fold (dbl a g) (dbl b g).
  rewrite (compare_exact a b g Hg Ha Hb). unfold Z.ltb, Z.leb, Z.eqb.
  destruct (Z.compare_spec a b) as [->|L|L]; repeat split; symmetry.
  - apply Z.eqb_refl.
  - apply Z.eqb_neq. lia.
  - apply Z.eqb_neq. lia.
Qed.
Print Assumptions C117_compare.

(** the sum of a list is exact, and so is that of any permutation *)
Theorem C117_sum t A (f : A -> SF) (z : A -> Z) g l l' : unit_ok g -> (forall x, In x l -> is_multiple g (z x) (f x)) ->
  in_53_bits (map z l) -> Permutation l l' ->
  is_multiple g (zsum (map z l)) (@fsum SF (num_float t) A f l) /\ @fsum SF (num_float t) A f l' = @fsum SF (num_float t) A f l.
Proof.
  intros Hg H B P. assert (E : @fsum SF (num_float t) A f l = dbl (zsum (map z l)) g) by exact (@sum_exact t A f z g l Hg H B).
  rewrite E. split; [reflexivity|]. rewrite (zsum_perm (Permutation_map z P)).
  apply (@sum_exact t A f z g l' Hg).
  - intros x Hx. apply H. apply (Permutation_in _ (Permutation_sym P) Hx).
  - exact (@fits_perm A z l l' P B).
Qed.
Print Assumptions C117_sum.

(** every average of the radio buffer: no double is nearer to the exact mean *)
Theorem C117_nearest t (out : list (radio SF)) w g zr : @averages_of SF (num_float t) out w ->
  rssi_multiples g zr w -> groups_fit zr w ->
  forall o, In o out -> nearest (exact_mean g (map zr (of_tx (r_id o) w))) (r_rssi o).
Proof.
  intros Ha [Hg Hr] Hf o Ho. apply (@mean_nearest t (fun m => r_rssi (st_data m)) zr g); auto.
  - exact (@group_ne t out w o Ha Ho).
  - intros m Hm. apply Hr. exact (@group_in _ w m Hm).
  - apply Ha, Ho.
Qed.
Print Assumptions C117_nearest.

(** it lies between the weakest and the strongest signal averaged, compared as doubles *)
Theorem C117_between t (out : list (radio SF)) w g zr : @averages_of SF (num_float t) out w ->
  rssi_multiples g zr w -> groups_fit zr w ->
  forall o, In o out -> exists a b, In a (of_tx (r_id o) w) /\ In b (of_tx (r_id o) w) /\
  @fleb SF (num_float t) (r_rssi (st_data a)) (r_rssi o) = true /\ @fleb SF (num_float t) (r_rssi o) (r_rssi (st_data b)) = true.
Proof.
  intros Ha [Hg Hr] Hf o Ho. assert (Hn := @group_ne t out w o Ha Ho). set (l := of_tx (r_id o) w) in *.
  assert (X : forall s : Z, exists a, In a l /\ forall m, In m l -> (s * zr a <= s * zr m)%Z).
  { intros s. clear -Hn. induction l as [|x l IH]; [contradiction|]. destruct l as [|y l].
    - exists x. split; [left; reflexivity|]. intros m [<-|[]]; lia.
    - destruct IH as (a & Ia & Hm); [discriminate|]. destruct (Z.le_gt_cases (s * zr x) (s * zr a)) as [L|L].
      + exists x. split; [left; reflexivity|]. intros m [<-|Im]; [lia|]. specialize (Hm m Im). lia.
      + exists a. split; [right; exact Ia|]. intros m [<-|Im]; [lia|]. exact (Hm m Im). }
  destruct (X 1%Z) as (a & Ia & La). destruct (X (-1)%Z) as (b & Ib & Lb). exists a, b. split; [exact Ia|]. split; [exact Ib|].
  assert (Hl : forall m, In m l -> is_multiple g (zr m) (r_rssi (st_data m))) by (intros m Hm; apply Hr; exact (@group_in _ w m Hm)).
  assert (Sm : forall m, In m l -> small (zr m)).
  { intros m Hm. apply in_split in Hm. destruct Hm as (l1 & l2 & E). assert (F := Hf (r_id o)). fold l in F. rewrite E in F.
    apply fits_app in F. destruct F as [_ [F _]]. unfold zsum in F; cbn [map fold_right] in F. assert (Q := proj2 (zsum_abs (map zr l2))). unfold zsum in Q. unfold small. lia. }
  rewrite (Hl a Ia), (Hl b Ib). apply (@mean_between t (fun m => r_rssi (st_data m)) zr g l); auto.
  - apply Hf.
  - intros m Hm. specialize (La m Hm). specialize (Lb m Hm). lia.
  - apply Ha, Ho.
Qed.
Print Assumptions C117_between.

(** the same packet in whatever order the measurements arrived and whatever the
    sorting algorithm does with equal elements *)
Theorem C117_order t (SO SO' : Sorter) (c : bufcfg) (b b' : buffer SF) (s s' : Z) g zr g' zd :
  (bc_shift c <= b_cur b - b_last b)%Z -> (bc_shift c <= b_cur b' - b_last b')%Z ->
  Permutation (b_ms b) (b_ms b') ->
  rssi_multiples g zr (b_ms b) -> groups_fit zr (b_ms b) -> dist_multiples g' zd (b_ms b) -> groups_fit zd (b_ms b) ->
  map (fun o => (r_id o, r_rssi o, r_dist o)) (snd (@buffer_extract _ (num_float t) SO c b s)) =
  map (fun o => (r_id o, r_rssi o, r_dist o)) (snd (@buffer_extract _ (num_float t) SO' c b' s')).
Proof.
  intros H H' Hp Hr Fr Hd Fd.
  exact (@averages_order_exact t _ _ _ _ g zr g' zd (@extract_averages _ (num_float t) SO c b s H) (@extract_averages _ (num_float t) SO' c b' s' H') Hp Hr Fr Hd Fd).
Qed.
Print Assumptions C117_order.

(** over any history of the buffer *)
Theorem C117_history t (SO : Sorter) (c : bufcfg) (ops : list (bop SF)) g zr :
  (0 <= bc_keep c)%Z -> time_ordered ops -> rssi_multiples g zr (added ops) -> in_53_bits (map zr (added ops)) ->
  outs_nearest g zr c win0 ops (snd (@buf_run SF (num_float t) SO c buffer0 ops)).
Proof.
  intros Hk Ht Hr Hb. apply (@outs_nearest_from t); auto.
  - exists []. reflexivity.
  - apply (@refine0 SF (num_float t) SO c ops Hk Ht).
Qed.
Print Assumptions C117_history.

(** the packets of the stand-alone position estimation *)
Theorem C117_standalone t (out out' w w' : list (stamped (radio SF))) g zr g' zd :
  @sa_averages SF (num_float t) out w -> @sa_averages SF (num_float t) out' w' -> Permutation w w' ->
  rssi_multiples g zr w -> groups_fit zr w -> dist_multiples g' zd w -> groups_fit zd w ->
  map (fun o => (r_id (st_data o), r_rssi (st_data o), r_dist (st_data o))) out =
  map (fun o => (r_id (st_data o), r_rssi (st_data o), r_dist (st_data o))) out' /\
  forall o, In o out -> nearest (exact_mean g (map zr (of_tx (r_id (st_data o)) w))) (r_rssi (st_data o)).
Proof.
  intros [H _] [H' _] Hp Hr Fr Hd Fd. split.
  - assert (E := @averages_order_exact t _ _ _ _ g zr g' zd H H' Hp Hr Fr Hd Fd). rewrite !map_map in E. exact E.
  - intros o Ho. apply (@C117_nearest t _ w g zr H Hr Fr). apply in_map, Ho.
Qed.
Print Assumptions C117_standalone.

(** for other doubles neither holds: three equal signals of -50.2 dBm average to
    less than each of them, and three different ones to a value that depends on
    their order *)
Theorem C117_any_double_refuted : exists (b b' b3 : buffer SF) (c : bufcfg) o3,
  (bc_shift c <= b_cur b - b_last b)%Z /\ (bc_shift c <= b_cur b' - b_last b')%Z /\ (bc_shift c <= b_cur b3 - b_last b3)%Z /\
  Permutation (b_ms b) (b_ms b') /\
  map (@r_rssi SF) (snd (@buffer_extract SF nf isorter c b 0)) <> map (@r_rssi SF) (snd (@buffer_extract SF nf isorter c b' 0)) /\
  b_ms b3 <> [] /\ snd (@buffer_extract SF nf isorter c b3 0) = [o3] /\
  forall m, In m (b_ms b3) -> @fltb SF nf (r_rssi o3) (r_rssi (st_data m)) = true.
Proof.
  pose (m := fun (z ts : Z) => mkSt (radio_set (@ex_radio SF nf "a" 0) (@lit SF nf z 10) (@f0 SF nf)) ts).
  exists (mkBuf [m (-501) 1000; m (-502) 1100; m (-503) 1200]%Z 0 2000 0), (mkBuf [m (-503) 1200; m (-502) 1100; m (-501) 1000]%Z 0 2000 0),
    (mkBuf [m (-502) 1000; m (-502) 1100; m (-502) 1200]%Z 0 2000 0), (mkBufcfg 2000 1000 3000 true),
    (@average_run SF nf (m (-502) 1000, [m (-502) 1000; m (-502) 1100; m (-502) 1200])%Z).
  split; [cbn; lia|]. split; [cbn; lia|]. split; [cbn; lia|]. split; [|split; [|split; [|split]]].
  - cbn [b_ms]. change ([m (-503) 1200; m (-502) 1100; m (-501) 1000]%Z) with (rev [m (-501) 1000; m (-502) 1100; m (-503) 1200]%Z). apply Permutation_rev.
  - vm_compute. discriminate.
  - discriminate.
  - vm_compute. reflexivity.
  - intros x [<-|[<-|[<-|[]]]]; vm_compute; reflexivity.
Qed.
Print Assumptions C117_any_double_refuted.

(** three whole signals whose mean is no double *)
Definition ex_zr (m : stamped (radio SF)) : Z := if (st_ts m =? 1000)%Z then -60 else if (st_ts m =? 1200)%Z then -61 else -63.
Definition ex_w : list (stamped (radio SF)) := map (fun p => mkSt (@ex_radio SF nf "a" (fst p)) (snd p)) [(-60, 1000); (-61, 1200); (-63, 2600)]%Z.
Example C117_example : let b := mkBuf ex_w 1000 2600 0 in
  rssi_multiples 0 ex_zr ex_w /\ groups_fit ex_zr ex_w /\ of_tx "a" ex_w = ex_w /\
  exact_mean 0 (map ex_zr ex_w) = (-184 / 3)%R /\
  map (@r_rssi SF) (snd (@buffer_extract SF nf isorter (mkBufcfg 2000 1000 3000 true) b 0)) =
  [S754_finite true 8631899285793451 (-47)].
Proof.
  split; [|split; [|split; [|split]]].
  - split; [split; lia|]. intros m [<-|[<-|[<-|[]]]]; reflexivity.
  - intros tx. unfold of_tx. apply fits_filter. split; reflexivity.
  - reflexivity.
  - unfold exact_mean. change (zsum (map ex_zr ex_w)) with (-184)%Z. change (Z.of_nat (List.length (map ex_zr ex_w))) with 3%Z. simpl. lra.
  - vm_compute. reflexivity.
Qed.
Example C117_example_history : let ops := [BAdd (mkSt (@ex_radio SF nf "a" (-60)) 1000); BExtract 0; BAdd (mkSt (@ex_radio SF nf "a" (-61)) 1200); BAdd (mkSt (@ex_radio SF nf "a" (-63)) 2600); BExtract 0] in
  time_ordered ops /\ rssi_multiples 0 ex_zr (added ops) /\ in_53_bits (map ex_zr (added ops)) /\
  map (map (@r_rssi SF)) (snd (@buf_run SF nf isorter (mkBufcfg 2000 1000 3000 true) buffer0 ops)) =
  [[]; []; []; []; [S754_finite true 8631899285793451 (-47)]].
Proof.
  split; [split; cbn; repeat (constructor; try lia)|]. split; [|split; [split; reflexivity|vm_compute; reflexivity]].
  split; [split; lia|]. intros m [<-|[<-|[<-|[]]]]; reflexivity.
Qed.
