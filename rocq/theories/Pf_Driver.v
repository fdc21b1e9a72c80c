(** The command-line driver. *)
From Coq Require Import Lia Sorted.
From Verif Require Import Lib Client Spec_Client Pf_Client Driver Spec_Driver.
Set Implicit Arguments.

(** * Batches *)
Section Chunks.
Context {A : Type}.

Lemma u64_small z : (0 <= z < 2 ^ 64)%Z -> u64 z = z.
Proof. apply Z.mod_small. Qed.

Lemma skipn_plus (j i : nat) (l : list A) : skipn j (skipn i l) = skipn (i + j) l.
Proof. revert l. induction i as [|i IH]; intros [|x l]; try reflexivity; [destruct j; reflexivity|]. apply IH. Qed.
Lemma skipn_cons_split (i k : nat) (l : list A) : (i < List.length l)%nat -> (0 < k)%nat -> firstn k (skipn i l) <> [].
Proof.
  intros Hi Hk H. apply (f_equal (@List.length A)) in H. rewrite firstn_length, skipn_length in H. cbn in H. lia.
Qed.

Lemma chunks_from_pos n (ms : list A) : (0 < n)%Z -> (Z.of_nat (List.length ms) + n < 2 ^ 64)%Z -> forall fuel i,
  (0 <= i)%Z -> (i <= Z.of_nat (List.length ms) + n)%Z -> (Z.of_nat (List.length ms) <= i + Z.of_nat fuel)%Z ->
  exists bs, chunks_from fuel n i ms = Ok bs /\ cut (Z.to_nat n) (skipn (Z.to_nat i) ms) bs.
Proof.
  intros Hn Hs. induction fuel as [|f IH]; intros i H0 H1 H2.
  - exists []. cbn [chunks_from]. destruct (Z.ltb_spec i (Z.of_nat (List.length ms))); [lia|]. split; [reflexivity|]. split.
    + rewrite skipn_all2 by lia. reflexivity.
    + intros j b Hj. destruct j; discriminate.
  - cbn [chunks_from]. destruct (Z.ltb_spec i (Z.of_nat (List.length ms))) as [Hi|Hi].
    + rewrite (u64_small (z := n)) by lia. rewrite (u64_small (z := i + n)) by lia.
      destruct (Z.ltb_spec (Z.min (Z.of_nat (List.length ms)) (i + n)) i); [lia|].
      destruct (IH (i + n)%Z ltac:(lia) ltac:(lia) ltac:(lia)) as (bs & -> & C & P). cbn [bind]. eexists. split; [reflexivity|].
      set (q := Z.to_nat (Z.min (Z.of_nat (List.length ms)) (i + n) - i)).
      assert (Hsplit : skipn (Z.to_nat i) ms = firstn q (skipn (Z.to_nat i) ms) ++ skipn (Z.to_nat (i + n)) ms).
      { rewrite <- (firstn_skipn q (skipn (Z.to_nat i) ms)) at 1. f_equal. rewrite skipn_plus.
        destruct (Z.leb_spec (Z.of_nat (List.length ms)) (i + n)).
        - rewrite !skipn_all2 by lia. reflexivity.
        - f_equal. lia. }
      split.
      * cbn [List.concat]. rewrite C. symmetry. exact Hsplit.
      * intros [|j] b Hj; cbn [nth_error] in Hj.
        -- injection Hj as <-. split; [apply skipn_cons_split; lia|]. rewrite firstn_length, skipn_length. split; [lia|].
           cbn [List.length]. intros Hl. destruct bs as [|b1 bs]; [cbn in Hl; lia|]. destruct (P O b1 eq_refl) as [Nb _].
           assert (skipn (Z.to_nat (i + n)) ms <> []) as Nn by (rewrite <- C; cbn; destruct b1; [congruence|discriminate]).
           destruct (Z.leb_spec (Z.of_nat (List.length ms)) (i + n)); [rewrite skipn_all2 in Nn by lia; congruence|]. lia.
        -- destruct (P j b Hj) as (X & Y & W). split; [exact X|]. split; [exact Y|]. cbn [List.length]. intros Hl. apply W. lia.
    + exists []. split; [reflexivity|]. split; [rewrite skipn_all2 by lia; reflexivity|]. intros j b Hj. destruct j; discriminate.
Qed.

Lemma chunks_pos n (ms : list A) fuel : (0 < n)%Z -> (Z.of_nat (List.length ms) + n < 2 ^ 64)%Z -> (List.length ms <= fuel)%nat ->
  exists bs, chunks fuel n ms = Ok bs /\ cut (Z.to_nat n) ms bs.
Proof. intros H1 H2 H3. exact (@chunks_from_pos n ms H1 H2 fuel 0%Z ltac:(lia) ltac:(lia) ltac:(lia)). Qed.

Lemma chunks_neg n (ms : list A) fuel : (- 2 ^ 31 <= n < 0)%Z -> ms <> [] -> (Z.of_nat (List.length ms) <= 2 ^ 63)%Z ->
  chunks (S fuel) n ms = Ok [ms].
Proof.
  intros H1 H2 H3. unfold chunks. cbn [chunks_from]. assert (0 < List.length ms)%nat by (destruct ms; cbn; [congruence|lia]).
  destruct (Z.ltb_spec 0 (Z.of_nat (List.length ms))); [|lia].
  assert (U : u64 n = (2 ^ 64 + n)%Z). { unfold u64. symmetry. apply Z.mod_unique with (-1)%Z; lia. }
  rewrite U, (u64_small (z := 0 + (2 ^ 64 + n))) by lia. rewrite Z.min_l by lia. destruct (Z.ltb_spec (Z.of_nat (List.length ms)) 0); [lia|].
  assert (E : chunks_from fuel n (0 + (2 ^ 64 + n)) ms = Ok []).
  { destruct fuel; cbn [chunks_from]; (destruct (Z.ltb_spec (0 + (2 ^ 64 + n)) (Z.of_nat (List.length ms))); [lia|reflexivity]). }
  rewrite E. cbn [bind]. rewrite Z.sub_0_r, Nat2Z.id. cbn [Z.to_nat skipn]. rewrite firstn_all. reflexivity.
Qed.

Lemma chunks_zero (ms : list A) fuel : ms <> [] -> chunks fuel 0 ms = OutOfFuel.
Proof.
  intros H. unfold chunks. assert (0 < Z.of_nat (List.length ms))%Z by (destruct ms; cbn; [congruence|lia]).
  induction fuel as [|f IH]; cbn [chunks_from]; (destruct (Z.ltb_spec 0 (Z.of_nat (List.length ms))); [|lia]); [reflexivity|].
  change (u64 (0 + u64 0)) with 0%Z. rewrite Z.min_r by lia. cbn [Z.ltb Z.compare]. rewrite IH. reflexivity.
Qed.

Lemma cut_nonempty n (ms : list A) bs : cut n ms bs -> Forall (fun b => b <> []) bs.
Proof. intros [_ H]. apply Forall_forall. intros b Hb. apply In_nth_error in Hb. destruct Hb as [i Hi]. apply (H i b Hi). Qed.

(** the cut is unique *)
Lemma cut_unique n bs : forall (ms : list A) bs', (0 < n)%nat -> cut n ms bs -> cut n ms bs' -> bs = bs'.
Proof.
  induction bs as [|b bs IH]; intros ms bs' Hn [C P] [C' P'].
  - destruct bs' as [|b' bs']; [reflexivity|]. exfalso. destruct (P' O b' eq_refl) as [N _]. cbn in C, C'. rewrite <- C in C'. destruct b'; [congruence|discriminate].
  - destruct (P O b eq_refl) as (Nb & Lb & Eb). destruct bs' as [|b' bs'].
    { exfalso. cbn in C, C'. rewrite <- C' in C. destruct b; [congruence|discriminate]. }
    destruct (P' O b' eq_refl) as (Nb' & Lb' & Eb'). cbn [List.concat] in C, C'. cbn [List.length] in Eb, Eb'.
    assert (E : b = b' /\ List.concat bs = List.concat bs').
    { assert (Hc : b ++ List.concat bs = b' ++ List.concat bs') by congruence.
      destruct bs as [|x bs].
      - cbn in Hc. rewrite app_nil_r in Hc. destruct bs' as [|y bs'].
        + cbn in Hc. rewrite app_nil_r in Hc. subst. auto.
        + exfalso. specialize (Eb' ltac:(cbn; lia)). destruct (P' 1%nat y eq_refl) as [Ny _]. subst b. rewrite app_length in Lb. cbn in Lb. rewrite app_length in Lb. destruct y; [congruence|cbn in Lb; lia].
      - specialize (Eb ltac:(cbn; lia)). destruct bs' as [|y bs'].
        + exfalso. destruct (P 1%nat x eq_refl) as [Nx _]. cbn [List.concat] in Hc. rewrite app_nil_r in Hc. subst b'. rewrite app_length in Lb'. cbn in Lb'. rewrite app_length in Lb'. destruct x; [congruence|cbn in Lb'; lia].
        + specialize (Eb' ltac:(cbn; lia)). assert (List.length b = List.length b') by lia. apply app_eq_app in Hc.
          destruct Hc as (l & [[-> Hc]|[-> Hc]]); rewrite app_length in *; (destruct l; [|cbn in *; lia]); rewrite app_nil_r; cbn in Hc; auto. }
    destruct E as [-> E]. f_equal. apply (IH (List.concat bs)); [exact Hn|split; [reflexivity|]|split; [congruence|]].
    + intros i x Hx. destruct (P (S i) x Hx) as (X & Y & W). split; [exact X|]. split; [exact Y|]. intros L. apply W. cbn. lia.
    + intros i x Hx. destruct (P' (S i) x Hx) as (X & Y & W). split; [exact X|]. split; [exact Y|]. intros L. apply W. cbn. lia.
Qed.
End Chunks.

(** * Printing *)
Section Print.
Context {F : Type} {NF : Num F} {SO : Sorter}.

Lemma print_ok h first os : forall (ns : list (nstate F)) ms s,
  (List.length os <= List.length ns)%nat -> (List.length os <= List.length ms)%nat ->
  exists s' ls, print_batch h first os ns ms s = Ok (s', ls) /\ map (@ln_out F) ls = os /\
    map (@ln_sec F) ls = map (fun m => Z.quot (st_ts m - first) 1000) (firstn (List.length os) ms).
Proof.
  induction os as [|o os IH]; intros ns ms s Hn Hm; [exists s, []; auto|].
  destruct ns as [|x ns]; [cbn in Hn; lia|]. destruct ms as [|m ms]; [cbn in Hm; lia|]. cbn in Hn, Hm. cbn [print_batch tl].
  set (s1 := if status_eqb (o_status o) OK then build_pdr (ns_steplen x) h s else s).
  assert (E : (if status_eqb (o_status o) OK then Ok (build_pdr (ns_steplen x) h s) else Ok s) = Ok s1) by (unfold s1; destruct (status_eqb _ _); reflexivity).
  rewrite E. cbn [bind]. destruct (IH ns ms s1 ltac:(lia) ltac:(lia)) as (s' & ls & -> & H1 & H2). cbn [bind].
  eexists _, _. split; [reflexivity|]. cbn [map ln_out ln_sec firstn List.length]. rewrite H1, H2. auto.
Qed.

Lemma print_app h first os1 : forall os2 (ns1 ns2 : list (nstate F)) ms1 ms2 s,
  List.length ns1 = List.length os1 -> List.length ms1 = List.length os1 ->
  print_batch h first (os1 ++ os2) (ns1 ++ ns2) (ms1 ++ ms2) s =
  ('(s1, l1) <- print_batch h first os1 ns1 ms1 s ;; '(s2, l2) <- print_batch h first os2 ns2 ms2 s1 ;; Ok (s2, l1 ++ l2)).
Proof.
  induction os1 as [|o os1 IH]; intros os2 ns1 ns2 ms1 ms2 s H1 H2.
  - destruct ns1; [|discriminate]. destruct ms1; [|discriminate]. cbn. destruct (print_batch h first os2 ns2 ms2 s) as [[s2 l2]| | |]; reflexivity.
  - destruct ns1 as [|x ns1]; [discriminate|]. destruct ms1 as [|m ms1]; [discriminate|]. injection H1 as H1. injection H2 as H2.
    cbn [app print_batch tl]. destruct (if status_eqb (o_status o) OK then _ else _) as [s1| | |]; cbn [bind]; try reflexivity.
    rewrite IH by assumption. destruct (print_batch h first os1 ns1 ms1 s1) as [[s2 l2]| | |]; cbn [bind]; try reflexivity.
    destruct (print_batch h first os2 ns2 ms2 s2) as [[s3 l3]| | |]; cbn [bind]; reflexivity.
Qed.

Lemma accepted_length before (b : list (measurement F)) : (List.length (accepted_after before b) <= List.length b)%nat.
Proof. revert before. induction b as [|m b IH]; intros before; cbn [accepted_after List.length]; [lia|]. specialize (IH (before ++ [m])). destruct (forallb _ _); cbn [List.length]; lia. Qed.

(** the lines are the outputs *)
Lemma drive_outputs e k h bs : forall c first s, Forall (fun b => b <> []) bs ->
  same_outcome (fun lss r => map (map (@ln_out F)) lss = snd r) (drive e k h c first s bs) (navigate_all e k c bs).
Proof.
  induction bs as [|b bs IH]; intros c first s Hn; [reflexivity|]. inversion Hn as [|? ? Nb Hn']; subst. cbn [drive navigate_all].
  assert (exists f, (if (first =? 0)%Z then match b with [] => UB | m :: _ => Ok (st_ts m) end else Ok first) = Ok f) as [f ->].
  { destruct (first =? 0)%Z; [|eauto]. destruct b; [congruence|eauto]. }
  cbn [bind]. destruct (navigate e k c b) as [[c1 o1]| | |] eqn:E; cbn [bind]; try exact I.
  destruct (navigate_counts e k c Nb E) as [L1 L2]. assert (L3 := accepted_length [] b). change (accepted_after [] b) with (accepted b) in L3.
  destruct (print_ok h f o1 (c_states c1) b s ltac:(lia) ltac:(lia)) as (s' & ls & -> & P & _). cbn [bind].
  specialize (IH c1 f s' Hn'). destruct (drive e k h c1 f s' bs) as [lss| | |], (navigate_all e k c1 bs) as [[c2 o2]| | |]; cbn [bind] in *; try contradiction; try exact I.
  cbn in *. rewrite P, IH. reflexivity.
Qed.

(** the times are those of the inputs, in order *)
Definition start (first : Z) (bs : list (list (measurement F))) : Z :=
  match bs with b :: _ => start_time first b | [] => first end.
Lemma drive_times e k h bs : forall c first s lss, Forall (fun b => b <> []) bs -> start first bs <> 0%Z ->
  drive e k h c first s bs = Ok lss ->
  Forall2 (fun b ls => map (@ln_sec F) ls = map (fun m => Z.quot (st_ts m - start first bs) 1000) (firstn (List.length (accepted b)) b)) bs lss.
Proof.
  induction bs as [|b bs IH]; intros c first s lss Hn Hf R; [injection R as <-; constructor|]. inversion Hn as [|? ? Nb Hn']; subst.
  cbn [drive start] in *. assert (E0 : (if (first =? 0)%Z then match b with [] => UB | m :: _ => Ok (st_ts m) end else Ok first) = Ok (start_time first b)).
  { unfold start_time. destruct (first =? 0)%Z; [|reflexivity]. destruct b; [congruence|reflexivity]. }
  rewrite E0 in R. cbn [bind] in R. destruct (navigate e k c b) as [[c1 o1]| | |] eqn:E; cbn [bind] in R; try discriminate.
  destruct (navigate_counts e k c Nb E) as [L1 L2]. assert (L3 := accepted_length [] b). change (accepted_after [] b) with (accepted b) in L3.
  destruct (print_ok h (start_time first b) o1 (c_states c1) b s ltac:(lia) ltac:(lia)) as (s' & ls & P & _ & T). rewrite P in R. cbn [bind] in R.
  destruct (drive e k h c1 (start_time first b) s' bs) as [rest| | |] eqn:D; cbn [bind] in R; try discriminate. injection R as <-. constructor; [rewrite T, L1; reflexivity|].
  assert (S : start (start_time first b) bs = match bs with [] => start_time first b | _ => start_time first b end).
  { destruct bs as [|b1 bs]; [reflexivity|]. cbn [start]. unfold start_time at 1. destruct (Z.eqb_spec (start_time first b) 0); [congruence|reflexivity]. }
  destruct bs as [|b1 bs]; [cbn in D; injection D as <-; constructor|]. specialize (IH c1 _ _ _ Hn' ltac:(rewrite S; exact Hf) D). rewrite S in IH. exact IH.
Qed.

(** an ordered log can be cut in any way *)
Lemma ssorted_app_l (l1 l2 : list Z) : StronglySorted Z.le (l1 ++ l2) -> StronglySorted Z.le l1.
Proof.
  induction l1 as [|x t IH]; cbn [app]; intros H; constructor; inversion H as [|? ? H1 H2]; subst; [apply IH, H1|]. apply Forall_app in H2. apply H2.
Qed.
Lemma drive_join e k h bs : forall c first s, Forall (fun b => b <> []) bs -> bs <> [] -> time_sorted (List.concat bs) -> first <> 0%Z ->
  joined (drive e k h c first s [List.concat bs]) = joined (drive e k h c first s bs).
Proof.
  induction bs as [|b bs IH]; intros c first s Hn Hb Hs Hf; [congruence|]. inversion Hn as [|? ? Nb Hn']; subst.
  destruct bs as [|b2 bs]; [cbn [List.concat]; rewrite app_nil_r; reflexivity|].
  assert (Hs2 : time_sorted (List.concat (b2 :: bs)) /\ forall x y, In x b -> In y (List.concat (b2 :: bs)) -> (st_ts x <= st_ts y)%Z).
  { unfold time_sorted in *. change (List.concat (b :: b2 :: bs)) with (b ++ List.concat (b2 :: bs)) in Hs. rewrite map_app in Hs. apply ssorted_app_le in Hs. destruct Hs as [S1 S2].
    split; [exact S1|]. intros x y Hx Hy. apply S2; apply in_map; assumption. }
  destruct Hs2 as [Hs2 Hle]. assert (Sb : time_sorted b).
  { unfold time_sorted in *. cbn [List.concat] in Hs. rewrite map_app in Hs. eapply ssorted_app_l; exact Hs. }
  specialize (fun c s => IH c first s Hn' ltac:(discriminate) Hs2 Hf).
  assert (Ez : (first =? 0)%Z = false) by lia.
  cbn [List.concat] in *. destruct b2 as [|m2 b2]; [inversion Hn'; congruence|]. set (r := List.concat ((m2 :: b2) :: bs)) in *.
  cbn [List.concat app] in r.
  change (drive e k h c first s [b ++ (m2 :: b2) ++ List.concat bs]) with
    (first <- (if (first =? 0)%Z then match b ++ (m2 :: b2) ++ List.concat bs with [] => UB | m :: _ => Ok (st_ts m) end else Ok first) ;;
     '(c, os) <- navigate e k c (b ++ m2 :: b2 ++ List.concat bs) ;;
     '(s, ls) <- print_batch h first os (c_states c) (b ++ m2 :: b2 ++ List.concat bs) s ;;
     rest <- drive e k h c first s [] ;; Ok (ls :: rest)).
  change (drive e k h c first s (b :: (m2 :: b2) :: bs)) with
    (first <- (if (first =? 0)%Z then match b with [] => UB | m :: _ => Ok (st_ts m) end else Ok first) ;;
     '(c, os) <- navigate e k c b ;;
     '(s, ls) <- print_batch h first os (c_states c) b s ;;
     rest <- drive e k h c first s ((m2 :: b2) :: bs) ;; Ok (ls :: rest)).
  rewrite Ez. cbn [bind]. rewrite split_batch; [|exact Nb|intros x Hx; apply Hle; [exact Hx|left; reflexivity]].
  destruct (navigate e k c b) as [[c1 o1]| | |] eqn:E; cbn [bind]; try reflexivity.
  destruct (navigate_counts e k c Nb E) as [L1 L2]. rewrite (accepted_sorted Sb) in L1, L2.
  destruct (print_ok h first o1 (c_states c1) b s ltac:(lia) ltac:(lia)) as (s1 & l1 & P1 & _). rewrite P1. cbn [bind].
  specialize (IH c1 s1). set (D := drive e k h c1 first s1 ((m2 :: b2) :: bs)) in *. clearbody D.
  change (drive e k h c1 first s1 [(m2 :: b2) ++ List.concat bs]) with
    (first <- (if (first =? 0)%Z then Ok (st_ts m2) else Ok first) ;;
     '(c, os) <- navigate e k c1 (m2 :: b2 ++ List.concat bs) ;;
     '(s, ls) <- print_batch h first os (c_states c) (m2 :: b2 ++ List.concat bs) s1 ;;
     rest <- drive e k h c first s [] ;; Ok (ls :: rest)) in IH. rewrite Ez in IH. cbn [bind] in IH.
  destruct (navigate e k c1 (m2 :: b2 ++ List.concat bs)) as [[c2 o2]| | |]; cbn [bind] in *;
    [|destruct D; cbn in *; congruence..].
  cbn [c_states with_states]. rewrite (print_app h first o1 o2 (c_states c1) (c_states c2) b (m2 :: b2 ++ List.concat bs) s) by lia. rewrite P1. cbn [bind].
  destruct (print_batch h first o2 (c_states c2) (m2 :: b2 ++ List.concat bs) s1) as [[s2 l2]| | |]; destruct D as [rest| | |];
    cbn in *; try congruence.
  injection IH as IH. rewrite app_nil_r in *. rewrite IH. reflexivity.
Qed.

Lemma drive_first e k h c s b bs : start_time 0 b <> 0%Z -> drive e k h c 0 s (b :: bs) = drive e k h c (start_time 0 b) s (b :: bs).
Proof.
  unfold start_time. cbn [Z.eqb]. intros H. cbn [drive Z.eqb]. destruct b as [|m b]; [congruence|].
  destruct (Z.eqb_spec (st_ts m) 0); [congruence|]. reflexivity.
Qed.

Lemma run_cut fuel fuel' e k h c n m ms : ms <> [] -> time_sorted ms -> (forall x, hd_error ms = Some x -> st_ts x <> 0%Z) ->
  (0 < n)%Z -> (Z.of_nat (List.length ms) + n < 2 ^ 64)%Z -> (List.length ms <= fuel)%nat ->
  (- 2 ^ 31 <= m < 0)%Z -> (Z.of_nat (List.length ms) <= 2 ^ 63)%Z ->
  joined (run_driver fuel e k h c n ms) = joined (run_driver (S fuel') e k h c m ms).
Proof.
  intros Hm Hs H0 Hn Hl Hf Hm' Hl'. unfold run_driver. rewrite (@chunks_neg _ m ms fuel' Hm' Hm Hl'). cbn [bind].
  destruct (@chunks_pos _ n ms fuel Hn Hl Hf) as (bs & -> & C). cbn [bind]. assert (Nn := cut_nonempty C). destruct C as [C _].
  destruct bs as [|b bs]; [cbn in C; congruence|]. assert (Nb : b <> []) by (inversion Nn; assumption).
  destruct b as [|x b]; [congruence|]. assert (X : hd_error ms = Some x) by (rewrite <- C; reflexivity). specialize (H0 x X).
  rewrite drive_first by exact H0. rewrite <- drive_join by (try assumption; try discriminate; rewrite C; exact Hs). rewrite C.
  destruct ms as [|y ms]; [congruence|]. injection X as ->. rewrite (@drive_first e k h c pdr0 (x :: ms) []) by exact H0. reflexivity.
Qed.
End Print.

(** * The track *)
Section Track.
Context {F : Type} {NF : Num F} {SO : Sorter}.
Variable h : F.
Hypothesis Hh : (h =! h) = true.

(** not yet moved, or frozen *)
Definition still (s : pdr F) : Prop := s = pdr0.
Definition frozen (d : F) (s : pdr F) : Prop := pd_head s = h /\ pd_x s = f0 +! d *! fcos h /\ pd_y s = f0 +! d *! fsin h.

Lemma build_still d : build_pdr d h pdr0 = if fneb d f0 && fneb h f0 then mkPdr d h (f0 +! d *! fcos h) (f0 +! d *! fsin h) else pdr0.
Proof. reflexivity. Qed.
Lemma build_frozen d0 d s : frozen d0 s -> build_pdr d h s = s.
Proof. intros (E & _). unfold build_pdr. rewrite E. unfold fneb at 2. rewrite Hh. cbn [negb]. rewrite andb_false_r. reflexivity. Qed.

(** the lines of a run: at the origin, then at one place *)
Definition once (s : pdr F) (ls : list (pline F)) (s' : pdr F) : Prop :=
  (s = pdr0 -> (s' = pdr0 /\ Forall origin ls) \/
     exists d l l1 l2, fneb d f0 = true /\ fneb h f0 = true /\ ls = l1 ++ l :: l2 /\ o_status (ln_out l) = OK /\ frozen d s' /\ Forall origin l1 /\ Forall (moved d h) (l :: l2)) /\
  (forall d, frozen d s -> s' = s /\ Forall (moved d h) ls).

Lemma once_app s1 l1 s2 l2 s3 : once s1 l1 s2 -> once s2 l2 s3 -> once s1 (l1 ++ l2) s3.
Proof.
  intros [A1 B1] [A2 B2]. split.
  - intros E. destruct (A1 E) as [[E2 O1]|(d & l & x & y & D & H & -> & Ok' & Fz & O1 & M)].
    + destruct (A2 E2) as [[E3 O2]|(d & l & x & y & D & H & -> & Ok' & Fz & O2 & M)].
      * left. split; [exact E3|]. apply Forall_app; auto.
      * right. exists d, l, (l1 ++ x), y. rewrite <- app_assoc. split; [exact D|]. split; [exact H|]. split; [reflexivity|]. split; [exact Ok'|]. split; [exact Fz|]. split; [apply Forall_app; auto|exact M].
    + destruct (B2 d Fz) as [-> M2]. right. exists d, l, x, (y ++ l2). rewrite <- app_assoc. split; [exact D|]. split; [exact H|]. split; [reflexivity|]. split; [exact Ok'|]. split; [exact Fz|]. split; [exact O1|].
      inversion M; subst. constructor; [assumption|]. apply Forall_app; auto.
  - intros d Fz. destruct (B1 d Fz) as [-> M1]. destruct (B2 d Fz) as [-> M2]. split; [reflexivity|]. apply Forall_app; auto.
Qed.

Lemma print_once first os : forall ns ms s s' ls, print_batch h first os ns ms s = Ok (s', ls) -> once s ls s'.
Proof.
  induction os as [|o os IH]; intros ns ms s s' ls R.
  - injection R as <- <-. split; [intros ->; left; auto|]. intros d Fz; auto.
  - cbn [print_batch] in R. destruct ms as [|m ms]; [discriminate|].
    destruct (if status_eqb (o_status o) OK then _ else _) as [s1| | |] eqn:E1; cbn [bind] in R; try discriminate.
    destruct (print_batch h first os (tl ns) ms s1) as [[s2 l2]| | |] eqn:E2; cbn [bind] in R; try discriminate. injection R as <- <-.
    apply (@once_app s [mkLine (Z.quot (st_ts m - first) 1000) o (pd_x s1) (pd_y s1)] s1 l2 s2); [|eapply IH; exact E2]. clear IH E2 l2 s2.
    destruct (status_eqb (o_status o) OK) eqn:Eo.
    + destruct ns as [|x ns]; [discriminate|]. injection E1 as <-. split.
      * intros ->. rewrite build_still. destruct (fneb (ns_steplen x) f0 && fneb h f0) eqn:B.
        -- right. apply andb_true_iff in B. destruct B as [B1 B2]. eexists (ns_steplen x), _, [], []. split; [exact B1|]. split; [exact B2|]. split; [reflexivity|]. cbn [ln_out].
           split; [destruct (o_status o); (reflexivity || discriminate)|]. split; [repeat split|]. split; [constructor|]. constructor; [|constructor]. split; reflexivity.
        -- left. split; [reflexivity|]. constructor; [|constructor]. split; reflexivity.
      * intros d Fz. rewrite (build_frozen _ Fz). split; [reflexivity|]. constructor; [|constructor]. destruct Fz as (_ & X & Y). split; assumption.
    + injection E1 as <-. split.
      * intros ->. left. split; [reflexivity|]. constructor; [|constructor]. split; reflexivity.
      * intros d Fz. split; [reflexivity|]. constructor; [|constructor]. destruct Fz as (_ & X & Y). split; assumption.
Qed.

Lemma drive_once e k bs : forall c first s lss, drive e k h c first s bs = Ok lss -> exists s', once s (List.concat lss) s'.
Proof.
  induction bs as [|b bs IH]; intros c first s lss R.
  - injection R as <-. exists s. split; [intros ->; left; split; [reflexivity|constructor]|]. intros d Fz; split; [reflexivity|constructor].
  - cbn [drive] in R. destruct (if (first =? 0)%Z then _ else _) as [f| | |]; cbn [bind] in R; try discriminate.
    destruct (navigate e k c b) as [[c1 o1]| | |]; cbn [bind] in R; try discriminate.
    destruct (print_batch h f o1 (c_states c1) b s) as [[s1 l1]| | |] eqn:P; cbn [bind] in R; try discriminate.
    destruct (drive e k h c1 f s1 bs) as [rest| | |] eqn:D; cbn [bind] in R; try discriminate. injection R as <-.
    destruct (IH _ _ _ _ D) as [s' O]. exists s'. cbn [List.concat]. eapply once_app; [eapply print_once; exact P|exact O].
Qed.

Lemma run_once fuel e k c n ms lss : run_driver fuel e k h c n ms = Ok lss ->
  Forall origin (List.concat lss) \/
  exists d l l1 l2, fneb d f0 = true /\ fneb h f0 = true /\ List.concat lss = l1 ++ l :: l2 /\ o_status (ln_out l) = OK /\
    Forall origin l1 /\ Forall (moved d h) (l :: l2).
Proof.
  unfold run_driver. destruct (chunks fuel n ms) as [bs| | |]; cbn [bind]; try discriminate. intros R. destruct (drive_once _ _ _ _ _ _ R) as [s' [A _]].
  destruct (A eq_refl) as [[_ O]|(d & l & x & y & D & H & E & Ok' & _ & O & M)]; [left; exact O|]. right. exists d, l, x, y. auto 10.
Qed.
End Track.
