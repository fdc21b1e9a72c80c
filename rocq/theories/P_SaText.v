(** C116: the text read by the programs of the stand-alone algorithms. *)
From Verif Require Import Lib NumFloat SortInst SaText Spec_SaText Pf_SaText Ex.
From Coq Require Import Lia.
Local Open Scope list_scope.
#[local] Existing Instance nf.
#[local] Existing Instance isorter.

(** a file is cut at its line feeds *)
Theorem C116_lines s ls : lines s = ls <-> file_of ls s.
Proof. apply lines_iff. Qed.
Print Assumptions C116_lines.

(** words, integers and numbers: what is read is what is spelled, as far as it
    goes, and nothing else is read *)
Theorem C116_word s id r : get_word s = Some (id, r) <-> says_word s id r.
Proof. apply word_iff. Qed.
Print Assumptions C116_word.
Theorem C116_integer s z r : get_ll s = Some (z, r) <-> says_int 64 s z r.
Proof. apply ll_iff. Qed.
Print Assumptions C116_integer.
Theorem C116_number {F} (C : conv F) s v r : get_double C s = Some (v, r) <-> says_number (dv C) s v r.
Proof. apply double_iff. Qed.
Print Assumptions C116_number.

(** the three files: the lines up to the first that does not say what it
    should, each as it is spelled *)
Theorem C116_transmitters {F} (C : conv F) s qs :
  read_lines (tx_file C s) = qs <-> exists ls, file_of ls s /\ reads (says_tx (dv C)) ls qs.
Proof.
  unfold tx_file. rewrite (reads_iff (tx_of_line C) (says_tx (dv C)) (tx_iff C)). split.
  - intros H. exists (lines s). split; [apply lines_file|exact H].
  - intros [ls [Hf H]]. apply lines_iff in Hf. subst ls. exact H.
Qed.
Print Assumptions C116_transmitters.
Theorem C116_measurements {F} (C : conv F) s qs :
  read_lines (meas_file C s) = qs <-> exists ls, file_of ls s /\ reads (says_meas (dv C)) ls qs.
Proof.
  unfold meas_file. rewrite (reads_iff (meas_of_line C) (says_meas (dv C)) (meas_iff C)). split.
  - intros H. exists (lines s). split; [apply lines_file|exact H].
  - intros [ls [Hf H]]. apply lines_iff in Hf. subst ls. exact H.
Qed.
Print Assumptions C116_measurements.
Theorem C116_samples {F} (C : conv F) s qs :
  read_lines (tl (sample_file C s)) = qs <->
  exists ls, file_of ls s /\ reads (fun l q => says_sample (dv C) l (fst q) (vx (snd q)) (vy (snd q)) (vz (snd q))) (tl ls) qs.
Proof.
  unfold sample_file. replace (tl (map (sample_of_line C) (lines s))) with (map (sample_of_line C) (tl (lines s))) by (destruct (lines s); reflexivity).
  rewrite (reads_iff (sample_of_line C) (fun l q => says_sample (dv C) l (fst q) (vx (snd q)) (vy (snd q)) (vz (snd q)))
    (fun l q => match q with (ts, v) => sample_iff C l ts v end)). split.
  - intros H. exists (lines s). split; [apply lines_file|exact H].
  - intros [ls [Hf H]]. apply lines_iff in Hf. subst ls. exact H.
Qed.
Print Assumptions C116_samples.

(** the line ends of Windows make no difference to any of the programs *)
Theorem C116_crlf {F} {NF : Num F} {SO : Sorter} (C : conv F) (c : sapcfg) a b s :
  position_program C c (crlf a) (crlf b) = position_program C c a b /\
  pedometer_program C (crlf s) = pedometer_program C s /\
  pedometer_test_program C (crlf s) = pedometer_test_program C s.
Proof.
  unfold position_program, pedometer_program, pedometer_test_program, tx_file, meas_file, sample_file, test_file.
  rewrite (map_trail (tx_of_line C) (tx_trail C) (crlf_lines a)), (map_trail (meas_of_line C) (meas_trail C) (crlf_lines b)).
  rewrite (map_trail (sample_of_line C) (sample_trail C) (crlf_lines s)).
  rewrite (@map_trail _ (fun l => let '(n, len) := truth_of_line C l in mkPline n len (sample_of_line C l)) (lines s) (lines (crlf s))).
  - split; [|split]; reflexivity.
  - intros l w B. rewrite (truth_trail C l B), (sample_trail C l B). reflexivity.
  - apply crlf_lines.
Qed.
Print Assumptions C116_crlf.

(** a blank line hides everything after it *)
Theorem C116_blank {F} {NF : Num F} {SO : Sorter} (C : conv F) (c : sapcfg) a1 ab a2 b1 bb b2 :
  (a1 = [] \/ exists t, a1 = t ++ [LF]) -> blank ab -> ~ In LF ab ->
  (b1 = [] \/ exists t, b1 = t ++ [LF]) -> blank bb -> ~ In LF bb ->
  position_program C c (a1 ++ ab ++ LF :: a2) (b1 ++ bb ++ LF :: b2) = position_program C c a1 b1.
Proof.
  intros A1 A2 A3 B1 B2 B3. unfold position_program, position_main, tx_file, meas_file, demo_txs, demo_meas.
  rewrite (@lines_blank _ _ a2 A1 A3), (@lines_blank _ _ b2 B1 B3). rewrite !read_app; [reflexivity|..].
  - unfold tx_of_line. destruct (blank_words A2) as [-> _]. reflexivity.
  - unfold meas_of_line, get_ll. destruct (blank_words B2) as [_ ->]. reflexivity.
Qed.
Print Assumptions C116_blank.

(** a time with a fraction moves the values of the pedometer by one place: the
    fraction is x, x is y, y is z, and z is not read *)
Theorem C116_fraction {F} (C : conv F) g ds fs v x y r1 r2 r3 :
  decimal ds -> ds <> [] -> decimal fs -> fs <> [] ->
  (- 2 ^ 63 <= with_sign g (dval ds) < 2 ^ 63)%Z ->
  dv C false (dval fs) (- Z.of_nat (List.length fs)) = Some v ->
  goes_on ws_chars r1 -> says_number (dv C) r1 x r2 -> says_number (dv C) r2 y r3 ->
  sample_of_line C (sign_text g ++ figures ds ++ "."%char :: figures fs ++ r1) = Some (with_sign g (dval ds), mkV v x y).
Proof.
  intros D N Df Nf R V G X Y. apply sample_iff. cbn [vx vy vz].
  assert (Nd : ~ goes_on numerals r1 /\ ~ goes_on ["e"; "E"]%char r1).
  { destruct G as [c [t [-> G]]]. split; intros [c' [t' [E K]]]; injection E as <- _;
    cbn in G, K; repeat (destruct G as [<-|G]; [repeat (destruct K as [K|K]; [discriminate K|]); destruct K|]); destruct G. }
  exists ("."%char :: figures fs ++ r1), r1, r2, r3. split; [|split; [|split; assumption]].
  - exists [], g, ds. cbn [app]. split; [reflexivity|]. split; [constructor|]. split; [exact D|]. split; [exact N|]. split; [|split; [reflexivity|exact R]].
    intros [c [t [E K]]]. injection E as <- _. cbn in K. repeat (destruct K as [K|K]; [discriminate K|]). destruct K.
  - exists [], (mkNumeral NoSign [] (Some fs) None). split.
    + unfold spelled; cbn. rewrite app_nil_r. reflexivity.
    + split; [constructor|]. split; [repeat split; [constructor|exact Df|exact Nf]|]. split.
      * split; [apply Nd|]. split; [intros _; apply Nd|intros _ K; discriminate K].
      * exact V.
Qed.
Print Assumptions C116_fraction.

(** the first line of a recorded walk: a number that fits an int and a length;
    a missing length is left at 0, a number that does not fit is stored as the
    nearest int and hides the length, and anything else counts as 0 *)
Theorem C116_truth {F} {NF : Num F} (C : conv F) s :
  (forall n r v r', says_int 32 s n r -> says_number (dv C) r v r' -> truth_of_line C s = (n, Some v)) /\
  (forall n r, says_int 32 s n r -> blank r -> truth_of_line C s = (n, None)) /\
  (forall bits n r, says_int bits s n r -> (2 ^ 31 <= n)%Z -> truth_of_line C s = ((2 ^ 31 - 1)%Z, None)) /\
  (forall bits n r, says_int bits s n r -> (n < - 2 ^ 31)%Z -> truth_of_line C s = ((- 2 ^ 31)%Z, None)) /\
  ((forall bits n r, ~ says_int bits s n r) -> truth_of_line C s = (0%Z, None)).
Proof.
  assert (I : forall bits n r, says_int bits s n r -> scan_int s = Some (n, r) /\ (- 2 ^ (bits - 1) <= n < 2 ^ (bits - 1))%Z).
  { intros bits n r [w [g [ds [E1 [E2 [E3 [E4 [E5 [E6 R]]]]]]]]]. split; [|exact R].
    apply int_iff. exists w, g, ds. repeat (split; [assumption|]). exact E6. }
  unfold truth_of_line. split; [|split; [|split; [|split]]].
  - intros n r v r' H K. destruct (I _ _ _ H) as [-> R]. apply range_iff in R. rewrite R.
    destruct K as [w [m [E1 [E2 [E3 [E4 D]]]]]].
    assert (S : float_says r m r') by (exists w; repeat (split; [assumption|]); exact E4).
    rewrite (float_sound S). unfold scanned. rewrite D.
    destruct (skip_ws r) as [|c t] eqn:E; [|reflexivity]. exfalso.
    pose proof (float_sound S) as Q. unfold scan_float in Q. rewrite E in Q. cbn in Q. discriminate Q.
  - intros n r H B. destruct (I _ _ _ H) as [-> R]. apply range_iff in R. rewrite R, (skip_blank B). reflexivity.
  - intros bits n r H L. destruct (I _ _ _ H) as [-> _]. destruct (in_range 32 n) eqn:R; [apply range_iff in R; lia|].
    f_equal. lia.
  - intros bits n r H L. destruct (I _ _ _ H) as [-> _]. destruct (in_range 32 n) eqn:R; [apply range_iff in R; lia|].
    f_equal. lia.
  - intros H. destruct (scan_int s) as [[z r]|] eqn:E; [|reflexivity]. exfalso.
    apply int_iff in E. destruct E as [w [g [ds [E1 [E2 [E3 [E4 [E5 E6]]]]]]]].
    apply (H (Z.log2_up (Z.abs z + 1) + 2)%Z z r). exists w, g, ds. repeat (split; [assumption|]).
    pose proof (Z.log2_up_nonneg (Z.abs z + 1)) as P.
    assert (L : (Z.abs z + 1 <= 2 ^ Z.log2_up (Z.abs z + 1))%Z).
    { destruct (Z.eq_dec (Z.abs z) 0) as [Q|Q]; [rewrite Q; cbn; lia|]. apply Z.log2_up_spec. lia. }
    replace (Z.log2_up (Z.abs z + 1) + 2 - 1)%Z with (Z.succ (Z.log2_up (Z.abs z + 1))) by lia.
    rewrite Z.pow_succ_r by exact P. lia.
Qed.
Print Assumptions C116_truth.

(** ** Examples *)
Local Notation txt s := (list_ascii_of_string s).
Definition ex_conv : conv (bool * Z * Z) := mkConv (fun n m e => Some (n, m, e)) (fun n => (n, 0, 0)%Z).
Definition ex_tx_text : text := txt "  ap1	0.50 -1.5e+2 WIFI extra
ap2 1.5.5 xWIFIx

ap3 1 2 WIFI
"%string.
(** points on two lines, the second pair glued together; the line after the blank one is not read *)
Example C116_example : read_lines (tx_file ex_conv ex_tx_text) =
  [("ap1"%string, (false, 50, -2)%Z, (true, 15, 1)%Z, "WIFI"%string); ("ap2"%string, (false, 15, -1)%Z, (false, 5, -1)%Z, "xWIFIx"%string)].
Proof. vm_compute. reflexivity. Qed.
Example C116_example_crlf : crlf ex_tx_text <> ex_tx_text /\ read_lines (tx_file ex_conv (crlf ex_tx_text)) = read_lines (tx_file ex_conv ex_tx_text).
Proof. split; [vm_compute; discriminate|vm_compute; reflexivity]. Qed.
(** numbers that are not read *)
Example C116_example_bad : map (fun s => get_double ex_conv (txt s)) ["abc"; "1e"; "1e+"; "."; "-"; "nan"; ""]%string = repeat None 7.
Proof. vm_compute. reflexivity. Qed.
Example C116_example_range : get_ll (txt "9223372036854775807 a"%string) = Some ((2 ^ 63 - 1)%Z, txt " a"%string) /\ get_ll (txt "9223372036854775808 a"%string) = None.
Proof. split; vm_compute; reflexivity. Qed.
(** a time with a fraction *)
Example C116_example_fraction : sample_of_line ex_conv (txt "1583315232492.25 1 2 9.8"%string) =
  Some (1583315232492%Z, mkV (false, 25, -2)%Z (false, 1, 0)%Z (false, 2, 0)%Z).
Proof.
  change (txt "1583315232492.25 1 2 9.8"%string) with (sign_text NoSign ++ figures [1;5;8;3;3;1;5;2;3;2;4;9;2]%nat ++ "."%char :: figures [2;5]%nat ++ txt " 1 2 9.8"%string).
  apply (@C116_fraction _ ex_conv NoSign [1;5;8;3;3;1;5;2;3;2;4;9;2]%nat [2;5]%nat (false, 25, -2)%Z (false, 1, 0)%Z (false, 2, 0)%Z _ (txt " 2 9.8"%string) (txt " 9.8"%string)).
  - repeat (constructor; [lia|]). constructor.
  - discriminate.
  - repeat (constructor; [lia|]). constructor.
  - discriminate.
  - vm_compute. split; [discriminate|reflexivity].
  - reflexivity.
  - exists " "%char, (txt "1 2 9.8"%string). split; [reflexivity|left; reflexivity].
  - apply C116_number. vm_compute. reflexivity.
  - apply C116_number. vm_compute. reflexivity.
Qed.
(** the first line of a recorded walk *)
Example C116_example_truth : map (fun s => truth_of_line (mkConv (fun n m e => Some (fofZ (if n then - m else m)%Z /! fofZ (10 ^ (- e)))) (fun _ => f0) : conv SF) (txt s))
  ["100 0.75"; "100"; "3000000000 0.75"; "100 x"; "x 100"]%string =
  [(100%Z, Some (lit 75 100)); (100%Z, None); ((2 ^ 31 - 1)%Z, None); (100%Z, Some f0); (0%Z, None)].
Proof. vm_compute. reflexivity. Qed.
(** from the two texts to a position: the double nearest to a decimal with few digits *)
Definition ex_dec : conv SF := mkConv (fun n m e => let z := (if n then - m else m)%Z in
  Some (if (0 <=? e)%Z then fofZ (z * 10 ^ e) else fofZ z /! fofZ (10 ^ (- e)))) (fun _ => f0).
Example C116_example_program : match position_program ex_dec (mkSapcfg (mkSacfg 3000 1000) true true)
    (txt "a 3 4.0 BEACON
b 0.3e1 4 WIFI
"%string) (txt "1000 a -60 BEACON
2500 b -70.5 type=WIFI

9000 a -65 BLE"%string) with
  | Ok [p] => sa_x p = fofZ 3 /\ sa_y p = fofZ 4 /\ sa_ts p = 2500%Z
  | _ => False end.
Proof. vm_compute. repeat split. Qed.
