(** C79, C80: the command-line driver. *)
From Coq Require Import Lia Sorted.
From Verif Require Import Lib NumOrd NumFloat SortInst Client Spec_Client Pf_Client Driver Spec_Driver Pf_Driver Ex P_Client.
Local Open Scope string_scope.
Local Open Scope list_scope.
#[local] Existing Instance nf.
#[local] Existing Instance isorter.

(** ** C79 *)
(** a positive batch size cuts the log into pieces of that size *)
Theorem C79_batches {A : Type} (n : Z) (ms : list A) (fuel : nat) :
  (0 < n)%Z -> (Z.of_nat (List.length ms) + n < 2 ^ 64)%Z -> (List.length ms <= fuel)%nat ->
  exists bs, chunks fuel n ms = Ok bs /\ cut (Z.to_nat n) ms bs /\ forall bs', cut (Z.to_nat n) ms bs' -> bs' = bs.
Proof.
  intros H1 H2 H3. destruct (@chunks_pos _ n ms fuel H1 H2 H3) as (bs & E & C). exists bs. split; [exact E|]. split; [exact C|].
  intros bs' C'. apply (@cut_unique A (Z.to_nat n) bs' ms bs); [lia|exact C'|exact C].
Qed.
Print Assumptions C79_batches.
(** a negative one makes one batch, zero never ends *)
Theorem C79_other_sizes {A : Type} (n : Z) (ms : list A) (fuel : nat) :
  ms <> [] -> (Z.of_nat (List.length ms) <= 2 ^ 63)%Z ->
  ((- 2 ^ 31 <= n < 0)%Z -> chunks (S fuel) n ms = Ok [ms]) /\ chunks fuel 0 ms = OutOfFuel.
Proof. intros H L. split; [intros Hn; apply chunks_neg; assumption|apply chunks_zero, H]. Qed.
Print Assumptions C79_other_sizes.
(** the printed lines are the outputs of navigate, line by line: no index is out
    of range and nothing else fails *)
Theorem C79_prints_outputs {F : Type} {NF : Num F} {SO : Sorter} (e : env F) (k : config F) (h : F) (c : client F) (n : Z)
    (ms : list (measurement F)) (fuel : nat) :
  (0 < n)%Z -> (Z.of_nat (List.length ms) + n < 2 ^ 64)%Z -> (List.length ms <= fuel)%nat ->
  exists bs, cut (Z.to_nat n) ms bs /\
    same_outcome (fun lss r => map (map (@ln_out F)) lss = snd r) (run_driver fuel e k h c n ms) (navigate_all e k c bs).
Proof.
  intros H1 H2 H3. destruct (@chunks_pos _ n ms fuel H1 H2 H3) as (bs & E & C). exists bs. split; [exact C|]. unfold run_driver. rewrite E. cbn [bind].
  apply drive_outputs. exact (cut_nonempty C).
Qed.
Print Assumptions C79_prints_outputs.
(** the time of a line is that of the input with the same index in the batch *)
Theorem C79_times {F : Type} {NF : Num F} {SO : Sorter} (e : env F) (k : config F) (h : F) (c : client F) (n : Z)
    (m0 : measurement F) (ms : list (measurement F)) (fuel : nat) (lss : list (list (pline F))) :
  (0 < n)%Z -> (Z.of_nat (S (List.length ms)) + n < 2 ^ 64)%Z -> (S (List.length ms) <= fuel)%nat -> st_ts m0 <> 0%Z ->
  run_driver fuel e k h c n (m0 :: ms) = Ok lss ->
  exists bs, cut (Z.to_nat n) (m0 :: ms) bs /\
    Forall2 (fun b ls => map (@ln_sec F) ls =
       map (fun m => Z.quot (st_ts m - st_ts m0) 1000) (firstn (List.length (accepted b)) b)) bs lss.
Proof.
  intros H1 H2 H3 H0 R. destruct (@chunks_pos _ n (m0 :: ms) fuel H1 H2 H3) as (bs & E & C). exists bs. split; [exact C|]. unfold run_driver in R. rewrite E in R. cbn [bind] in R.
  assert (Nn := cut_nonempty C). destruct C as [C _]. destruct bs as [|b bs]; [discriminate C|]. destruct b as [|x b]; [inversion Nn; congruence|].
  cbn [List.concat app] in C. injection C as -> _. exact (@drive_times F NF SO e k h _ c 0%Z pdr0 lss Nn H0 R).
Qed.
Print Assumptions C79_times.
(** an ordered log that does not start at time zero prints the same lines for
    every batch size *)
Theorem C79_size_irrelevant {F : Type} {NF : Num F} {SO : Sorter} (e : env F) (k : config F) (h : F) (c : client F) (n n' : Z)
    (m0 : measurement F) (ms : list (measurement F)) (fuel : nat) :
  time_sorted (m0 :: ms) -> st_ts m0 <> 0%Z -> (S (List.length ms) <= fuel)%nat -> (Z.of_nat (S (List.length ms)) <= 2 ^ 63)%Z ->
  (0 < n < 2 ^ 31)%Z -> (0 < n' < 2 ^ 31)%Z ->
  joined (run_driver fuel e k h c n (m0 :: ms)) = joined (run_driver fuel e k h c n' (m0 :: ms)).
Proof.
  intros Hs H0 Hf Hl Hn Hn'.
  assert (G : forall n, (0 < n < 2 ^ 31)%Z -> joined (run_driver fuel e k h c n (m0 :: ms)) = joined (run_driver 1 e k h c (-1) (m0 :: ms))).
  { intros z Hz. apply run_cut; try assumption; try discriminate; cbn [List.length]; try lia. intros x E. injection E as <-. exact H0. }
  rewrite (G n Hn), (G n' Hn'). reflexivity.
Qed.
Print Assumptions C79_size_irrelevant.

(** data of the examples *)
Definition ex_drive (n : Z) (ms : list (measurement SF)) : res (list (list (pline SF))) :=
  k <- ex_config (ex_zones false) ex_gls ;;
  run_driver 10 ex_env k (fofZ 1) (client0 (ex_garbage 0) (ex_zones false)) n ms.
Definition ex_secs (r : res (list (list (pline SF)))) : res (list (list Z)) := l <- r ;; Ok (map (map (@ln_sec SF)) l).
Definition ex_log : list (measurement SF) := [ex_mr "a" (-50) 1000; ex_mr "b" (-60) 3000; ex_mr "a" (-50) 5000; ex_mr "b" (-60) 9000].
Example C79_example : time_sorted ex_log /\ ex_secs (ex_drive 1 ex_log) = Ok [[0]; [2]; [4]; [8]]%Z /\
  ex_secs (ex_drive 3 ex_log) = Ok [[0; 2; 4]; [8]]%Z.
Proof.
  split; [unfold time_sorted; cbn -[Z.le]; repeat (apply SSorted_cons || apply SSorted_nil || apply Forall_cons || apply Forall_nil || lia)|].
  split; vm_compute; reflexivity.
Qed.
(** a log starting at time zero: the lines change with the batch size *)
Theorem C79_time_zero_refuted : exists ms : list (measurement SF), time_sorted ms /\
  joined (ex_secs (ex_drive 1 ms)) = Ok [0; 0; 2]%Z /\ joined (ex_secs (ex_drive 3 ms)) = Ok [0; 4; 6]%Z.
Proof.
  exists [ex_mr "a" (-50) 0; ex_mr "b" (-60) 4000; ex_mr "a" (-50) 6000].
  split; [unfold time_sorted; cbn -[Z.le]; repeat (apply SSorted_cons || apply SSorted_nil || apply Forall_cons || apply Forall_nil || lia)|].
  split; vm_compute; reflexivity.
Qed.
Print Assumptions C79_time_zero_refuted.
(** a measurement that comes late is dropped by navigate, and the lines after it
    carry the time of the input before: in a log that starts at 5000 ms the output
    for 9000 ms is printed at -2 s, the time of the dropped one, instead of 4 s *)
Theorem C79_late_time_refuted : exists ms : list (measurement SF), map (@st_ts _) (accepted ms) = [5000; 9000]%Z /\
  joined (ex_secs (ex_drive 3 ms)) = Ok [0; -2]%Z.
Proof. exists [ex_mr "a" (-50) 5000; ex_mr "b" (-60) 3000; ex_mr "a" (-50) 9000]. split; vm_compute; reflexivity. Qed.
Print Assumptions C79_late_time_refuted.

(** ** C80 *)
(** with the one heading there is, the printed track leaves the origin at most
    once and then stays where it is *)
Theorem C80_moves_once {F : Type} {NF : Num F} {SO : Sorter} (h : F) (fuel : nat) (e : env F) (k : config F) (c : client F) (n : Z)
    (ms : list (measurement F)) (lss : list (list (pline F))) :
  (h =! h) = true -> run_driver fuel e k h c n ms = Ok lss ->
  Forall origin (List.concat lss) \/
  exists d l l1 l2, (d =! f0) = false /\ (h =! f0) = false /\ List.concat lss = l1 ++ l :: l2 /\ o_status (ln_out l) = OK /\
    Forall origin l1 /\ Forall (moved d h) (l :: l2).
Proof.
  intros Hh R. destruct (@run_once F NF SO h Hh fuel e k c n ms lss R) as [O|(d & l & l1 & l2 & D & H & E & S & O & M)]; [left; exact O|].
  right. exists d, l, l1, l2. unfold fneb in D, H. apply negb_true_iff in D, H. auto 10.
Qed.
Print Assumptions C80_moves_once.
(** and with heading zero it never leaves it *)
Theorem C80_heading_zero {F : Type} {NF : Num F} {SO : Sorter} (h : F) (fuel : nat) (e : env F) (k : config F) (c : client F) (n : Z)
    (ms : list (measurement F)) (lss : list (list (pline F))) :
  (h =! h) = true -> (h =! f0) = true -> run_driver fuel e k h c n ms = Ok lss -> Forall origin (List.concat lss).
Proof.
  intros Hh H0 R. destruct (C80_moves_once h fuel e k c n ms lss Hh R) as [O|(d & l & l1 & l2 & _ & H & _)]; [exact O|]. congruence.
Qed.
Print Assumptions C80_heading_zero.
(** whatever the headings, a step as long as the step before, or in the same
    direction, is not drawn *)
Theorem C80_dropped_steps {F : Type} {NF : Num F} (d h d' h' : F) (s : pdr F) :
  ((d =! pd_dist s) = true \/ (h =! pd_head s) = true -> build_pdr d h s = s) /\
  ((d' =! d') = true -> (d' =! pd_dist s) = false -> (h' =! pd_head s) = false -> build_pdr d' h (build_pdr d' h' s) = build_pdr d' h' s) /\
  ((d' =! pd_dist s) = false -> (h' =! pd_head s) = false ->
     build_pdr d' h' s = mkPdr d' h' (pd_x s +! d' *! fcos h') (pd_y s +! d' *! fsin h')).
Proof.
  unfold build_pdr, fneb. split; [|split].
  - intros [->| ->]; [reflexivity|]. rewrite andb_false_r. reflexivity.
  - intros E -> ->. cbn [negb andb pd_dist pd_head]. rewrite E. reflexivity.
  - intros -> ->. reflexivity.
Qed.
Print Assumptions C80_dropped_steps.
Example C80_example : exists lss, ex_drive 2 ex_log = Ok lss /\ Forall origin (List.concat lss) /\ List.length (List.concat lss) = 4%nat.
Proof. eexists. split; [vm_compute; reflexivity|]. split; [repeat constructor|reflexivity]. Qed.
(** three outputs with step lengths 0, 1 and 2 *)
Example C80_example_move : let o := mkOut OK "L1" f0 f0 f0 None None None : noutput SF in
  let st d := mkNState 0 (fofZ d) (mkXY f0 f0) (mkXY f0 f0) : nstate SF in
  exists s ls, print_batch (fofZ 1) 1 [o; o; o] [st 0; st 1; st 2]%Z (firstn 3 ex_log) pdr0 = Ok (s, ls) /\
    map (@ln_x SF) ls = [fofZ 0; fofZ 1; fofZ 1] /\ ((fofZ 1 : SF) =! fofZ 1) = true.
Proof. cbv zeta. eexists _, _. split; [vm_compute; reflexivity|]. split; vm_compute; reflexivity. Qed.
