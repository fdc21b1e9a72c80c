(** C14, C15: angle normalisation. *)
From Coq Require Import Reals Lra ZArith SpecFloat.
From Verif Require Import Base NumReal NumFloat SortInst Client Spec_Client Pf_Angle Ex.
Set Implicit Arguments.
Local Open Scope string_scope.
Local Open Scope list_scope.

(** C14. The loops end for every real angle, and then the result is the
    representative of the angle in [-PI, PI). *)
Theorem C14_terminates (x : R) :
  exists n, forall fuel, (n <= fuel)%nat -> exists y, to_mpp fuel (Some x : RX) = Ok y.
Proof. exact (to_mpp_terminates x). Qed.
Print Assumptions C14_terminates.

Theorem C14_range (fuel : nat) (x : R) (y : RX) : to_mpp fuel (Some x : RX) = Ok y ->
  exists (k : Z) (r : R), y = Some r /\ (r = x + 2 * PI * IZR k)%R /\ (- PI <= r < PI)%R.
Proof. exact (@to_mpp_sound fuel x y). Qed.
Print Assumptions C14_range.

Theorem C14_unchanged (fuel : nat) (x : R) : (0 < fuel)%nat -> (- PI <= x < PI)%R ->
  to_mpp fuel (Some x : RX) = Ok (Some x).
Proof. exact (@to_mpp_in_range fuel x). Qed.
Print Assumptions C14_unchanged.

(** and so for every output of every history *)
Theorem C14_outputs {SO : Sorter} (e : env RX) (k : config RX) (c c' : client RX)
    (bs : list (list (measurement RX))) (os : list (list (noutput RX))) :
  navigate_all e k c bs = Ok (c', os) ->
  Forall (Forall (fun o => forall r, o_orient o = Some (Some r) -> (- PI <= r < PI)%R)) os.
Proof. exact (@orient_history SO e k bs c c' os). Qed.
Print Assumptions C14_outputs.

Example C14_example : exists y, to_mpp 3 (Some (4 * PI + 1)%R : RX) = Ok y.
Proof.
  exists (Some 1%R : RX). unfold to_mpp.
  assert (P := PI2_3_2). unfold PI2 in P.
  rewrite down_le by lra. rewrite down_le by lra. rewrite down_stop by lra. cbn [bind].
  replace (4 * PI + 1 - 2 * PI - 2 * PI)%R with 1%R by ring. apply up_stop. lra.
Qed.

(** C15. Every double of exponent at least 5 (value at least 2^57) and both
    infinities keep the loop running for any number of iterations. *)
Theorem C15_large_doubles_loop (t : transc) (s : bool) (m : positive) (e : Z) (fuel : nat) :
  valid_binary prec emax (S754_finite s m e) = true -> (5 <= e)%Z ->
  @to_mpp SF (num_float t) fuel (S754_finite s m e) = OutOfFuel.
Proof. exact (@big_stuck t s m e fuel). Qed.
Print Assumptions C15_large_doubles_loop.

Theorem C15_infinity_loops (t : transc) (s : bool) (fuel : nat) :
  @to_mpp SF (num_float t) fuel (S754_infinity s) = OutOfFuel.
Proof. exact (inf_stuck t s fuel). Qed.
Print Assumptions C15_infinity_loops.

(** 2^60 *)
Definition big : SF := sf_ofZ (2 ^ 60).
Example C15_example : big = S754_finite false (2 ^ 52) 8 /\ valid_binary prec emax big = true.
Proof. split; vm_compute; reflexivity. Qed.

(** Whatever the libm, the loop bound, the level set and the uninitialised
    memory: an ORIENTATION sample of such a value and a GNSS fix right after it
    never return, for a client that accepts GNSS positions anywhere. *)
Theorem C15_call_hangs (t : transc) {SO : Sorter} (e : env SF) (s : settings SF) (gs : list (geolevel SF))
    (k : config SF) (g : garbage SF) (m : positive) (ex ts : Z) (la lo dev : SF) :
  @built SF (num_float t) SO s gs k -> NoDup (map (@gl_id SF) gs) -> ~ In "" (map (@gl_id SF) gs) -> gs <> [] ->
  @plain SF s -> SFltb (s_azlife s) (S754_zero false) = false ->
  valid_binary prec emax (S754_finite false m ex) = true -> (5 <= ex)%Z -> ts <> (-1)%Z ->
  let x := S754_finite false m ex in
  @navigate_all SF (num_float t) SO e k (@client0 SF (num_float t) g s)
    [[mkSt (MSensor (mkSensor ORIENTATION (mkV x x x))) ts; mkSt (MNmea (mkNmea 0 0)) ts;
      mkSt (MSensor (mkSensor LOCATION (mkV la lo dev))) ts]] = OutOfFuel.
Proof. exact (@call_hangs t SO e s gs k g m ex ts la lo dev). Qed.
Print Assumptions C15_call_hangs.

Section Example.
#[local] Existing Instance nf.
#[local] Existing Instance isorter.
Example C15_hang_example :
  plain (ex_zones_og false true : settings SF) /\ SFltb (s_azlife (ex_zones_og false true)) (S754_zero false) = false /\
  (exists k, built (ex_zones_og false true) ex_gls k) /\ NoDup (map (@gl_id SF) ex_gls).
Proof.
  split; [constructor; reflexivity|]. split; [vm_compute; reflexivity|]. split.
  - destruct (add_geo_levels col0 ex_gls) as [c| | |] eqn:Ec; [|vm_compute in Ec; discriminate..].
    destruct (mk_config (ex_zones_og false true) c) as [k| | |] eqn:Ek.
    + exists k, c. auto.
    + vm_compute in Ec; injection Ec as <-; vm_compute in Ek; discriminate.
    + vm_compute in Ec; injection Ec as <-; vm_compute in Ek; discriminate.
    + vm_compute in Ec; injection Ec as <-; vm_compute in Ek; discriminate.
  - cbn. repeat constructor; cbn; intuition discriminate.
Qed.
End Example.
