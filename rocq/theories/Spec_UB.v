(** What has to hold for the client to have no undefined behaviour (C86). *)
From Coq Require Import ZArith List String.
From Verif Require Import Lib NumOrd Client Json Spec_Json.
Import ListNotations.
Set Implicit Arguments.

Section Spec.
Context {F : Type} {NF : Num F}.

(** The sigma filter, if used, has a window; the least-squares smoother, if
    used, has no negative memory; the altitude estimation is off. *)
Definition sane_settings (s : settings F) : Prop :=
  (s_sigma s = true -> s_sigmawin s <> 0%nat) /\
  (s_usesmooth s = true -> s_abfilter s = false -> (s_avg s <! f0) = false) /\
  s_altitude s = false.

(** Only when the strongest transmitters are selected: fewer than 2^64
    measurements, and finite signal strengths unless measurements are in RSSI
    mode, where the cut-off test removes the others. *)
Definition sane_log (s : settings F) (bs : list (list (measurement F))) : Prop :=
  s_closest s = true ->
  (Z.of_nat (List.length (List.concat bs)) < 2 ^ 64)%Z /\
  (s_mtype s <> RSSI -> forall m r, In m (List.concat bs) -> st_data m = MRadio r -> fisfinite (r_rssi r) = true).

(** a result, or an angle loop that has not stopped within the bound *)
Definition result_or_loop {A : Type} (x : res A) : Prop := (exists a, x = Ok a) \/ x = OutOfFuel.

(** The same in terms of a settings file: the durations fit in milliseconds, a
    window for the sigma filter, no negative averaging time. *)
Definition durations : list string :=
  ["Sig_averaging_time"; "Sig_window_shift"; "Stop_detection_time"; "Dead_reckon_time"; "Stop_update_time"]%string.
Definition safe_file (c : list (string * json F)) : Prop :=
  (In ("Use_gps_sigma_filter"%string, JBool true) c -> forall v, In ("Sigma_filter_window"%string, v) c -> ~ means_nat v 0) /\
  (forall v x, In ("Sig_averaging_time"%string, v) c -> means_num v x -> (x <! f0) = false) /\
  (forall key v x, In key durations -> In (key, v) c -> means_num v x -> exists z, ftoZ (fofZ 1000 *! x) = Some z).
End Spec.
