(** Specification of what an object of the stand-alone trilateration holds over
    its life. *)
From Coq Require Import Reals.
From Verif Require Import Num NumReal LibR SaTrilat Spec_SaTrilat.
Set Implicit Arguments.

(** the public calls: fillLocationBeacons, updateMeasurements,
    calculateCoordinates *)
Inductive tlop : Type := TFill (bs : list (beacon RX)) | TMeas (ms : list (bmeas RX)) | TCalc.
Definition good_op (o : tlop) : Prop :=
  match o with
  | TFill bs => Forall good_beacon bs
  | TMeas ms => Forall good_meas ms
  | TCalc => True
  end.

Section Object.
Context {SO : Sorter}.
Fixpoint tl_run (s : trilat RX) (ops : list tlop) : res (trilat RX) :=
  match ops with
  | [] => Ok s
  | TFill bs :: t => tl_run (tl_fill s bs) t
  | TMeas ms :: t => tl_run (tl_update s ms) t
  | TCalc :: t => '(s', _) <- calculate s ;; tl_run s' t
  end.
(** what a new object makes of these beacons and measurements: the
    measurements it is left with and its coordinates *)
Definition alone (bs : list (beacon RX)) (ms ms' : list (bmeas RX)) (x y : R) : Prop :=
  exists e, calculate (mkTl bs ms f0 f0) = Ok (mkTl bs ms' (Some x : RX) (Some y : RX), e).
(** beacons, measurements and coordinates after a sequence of calls *)
Inductive held : list tlop -> list (beacon RX) -> list (bmeas RX) -> R -> R -> Prop :=
  | H0 : held [] [] [] 0 0
  | HFill ops bs ms x y bs' : held ops bs ms x y -> held (ops ++ [TFill bs']) bs' ms x y
  | HMeas ops bs ms x y ms' : held ops bs ms x y -> held (ops ++ [TMeas ms']) bs ms' x y
  | HCalc ops bs ms x y ms' dx dy : held ops bs ms x y -> alone bs ms ms' dx dy ->
      held (ops ++ [TCalc]) bs ms' (x + dx) (y + dy).
End Object.
