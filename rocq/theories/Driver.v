(** The command-line driver tests/navigation_test.cpp. *)
From Verif Require Export Client.
Set Implicit Arguments.

Section Chunks.
Context {A : Type}.

(** conversion of the int batch size to std::size_t, and its wrap-around *)
Definition u64 (z : Z) : Z := (z mod 2 ^ 64)%Z.

(** navigation_test.cpp:77-81, [n] is navBatchSize; a range whose end precedes
    its beginning is undefined *)
Fixpoint chunks_from (fuel : nat) (n i : Z) (ms : list A) : res (list (list A)) :=
  let size := Z.of_nat (List.length ms) in
  if (i <? size)%Z then
    match fuel with
    | O => OutOfFuel
    | S f =>
        let last := Z.min size (u64 (i + u64 n)) in
        if (last <? i)%Z then UB
        else rest <- chunks_from f n (u64 (i + u64 n)) ms ;;
             Ok (firstn (Z.to_nat (last - i)) (skipn (Z.to_nat i) ms) :: rest)
    end
  else Ok [].
Definition chunks (fuel : nat) (n : Z) (ms : list A) : res (list (list A)) := chunks_from fuel n 0 ms.
End Chunks.

Section Driver.
Context {F : Type} {NF : Num F} {SO : Sorter}.

(** the static variables of BuildPdrTrack and the track *)
Record pdr := mkPdr { pd_dist : F; pd_head : F; pd_x : F; pd_y : F }.
Definition pdr0 : pdr := mkPdr f0 f0 f0 f0.

(** navigation_test.cpp:30-40 BuildPdrTrack *)
Definition build_pdr (d h : F) (s : pdr) : pdr :=
  if fneb d (pd_dist s) && fneb h (pd_head s)
  then mkPdr d h (pd_x s +! d *! fcos h) (pd_y s +! d *! fsin h)
  else s.

(** one printed line: seconds, output, track *)
Record pline := mkLine { ln_sec : Z; ln_out : noutput F; ln_x : F; ln_y : F }.

(** navigation_test.cpp:92-131 the outputs of one batch.  [h] is the value of
    NavigationState::mHeading, which no code writes: it is one unspecified
    value, copied from the estimator into every state.  Indexing a vector out
    of range is undefined. *)
Fixpoint print_batch (h : F) (first : Z) (os : list (noutput F)) (ns : list (nstate F))
    (ms : list (measurement F)) (s : pdr) : res (pdr * list pline) :=
  match os with
  | [] => Ok (s, [])
  | o :: os' =>
      match ms with
      | [] => UB
      | m :: ms' =>
          s' <- (if status_eqb (o_status o) OK
                 then match ns with [] => UB | n :: _ => Ok (build_pdr (ns_steplen n) h s) end
                 else Ok s) ;;
          '(s'', ls) <- print_batch h first os' (tl ns) ms' s' ;;
          Ok (s'', mkLine (Z.quot (st_ts m - first) 1000) o (pd_x s') (pd_y s') :: ls)
      end
  end.

(** navigation_test.cpp:83-132 the loop over the batches *)
Fixpoint drive (e : env F) (k : config F) (h : F) (c : client F) (first : Z) (s : pdr)
    (bs : list (list (measurement F))) : res (list (list pline)) :=
  match bs with
  | [] => Ok []
  | b :: t =>
      first <- (if (first =? 0)%Z then match b with [] => UB | m :: _ => Ok (st_ts m) end else Ok first) ;;
      '(c, os) <- navigate e k c b ;;
      '(s, ls) <- print_batch h first os (c_states c) b s ;;
      rest <- drive e k h c first s t ;;
      Ok (ls :: rest)
  end.

(** navigation_test.cpp:71-133 from the client and the log to the printed lines *)
Definition run_driver (fuel : nat) (e : env F) (k : config F) (h : F) (c : client F) (n : Z)
    (ms : list (measurement F)) : res (list (list pline)) :=
  bs <- chunks fuel n ms ;; drive e k h c 0 pdr0 bs.
End Driver.
Arguments pdr F : clear implicits.
Arguments pline F : clear implicits.
