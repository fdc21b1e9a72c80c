(** Altitude by trilateration.  Models src/trilateration.cpp. *)
From Verif Require Export LevelModel.
Set Implicit Arguments.

Section Trilat.
Context {F : Type} {NF : Num F} {SO : Sorter}.

(** trilateration.cpp:33-46 distance between two transmitters of a level *)
Definition tx_delta (l : level F) (a b : string) : res F :=
  t1 <- get_tx l a ;;
  t2 <- get_tx l b ;;
  let dx := zx (t_pt t2) -! zx (t_pt t1) in
  let dy := zy (t_pt t2) -! zy (t_pt t1) in
  let dz := zz (t_pt t2) -! zz (t_pt t1) in
  Ok (fsqrt (dx *! dx +! dy *! dy +! dz *! dz)).

(** trilateration.cpp:37-49 inner loop: ids pushed to badMsr for [m1] *)
Definition bad_for (l : level F) (ms : list (radio F)) (m1 : radio F) (bad : list string) : res (list string) :=
  fold_left (fun (acc : res (list string)) m2 =>
    bad <- acc ;;
    d <- tx_delta l (r_id m1) (r_id m2) ;;
    Ok (if (r_dist m1 +! r_dist m2) <! d then bad ++ [r_id m2] else bad)) ms (Ok bad).

(** trilateration.cpp:25-51 outer loop *)
Definition bad_ids (l : level F) (ms : list (radio F)) : res (list string) :=
  fold_left (fun (acc : res (list string)) m1 =>
    bad <- acc ;;
    if existsb (String.eqb (r_id m1)) bad then Ok bad else bad_for l ms m1 bad) ms (Ok []).

(** trilateration.cpp:12-64 getIntersectedMeasurements *)
Definition intersected (l : level F) (ms : list (radio F)) : res (list (radio F)) :=
  s <- sort_res (fun a b : radio F => r_dist a <! r_dist b) ms ;;
  bad <- bad_ids l s ;;
  Ok (filter (fun m => negb (existsb (String.eqb (r_id m)) bad)) s).

(** trilateration.cpp:87-97 one row of the linear system *)
Definition tri_row (t1 t2 : transmitter F) (r1 r2 : F) : (F * F * F) * F :=
  let dx := zx (t_pt t2) -! zx (t_pt t1) in
  let dy := zy (t_pt t2) -! zy (t_pt t1) in
  let dz := zz (t_pt t2) -! zz (t_pt t1) in
  ((dx, dy, dz),
   (fpowi r1 2 -! fpowi r2 2 +! (fpowi dx 2 +! fpowi dy 2 +! fpowi dz 2)) /! fofZ 2).

(** trilateration.cpp:106-113 term of one transmitter: None when deltaZ is NaN.
    The closing parenthesis of the first pow on line 107 is misplaced. *)
Definition alt_term (x y : F) (t : transmitter F) (d : F) : option F :=
  let dz := fsqrt (fpowi d 2 -!
    fpow (x -! zx (t_pt t)) (fofZ 2 -! fpowi (y -! zy (t_pt t)) 2)) in
  if fisnan dz then None else Some ((zz (t_pt t) +! dz) /! d).

(** trilateration.cpp:66-120 calculateAltitude; [svd] is Eigen's bdcSvd solve *)
Definition altitude (svd : list (F * F * F) -> list F -> F * F * F) (l : level F) (ms : list (radio F)) :
    res (option F) :=
  ms <- intersected l (level_radio l ms) ;;
  match ms with
  | m1 :: rest =>
      if Nat.ltb (List.length ms) 4 then Ok None
      else
        t1 <- get_tx l (r_id m1) ;;
        rows <- mapM (fun m => t2 <- get_tx l (r_id m) ;; Ok (tri_row t1 t2 (r_dist m1) (r_dist m))) rest ;;
        let '(sx, sy, _) := svd (map fst rows) (map snd rows) in
        let x := sx +! zx (t_pt t1) in
        let y := sy +! zy (t_pt t1) in
        terms <- mapM (fun m => t <- get_tx l (r_id m) ;; Ok (alt_term x y t (r_dist m))) ms ;;
        let vs := flat_map (fun o => match o with Some v => [v] | None => [] end) terms in
        match vs with
        | [] => Ok None
        | _ => Ok (Some (fsum (fun v => v) vs))
        end
  | [] => Ok None
  end.
End Trilat.
