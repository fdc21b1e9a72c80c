(** Construction and use of the radio-map likelihood.  Models
    src/likelihood/likelihood_radiomap.cpp:14-29 and sequences of calls of
    doPreliminaryCalculations; the single functions are in Likelihood.v. *)
From Verif Require Export Likelihood Triangulation.
Set Implicit Arguments.

Section Like.
Context {F : Type} {NF : Num F} {SO : Sorter}.
(** likelihood_radiomap.cpp:14-29 constructor: the tables; mLikelihoodPoint is none *)
Definition like_tables (s : settings F) (c : collector F) : res (ktables F) :=
  tris <- (if s_triangles s then triangulate c else Ok []) ;;
  Ok (mkKT (levels_rmaps c) (ref_txs c) tris []).
(** doPreliminaryCalculations for a sequence of levels and measurements *)
Fixpoint preliminary_all (s : settings F) (kt : ktables F) (st : option (XY F)) (calls : list (level F * list (radio F))) :
    res (option (XY F)) :=
  match calls with
  | [] => Ok st
  | (l, ms) :: rest => st' <- preliminary s kt st l ms ;; preliminary_all s kt st' rest
  end.
End Like.
