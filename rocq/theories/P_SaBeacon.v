(** C115: the beacon classes of the stand-alone trilateration. *)
From Coq Require Import Ascii Lia.
From Verif Require Import NumFloat SaBeacon Spec_SaBeacon Ex.
Local Open Scope string_scope.
Local Open Scope list_scope.

Lemma cstr_shown s : shown s (cstr s).
Proof.
  induction s as [|c s [H1 H2]]; [split; [intros n; cbn; destruct n; discriminate|left; reflexivity]|]. cbn [cstr].
  destruct (Ascii.eqb_spec c "000"%char) as [->|N].
  - split; [intros n; cbn; destruct n; discriminate|]. right. exists s. reflexivity.
  - split.
    + intros [|n]; cbn; [congruence|apply H1].
    + destruct H2 as [H2|(r & H2)]; [left; congruence|right; exists r; cbn; congruence].
Qed.
Lemma shown_unique s t t' : shown s t -> shown s t' -> t = t'.
Proof.
  revert t t'. induction s as [|c s IH]; intros t t' [H1 H2] [H3 H4].
  - assert (E : forall u, "" = u \/ (exists r, "" = (u ++ String "000"%char r)%string) -> u = "").
    { intros u [E|(r & E)]; [auto|destruct u; discriminate]. }
    rewrite (E t H2), (E t' H4). reflexivity.
  - assert (E : forall u, (forall n, String.get n u <> Some "000"%char) -> String c s = u \/ (exists r, String c s = (u ++ String "000"%char r)%string) ->
      (c = "000"%char /\ u = "") \/ (c <> "000"%char /\ exists v, u = String c v /\ shown s v)).
    { intros u Hn [<-|(r & E)].
      - right. split; [intros ->; apply (Hn 0%nat); reflexivity|]. exists s. split; [reflexivity|]. split; [intros n; apply (Hn (S n))|left; reflexivity].
      - destruct u as [|d u]; cbn in E; injection E as -> E; [left; auto|]. right.
        split; [intros ->; apply (Hn 0%nat); reflexivity|]. exists u. split; [reflexivity|]. split; [intros n; apply (Hn (S n))|right; exists r; exact E]. }
    destruct (E t H1 H2) as [[C1 ->]|[C1 (v & -> & V)]], (E t' H3 H4) as [[C2 ->]|[C2 (v' & -> & V')]]; try contradiction; [reflexivity|].
    f_equal. apply IH; assumption.
Qed.
Lemma cstr_idem s : cstr (cstr s) = cstr s.
Proof. induction s as [|c s IH]; [reflexivity|]. cbn [cstr]. destruct (Ascii.eqb c "000") eqn:E; [reflexivity|]. cbn [cstr]. rewrite E, IH. reflexivity. Qed.
Lemma last_given_app {A B} (f : A -> option B) d l a : last_given f d (l ++ [a]) = match f a with Some b => b | None => last_given f d l end.
Proof. unfold last_given. rewrite rev_app_distr. cbn. destruct (f a) eqn:E; [rewrite E; reflexivity|reflexivity]. Qed.
Lemma to_int_spec z : as_int z (to_int (to_uint z)).
Proof.
  unfold as_int, to_int, to_uint. pose proof (Z.mod_pos_bound z (2 ^ 32) eq_refl) as B. pose proof (Z.div_mod z (2 ^ 32)) as D.
  destruct (Z.ltb_spec (z mod 2 ^ 32) (2 ^ 31)).
  - split; [lia|]. exists (z / 2 ^ 32)%Z. lia.
  - split; [lia|]. exists (z / 2 ^ 32 + 1)%Z. lia.
Qed.

(** ** C115 *)
(** after any calls on a new beacon: what was given last, texts up to the first
    NUL, numbers modulo 2^32 *)
Theorem C115_last {F : Type} {NF : Num F} (cs : list (bcall F)) : let r := ib_read (ib_calls ib0 cs) in
  rd_x r = last_given gives_x f0 cs /\ rd_y r = last_given gives_y f0 cs /\
  shown (last_given gives_id "" cs) (rd_id r) /\ rd_locid r = last_given gives_locid 0%Z cs /\
  shown (last_given gives_uuid "" cs) (rd_uuid r) /\
  as_int (last_given gives_major 0%Z cs) (rd_major r) /\ as_int (last_given gives_minor 0%Z cs) (rd_minor r).
Proof.
  cbv zeta. 
  assert (G : let b := ib_calls ib0 cs in ib_x b = last_given gives_x f0 cs /\ ib_y b = last_given gives_y f0 cs /\
    ib_id b = last_given gives_id "" cs /\ ib_locid b = last_given gives_locid 0%Z cs /\
    ib_uuid b = cstr (last_given gives_uuid "" cs) /\
    ib_major b = to_uint (last_given gives_major 0%Z cs) /\ ib_minor b = to_uint (last_given gives_minor 0%Z cs)).
  { cbv zeta. induction cs as [|c cs IH] using rev_ind; [repeat split|].
    unfold ib_calls. rewrite fold_left_app. cbn [fold_left]. change (fold_left ib_call cs ib0) with (ib_calls ib0 cs).
    rewrite !last_given_app. destruct (ib_calls ib0 cs) as [x y id nm loc lid u ma mi]. cbn in IH.
    destruct IH as (E1 & E2 & E3 & E4 & E5 & E6 & E7). destruct c; cbn; repeat split; auto. }
  cbv zeta in G. destruct G as (E1 & E2 & E3 & E4 & E5 & E6 & E7). unfold ib_read. cbn [rd_x rd_y rd_id rd_locid rd_uuid rd_major rd_minor].
  rewrite E1, E2, E3, E4, E5, E6, E7, cstr_idem. repeat split; try apply cstr_shown; apply to_int_spec.
Qed.
Print Assumptions C115_last.

(** equality: the texts shown agree; an equivalence *)
Theorem C115_equal {F : Type} (a b : ibeacon F) : ib_eq a b = true <-> exists t, shown (ib_id a) t /\ shown (ib_id b) t.
Proof.
  unfold ib_eq, strcmp_eq. rewrite String.eqb_eq. split.
  - intros E. exists (cstr (ib_id a)). split; [apply cstr_shown|rewrite E; apply cstr_shown].
  - intros (t & H1 & H2). rewrite (shown_unique _ _ _ (cstr_shown (ib_id a)) H1). symmetry. exact (shown_unique _ _ _ (cstr_shown (ib_id b)) H2).
Qed.
Print Assumptions C115_equal.
Theorem C115_equivalence {F : Type} (a b c : ibeacon F) : ib_eq a a = true /\ ib_eq a b = ib_eq b a /\
  (ib_eq a b = true -> ib_eq b c = true -> ib_eq a c = true) /\ ib_ne a b = negb (ib_eq a b).
Proof.
  unfold ib_eq, strcmp_eq. split; [apply String.eqb_refl|]. split; [apply String.eqb_sym|]. split; [|reflexivity].
  rewrite !String.eqb_eq. congruence.
Qed.
Print Assumptions C115_equivalence.

(** names have no effect on anything that can be read *)
Theorem C115_names {F : Type} {NF : Num F} (b : ibeacon F) cs ds : Forall names_only ds ->
  ib_read (ib_calls b (cs ++ ds)) = ib_read (ib_calls b cs).
Proof.
  intros H. unfold ib_calls. rewrite fold_left_app. generalize (fold_left ib_call cs b). intros b0.
  revert b0. induction H as [|d ds Hd _ IH]; intros b0; [reflexivity|]. cbn [fold_left]. rewrite IH.
  destruct d; try destruct Hd. destruct b0. reflexivity.
Qed.
Print Assumptions C115_names.

(** giving a location name does not replace the one before *)
Theorem C115_location_refuted : exists (b : ibeacon SF) s, ib_loc (ib_call b (SetLocName s)) <> s.
Proof. exists (@ib_call SF (@ib0 SF nf) (SetLocName "floor1")), "floor2". vm_compute. discriminate. Qed.
Print Assumptions C115_location_refuted.
(** nor is a large major number read as it was given *)
Theorem C115_major_refuted : exists z, (0 <= z < 2 ^ 32)%Z /\ rd_major (ib_read (ib_call (@ib0 SF nf) (SetMajor z))) <> z.
Proof. exists (2 ^ 31)%Z. split; [lia|]. vm_compute. discriminate. Qed.
Print Assumptions C115_major_refuted.

Example C115_example : let s := String "a" (String "000" "b") in
  let cs := [SetX (@fofZ SF nf 5); FillData (@fofZ SF nf 3) (@fofZ SF nf 4) s "n" "l"; SetMajor 7; SetLocName "x"; SetX (@fofZ SF nf 9)] in
  let r := ib_read (ib_calls (@ib0 SF nf) cs) in
  rd_x r = @fofZ SF nf 9 /\ rd_y r = @fofZ SF nf 4 /\ rd_id r = "a" /\ rd_major r = 7%Z /\ ib_loc (ib_calls (@ib0 SF nf) cs) = "lx".
Proof. vm_compute. auto. Qed.
