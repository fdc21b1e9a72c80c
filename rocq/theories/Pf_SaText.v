From Verif Require Import Spec_SaText SaText.
From Coq Require Import Lia.
Set Implicit Arguments.
Local Open Scope Z_scope.

(** ** Characters *)
Lemma all_ascii (p : ascii -> bool) :
  forallb (fun n => p (ascii_of_nat n)) (seq 0 256) = true -> forall c, p c = true.
Proof.
  intros H c. rewrite forallb_forall in H. rewrite <- (ascii_nat_embedding c).
  apply H. apply in_seq. pose proof (nat_ascii_bounded c). lia.
Qed.
Lemma eqb_all (p q : ascii -> bool) :
  forallb (fun n => Bool.eqb (p (ascii_of_nat n)) (q (ascii_of_nat n))) (seq 0 256) = true -> forall c, p c = q c.
Proof. intros H c. apply Bool.eqb_prop. exact (@all_ascii (fun c => Bool.eqb (p c) (q c)) H c). Qed.
Definition member (cs : list ascii) (c : ascii) : bool := existsb (Ascii.eqb c) cs.
Lemma member_In cs c : member cs c = true <-> In c cs.
Proof.
  unfold member. rewrite existsb_exists. split.
  - intros [x [H E]]. apply Ascii.eqb_eq in E. subst x. exact H.
  - intros H. exists c. split; [exact H|apply Ascii.eqb_refl].
Qed.
Lemma member_not cs c : member cs c = false <-> ~ In c cs.
Proof. rewrite <- member_In. destruct (member cs c); split; congruence. Qed.
Lemma space_member c : is_space c = member ws_chars c.
Proof. exact (eqb_all is_space (member ws_chars) eq_refl c). Qed.
Lemma digit_member c : is_digit c = member numerals c.
Proof. exact (eqb_all is_digit (member numerals) eq_refl c). Qed.
Lemma lf_eqb c : is_char 10 c = Ascii.eqb c LF.
Proof. exact (eqb_all (is_char 10) (fun c => Ascii.eqb c LF) eq_refl c). Qed.
Lemma plus_eqb c : is_char 43 c = Ascii.eqb c "+".
Proof. exact (eqb_all (is_char 43) (fun c => Ascii.eqb c "+") eq_refl c). Qed.
Lemma minus_eqb c : is_char 45 c = Ascii.eqb c "-".
Proof. exact (eqb_all (is_char 45) (fun c => Ascii.eqb c "-") eq_refl c). Qed.
Lemma dot_member c : is_char 46 c = member ["."]%char c.
Proof. exact (eqb_all (is_char 46) (member ["."]%char) eq_refl c). Qed.
Lemma e_member c : is_char 69 c || is_char 101 c = member ["e"; "E"]%char c.
Proof. exact (eqb_all (fun c => is_char 69 c || is_char 101 c) (member ["e"; "E"]%char) eq_refl c). Qed.

Lemma figure_digit d : (d < 10)%nat -> is_digit (figure d) = true /\ code (figure d) = 48 + Z.of_nat d.
Proof. intros H. do 10 (destruct d as [|d]; [split; reflexivity|]). lia. Qed.
Lemma digit_figure c : is_digit c = true -> exists d, (d < 10)%nat /\ c = figure d.
Proof.
  rewrite digit_member, member_In. intros H. apply (In_nth _ _ " "%char) in H.
  destruct H as [d [L E]]. exists d. split; [exact L|symmetry; exact E].
Qed.

(** ** [span], [skip_ws] *)
Lemma span_app p s : let '(a, r) := span p s in s = a ++ r /\ Forall (fun c => p c = true) a /\ match r with c :: _ => p c = false | [] => True end.
Proof.
  induction s as [|c t IH]; cbn; [repeat split; constructor|].
  destruct (p c) eqn:E; [|repeat split; [constructor|exact E]].
  destruct (span p t) as [a r]. destruct IH as [-> [H G]]. repeat split; [constructor; assumption|exact G].
Qed.
Lemma span_eq p a r : Forall (fun c => p c = true) a -> match r with c :: _ => p c = false | [] => True end ->
  span p (a ++ r) = (a, r).
Proof.
  intros H G. induction H as [|c a E _ IH]; cbn.
  - destruct r as [|c t]; cbn; [reflexivity|]. rewrite G. reflexivity.
  - rewrite E, IH. reflexivity.
Qed.
Lemma skip_app s : exists w, s = w ++ skip_ws s /\ blank w /\ match skip_ws s with c :: _ => is_space c = false | [] => True end.
Proof.
  induction s as [|c t IH]; cbn; [exists []; repeat split; constructor|].
  destruct (is_space c) eqn:E.
  - destruct IH as [w [H [B G]]]. exists (c :: w). cbn. rewrite <- H. repeat split; [|exact G].
    constructor; [|exact B]. apply member_In. rewrite <- space_member. exact E.
  - exists []. repeat split; [constructor|exact E].
Qed.
Lemma skip_eq w r : blank w -> match r with c :: _ => is_space c = false | [] => True end -> skip_ws (w ++ r) = r.
Proof.
  intros H G. induction H as [|c w E _ IH]; cbn.
  - destruct r as [|c t]; cbn; [reflexivity|]. rewrite G. reflexivity.
  - rewrite space_member. apply member_In in E. rewrite E. exact IH.
Qed.
Lemma skip_nonblank s : match skip_ws s with c :: _ => is_space c = false | [] => True end.
Proof. destruct (skip_app s) as [w [_ [_ H]]]. exact H. Qed.

Lemma goes_not cs r : ~ goes_on cs r <-> match r with c :: _ => member cs c = false | [] => True end.
Proof.
  split.
  - intros H. destruct r as [|c t]; [exact I|]. apply member_not. intros G. apply H. exists c, t. split; [reflexivity|exact G].
  - intros H [c [t [-> G]]]. apply member_not in H. contradiction.
Qed.
Lemma stop_space r : (r = [] \/ goes_on ws_chars r) <-> match r with c :: _ => is_space c = true | [] => True end.
Proof.
  split.
  - intros [->|[c [t [-> G]]]]; [exact I|]. rewrite space_member. apply member_In. exact G.
  - intros H. destruct r as [|c t]; [left; reflexivity|right]. exists c, t. split; [reflexivity|].
    apply member_In. rewrite <- space_member. exact H.
Qed.

(** ** Words *)
Lemma word_iff s id r : get_word s = Some (id, r) <-> says_word s id r.
Proof.
  unfold get_word, says_word. split.
  - destruct (skip_app s) as [w [Hs [B _]]].
    pose proof (span_app (fun c => negb (is_space c)) (skip_ws s)) as H.
    destruct (span (fun c => negb (is_space c)) (skip_ws s)) as [l q].
    destruct H as [E [Fl Fq]]. destruct l as [|c l]; [discriminate|]. intros X; injection X as <- <-.
    exists w, (c :: l). split; [rewrite Hs at 1; rewrite E; reflexivity|]. split; [exact B|]. split.
    + split; [discriminate|]. eapply Forall_impl; [|exact Fl]. cbv beta. intros a Ha. apply member_not.
      rewrite <- space_member. apply Bool.negb_true_iff. exact Ha.
    + split; [|reflexivity]. apply stop_space. destruct q as [|a q]; [exact I|].
      apply Bool.negb_false_iff. exact Fq.
  - intros [w [l [-> [B [[N W] [St ->]]]]]]. destruct l as [|c l]; [contradiction|].
    assert (W' : Forall (fun c => negb (is_space c) = true) (c :: l)).
    { eapply Forall_impl; [|exact W]. cbv beta. intros a Ha. apply Bool.negb_true_iff. rewrite space_member.
      apply member_not. exact Ha. }
    rewrite (@skip_eq _ _ B).
    + rewrite (@span_eq _ _ _ W').
      * reflexivity.
      * apply stop_space in St. destruct r as [|a r]; [exact I|]. cbn. rewrite St. reflexivity.
    + inversion W' as [|? ? G]. apply Bool.negb_true_iff. exact G.
Qed.

(** ** Digits *)
Lemma figures_digit ds : decimal ds -> Forall (fun c => is_digit c = true) (figures ds).
Proof. intros H. induction H as [|d ds L _ IH]; cbn; constructor; [apply figure_digit; exact L|exact IH]. Qed.
Lemma digits_figures l : Forall (fun c => is_digit c = true) l -> exists ds, decimal ds /\ l = figures ds.
Proof.
  intros H. induction H as [|c l E _ [ds [D ->]]]; [exists []; split; [constructor|reflexivity]|].
  destruct (digit_figure c E) as [d [L ->]]. exists (d :: ds). split; [constructor; assumption|reflexivity].
Qed.
Lemma digits_fold ds a : decimal ds ->
  fold_left (fun a c => 10 * a + (code c - 48)) (figures ds) a = a * 10 ^ Z.of_nat (List.length ds) + dval ds.
Proof.
  intros H. revert a. induction H as [|d ds L _ IH]; intros a; cbn [figures map fold_left List.length dval].
  - change (Z.of_nat 0) with 0. rewrite Z.pow_0_r. ring.
  - change (map figure ds) with (figures ds). rewrite IH. destruct (figure_digit L) as [_ ->].
    rewrite Nat2Z.inj_succ, Z.pow_succ_r by lia. ring.
Qed.
Lemma digits_dval ds : decimal ds -> digits_val (figures ds) = dval ds.
Proof. intros H. unfold digits_val. rewrite (digits_fold 0 H). ring. Qed.

(** ** Signs *)
Lemma sign_read s : exists g, let '(neg, r) := get_sign s in
  s = sign_text g ++ r /\ neg = is_minus g /\
  (g = NoSign -> match r with c :: _ => is_char 43 c = false /\ is_char 45 c = false | [] => True end).
Proof.
  destruct s as [|c t]; cbn; [exists NoSign; repeat split|].
  destruct (is_char 43 c) eqn:P.
  - exists Plus. rewrite plus_eqb in P. apply Ascii.eqb_eq in P. subst c. repeat split; discriminate.
  - destruct (is_char 45 c) eqn:M.
    + exists Minus. rewrite minus_eqb in M. apply Ascii.eqb_eq in M. subst c. repeat split; discriminate.
    + exists NoSign. repeat split; assumption.
Qed.
Lemma sign_eq g r : match r with c :: _ => is_char 43 c = false /\ is_char 45 c = false | [] => True end ->
  get_sign (sign_text g ++ r) = (is_minus g, r).
Proof.
  intros H. destruct g; cbn; [|reflexivity|reflexivity].
  destruct r as [|c t]; cbn; [reflexivity|]. destruct H as [-> ->]. reflexivity.
Qed.
Lemma signed_with g z : signed (is_minus g) z = with_sign g z.
Proof. destruct g; reflexivity. Qed.
Lemma digit_plain c : is_digit c = true -> is_space c = false /\ is_char 43 c = false /\ is_char 45 c = false.
Proof.
  intros H. pose proof (all_ascii (fun c => implb (is_digit c) (negb (is_space c) && negb (is_char 43 c) && negb (is_char 45 c))) eq_refl c) as G.
  cbn beta in G. rewrite H in G. destruct (is_space c), (is_char 43 c), (is_char 45 c); cbn in G; try discriminate; repeat split.
Qed.
Lemma sign_plain g r : match r with c :: _ => is_space c = false | [] => True end ->
  match sign_text g ++ r with c :: _ => is_space c = false | [] => True end.
Proof. intros H. destruct g; cbn; [exact H|reflexivity|reflexivity]. Qed.

(** ** Integers *)
Lemma int_iff s z r : scan_int s = Some (z, r) <->
  exists w g ds, s = w ++ sign_text g ++ figures ds ++ r /\ blank w /\ decimal ds /\ ds <> [] /\
    ~ goes_on numerals r /\ z = with_sign g (dval ds).
Proof.
  unfold scan_int. split.
  - destruct (skip_app s) as [w [Hs [B _]]]. destruct (sign_read (skip_ws s)) as [g Hg].
    destruct (get_sign (skip_ws s)) as [neg t]. destruct Hg as [E [-> _]].
    pose proof (span_app is_digit t) as H. destruct (span is_digit t) as [l q]. destruct H as [-> [Fl Fq]].
    destruct l as [|c l]; [discriminate|]. intros X; injection X as <- <-.
    destruct (digits_figures Fl) as [ds [D El]]. exists w, g, ds.
    split; [rewrite Hs at 1; rewrite E, El; reflexivity|]. split; [exact B|]. split; [exact D|]. split.
    + intros ->. discriminate El.
    + split; [|rewrite El, (digits_dval D), signed_with; reflexivity].
      apply goes_not. destruct q as [|a q]; [exact I|]. rewrite <- digit_member. exact Fq.
  - intros [w [g [ds [-> [B [D [N [St ->]]]]]]]]. pose proof (figures_digit D) as Fd.
    destruct ds as [|d ds]; [contradiction|]. cbn [figures map] in *. change (map figure ds) with (figures ds) in *.
    assert (P : is_digit (figure d) = true) by (inversion Fd; assumption). destruct (digit_plain _ P) as [P1 [P2 P3]].
    rewrite (@skip_eq _ _ B); [|apply sign_plain; exact P1]. rewrite sign_eq; [|split; assumption].
    rewrite (@span_eq _ _ _ Fd); [|apply goes_not in St; destruct r as [|a r]; [exact I|rewrite digit_member; exact St]].
    change (figure d :: figures ds) with (figures (d :: ds)). rewrite (digits_dval D), signed_with. reflexivity.
Qed.
Lemma range_iff bits z : in_range bits z = true <-> - 2 ^ (bits - 1) <= z < 2 ^ (bits - 1).
Proof. unfold in_range. rewrite Bool.andb_true_iff, Z.leb_le, Z.ltb_lt. tauto. Qed.
Lemma ll_iff s z r : get_ll s = Some (z, r) <-> says_int 64 s z r.
Proof.
  unfold get_ll, says_int. split.
  - destruct (scan_int s) as [[z' r']|] eqn:E; [|discriminate]. destruct (in_range 64 z') eqn:R; [|discriminate].
    intros X; injection X as -> ->. apply int_iff in E. destruct E as [w [g [ds [E1 [E2 [E3 [E4 [E5 E6]]]]]]]].
    exists w, g, ds. repeat (split; [assumption|]). apply range_iff. exact R.
  - intros [w [g [ds [E1 [E2 [E3 [E4 [E5 [E6 R]]]]]]]]].
    assert (E : scan_int s = Some (z, r)) by (apply int_iff; exists w, g, ds; repeat (split; [assumption|]); assumption).
    rewrite E. apply range_iff in R. rewrite R. reflexivity.
Qed.

(** ** Doubles *)
Lemma figures_app a b : figures (a ++ b) = figures a ++ figures b.
Proof. apply map_app. Qed.
Lemma figures_length a : List.length (figures a) = List.length a.
Proof. apply map_length. Qed.
Lemma figures_nil a : figures a = [] -> a = [].
Proof. destruct a; [reflexivity|discriminate]. Qed.
Lemma not_digit r : ~ goes_on numerals r -> match r with c :: _ => is_digit c = false | [] => True end.
Proof. rewrite goes_not. destruct r; [trivial|]. rewrite digit_member. trivial. Qed.
Lemma digit_not r : match r with c :: _ => is_digit c = false | [] => True end -> ~ goes_on numerals r.
Proof. rewrite goes_not. destruct r; [trivial|]. rewrite digit_member. trivial. Qed.

Definition scanned (n : numeral) (r : text) : bool * Z * Z * text := (is_minus (n_sgn n), mantissa n, power n, r).
Definition float_says (s : text) (n : numeral) (r : text) : Prop :=
  exists w, s = w ++ spelled n ++ r /\ blank w /\ numeral_ok n /\ stops n r.

Lemma float_complete s q : scan_float s = Some q -> exists n r, q = scanned n r /\ float_says s n r.
Proof.
  unfold scan_float, float_says. destruct (skip_app s) as [w [Hs [B _]]]. destruct (sign_read (skip_ws s)) as [g Hg].
  destruct (get_sign (skip_ws s)) as [neg t]. destruct Hg as [E [-> _]].
  pose proof (span_app is_digit t) as H. destruct (span is_digit t) as [ip t2]. destruct H as [-> [Fi Ni]].
  destruct (digits_figures Fi) as [di [Di ->]].
  assert (X : exists f fp t3, get_fraction t2 = (figures fp, t3)
     /\ t2 = match f with Some f => "."%char :: figures f | None => [] end ++ t3
     /\ fp = match f with Some f => f | None => [] end /\ decimal fp
     /\ ~ goes_on numerals t3 /\ (f = None -> ~ goes_on ["."]%char t3)).
  { unfold get_fraction. destruct t2 as [|c t3].
    - exists None, [], []. split; [reflexivity|]. split; [reflexivity|]. split; [reflexivity|]. split; [constructor|].
      split; [apply goes_not; exact I|intros _; apply goes_not; exact I].
    - destruct (is_char 46 c) eqn:P.
      + pose proof (span_app is_digit t3) as H. destruct (span is_digit t3) as [l q']. destruct H as [-> [Fl Nl]].
        destruct (digits_figures Fl) as [df [Df ->]]. exists (Some df), df, q'. split; [reflexivity|].
        rewrite dot_member, member_In in P. destruct P as [<-|[]].
        split; [reflexivity|]. split; [reflexivity|]. split; [exact Df|].
        split; [apply digit_not; exact Nl|discriminate].
      + exists None, [], (c :: t3). split; [reflexivity|]. split; [reflexivity|]. split; [reflexivity|]. split; [constructor|].
        split; [apply digit_not; exact Ni|intros _; apply goes_not; rewrite <- dot_member; exact P]. }
  destruct X as [f [fp [t3 [-> [E2 [Efp [Df [N3 D3]]]]]]]]. rewrite E2 in *.
  rewrite <- figures_app, figures_length.
  assert (Dm : decimal (di ++ fp)) by (apply Forall_app; split; assumption).
  destruct (figures (di ++ fp)) as [|c0 m0] eqn:Em; [discriminate|].
  rewrite <- Em, (digits_dval Dm).
  assert (Nm : di ++ fp <> []) by (intros Z; rewrite Z in Em; discriminate Em).
  assert (Hs' : s = w ++ sign_text g ++ figures di ++ match f with Some f => "."%char :: figures f | None => [] end ++ t3)
    by (rewrite Hs at 1; rewrite E; reflexivity).
  destruct t3 as [|c t4].
  - intros Q; injection Q as <-. exists (mkNumeral g di f None), []. split.
    + unfold scanned, mantissa, power, fraction; cbn. rewrite <- Efp. reflexivity.
    + exists w. unfold spelled; cbn. split; [rewrite Hs'; repeat rewrite app_nil_r; reflexivity|]. split; [exact B|].
      unfold numeral_ok, fraction; cbn. rewrite <- Efp. split; [repeat split; assumption|].
      split; [apply goes_not; exact I|]. split; intros; apply goes_not; exact I.
  - destruct (is_char 69 c || is_char 101 c) eqn:Ee.
    + destruct (sign_read t4) as [g2 Hg2]. destruct (get_sign t4) as [neg2 t5]. destruct Hg2 as [-> [-> _]].
      pose proof (span_app is_digit t5) as H. destruct (span is_digit t5) as [l q']. destruct H as [-> [Fl Nl]].
      destruct l as [|c1 l]; [discriminate|]. intros Q; injection Q as <-.
      destruct (digits_figures Fl) as [de [De El]]. rewrite El, (digits_dval De), signed_with.
      rewrite e_member, member_In in Ee.
      assert (Up : exists up : bool, c = (if up then "E" else "e")%char).
      { destruct Ee as [<-|[<-|[]]]; [exists false|exists true]; reflexivity. }
      destruct Up as [up ->].
      exists (mkNumeral g di f (Some (up, g2, de))), q'. split.
      * unfold scanned, mantissa, power, fraction; cbn. rewrite <- Efp. reflexivity.
      * exists w. unfold spelled; cbn. split.
        { rewrite Hs', El. repeat (rewrite <- app_assoc || rewrite <- app_comm_cons). reflexivity. }
        split; [exact B|]. unfold numeral_ok, fraction; cbn. rewrite <- Efp. split.
        { repeat split; try assumption. intros Z; rewrite Z in El; discriminate El. }
        split; [apply digit_not; exact Nl|]. split; intros Z; discriminate Z.
    + intros Q; injection Q as <-. exists (mkNumeral g di f None), (c :: t4). split.
      * unfold scanned, mantissa, power, fraction; cbn. rewrite <- Efp. reflexivity.
      * exists w. unfold spelled; cbn. split.
        { rewrite Hs'. rewrite app_nil_r. repeat (rewrite <- app_assoc || rewrite <- app_comm_cons). reflexivity. }
        split; [exact B|]. unfold numeral_ok, fraction; cbn. rewrite <- Efp. split; [repeat split; assumption|].
        split; [exact N3|]. split; [intros _; apply goes_not; rewrite <- e_member; exact Ee|intros _; exact D3].
Qed.

Lemma dot_facts : is_digit "." = false /\ is_char 46 "." = true /\ is_space "." = false /\ is_char 43 "." = false /\ is_char 45 "." = false.
Proof. repeat split. Qed.
Lemma e_facts (up : bool) : let c := (if up then "E" else "e")%char in
  is_digit c = false /\ is_char 46 c = false /\ (is_char 69 c || is_char 101 c) = true.
Proof. destruct up; repeat split. Qed.

Lemma float_sound s n r : float_says s n r -> scan_float s = Some (scanned n r).
Proof.
  intros [w [-> [B [[Di [Df [Nm Ex]]] [N0 [Ne Nd]]]]]]. unfold scan_float, scanned.
  destruct n as [g di f ex]; unfold fraction in *; cbn [n_sgn n_int n_frac n_exp] in *.
  set (t3 := match ex with Some (up, s, ds) => (if up then "E" else "e")%char :: sign_text s ++ figures ds | None => [] end ++ r).
  set (t2 := match f with Some f => "."%char :: figures f | None => [] end ++ t3).
  assert (N3 : match t3 with c :: _ => is_digit c = false | [] => True end).
  { unfold t3. destruct ex as [[[up g2] de]|]; [apply (e_facts up)|]. apply not_digit. exact N0. }
  assert (D3 : f = None -> match t3 with c :: _ => is_char 46 c = false | [] => True end).
  { intros Z. unfold t3. destruct ex as [[[up g2] de]|]; [apply (e_facts up)|].
    specialize (Nd eq_refl Z). apply goes_not in Nd. cbn. destruct r as [|c r']; [exact I|]. rewrite dot_member. exact Nd. }
  assert (N2 : match t2 with c :: _ => is_digit c = false | [] => True end).
  { unfold t2. destruct f as [f|]; [apply dot_facts|exact N3]. }
  assert (First : match figures di ++ t2 with c :: _ => is_space c = false /\ is_char 43 c = false /\ is_char 45 c = false | [] => True end).
  { destruct di as [|d di]; cbn.
    - unfold t2. destruct f as [f|]; [apply dot_facts|]. cbn in Nm. contradiction.
    - apply digit_plain. inversion Di; subst. apply figure_digit. assumption. }
  assert (T : spelled (mkNumeral g di f ex) ++ r = sign_text g ++ figures di ++ t2)
    by (unfold spelled, t2, t3; cbn [n_sgn n_int n_frac n_exp]; repeat rewrite <- app_assoc; reflexivity).
  rewrite T.
  rewrite (@skip_eq _ _ B); [|apply sign_plain; destruct (figures di ++ t2); [exact I|apply First]].
  rewrite sign_eq; [|destruct (figures di ++ t2); [exact I|apply First]].
  rewrite (@span_eq _ _ _ (figures_digit Di)); [|exact N2].
  set (fp := match f with Some f0 => f0 | None => [] end) in *.
  assert (X : get_fraction t2 = (figures fp, t3)).
  { unfold get_fraction, t2, fp. destruct f as [f|]; cbn.
    - rewrite (@span_eq _ _ _ (figures_digit Df)); [reflexivity|exact N3].
    - specialize (D3 eq_refl). destruct t3 as [|c t4]; [reflexivity|]. rewrite D3. reflexivity. }
  rewrite X, <- figures_app, figures_length.
  assert (Dm : decimal (di ++ fp)) by (apply Forall_app; split; assumption).
  destruct (figures (di ++ fp)) as [|c0 m0] eqn:Em; [apply figures_nil in Em; contradiction|].
  rewrite <- Em, (digits_dval Dm). unfold mantissa, power, fraction; cbn [n_sgn n_int n_frac n_exp]. fold fp.
  unfold t3. destruct ex as [[[up g2] de]|].
  - destruct Ex as [De Ne']. cbn [app]. destruct (e_facts up) as [_ [_ ->]].
    pose proof (figures_digit De) as Fd. rewrite <- app_assoc. rewrite sign_eq.
    + rewrite (@span_eq _ _ _ Fd); [|apply not_digit; exact N0].
      destruct (figures de) as [|c1 l1] eqn:E1; [apply figures_nil in E1; contradiction|].
      rewrite <- E1, (digits_dval De), signed_with. reflexivity.
    + destruct de as [|d de]; [contradiction|]. cbn. apply digit_plain. inversion De; subst. apply figure_digit. assumption.
  - cbn [app]. specialize (Ne eq_refl). apply goes_not in Ne. destruct r as [|c r'].
    + reflexivity.
    + rewrite e_member, Ne. reflexivity.
Qed.

Section Text.
Context {F : Type} (C : conv F).

Lemma double_iff s v r : get_double C s = Some (v, r) <-> says_number (dv C) s v r.
Proof.
  unfold get_double, says_number. split.
  - destruct (scan_float s) as [q|] eqn:E; [|discriminate]. destruct (float_complete s E) as [n [r' [-> [w [E1 [E2 [E3 E4]]]]]]].
    unfold scanned. destruct (dv C (is_minus (n_sgn n)) (mantissa n) (power n)) as [v'|] eqn:D; [|discriminate].
    intros X; injection X as <- <-. exists w, n. repeat (split; [assumption|]). exact D.
  - intros [w [n [E1 [E2 [E3 [E4 D]]]]]].
    assert (S : float_says s n r) by (exists w; repeat (split; [assumption|]); exact E4).
    rewrite (float_sound S). unfold scanned. rewrite D. reflexivity.
Qed.

Lemma tx_iff s q : tx_of_line C s = Some q <-> says_tx (dv C) s q.
Proof.
  destruct q as [[[id x] y] ty]. unfold tx_of_line, says_tx. split.
  - destruct (get_word s) as [[i r1]|] eqn:E1; [|discriminate].
    destruct (get_double C r1) as [[a r2]|] eqn:E2; [|discriminate].
    destruct (get_double C r2) as [[b r3]|] eqn:E3; [|discriminate].
    destruct (get_word r3) as [[t r4]|] eqn:E4; [|discriminate].
    intros X; injection X as -> -> -> ->. exists r1, r2, r3, r4.
    split; [apply word_iff, E1|]. split; [apply double_iff, E2|]. split; [apply double_iff, E3|apply word_iff, E4].
  - intros [r1 [r2 [r3 [r4 [E1 [E2 [E3 E4]]]]]]].
    apply word_iff in E1, E4. apply double_iff in E2, E3. rewrite E1, E2, E3, E4. reflexivity.
Qed.
Lemma meas_iff s q : meas_of_line C s = Some q <-> says_meas (dv C) s q.
Proof.
  destruct q as [[[ts id] x] ty]. unfold meas_of_line, says_meas. split.
  - destruct (get_ll s) as [[i r1]|] eqn:E1; [|discriminate].
    destruct (get_word r1) as [[a r2]|] eqn:E2; [|discriminate].
    destruct (get_double C r2) as [[b r3]|] eqn:E3; [|discriminate].
    destruct (get_word r3) as [[t r4]|] eqn:E4; [|discriminate].
    intros X; injection X as -> -> -> ->. exists r1, r2, r3, r4.
    split; [apply ll_iff, E1|]. split; [apply word_iff, E2|]. split; [apply double_iff, E3|apply word_iff, E4].
  - intros [r1 [r2 [r3 [r4 [E1 [E2 [E3 E4]]]]]]].
    apply ll_iff in E1. apply word_iff in E2, E4. apply double_iff in E3. rewrite E1, E2, E3, E4. reflexivity.
Qed.
Lemma sample_iff s ts v : sample_of_line C s = Some (ts, v) <-> says_sample (dv C) s ts (vx v) (vy v) (vz v).
Proof.
  destruct v as [x y z]. unfold sample_of_line, says_sample; cbn [vx vy vz]. split.
  - destruct (get_ll s) as [[i r1]|] eqn:E1; [|discriminate].
    destruct (get_double C r1) as [[a r2]|] eqn:E2; [|discriminate].
    destruct (get_double C r2) as [[b r3]|] eqn:E3; [|discriminate].
    destruct (get_double C r3) as [[t r4]|] eqn:E4; [|discriminate].
    intros X; injection X as -> -> -> ->. exists r1, r2, r3, r4.
    split; [apply ll_iff, E1|]. split; [apply double_iff, E2|]. split; [apply double_iff, E3|apply double_iff, E4].
  - intros [r1 [r2 [r3 [r4 [E1 [E2 [E3 E4]]]]]]].
    apply ll_iff in E1. apply double_iff in E2, E3, E4. rewrite E1, E2, E3, E4. reflexivity.
Qed.

(** ** What is read of a file *)
Lemma reads_iff {A : Type} (f : text -> option A) (says : text -> A -> Prop) :
  (forall s q, f s = Some q <-> says s q) -> forall ls qs, read_lines (map f ls) = qs <-> reads says ls qs.
Proof.
  intros H ls qs. split.
  - intros <-. induction ls as [|l t IH]; cbn.
    + exists [], []. repeat split; [constructor|left; reflexivity].
    + destruct (f l) as [q|] eqn:E.
      * destruct IH as [good [rest [Eq [G R]]]]. exists (l :: good), rest. split; [cbn; rewrite Eq at 1; reflexivity|].
        split; [constructor; [apply H, E|exact G]|exact R].
      * exists [], (l :: t). split; [reflexivity|]. split; [constructor|]. right. exists l, t. split; [reflexivity|].
        intros q Hq. apply H in Hq. congruence.
  - intros [good [rest [-> [G R]]]]. rewrite map_app. induction G as [|l q good qs E _ IH]; cbn.
    + destruct R as [->|[l [t [-> N]]]]; cbn; [reflexivity|]. destruct (f l) as [q|] eqn:E; [|reflexivity].
      apply H in E. exfalso. exact (N q E).
    + apply H in E. rewrite E, IH. reflexivity.
Qed.
End Text.

(** ** Lines *)
Lemma lines_lf l s : ~ In LF l -> lines (l ++ LF :: s) = l :: lines s.
Proof.
  induction l as [|c l IH]; cbn; intros H; [reflexivity|].
  rewrite lf_eqb. destruct (Ascii.eqb_spec c LF) as [->|N]; [exfalso; apply H; left; reflexivity|].
  rewrite IH by (intros G; apply H; right; exact G). reflexivity.
Qed.
Lemma lines_last l : ~ In LF l -> l <> [] -> lines l = [l].
Proof.
  induction l as [|c l IH]; cbn; intros H N; [contradiction|].
  rewrite lf_eqb. destruct (Ascii.eqb_spec c LF) as [->|N']; [exfalso; apply H; left; reflexivity|].
  destruct l as [|d l]; [reflexivity|]. rewrite IH; [reflexivity|intros G; apply H; right; exact G|discriminate].
Qed.
Lemma lines_app ls s : Forall (fun l => ~ In LF l) ls ->
  lines (List.concat (map (fun l => l ++ [LF]) ls) ++ s) = ls ++ lines s.
Proof.
  intros H. induction H as [|l ls E _ IH]; cbn; [reflexivity|].
  rewrite <- IH, <- lines_lf by exact E. repeat rewrite <- app_assoc. reflexivity.
Qed.
Lemma lines_file s : file_of (lines s) s.
Proof.
  induction s as [|c t IH]; cbn.
  - split; [constructor|left; reflexivity].
  - rewrite lf_eqb. destruct (Ascii.eqb_spec c LF) as [->|N].
    + destruct IH as [H E]. split; [constructor; [intros []|exact H]|].
      destruct E as [E|[ls' [l [El [Nl E]]]]]; [left; cbn; rewrite <- E; reflexivity|].
      right. exists ([] :: ls'), l. rewrite El. split; [reflexivity|]. split; [exact Nl|]. cbn. rewrite E at 1. reflexivity.
    + destruct IH as [H E]. destruct (lines t) as [|l r] eqn:L.
      * split; [constructor; [intros [G|[]]; congruence|constructor]|]. right. exists [], [c]. split; [reflexivity|].
        split; [discriminate|]. destruct E as [E|[ls' [l [El _]]]]; [cbn in *; rewrite E; reflexivity|destruct ls'; discriminate El].
      * inversion H; subst. split; [constructor; [intros [G|G]; [congruence|contradiction]|assumption]|].
        destruct E as [E|[ls' [l' [El [Nl E]]]]]; [left; cbn in *; rewrite E; reflexivity|].
        right. destruct ls' as [|a ls'].
        -- cbn in El. injection El as -> ->. exists [], (c :: l'). split; [reflexivity|]. split; [discriminate|]. cbn in *. rewrite E at 1. reflexivity.
        -- cbn in El. injection El as -> ->. exists ((c :: a) :: ls'), l'. split; [reflexivity|]. split; [exact Nl|]. cbn in *. rewrite E at 1. reflexivity.
Qed.
Lemma lines_iff s ls : lines s = ls <-> file_of ls s.
Proof.
  split; [intros <-; apply lines_file|]. intros [H [->|[ls' [l [-> [N ->]]]]]].
  - rewrite <- (app_nil_r (List.concat _)). rewrite (lines_app [] H). apply app_nil_r.
  - apply Forall_app in H. destruct H as [H1 H2]. inversion H2; subst. rewrite (lines_app l H1), lines_last by assumption. reflexivity.
Qed.

(** ** Blanks at the end of a line *)
Lemma blank_space w : blank w -> Forall (fun c => is_space c = true) w.
Proof. intros H. eapply Forall_impl; [|exact H]. cbv beta. intros c Hc. rewrite space_member. apply member_In, Hc. Qed.
Lemma skip_blank w : blank w -> skip_ws w = [].
Proof. intros H. rewrite <- (app_nil_r w). apply skip_eq; [exact H|exact I]. Qed.
Lemma skip_trail s w : blank w -> skip_ws (s ++ w) = match skip_ws s with [] => [] | q => q ++ w end.
Proof.
  intros B. induction s as [|c s IH]; cbn; [apply (skip_blank B)|].
  destruct (is_space c); [exact IH|reflexivity].
Qed.
Lemma span_trail p s w : (forall c, is_space c = true -> p c = false) -> blank w ->
  span p (s ++ w) = (fst (span p s), snd (span p s) ++ w).
Proof.
  intros H B. apply blank_space in B. induction s as [|c s IH]; cbn.
  - destruct B as [|c w E _]; cbn; [reflexivity|]. rewrite (H c E). reflexivity.
  - destruct (p c); [|reflexivity]. rewrite IH. destruct (span p s). reflexivity.
Qed.
Lemma space_plain c : is_space c = true ->
  is_digit c = false /\ is_char 43 c = false /\ is_char 45 c = false /\ is_char 46 c = false /\ is_char 69 c = false /\ is_char 101 c = false.
Proof.
  intros H. pose proof (all_ascii (fun c => implb (is_space c) (negb (is_digit c) && negb (is_char 43 c) && negb (is_char 45 c) && negb (is_char 46 c) && negb (is_char 69 c) && negb (is_char 101 c))) eq_refl c) as G.
  cbn beta in G. rewrite H in G. destruct (is_digit c), (is_char 43 c), (is_char 45 c), (is_char 46 c), (is_char 69 c), (is_char 101 c); cbn in G; try discriminate; repeat split.
Qed.
Lemma sign_trail s w : blank w -> get_sign (s ++ w) = (fst (get_sign s), snd (get_sign s) ++ w).
Proof.
  intros B. apply blank_space in B. destruct s as [|c s]; cbn.
  - destruct B as [|c w E _]; cbn; [reflexivity|]. destruct (space_plain c E) as [_ [-> [-> _]]]. reflexivity.
  - destruct (is_char 43 c), (is_char 45 c); reflexivity.
Qed.
Lemma word_trail s w : blank w -> get_word (s ++ w) = match get_word s with Some (id, r) => Some (id, r ++ w) | None => None end.
Proof.
  intros B. unfold get_word. rewrite (skip_trail s B). destruct (skip_ws s) as [|c t]; [reflexivity|].
  rewrite span_trail; [|intros a Ha; rewrite Ha; reflexivity|exact B].
  destruct (span (fun c => negb (is_space c)) (c :: t)) as [[|x a] r]; reflexivity.
Qed.
Lemma digit_blank c : is_space c = true -> is_digit c = false.
Proof. intros H. apply (space_plain c H). Qed.
Lemma int_trail s w : blank w -> scan_int (s ++ w) = match scan_int s with Some (z, r) => Some (z, r ++ w) | None => None end.
Proof.
  intros B. unfold scan_int. rewrite (skip_trail s B). destruct (skip_ws s) as [|c t]; [reflexivity|].
  rewrite (sign_trail (c :: t) B). destruct (get_sign (c :: t)) as [neg q]. cbn [fst snd].
  rewrite (@span_trail _ q w digit_blank B). destruct (span is_digit q) as [[|x a] r]; reflexivity.
Qed.
Lemma ll_trail s w : blank w -> get_ll (s ++ w) = match get_ll s with Some (z, r) => Some (z, r ++ w) | None => None end.
Proof. intros B. unfold get_ll. rewrite (int_trail s B). destruct (scan_int s) as [[z r]|]; [destruct (in_range 64 z)|]; reflexivity. Qed.
Lemma float_trail s w : blank w ->
  scan_float (s ++ w) = match scan_float s with Some (neg, m, e, r) => Some (neg, m, e, r ++ w) | None => None end.
Proof.
  intros B. pose proof (blank_space B) as BS. unfold scan_float. rewrite (skip_trail s B). destruct (skip_ws s) as [|c t]; [reflexivity|].
  rewrite (sign_trail (c :: t) B). destruct (get_sign (c :: t)) as [neg q]. cbn [fst snd].
  rewrite (@span_trail _ q w digit_blank B). destruct (span is_digit q) as [ip t2]. cbn [fst snd].
  assert (X : get_fraction (t2 ++ w) = (fst (get_fraction t2), snd (get_fraction t2) ++ w)).
  { unfold get_fraction. destruct t2 as [|c2 t2]; cbn.
    - destruct BS as [|c2 w E _]; cbn; [reflexivity|]. destruct (space_plain c2 E) as [_ [_ [_ [-> _]]]]. reflexivity.
    - destruct (is_char 46 c2); [apply (@span_trail _ _ w digit_blank B)|reflexivity]. }
  rewrite X. clear X.
  destruct (get_fraction t2) as [fp t3]. cbn [fst snd].
  destruct (ip ++ fp) as [|c0 m]; [reflexivity|].
  destruct t3 as [|c3 t3]; cbn [app].
  - destruct BS as [|c3 w E _]; [reflexivity|]. destruct (space_plain c3 E) as [_ [_ [_ [_ [-> ->]]]]]. reflexivity.
  - destruct (is_char 69 c3 || is_char 101 c3); [|reflexivity].
    rewrite (sign_trail t3 B). destruct (get_sign t3) as [en t4]. cbn [fst snd].
    rewrite (@span_trail _ t4 w digit_blank B). destruct (span is_digit t4) as [[|x a] r]; reflexivity.
Qed.

Section Trail.
Context {F : Type} {NF : Num F} {SO : Sorter} (C : conv F).

Lemma double_trail s w : blank w -> get_double C (s ++ w) = match get_double C s with Some (v, r) => Some (v, r ++ w) | None => None end.
Proof.
  intros B. unfold get_double. rewrite (float_trail s B). destruct (scan_float s) as [[[[neg m] e] r]|]; [|reflexivity].
  destruct (dv C neg m e); reflexivity.
Qed.
Lemma tx_trail s w : blank w -> tx_of_line C (s ++ w) = tx_of_line C s.
Proof.
  intros B. unfold tx_of_line. rewrite (word_trail s B). destruct (get_word s) as [[id r]|]; [|reflexivity].
  rewrite (double_trail r B). destruct (get_double C r) as [[x r1]|]; [|reflexivity].
  rewrite (double_trail r1 B). destruct (get_double C r1) as [[y r2]|]; [|reflexivity].
  rewrite (word_trail r2 B). destruct (get_word r2) as [[ty r3]|]; reflexivity.
Qed.
Lemma meas_trail s w : blank w -> meas_of_line C (s ++ w) = meas_of_line C s.
Proof.
  intros B. unfold meas_of_line. rewrite (ll_trail s B). destruct (get_ll s) as [[id r]|]; [|reflexivity].
  rewrite (word_trail r B). destruct (get_word r) as [[x r1]|]; [|reflexivity].
  rewrite (double_trail r1 B). destruct (get_double C r1) as [[y r2]|]; [|reflexivity].
  rewrite (word_trail r2 B). destruct (get_word r2) as [[ty r3]|]; reflexivity.
Qed.
Lemma sample_trail s w : blank w -> sample_of_line C (s ++ w) = sample_of_line C s.
Proof.
  intros B. unfold sample_of_line. rewrite (ll_trail s B). destruct (get_ll s) as [[id r]|]; [|reflexivity].
  rewrite (double_trail r B). destruct (get_double C r) as [[x r1]|]; [|reflexivity].
  rewrite (double_trail r1 B). destruct (get_double C r1) as [[y r2]|]; [|reflexivity].
  rewrite (double_trail r2 B). destruct (get_double C r2) as [[z r3]|]; reflexivity.
Qed.
Lemma truth_trail s w : blank w -> truth_of_line C (s ++ w) = truth_of_line C s.
Proof.
  intros B. unfold truth_of_line. rewrite (int_trail s B). destruct (scan_int s) as [[z r]|]; [|reflexivity].
  destruct (in_range 32 z); [|reflexivity]. rewrite (skip_trail r B).
  destruct (skip_ws r) as [|c t] eqn:E; [reflexivity|]. cbn [app].
  rewrite (float_trail r B). destruct (scan_float r) as [[[[neg m] e] q]|]; reflexivity.
Qed.

(** lines of the file with other line ends *)
Lemma crlf_lf l s : ~ In LF l -> crlf (l ++ LF :: s) = (l ++ [CR]) ++ LF :: crlf s.
Proof.
  induction l as [|c l IH]; cbn; intros H; [reflexivity|].
  destruct (Ascii.eqb_spec c LF) as [->|N]; [exfalso; apply H; left; reflexivity|].
  cbn. rewrite <- IH by (intros G; apply H; right; exact G). reflexivity.
Qed.
Lemma crlf_last l : ~ In LF l -> crlf l = l.
Proof.
  induction l as [|c l IH]; cbn; intros H; [reflexivity|].
  destruct (Ascii.eqb_spec c LF) as [->|N]; [exfalso; apply H; left; reflexivity|].
  cbn. f_equal. apply IH. intros G; apply H; right; exact G.
Qed.
Lemma crlf_lines s : Forall2 (fun l l' => exists w, blank w /\ l' = l ++ w) (lines s) (lines (crlf s)).
Proof.
  destruct (lines_file s) as [H E].
  assert (G : forall ls rest, Forall (fun l => ~ In LF l) ls ->
     Forall2 (fun l l' => exists w, blank w /\ l' = l ++ w) (lines rest) (lines (crlf rest)) ->
     Forall2 (fun l l' => exists w, blank w /\ l' = l ++ w) (ls ++ lines rest) (lines (crlf (List.concat (map (fun l => l ++ [LF]) ls) ++ rest)))).
  { intros ls rest Hl Hr. induction Hl as [|l ls N _ IH]; cbn; [exact Hr|].
    replace (((l ++ [LF]) ++ List.concat (map (fun l => l ++ [LF]) ls)) ++ rest) with (l ++ LF :: (List.concat (map (fun l => l ++ [LF]) ls) ++ rest))
      by (repeat rewrite <- app_assoc; reflexivity).
    rewrite crlf_lf by exact N. rewrite lines_lf.
    - constructor; [|exact IH]. exists [CR]. split; [constructor; [cbn; tauto|constructor]|reflexivity].
    - intros K. apply in_app_iff in K. destruct K as [K|[K|[]]]; [contradiction|discriminate K]. }
  destruct E as [E|[ls' [l [El [N E]]]]].
  - assert (G' := G (lines s) [] H (Forall2_nil _)). rewrite !app_nil_r in G'. rewrite <- E in G'. exact G'.
  - rewrite El in *. apply Forall_app in H. destruct H as [H1 H2]. inversion H2 as [|? ? Hl]; subst.
    rewrite <- (@lines_last _ Hl N). apply G; [exact H1|]. rewrite (@crlf_last _ Hl), (@lines_last _ Hl N).
    constructor; [|constructor]. exists []. split; [constructor|symmetry; apply app_nil_r].
Qed.
Lemma map_trail {A : Type} (f : text -> A) ls ls' : (forall s w, blank w -> f (s ++ w) = f s) ->
  Forall2 (fun l l' => exists w, blank w /\ l' = l ++ w) ls ls' -> map f ls' = map f ls.
Proof.
  intros H G. induction G as [|l l' ls ls' [w [B ->]] _ IH]; cbn; [reflexivity|]. rewrite IH, (H _ _ B). reflexivity.
Qed.

(** a line of blanks *)
Lemma blank_words b : blank b -> get_word b = None /\ scan_int b = None.
Proof. intros B. unfold get_word, scan_int. rewrite (skip_blank B). split; reflexivity. Qed.
Lemma read_app {A : Type} (f : text -> option A) ls rest : (match rest with l :: _ => f l = None | [] => True end) ->
  read_lines (map f (ls ++ rest)) = read_lines (map f ls).
Proof.
  intros H. induction ls as [|l ls IH]; cbn.
  - destruct rest as [|l r]; cbn; [reflexivity|]. rewrite H. reflexivity.
  - destruct (f l); [rewrite IH|]; reflexivity.
Qed.
Lemma lines_blank s1 b s2 : (s1 = [] \/ exists t, s1 = t ++ [LF]) -> ~ In LF b ->
  lines (s1 ++ b ++ LF :: s2) = lines s1 ++ b :: lines s2.
Proof.
  intros H N. destruct (lines_file s1) as [Hl E].
  assert (E' : s1 = List.concat (map (fun l => l ++ [LF]) (lines s1))).
  { destruct E as [E|[ls' [l [El [Nl E]]]]]; [exact E|]. exfalso. rewrite El in Hl. apply Forall_app in Hl. destruct Hl as [_ Hl].
    inversion Hl as [|? ? Hl']; subst. destruct H as [H|[t H]].
    - apply (f_equal (@List.length _)) in H. rewrite app_length in H. destruct l; [contradiction|]. cbn in H. lia.
    - destruct (exists_last Nl) as [l0 [c ->]]. rewrite app_assoc in H. apply app_inj_tail in H. destruct H as [_ ->].
      apply Hl'. apply in_app_iff. right. left. reflexivity. }
  rewrite E' at 1. rewrite (lines_app _ Hl), (@lines_lf _ _ N). reflexivity.
Qed.
End Trail.
