(** ConvProofs.v -- which strings [int()] reads. *)
From Verif Require Import Base Mon Values PyStr KeypathModel PyInt LeafModel LeafSpec LeafStrProofs ConvModel ConvSpec.
Open Scope string_scope.
Open Scope list_scope.
Open Scope Z_scope.

Lemma digit_of : forall c, is_digit c = true -> digit (String c "") (digit_val c).
Proof.
  intros c H. destruct c as [[] [] [] [] [] [] [] []]; try discriminate H; vm_compute; constructor.
Qed.
Lemma digit_is : forall d k, digit d k -> exists c, d = String c "" /\ is_digit c = true /\ k = digit_val c.
Proof. intros d k H. destruct H; (eexists; split; [reflexivity|split; reflexivity]). Qed.

Lemma unchars_app : forall a b, unchars (a ++ b) = (unchars a ++ unchars b)%string.
Proof. induction a as [|c a IH]; intros b; cbn; [reflexivity|f_equal; apply IH]. Qed.
Lemma chars_app' : forall a b, chars (a ++ b)%string = (chars a ++ chars b)%list.
Proof. induction a as [|c a IH]; intros b; cbn; [reflexivity|f_equal; apply IH]. Qed.
Lemma sapp_assoc : forall a b c : string, ((a ++ b) ++ c = a ++ (b ++ c))%string.
Proof. induction a as [|x a IH]; intros b c; cbn; [reflexivity|f_equal; apply IH]. Qed.
Lemma sapp_nil : forall a : string, (a ++ "" = a)%string.
Proof. induction a as [|x a IH]; cbn; [reflexivity|f_equal; apply IH]. Qed.

Lemma go_numeral : forall n l acc s z, (length l <= n)%nat -> numeral s acc ->
  digits_go acc l = Some z -> numeral (s ++ unchars l)%string z.
Proof.
  induction n as [|n IH]; intros l acc s z L N H.
  - destruct l; [|cbn in L; lia]. cbn in *. rewrite sapp_nil. injection H as <-. exact N.
  - destruct l as [|c r]; [cbn in *; rewrite sapp_nil; injection H as <-; exact N|].
    cbn [digits_go] in H. cbn in L. destruct (is_digit c) eqn:D.
    + change (unchars (c :: r)) with (String c "" ++ unchars r)%string. rewrite <- sapp_assoc.
      apply (IH r (10 * acc + digit_val c)); [lia| |exact H].
      apply nu_more; [exact N|apply digit_of, D].
    + destruct (Ascii.eqb c "_") eqn:U; [|discriminate H]. apply Ascii.eqb_eq in U. subst c.
      destruct r as [|d r]; [discriminate H|]. destruct (is_digit d) eqn:D'; [|discriminate H].
      change (unchars ("_"%char :: d :: r)) with (("_" ++ String d "") ++ unchars r)%string. rewrite <- sapp_assoc.
      apply (IH r (10 * acc + digit_val d)); [cbn in L; lia| |exact H].
      apply nu_under; [exact N|apply digit_of, D'].
Qed.

Lemma read_numeral : forall l z, read_digits l = Some z -> numeral (unchars l) z.
Proof.
  intros [|c r] z H; [discriminate H|]. cbn [read_digits] in H. destruct (is_digit c) eqn:D; [|discriminate H].
  change (unchars (c :: r)) with (String c "" ++ unchars r)%string.
  apply (go_numeral (length r) r (digit_val c)); [lia| |exact H]. apply nu_one, digit_of, D.
Qed.

Lemma go_more : forall n l acc z c, (length l <= n)%nat -> digits_go acc l = Some z -> is_digit c = true ->
  digits_go acc (l ++ [c]) = Some (10 * z + digit_val c).
Proof.
  induction n as [|n IH]; intros l acc z c L H D.
  - destruct l; [|cbn in L; lia]. cbn in *. rewrite D. injection H as ->. reflexivity.
  - destruct l as [|x r]; [cbn in *; rewrite D; injection H as ->; reflexivity|].
    cbn [digits_go app] in *. cbn in L. destruct (is_digit x).
    + apply IH; [lia|exact H|exact D].
    + destruct (Ascii.eqb x "_"); [|discriminate H]. destruct r as [|y r]; [discriminate H|].
      cbn [app]. destruct (is_digit y); [|discriminate H]. apply IH; [cbn in L; lia|exact H|exact D].
Qed.
Lemma go_under : forall n l acc z c, (length l <= n)%nat -> digits_go acc l = Some z -> is_digit c = true ->
  digits_go acc (l ++ ["_"%char; c]) = Some (10 * z + digit_val c).
Proof.
  induction n as [|n IH]; intros l acc z c L H D.
  - destruct l; [|cbn in L; lia]. cbn in *. rewrite D. injection H as ->. reflexivity.
  - destruct l as [|x r]; [cbn in *; rewrite D; injection H as ->; reflexivity|].
    cbn [digits_go app] in *. cbn in L. destruct (is_digit x).
    + apply IH; [lia|exact H|exact D].
    + destruct (Ascii.eqb x "_"); [|discriminate H]. destruct r as [|y r]; [discriminate H|].
      cbn [app]. destruct (is_digit y); [|discriminate H]. apply IH; [cbn in L; lia|exact H|exact D].
Qed.

Lemma numeral_read : forall s z, numeral s z -> read_digits (chars s) = Some z.
Proof.
  intros s z H. induction H as [d k D|s z d k N IH D|s z d k N IH D];
    destruct (digit_is _ _ D) as (c & -> & DC & ->).
  - cbn. rewrite DC. reflexivity.
  - rewrite chars_app'. cbn [list_ascii_of_string].
    destruct (chars s) as [|x r]; [discriminate IH|]. cbn [read_digits app] in *.
    destruct (is_digit x); [|discriminate IH]. apply (go_more (length r)); [lia|exact IH|exact DC].
  - rewrite chars_app'. cbn [list_ascii_of_string append].
    destruct (chars s) as [|x r]; [discriminate IH|]. cbn [read_digits app] in *.
    destruct (is_digit x); [|discriminate IH]. apply (go_under (length r)); [lia|exact IH|exact DC].
Qed.

(** A numeral begins and ends with a digit. *)
Lemma numeral_ends : forall s z, numeral s z ->
  (exists c r, s = String c r /\ is_digit c = true) /\
  (exists c r, s = (r ++ String c "")%string /\ is_digit c = true).
Proof.
  intros s z H. induction H as [d k D|s z d k N IH D|s z d k N IH D];
    destruct (digit_is _ _ D) as (c & -> & DC & ->).
  - split; [exists c, ""; split; [reflexivity|exact DC]|exists c, ""; split; [reflexivity|exact DC]].
  - destruct IH as [(x & r & -> & X) _]. split.
    + exists x, (r ++ String c "")%string. split; [reflexivity|exact X].
    + exists c, (String x r). split; [reflexivity|exact DC].
  - destruct IH as [(x & r & -> & X) _]. split.
    + exists x, (r ++ "_" ++ String c "")%string. split; [reflexivity|exact X].
    + exists c, (String x r ++ "_")%string. split; [rewrite sapp_assoc; reflexivity|exact DC].
Qed.

Lemma lstrip_blank : forall a l, Forall (fun c => is_space c = true) a -> lstrip (a ++ l) = lstrip l.
Proof. induction a as [|c a IH]; intros l F; [reflexivity|]. inversion F; subst. cbn. rewrite H1. apply IH, H2. Qed.

Lemma strip_around : forall a m b, blank a -> blank b ->
  (exists c r, m = String c r /\ is_space c = false) ->
  (exists c r, m = (r ++ String c "")%string /\ is_space c = false) ->
  str_strip (a ++ m ++ b) = m.
Proof.
  intros a m b A B (c & r & E & C) (c' & r' & E' & C'). unfold str_strip.
  rewrite !chars_app'. rewrite lstrip_blank by exact A.
  rewrite (lstrip_id (chars m ++ chars b)).
  2:{ intros x l X. subst m. cbn in X. injection X as <- _. exact C. }
  rewrite rev_app_distr. rewrite lstrip_blank by (apply Forall_rev; exact B).
  rewrite lstrip_id.
  2:{ intros x l X. subst m. rewrite E', chars_app', rev_app_distr in X. cbn in X. injection X as <- _. exact C'. }
  rewrite rev_involutive. apply string_of_list_ascii_of_string.
Qed.

Theorem int_reads : forall s z, py_int s = Some z <-> int_text s z.
Proof.
  intros s z. split.
  - intros H. destruct (strip_trimmed s) as [(a & b & E & A & B) _]. unfold py_int in H.
    set (m := str_strip s) in *. clearbody m. subst s.
    rewrite <- (string_of_list_ascii_of_string m). destruct (chars m) as [|c r]; [discriminate H|].
    destruct (Ascii.eqb c "-") eqn:M; [|destruct (Ascii.eqb c "+") eqn:Q].
    + apply Ascii.eqb_eq in M. subst c. destruct (read_digits r) as [k|] eqn:R; [|discriminate H].
      cbn [option_map] in H. assert (EZ : z = - k) by congruence. exists a, "-", (unchars r), b, (-1), k.
      repeat apply conj; [reflexivity|exact A|exact B|constructor|apply read_numeral, R|lia].
    + apply Ascii.eqb_eq in Q. subst c. exists a, "+", (unchars r), b, 1, z.
      repeat apply conj; [reflexivity|exact A|exact B|constructor|apply read_numeral, H|lia].
    + exists a, "", (unchars (c :: r)), b, 1, z.
      repeat apply conj; [reflexivity|exact A|exact B|constructor|apply read_numeral, H|lia].
  - intros (a & g & n & b & i & k & -> & A & B & G & N & ->).
    destruct (numeral_ends _ _ N) as [(c & r & E1 & D1) (c' & r' & E2 & D2)].
    assert (ST : str_strip (a ++ (g ++ n) ++ b) = (g ++ n)%string).
    { apply strip_around; [exact A|exact B| |].
      - destruct G; cbn [append].
        + exists c, r. split; [exact E1|apply digit_not_space, D1].
        + exists "+"%char, n. split; reflexivity.
        + exists "-"%char, n. split; reflexivity.
      - exists c', (g ++ r')%string. split; [rewrite E2, sapp_assoc; reflexivity|apply digit_not_space, D2]. }
    rewrite sapp_assoc in ST. unfold py_int. rewrite ST.
    pose proof (numeral_read _ _ N) as RD.
    destruct G; cbn [append].
    + rewrite E1 in *. cbn [list_ascii_of_string] in *.
      replace (Ascii.eqb c "-") with false by (symmetry; apply Ascii.eqb_neq; intros ->; discriminate D1).
      replace (Ascii.eqb c "+") with false by (symmetry; apply Ascii.eqb_neq; intros ->; discriminate D1).
      rewrite RD. f_equal. lia.
    + replace (1 * k) with k by lia. exact RD.
    + replace (-1 * k) with (- k) by lia. cbn [list_ascii_of_string]. change (Ascii.eqb "-" "-") with true. cbn iota. rewrite RD.
      reflexivity.
Qed.
