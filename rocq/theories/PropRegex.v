(** PropRegex.v -- C57 to C61: the modifiers that check a string against a regular
    expression.

    In the section, [S] is the program state, [resolve] evaluates a modifier's parameter,
    [vexc] builds a validation error and [compile] reads the text of a pattern.  All are
    arbitrary; [s0] only says that there is a state. *)
From Verif Require Import Base Mon Values PyStr LeafSpec RegexModel RegexSpec RegexProofs.
Open Scope nat_scope.
Open Scope list_scope.

Section Props.
  Context {S P : Type} (s0 : S).
  Variable resolve : P -> st S value.
  Variable vexc : string -> exn.
  Variable compile : string -> res rx.
  Notation denotes := (resolves resolve).

  Lemma decides_if : forall (c : bool) msg (H : Prop), (c = true <-> H) ->
    decides vexc (if c then ret tt else throw (vexc msg) : st S unit) H.
  Proof.
    intros c msg H E. unfold decides, accepts, rejects. destruct c.
    - assert (h : H) by (apply E; reflexivity). split; (split; [|intros G]).
      + auto.
      + intros s. reflexivity.
      + intros (m & G). specialize (G s0). discriminate G.
      + contradiction.
    - assert (h : ~ H) by (intros h; apply E in h; discriminate h).
      split; (split; [|intros G]).
      + intros G. specialize (G s0). discriminate G.
      + contradiction.
      + auto.
      + exists msg. intros s. reflexivity.
  Qed.

  (** ** C57 *)

  (** match accepts a string exactly when the pattern matches some part of it, and every
      value that is not a string. *)
  Theorem C57_match : forall p t r, denotes p (VStr t) -> compile t = Ok r ->
    (forall s, decides vexc (v_match resolve vexc compile p (VStr s)) (occurs_in r s)) /\
    (forall v, (forall s, v <> VStr s) -> accepts (v_match resolve vexc compile p v)).
  Proof.
    intros p t r Hp Hc. split.
    - intros s.
      assert (E : forall st, v_match resolve vexc compile p (VStr s) st =
                (if re_search r s then ret tt else throw (vexc "value does not match")) st).
      { intros st. unfold v_match, bind. rewrite Hp, Hc. reflexivity. }
      assert (D := decides_if (re_search r s) "value does not match" _ (re_search_spec r s)).
      unfold decides, accepts, rejects in *. destruct D as [[D1 D2] [D3 D4]].
      split; split; intros H.
      + apply D1. intros x. rewrite <- E. apply H.
      + intros x. rewrite E. apply D2. exact H.
      + apply D3. destruct H as (m & H). exists m. intros x. rewrite <- E. apply H.
      + destruct (D4 H) as (m & G). exists m. intros x. rewrite E. apply G.
    - intros v N st. unfold v_match, bind. rewrite Hp.
      destruct v; try reflexivity. exfalso. eapply N. reflexivity.
  Qed.

  (** A pattern that cannot be read raises whatever reading it raises. *)
  Theorem C57_bad_pattern : forall p t e s, denotes p (VStr t) -> compile t = Err e ->
    raises (v_match resolve vexc compile p (VStr s)) e.
  Proof.
    intros p t e s Hp Hc st. unfold v_match, bind. rewrite Hp, Hc. reflexivity.
  Qed.

  (** ** C58 *)

  (** securepw accepts exactly the strings of one line with a capital, a small letter, a
      digit and one of the listed symbols. *)
  Theorem C58_securepw :
    (forall s, decides vexc (v_securepw (S := S) vexc (VStr s)) (secure s)) /\
    (forall v, (forall s, v <> VStr s) -> accepts (v_securepw (S := S) vexc v)).
  Proof.
    split.
    - intros s. apply (decides_if _ _ _ (securepw_spec s)).
    - intros v N st. destruct v; try reflexivity. exfalso. eapply N. reflexivity.
  Qed.

  (** Exceptions: four characters are enough, and a percent sign is not a symbol: a long
      password whose only symbols are percent signs and carets is refused. *)
  Theorem C58_length_refuted : accepts (v_securepw (S := S) vexc (VStr "aA0!")).
  Proof. intros st. reflexivity. Qed.

  Theorem C58_symbols_refuted : forall s, all_among (alnums ++ "%^") s ->
    rejects vexc (v_securepw (S := S) vexc (VStr s)).
  Proof.
    intros s F. destruct C58_securepw as [D _]. apply (D s).
    intros (line & E & _ & _ & _ & _ & Y).
    apply Exists_exists in Y. destruct Y as (c & Hc & Hy).
    assert (G : among (alnums ++ "%^") c).
    { unfold all_among in F. rewrite Forall_forall in F. apply F.
      destruct E as [->| ->]; [exact Hc|]. rewrite chars_cat. apply in_app_iff. auto. }
    assert (X : implb (one_of symbols c) (negb (one_of (alnums ++ "%^") c)) = true).
    { apply (ascii_all (fun c => implb (one_of symbols c) (negb (one_of (alnums ++ "%^") c)))).
      vm_compute. reflexivity. }
    apply one_of_spec in Hy. apply one_of_spec in G. rewrite Hy, G in X. discriminate X.
  Qed.

  (** ** C59 *)

  (** A string is stored without one leading number sign and accepted exactly when it
      then begins with six hexadecimal digits. *)
  Theorem C59_hexcolor :
    (forall s, gives (t_hexcolor (S := S) (VStr ("#" ++ s))) (VStr s)) /\
    (forall v, (forall s, v <> VStr ("#" ++ s)) -> gives (t_hexcolor (S := S) v) v) /\
    (forall s, decides vexc (v_hexcolor (S := S) vexc (VStr s))
       (exists color rest, s = (color ++ rest)%string /\ hex_color color)) /\
    (forall v, (forall s, v <> VStr s) -> accepts (v_hexcolor (S := S) vexc v)).
  Proof.
    repeat apply conj.
    - intros s st. reflexivity.
    - intros v N st. destruct v as [| | | |[|c s]| | | | | | | ]; try reflexivity.
      cbn. destruct (Ascii.eqb c "#") eqn:E; [|reflexivity].
      apply Ascii.eqb_eq in E. subst c. destruct (N s). reflexivity.
    - intros s. apply (decides_if _ _ _ (hex_regex_spec s)).
    - intros v N st. destruct v; try reflexivity. exfalso. eapply N. reflexivity.
  Qed.

  (** So every colour is accepted, with or without the number sign. *)
  Theorem C59_colors_pass : forall color, hex_color color ->
    accepts (do* v <- t_hexcolor (VStr ("#" ++ color)); v_hexcolor (S := S) vexc v) /\
    accepts (v_hexcolor (S := S) vexc (VStr color)).
  Proof.
    intros color H. destruct C59_hexcolor as (_ & _ & D & _).
    assert (A : accepts (v_hexcolor (S := S) vexc (VStr color))).
    { apply (D color). exists color, ""%string. rewrite str_app_nil. auto. }
    split; [|exact A]. intros st. cbn. apply A.
  Qed.

  (** Exception: whatever follows the six digits is accepted as well. *)
  Theorem C59_trailing_refuted : forall color rest, hex_color color -> rest <> ""%string ->
    accepts (v_hexcolor (S := S) vexc (VStr (color ++ rest))) /\
    ~ hex_color (color ++ rest).
  Proof.
    intros color rest H N. destruct C59_hexcolor as (_ & _ & D & _). split.
    - apply (D (color ++ rest)%string). exists color, rest. auto.
    - intros [L _]. destruct H as [L2 _].
      rewrite <- chars_length, chars_cat, app_length, !chars_length in L.
      destruct rest; [congruence|]. cbn in L. lia.
  Qed.

  (** ** C60 *)

  (** email accepts exactly the strings that begin with an address. *)
  Theorem C60_email :
    (forall s, decides vexc (v_email (S := S) vexc (VStr s)) (begins_with_email s)) /\
    (forall v, (forall s, v <> VStr s) -> accepts (v_email (S := S) vexc v)).
  Proof.
    split.
    - intros s. apply (decides_if _ _ _ (begins_email_spec s)).
    - intros v N st. destruct v; try reflexivity. exfalso. eapply N. reflexivity.
  Qed.

  (** So every whole address that ends in a letter is accepted. *)
  Theorem C60_addresses_pass : forall local domain tld c,
    email_parts local domain (tld ++ String c "") -> among letters c ->
    accepts (v_email (S := S) vexc
      (VStr (local ++ "@" ++ domain ++ "." ++ tld ++ String c ""))).
  Proof.
    intros local domain tld c H Hc. destruct C60_email as [D _]. apply D.
    exists local, domain, (tld ++ String c "")%string, ""%string.
    rewrite str_app_nil. split; [reflexivity|]. split; [exact H|].
    left. exists tld, c. split; [reflexivity|]. split; [exact Hc|].
    intros (d & r & E & _). discriminate E.
  Qed.

  (** Exception: any text that does not go on with a letter, a digit or an underscore may
      follow. *)
  Theorem C60_trailing_refuted : forall local domain tld c rest,
    email_parts local domain (tld ++ String c "") -> among letters c ->
    accepts (v_email (S := S) vexc
      (VStr (local ++ "@" ++ domain ++ "." ++ tld ++ String c (" " ++ rest)))).
  Proof.
    intros local domain tld c rest H Hc. destruct C60_email as [D _]. apply D.
    exists local, domain, (tld ++ String c "")%string, (" " ++ rest)%string.
    split; [rewrite !str_app_assoc; reflexivity|]. split; [exact H|].
    left. exists tld, c. split; [reflexivity|]. split; [exact Hc|].
    intros (d & r & E & A). cbn in E. injection E as <- <-.
    apply one_of_spec in A. discriminate A.
  Qed.

  (** ** C61 *)

  (** url accepts exactly the web addresses of RegexSpec.v, followed by at most one
      newline. *)
  Theorem C61_url :
    (forall s, decides vexc (v_url (S := S) vexc (VStr s))
       (exists u, url_text u /\ (s = u \/ s = (u ++ newline)%string))) /\
    (forall v, (forall s, v <> VStr s) -> accepts (v_url (S := S) vexc v)).
  Proof.
    split.
    - intros s. apply (decides_if _ _ _ (url_spec s)).
    - intros v N st. destruct v; try reflexivity. exfalso. eapply N. reflexivity.
  Qed.

  (** Exceptions: the numbers of an IP address are not bounded by 255, and a newline may
      follow. *)
  Theorem C61_ip_refuted :
    accepts (v_url (S := S) vexc (VStr "http://999.999.999.999/")).
  Proof.
    apply (proj1 C61_url). eexists. split; [|left; reflexivity].
    exists "http"%string, "999.999.999.999"%string, ""%string, "/"%string.
    repeat apply conj; try (left; reflexivity).
    - right. right. exists "999"%string, "999"%string, "999"%string, "999"%string.
      assert (N : number13 "999").
      { split; [cbn; lia|]. apply all_among_b. reflexivity. }
      auto 6.
    - right. left. reflexivity.
    - reflexivity.
  Qed.

  Theorem C61_newline_refuted : forall u, url_text u ->
    accepts (v_url (S := S) vexc (VStr (u ++ newline))).
  Proof. intros u H. apply (proj1 C61_url). exists u. auto. Qed.
End Props.

Print Assumptions C57_match.
Print Assumptions C57_bad_pattern.
Print Assumptions C58_securepw.
Print Assumptions C58_length_refuted.
Print Assumptions C58_symbols_refuted.
Print Assumptions C59_hexcolor.
Print Assumptions C59_colors_pass.
Print Assumptions C59_trailing_refuted.
Print Assumptions C60_email.
Print Assumptions C60_addresses_pass.
Print Assumptions C60_trailing_refuted.
Print Assumptions C61_url.
Print Assumptions C61_ip_refuted.
Print Assumptions C61_newline_refuted.

(** ** Concrete cases *)
Definition rx_resolve (v : value) : st unit value := ret v.
Definition rx_vexc (m : string) : exn := EValidation [("name"%string, m)].

(** a pattern reader that knows two patterns *)
Definition rx_compile (t : string) : res rx :=
  if String.eqb t "ab+" then Ok (RSeq (RChar (Ascii.eqb "a")) (rplus (RChar (Ascii.eqb "b"))))
  else if String.eqb t "^x$" then Ok (RSeq RStart (RSeq (RChar (Ascii.eqb "x")) REnd))
  else Err (EUser 0).

Example C57_example :
  resolves rx_resolve (VStr "ab+") (VStr "ab+") /\
  accepts (v_match rx_resolve rx_vexc rx_compile (VStr "ab+") (VStr "caabbz")) /\
  rejects rx_vexc (v_match rx_resolve rx_vexc rx_compile (VStr "ab+") (VStr "acb")) /\
  accepts (v_match rx_resolve rx_vexc rx_compile (VStr "^x$") (VStr "x")) /\
  rejects rx_vexc (v_match rx_resolve rx_vexc rx_compile (VStr "^x$") (VStr "xx")) /\
  raises (v_match rx_resolve rx_vexc rx_compile (VStr "[") (VStr "x")) (EUser 0).
Proof.
  repeat apply conj; try (intros s; reflexivity);
    exists "value does not match"%string; intros s; reflexivity.
Qed.

Example C58_example :
  secure "correctHorse-1" /\ accepts (v_securepw (S := unit) rx_vexc (VStr "correctHorse-1")) /\
  rejects rx_vexc (v_securepw (S := unit) rx_vexc (VStr "correcthorse-1")) /\
  all_among (alnums ++ "%^") "Correct%Horse%99".
Proof.
  repeat apply conj.
  - apply securepw_spec. vm_compute. reflexivity.
  - intros s. reflexivity.
  - exists "value is not secure password"%string. intros s. reflexivity.
  - apply all_among_b. vm_compute. reflexivity.
Qed.

Example C59_example :
  hex_color "12abEF" /\
  rejects rx_vexc (v_hexcolor (S := unit) rx_vexc (VStr "12abE")) /\
  rejects rx_vexc (v_hexcolor (S := unit) rx_vexc (VStr "12abEg")) /\
  accepts (v_hexcolor (S := unit) rx_vexc (VStr "12abEF and more")).
Proof.
  repeat apply conj; try reflexivity; try (intros s; reflexivity);
    try (exists "value is not hex color string"%string; intros s; reflexivity).
  apply all_among_b. vm_compute. reflexivity.
Qed.

Example C60_example :
  email_parts "jo.doe+1" "mail.example" ("co" ++ String "m" "") /\ among letters "m" /\
  accepts (v_email (S := unit) rx_vexc (VStr "jo.doe+1@mail.example.com")) /\
  rejects rx_vexc (v_email (S := unit) rx_vexc (VStr "jo.doe")) /\
  rejects rx_vexc (v_email (S := unit) rx_vexc (VStr "jo@example")) /\
  rejects rx_vexc (v_email (S := unit) rx_vexc (VStr ".jo@example.com")).
Proof.
  assert (E : re_match email_regex "jo.doe+1@mail.example.com" = true)
    by (vm_compute; reflexivity).
  assert (E1 : re_match email_regex "jo.doe" = false) by (vm_compute; reflexivity).
  assert (E2 : re_match email_regex "jo@example" = false) by (vm_compute; reflexivity).
  assert (E3 : re_match email_regex ".jo@example.com" = false) by (vm_compute; reflexivity).
  repeat apply conj.
  - discriminate.
  - apply all_among_b. vm_compute. reflexivity.
  - exists "j"%char, "o.doe+1"%string. split; [reflexivity|]. apply one_of_spec. reflexivity.
  - discriminate.
  - apply all_among_b. vm_compute. reflexivity.
  - vm_compute. lia.
  - apply all_among_b. vm_compute. reflexivity.
  - apply one_of_spec. reflexivity.
  - intros s. cbn [v_email]. rewrite E. reflexivity.
  - exists "value is not email string"%string. intros s. cbn [v_email]. rewrite E1. reflexivity.
  - exists "value is not email string"%string. intros s. cbn [v_email]. rewrite E2. reflexivity.
  - exists "value is not email string"%string. intros s. cbn [v_email]. rewrite E3. reflexivity.
Qed.

Example C61_example :
  url_text "https://a-b.example.com:80/x?y" /\
  rejects rx_vexc (v_url (S := unit) rx_vexc (VStr "gopher://example.com")) /\
  rejects rx_vexc (v_url (S := unit) rx_vexc (VStr "http://-a.example.com")) /\
  rejects rx_vexc (v_url (S := unit) rx_vexc (VStr "http://example.com/a b")).
Proof.
  assert (E1 : re_match url_regex "gopher://example.com" = false) by (vm_compute; reflexivity).
  assert (E2 : re_match url_regex "http://-a.example.com" = false) by (vm_compute; reflexivity).
  assert (E3 : re_match url_regex "http://example.com/a b" = false)
    by (vm_compute; reflexivity).
  repeat apply conj.
  - assert (E : re_match url_regex "https://a-b.example.com:80/x?y" = true)
      by (vm_compute; reflexivity).
    apply url_spec in E. destruct E as (u & H & [E|E]); [rewrite E; exact H|].
    apply (f_equal chars) in E. rewrite chars_cat in E.
    change (chars "https://a-b.example.com:80/x?y")
      with (chars "https://a-b.example.com:80/x?" ++ ["y"%char]) in E.
    apply app_inj_tail in E. destruct E as [_ E]. discriminate E.
  - exists "value is not valid url string"%string. intros s. cbn [v_url]. rewrite E1. reflexivity.
  - exists "value is not valid url string"%string. intros s. cbn [v_url]. rewrite E2. reflexivity.
  - exists "value is not valid url string"%string. intros s. cbn [v_url]. rewrite E3. reflexivity.
Qed.
