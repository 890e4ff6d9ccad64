(** RegexModel.v -- the modifiers that check a string against a regular expression:
    match, securepw, hexcolor, email and url.

    Patterns are trees.  [ends] is a backtracking matcher for them; it finds every place
    where a match can end, so the order in which Python's [re] tries the alternatives is
    left out (these modifiers only ask whether there is a match).  Letters, digits and
    white space are those of PyStr.v.  The text of a pattern given to [match] is turned
    into a tree by [compile], which is left open. *)
From Verif Require Import Base Mon Values PyStr.
Open Scope list_scope.

Inductive rx : Type :=
| RChar (p : ascii -> bool)       (* one character out of a class *)
| REmpty
| RSeq (a b : rx)
| RAlt (a b : rx)
| RStar (a : rx)                  (* a* *)
| RStart                          (* ^ *)
| REnd                            (* $ *)
| RWordEdge                       (* \b *)
| RAhead (a : rx).                (* (?=a) *)

(** a? *)
Definition ropt (a : rx) : rx := RAlt a REmpty.
(** a+ *)
Definition rplus (a : rx) : rx := RSeq a (RStar a).
(** a{n} *)
Fixpoint rtimes (n : nat) (a : rx) : rx :=
  match n with O => REmpty | S k => RSeq a (rtimes k a) end.
(** a{0,n} *)
Fixpoint rupto (n : nat) (a : rx) : rx :=
  match n with O => REmpty | S k => ropt (RSeq a (rupto k a)) end.
(** a{n,} *)
Definition ratleast (n : nat) (a : rx) : rx := RSeq (rtimes n a) (RStar a).
(** a{m,n} *)
Definition rrange (m n : nat) (a : rx) : rx := RSeq (rtimes m a) (rupto (n - m) a).
(** a literal string *)
Fixpoint rlit (eqc : ascii -> ascii -> bool) (s : string) : rx :=
  match s with
  | EmptyString => REmpty
  | String c s' => RSeq (RChar (eqc c)) (rlit eqc s')
  end.

(** \w *)
Definition is_word (c : ascii) : bool := is_alnum c || Ascii.eqb c "_".
Definition nl : ascii := "010".

(** a word character on one side only *)
Definition word_edge (before after : list ascii) : bool :=
  let w l := match l with [] => false | c :: _ => is_word c end in
  xorb (w before) (w after).

(** The end of the text, or before a newline that ends the text *)
Definition at_end (after : list ascii) : bool :=
  match after with
  | [] => true
  | [c] => Ascii.eqb c nl
  | _ => false
  end.

(** A place in a text: the characters before it, the nearest first, and those after it *)
Definition place : Type := list ascii * list ascii.

(** Repeat a matcher as often as possible or less; each round must consume something. *)
Fixpoint repeated (fuel : nat) (f : place -> list place) (pl : place) : list place :=
  pl :: match fuel with
        | O => []
        | S n => flat_map (fun q => if Nat.ltb (length (snd q)) (length (snd pl))
                                    then repeated n f q else []) (f pl)
        end.

(** The places where a match that begins at the given place can end *)
Fixpoint ends (r : rx) (pl : place) : list place :=
  match r with
  | RChar p =>
      match snd pl with
      | [] => []
      | c :: t => if p c then [(c :: fst pl, t)] else []
      end
  | REmpty => [pl]
  | RSeq a b => flat_map (ends b) (ends a pl)
  | RAlt a b => ends a pl ++ ends b pl
  | RStar a => repeated (length (snd pl)) (ends a) pl
  | RStart => match fst pl with [] => [pl] | _ => [] end
  | REnd => if at_end (snd pl) then [pl] else []
  | RWordEdge => if word_edge (fst pl) (snd pl) then [pl] else []
  | RAhead a => match ends a pl with [] => [] | _ => [pl] end
  end.

Definition found (r : rx) (pl : place) : bool :=
  match ends r pl with [] => false | _ => true end.

(** [re.match(r, s) is not None]: a match that begins at the start *)
Definition re_match (r : rx) (s : string) : bool := found r ([], chars s).

(** [re.search(r, s) is not None]: a match that begins anywhere *)
Fixpoint search_from (r : rx) (before after : list ascii) : bool :=
  found r (before, after) ||
  match after with [] => false | c :: t => search_from r (c :: before) t end.
Definition re_search (r : rx) (s : string) : bool := search_from r [] (chars s).

(** ** The patterns of the repository *)

Definition one_of (s : string) (c : ascii) : bool := existsb (Ascii.eqb c) (chars s).
Definition orc (p q : ascii -> bool) (c : ascii) : bool := p c || q c.
(** [.] *)
Definition dot (c : ascii) : bool := negb (Ascii.eqb c nl).

(** modifiers/hexcolor_modifier.py:10: [0-9a-fA-F]{6} *)
Definition hexd : ascii -> bool := orc is_digit (orc (between "a" "f") (between "A" "F")).
Definition hex_color_regex : rx := rtimes 6 (RChar hexd).

(** modifiers/securepw_modifier.py:9-15 *)
Definition symbols : string := "!@#$&*`~()-_+=[]{}:;'"",<>.?\|/".
Definition has_ahead (p : ascii -> bool) : rx :=
  RAhead (RSeq (RStar (RChar dot)) (RChar p)).
Definition securepw_regex : rx :=
  RSeq RStart (RSeq (has_ahead is_upper) (RSeq (has_ahead (one_of symbols))
    (RSeq (has_ahead is_digit) (RSeq (has_ahead is_lower)
      (RSeq (RStar (RChar dot)) REnd))))).

(** modifiers/email_modifier.py:10 *)
Definition email_local : ascii -> bool := orc is_alnum (one_of "._%+-").
Definition email_domain : ascii -> bool := orc is_alnum (one_of ".-").
Definition email_tld : ascii -> bool := orc is_upper (orc (one_of "|") is_lower).
Definition email_regex : rx :=
  RSeq RWordEdge (RSeq (rplus (RChar email_local)) (RSeq (RChar (Ascii.eqb "@"))
    (RSeq (rplus (RChar email_domain)) (RSeq (RChar (Ascii.eqb "."))
      (RSeq (ratleast 2 (RChar email_tld)) RWordEdge))))).

(** modifiers/url_modifier.py:11-17, with IGNORECASE *)
Definition same_letter (a b : ascii) : bool := Ascii.eqb (to_lower a) (to_lower b).
Definition ilit : string -> rx := rlit same_letter.
Definition alnumc : rx := RChar is_alnum.
Definition hyphenc : rx := RChar (orc is_alnum (Ascii.eqb "-")).
Definition dotlit : rx := RChar (Ascii.eqb ".").
Definition digits13 : rx := rrange 1 3 (RChar is_digit).
Definition url_label : rx := RSeq alnumc (ropt (RSeq (rupto 61 hyphenc) alnumc)).
Definition url_domain : rx :=
  RSeq (rplus (RSeq url_label dotlit))
       (RAlt (RSeq (rrange 2 6 (RChar is_alpha)) (ropt dotlit))
             (RSeq (ratleast 2 hyphenc) (ropt dotlit))).
Definition url_ip : rx :=
  RSeq digits13 (RSeq dotlit (RSeq digits13 (RSeq dotlit
    (RSeq digits13 (RSeq dotlit digits13))))).
Definition url_port : rx := ropt (RSeq (RChar (Ascii.eqb ":")) (rplus (RChar is_digit))).
Definition not_space (c : ascii) : bool := negb (is_space c).
Definition url_tail : rx :=
  RAlt (ropt (RChar (Ascii.eqb "/")))
       (RSeq (RChar (one_of "/?")) (rplus (RChar not_space))).
Definition url_regex : rx :=
  RSeq RStart (RSeq (RAlt (ilit "http") (ilit "ftp")) (RSeq (ropt (ilit "s"))
    (RSeq (ilit "://") (RSeq (RAlt url_domain (RAlt (ilit "localhost") url_ip))
      (RSeq url_port (RSeq url_tail REnd)))))).

(** ** The modifiers *)

Section Patterns.
  Context {S P : Type}.
  Variable resolve : P -> st S value.
  Variable vexc : string -> exn.
  (** [re.compile]; it raises [re.error] on a malformed pattern *)
  Variable compile : string -> res rx.

  (** modifiers/match_modifier.py:18-21.  A pattern that is not a string raises
      TypeError in [search]; it is not used when the value is not a string. *)
  Definition v_match (p : P) (v : value) : st S unit :=
    do* x <- resolve p;
    match v with
    | VStr s =>
        match x with
        | VStr t =>
            do* r <- lift (compile t);
            if re_search r s then ret tt else throw (vexc "value does not match")
        | _ => throw ETypeError
        end
    | _ => ret tt
    end.

  (** modifiers/securepw_modifier.py:20-22 *)
  Definition v_securepw (v : value) : st S unit :=
    match v with
    | VStr s => if re_search securepw_regex s then ret tt
                else throw (vexc "value is not secure password")
    | _ => ret tt
    end.

  (** modifiers/hexcolor_modifier.py:15-20 *)
  Definition t_hexcolor (v : value) : st S value :=
    match v with
    | VStr (String c s) => if Ascii.eqb c "#" then ret (VStr s) else ret v
    | _ => ret v
    end.

  (** modifiers/hexcolor_modifier.py:22-24 *)
  Definition v_hexcolor (v : value) : st S unit :=
    match v with
    | VStr s => if re_match hex_color_regex s then ret tt
                else throw (vexc "value is not hex color string")
    | _ => ret tt
    end.

  (** modifiers/email_modifier.py:15-17 *)
  Definition v_email (v : value) : st S unit :=
    match v with
    | VStr s => if re_match email_regex s then ret tt
                else throw (vexc "value is not email string")
    | _ => ret tt
    end.

  (** modifiers/url_modifier.py:22-24 *)
  Definition v_url (v : value) : st S unit :=
    match v with
    | VStr s => if re_match url_regex s then ret tt
                else throw (vexc "value is not valid url string")
    | _ => ret tt
    end.
End Patterns.
