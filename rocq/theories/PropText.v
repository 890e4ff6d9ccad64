(** PropText.v -- C107: letters, words, replaced text and lengths.

    In the section, [S] is the program state, [resolve] evaluates a modifier's parameter,
    [other_str] is [str()] of other values, and [farith] is float arithmetic.  All are
    arbitrary; [s0] only says that there is a state. *)
From Verif Require Import Base Mon Values PyStr LeafModel LeafSpec LeafNumProofs LeafStrProofs
  TextSpec TextProofs.
Open Scope Z_scope.
Open Scope string_scope.
Open Scope list_scope.

Section Props.
  Context {S P : Type} (s0 : S).
  Variable oeq : oid -> oid -> bool.
  Variable other_str : value -> string.
  Variable farith : arith -> value -> value -> res value.
  Variable resolve : P -> st S value.
  Variable vexc : string -> exn.
  Notation validate := (leaf_validate oeq resolve vexc).
  Notation transform := (leaf_transform other_str farith resolve vexc).
  Notation denotes := (resolves resolve).

  (** ** C107 *)

  (** alpha, digit, numeric and alnum accept exactly the text that is not empty and
      consists of letters, of digits, of digits, and of both; values that are no text
      pass. *)
  Theorem C107_characters : forall s,
    decides vexc (validate LAlpha (VStr s)) (made_of letter s) /\
    decides vexc (validate LDigit (VStr s)) (made_of decimal s) /\
    decides vexc (validate LNumeric (VStr s)) (made_of decimal s) /\
    decides vexc (validate LAlnum (VStr s)) (made_of (fun c => letter c \/ decimal c) s).
  Proof.
    intros s. split; [|split; [|split]]; (eapply (decides_bool vexc s0); [intros h; reflexivity|]).
    - apply str_all_made. exact alpha_letter.
    - apply str_all_made. exact digit_decimal.
    - apply str_all_made. exact digit_decimal.
    - apply str_all_made. exact alnum_iff.
  Qed.

  (** toupper and tolower change the case of every letter and nothing else; tocap makes the
      first character a capital and the others small; totitle does so with every word. *)
  Theorem C107_case : forall s,
    (exists r, gives (transform LToUpper (VStr s)) (VStr r) /\
       charwise (fun _ _ => capital_of) s r) /\
    (exists r, gives (transform LToLower (VStr s)) (VStr r) /\
       charwise (fun _ _ => small_of) s r) /\
    (exists r, gives (transform LToCap (VStr s)) (VStr r) /\
       charwise (fun _ i c d => match i with O => capital_of c d | _ => small_of c d end) s r) /\
    (exists r, gives (transform LToTitle (VStr s)) (VStr r) /\
       charwise (fun l i c d => (starts_word l i -> capital_of c d) /\
                                (~ starts_word l i -> small_of c d)) s r).
  Proof.
    intros s. split; [|split; [|split]]; eexists; (split; [intros h; reflexivity|]).
    - apply map_charwise. intros l i c. apply upper_capital.
    - apply map_charwise. intros l i c. apply lower_small.
    - destruct s as [|x s]; cbn [str_capitalize].
      + split; [reflexivity|]. intros [|i] c d H; discriminate H.
      + destruct (map_charwise to_lower s (fun _ _ => small_of) (fun l i c => lower_small c)) as [L F].
        split.
        * cbn [String.length]. f_equal. exact L.
        * intros [|i] c d C D; cbn [list_ascii_of_string nth_error] in C, D.
          -- injection C as <-. injection D as <-. apply upper_capital.
          -- exact (F i c d C D).
    - unfold str_title. split.
      + rewrite unchars_length, title_length. apply chars_length.
      + intros i c d C D. rewrite chars_unchars, (title_nth _ _ _ _ C) in D. injection D as <-.
        destruct i as [|j].
        * split; [intros _; apply upper_capital|]. intros N. exfalso. apply N. intros j x Q. discriminate Q.
        * destruct (nth_error (chars s) j) as [x|] eqn:X.
          -- destruct (is_alpha x) eqn:A.
             ++ split; [|intros _; apply lower_small]. intros W. exfalso.
                apply (W j x eq_refl X). apply alpha_letter. exact A.
             ++ split; [intros _; apply upper_capital|]. intros N. exfalso. apply N.
                intros k y Q Y LT. injection Q as <-. rewrite X in Y. injection Y as <-.
                apply alpha_letter in LT. congruence.
          -- apply nth_error_None in X. assert (Datatypes.S j < length (chars s))%nat
               by (apply nth_error_Some; rewrite C; discriminate). lia.
  Qed.

  (** replace puts the new text for every occurrence of the old one, from the left, without
      looking at what it has put; an empty old text is found before each character and at
      the end; old and new must be text. *)
  Theorem C107_replace : forall p q s,
    (forall old new, denotes p (VStr old) -> denotes q (VStr new) -> old <> "" ->
       exists r, gives (transform (LReplace p q) (VStr s)) (VStr r) /\ replaced old new s r) /\
    (forall new, denotes p (VStr "") -> denotes q (VStr new) ->
       gives (transform (LReplace p q) (VStr s))
         (VStr (unchars (flat_map (fun c => chars new ++ [c]) (chars s) ++ chars new)))) /\
    (forall v w, denotes p v -> denotes q w -> ~ (exists a b, v = VStr a /\ w = VStr b) ->
       raises (transform (LReplace p q) (VStr s)) ETypeError).
  Proof.
    intros p q s. split; [|split].
    - intros old new A B NE. exists (str_replace old new s). split.
      + intros h. cbn [leaf_transform]. unfold t_replace, bind. rewrite A, B. reflexivity.
      + unfold str_replace. destruct (String.eqb_spec old "") as [E|_]; [destruct (NE E)|].
        apply (replaced_go old new NE (String.length s) s ""); [lia|]. intros; cbn; lia.
    - intros new A B h. cbn [leaf_transform]. unfold t_replace, bind. rewrite A, B.
      unfold str_replace. cbn [String.eqb]. rewrite weave_spec. reflexivity.
    - intros v w A B N h. cbn [leaf_transform]. unfold t_replace, bind. rewrite A, B.
      destruct v; try reflexivity. destruct w; try reflexivity. destruct N. eexists _, _. split; reflexivity.
  Qed.

  (** The pieces left and put are determined: there is one way to replace. *)
  Theorem C107_replace_unique : forall old new s r, replaced old new s r ->
    forall r', replaced old new s r' -> r' = r.
  Proof.
    intros old new s r H. induction H as [s N|a b r F H IH]; intros r' H'.
    - inversion H' as [t N' E1 E2|a b r2 F' H2 E1 E2]; subst; [reflexivity|].
      destruct N. exists a, b. reflexivity.
    - inversion H' as [t N' E1 E2|a2 b2 r2 F' H2 E1 E2]; subst.
      + destruct N'. exists a, b. reflexivity.
      + assert (L1 : (String.length a <= String.length a2)%nat) by exact (F a2 b2 (eq_sym E1)).
        assert (L2 : (String.length a2 <= String.length a)%nat) by exact (F' a b E1).
        destruct (app_split_str a (old ++ b) a2 (old ++ b2) (eq_sym E1) L1) as (e & -> & E).
        assert (e = "") as ->.
        { rewrite str_app_length in L2. destruct e; [reflexivity|cbn in L2; lia]. }
        destruct (app_split_str old b old b2 E (le_n _)) as (e & E3 & ->).
        assert (e = "") as ->.
        { apply (f_equal String.length) in E3. rewrite str_app_length in E3.
          destruct e; [reflexivity|cbn in E3; lia]. }
        rewrite str_app_nil. rewrite (IH r2 H2). reflexivity.
  Qed.

  (** len gives the number of characters or items. *)
  Theorem C107_len : forall v n, has_length v n -> gives (transform LLen v) (VInt n).
  Proof. intros v n H h. destruct H; reflexivity. Qed.

  (** Other values are left alone, and pass. *)
  Theorem C107_others : forall v, (forall s, v <> VStr s) ->
    gives (transform LToUpper v) v /\ gives (transform LToLower v) v /\
    gives (transform LToCap v) v /\ gives (transform LToTitle v) v /\
    (forall p q a b, denotes p a -> denotes q b -> gives (transform (LReplace p q) v) v) /\
    (lengthless v -> gives (transform LLen v) v) /\
    accepts (validate LAlpha v) /\ accepts (validate LDigit v) /\
    accepts (validate LNumeric v) /\ accepts (validate LAlnum v).
  Proof.
    intros v N.
    assert (NS : forall A (f : string -> A) (x : A), match v with VStr s => f s | _ => x end = x).
    { intros A f x. destruct v; try reflexivity. destruct (N _ eq_refl). }
    split; [|split; [|split; [|split; [|split; [|split; [|split; [|split; [|split]]]]]]]]; try (intros h; destruct v; try reflexivity; destruct (N _ eq_refl)).
    - intros p q a b A B h. cbn [leaf_transform]. unfold t_replace, bind. rewrite A, B, NS. reflexivity.
    - intros L h. cbn [leaf_transform]. unfold t_len. rewrite (lengthless_none v L). reflexivity.
  Qed.
End Props.
Print Assumptions C107_characters.
Print Assumptions C107_case.
Print Assumptions C107_replace.
Print Assumptions C107_replace_unique.
Print Assumptions C107_len.
Print Assumptions C107_others.

(** ** Concrete cases *)
Definition t_resolve (v : value) : st unit value := ret v.
Definition t_vexc (m : string) : exn := EValidation [("name"%string, m)].
Definition t_farith (op : arith) (a b : value) : res value := Err ETypeError.
Notation t_run l v := (leaf_transform (fun _ => ""%string) t_farith t_resolve t_vexc l v).
Notation t_check l v := (leaf_validate Nat.eqb t_resolve t_vexc l v).

Example C107_example :
  resolves t_resolve (VStr "aa") (VStr "aa") /\
  gives (t_run (LReplace (VStr "aa") (VStr "b")) (VStr "aaaxaa")) (VStr "baxb") /\
  gives (t_run (LReplace (VStr "") (VStr "-")) (VStr "ab")) (VStr "-a-b-") /\
  gives (t_run LToTitle (VStr "o'brien was HERE 2nd")) (VStr "O'Brien Was Here 2Nd") /\
  gives (t_run LToCap (VStr "hELLO World")) (VStr "Hello world") /\
  accepts (t_check LAlnum (VStr "abc12")) /\
  rejects t_vexc (t_check LDigit (VStr "")) /\
  has_length (VStr "abc") 3 /\ gives (t_run LLen (VStr "abc")) (VInt 3).
Proof.
  repeat apply conj; try (intros s; reflexivity).
  - exists "value is not digit string". intros s. reflexivity.
  - exact (hl_str "abc").
Qed.
