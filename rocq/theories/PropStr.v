(** PropStr.v -- C15, C16, C17 and C22: string, list, membership and type modifiers.

    In the section, [S] is the program state, [resolve] evaluates a modifier's
    parameter, [oeq] is the equality of JSON objects, [other_str] is [str()] of values
    other than None, bools, ints and strings, and [farith] is float arithmetic.  All are
    arbitrary; [s0] only says that there is a state. *)
From Coq Require Import QArith.
From Verif Require Import Base Mon PyList Values PyStr LeafModel LeafSpec LeafNumProofs
  LeafStrProofs.
Open Scope Z_scope.
Open Scope list_scope.

Section Props.
  Context {S P : Type} (s0 : S).
  Variable oeq : oid -> oid -> bool.
  Variable other_str : value -> string.
  Variable farith : arith -> value -> value -> res value.
  Variable resolve : P -> st S value.
  Variable vexc : string -> exn.
  Notation validate := (leaf_validate oeq resolve vexc).
  Notation transform := (leaf_transform other_str farith resolve vexc).
  Notation denotes := (resolves resolve).
  Notation decided m H := (decides vexc m H).

  (** ** C15 *)

  (** truncate(n) gives the prefix of length min(n, length), which passes maxlength(n). *)
  Theorem C15_truncate : forall p n, denotes p (VInt n) -> 0 <= n ->
    (forall s, exists r, gives (transform (LTruncate p) (VStr s)) (VStr r) /\
       str_is_prefix r s /\ slen r = Z.min n (slen s) /\
       accepts (validate (LMaxlength p) (VStr r))) /\
    (forall l, exists r, gives (transform (LTruncate p) (VList l)) (VList r) /\
       is_prefix r l /\ zlen r = Z.min n (zlen l) /\
       accepts (validate (LMaxlength p) (VList r))).
  Proof.
    exact (fun p n Hr Hn =>
      conj (fun s => truncate_str oeq other_str farith resolve vexc s0 p n s Hr Hn)
           (fun l => truncate_list oeq other_str farith resolve vexc s0 p n l Hr Hn)).
  Qed.

  (** padstart and padend put [pad] before or after the string; [pad] consists of the
      given characters, is empty when the string is already long enough, and with a
      single pad character the length becomes exactly max(n, length). *)
  Theorem C15_pad : forall p q c n s, denotes p (VStr c) -> denotes q (VInt n) ->
    let good pad :=
      only_chars_of c pad /\ (n <= slen s -> pad = ""%string) /\
      (c <> ""%string -> n <= slen pad + slen s) /\
      (String.length c = 1%nat -> slen pad + slen s = Z.max n (slen s)) in
    (exists pad, gives (transform (LPadStart p q) (VStr s)) (VStr (pad ++ s)) /\ good pad) /\
    (exists pad, gives (transform (LPadEnd p q) (VStr s)) (VStr (s ++ pad)) /\ good pad).
  Proof.
    exact (fun p q c n s Hp Hq =>
      conj (padstart_spec other_str farith resolve vexc p q c n s Hp Hq)
           (padend_spec other_str farith resolve vexc p q c n s Hp Hq)).
  Qed.

  (** reverse reverses, and undoes itself. *)
  Theorem C15_reverse :
    (forall l, gives (transform LReverse (VList l)) (VList (rev l))) /\
    (forall l, gives (transform LReverse (VStr (unchars l))) (VStr (unchars (rev l)))) /\
    (forall v r, gives (transform LReverse v) r -> gives (transform LReverse r) v).
  Proof.
    exact (conj (reverse_list other_str farith resolve vexc)
          (conj (reverse_str other_str farith resolve vexc)
                (reverse_twice other_str farith resolve vexc s0))).
  Qed.

  (** append keeps the original as a prefix and prepend as a suffix. *)
  Theorem C15_append_prepend : forall p y, denotes p y ->
    (forall l, gives (transform (LAppend p) (VList l)) (VList (l ++ [y]))) /\
    (forall l, gives (transform (LPrepend p) (VList l)) (VList ([y] ++ l))) /\
    (forall s, gives (transform (LAppend p) (VStr s)) (VStr (s ++ py_str other_str y))) /\
    (forall s t, y = VStr t -> gives (transform (LPrepend p) (VStr s)) (VStr (t ++ s))).
  Proof.
    exact (fun p y Hr =>
      conj (fun l => append_list other_str farith resolve vexc p y l Hr)
      (conj (fun l => prepend_list other_str farith resolve vexc p y l Hr)
      (conj (fun s => append_str other_str farith resolve vexc p y s Hr)
            (fun s t E => prepend_str other_str farith resolve vexc p t s
                            (eq_ind y (fun y => denotes p y) Hr (VStr t) E))))).
  Qed.

  (** Exception: append converts its argument to text, prepend does not: prepending an
      int to a string raises TypeError. *)
  Theorem C15_prepend_int_refuted : forall p z s, denotes p (VInt z) ->
    raises (transform (LPrepend p) (VStr s)) ETypeError.
  Proof. exact (prepend_str_int other_str farith resolve vexc). Qed.

  (** Exception: truncate raises TypeError on a dict. *)
  Theorem C15_truncate_dict_refuted : forall p w d, denotes p w ->
    raises (transform (LTruncate p) (VDict d)) ETypeError.
  Proof. exact (truncate_dict other_str farith resolve vexc). Qed.

  (** insertat keeps every original item in order around the new one, which lands at the
      given position, counted from the end when negative. *)
  Theorem C15_insertat : forall p q y k, denotes p y -> denotes q (VInt k) ->
    (forall l, exists a b, l = a ++ b /\ zlen a = position k (zlen l) /\
       gives (transform (LInsertAt p q) (VList l)) (VList (a ++ [y] ++ b))) /\
    (forall s, exists a b, s = (a ++ b)%string /\ slen a = position k (slen s) /\
       gives (transform (LInsertAt p q) (VStr s)) (VStr (a ++ py_str other_str y ++ b))).
  Proof.
    exact (fun p q y k Hp Hq =>
      conj (fun l => insertat_list other_str farith resolve vexc p q y k l Hp Hq)
           (fun s => insertat_str other_str farith resolve vexc p q y k s Hp Hq)).
  Qed.

  (** split cuts out every occurrence of the separator, and joining the pieces with it
      gives the string back; an empty separator raises ValueError. *)
  Theorem C15_split_join :
    (forall p x s, denotes p (VStr x) -> x <> ""%string ->
      exists l, gives (transform (LSplit p) (VStr s)) (VList (map VStr l)) /\
        Forall (fun y => ~ occurs x y) l /\
        gives (transform (LJoin p) (VList (map VStr l))) (VStr s)) /\
    (forall p s, denotes p (VStr "") -> raises (transform (LSplit p) (VStr s)) EValueError).
  Proof.
    exact (conj (split_then_join other_str farith resolve vexc)
                (split_empty_sep other_str farith resolve vexc)).
  Qed.

  (** trim removes exactly the surrounding white space and is idempotent. *)
  Theorem C15_trim : forall s, exists m, gives (transform LTrim (VStr s)) (VStr m) /\
    trimmed s m /\ gives (transform LTrim (VStr m)) (VStr m).
  Proof. exact (trim_spec other_str farith resolve vexc). Qed.

  (** Values that are no strings, lists or dicts are left alone. *)
  Theorem C15_others_unchanged : forall v, lengthless v -> (forall d, v <> VDict d) ->
    forall p, gives (transform (LTruncate p) v) v /\ gives (transform LReverse v) v /\
    gives (transform (LAppend p) v) v /\ gives (transform (LPrepend p) v) v /\
    gives (transform (LSplit p) v) v /\ gives (transform (LJoin p) v) v /\
    gives (transform LTrim v) v.
  Proof. exact (shaping_skips other_str farith resolve vexc). Qed.

  (** ** C16 *)

  (** length, minlength and maxlength decide the length of a string or list. *)
  Theorem C16_length : forall p w a, denotes p w -> number w a -> ordered a ->
    forall v n, has_length v n ->
    let len := XFin (inject_Z n) in
    decided (validate (LMinlength p) v) (at_most a len) /\
    decided (validate (LMaxlength p) v) (at_most len a) /\
    decided (validate (LLength p None) v) (at_most a len /\ at_most len a) /\
    (forall q u b, denotes q u -> number u b -> ordered b ->
       decided (validate (LLength p (Some q)) v) (at_most a len /\ at_most len b)).
  Proof.
    exact (fun p w a Hp Ha Oa v n Hn =>
      conj (minlength_decides oeq resolve vexc s0 p w a v n Hp Ha Oa Hn)
      (conj (maxlength_decides oeq resolve vexc s0 p w a v n Hp Ha Oa Hn)
      (conj (length_decides oeq resolve vexc s0 p None w w a a v n Hp Ha Oa eq_refl Ha Oa Hn)
            (fun q u b Hq Hb Ob =>
               length_decides oeq resolve vexc s0 p (Some q) w u a b v n Hp Ha Oa Hq Hb Ob Hn)))).
  Qed.

  (** A value that is no string and no list passes. *)
  Theorem C16_length_others_pass : forall p q v, lengthless v ->
    accepts (validate (LLength p q) v) /\ accepts (validate (LMinlength p) v) /\
    accepts (validate (LMaxlength p) v).
  Proof. exact (length_skips oeq resolve vexc). Qed.

  (** oneof accepts None and exactly the values equal to one of the choices; eq accepts
      None and exactly the values equal to the given one; neq accepts exactly the values
      not equal to the given one. *)
  Theorem C16_membership : forall p v,
    (forall l, denotes p (VList l) ->
       decided (validate (LOneOf p) v) (v = VNone \/ exists y, In y l /\ veq oeq v y = true)) /\
    (forall y, denotes p y ->
       decided (validate (LEq p) v) (v = VNone \/ veq oeq v y = true) /\
       decided (validate (LNeq p) v) (veq oeq v y = false)).
  Proof.
    exact (fun p v =>
      conj (fun l Hr => oneof_decides oeq resolve vexc s0 p l v Hr)
           (fun y Hr => conj (eq_decides oeq resolve vexc s0 p y v Hr)
                             (neq_decides oeq resolve vexc s0 p y v Hr))).
  Qed.

  (** ** C17 *)

  (** On strings the four checks decide prefix and suffix. *)
  Theorem C17_strings : forall p x s, denotes p (VStr x) ->
    decided (validate (LHasPrefix p) (VStr s)) (str_is_prefix x s) /\
    decided (validate (LHasSuffix p) (VStr s)) (str_is_suffix x s) /\
    decided (validate (LIsPrefixOf p) (VStr s)) (str_is_prefix s x) /\
    decided (validate (LIsSuffixOf p) (VStr s)) (str_is_suffix s x).
  Proof.
    exact (fun p x s Hr =>
      conj (hasprefix_str oeq resolve vexc s0 p x s Hr)
      (conj (hassuffix_str oeq resolve vexc s0 p x s Hr)
      (conj (isprefixof_str oeq resolve vexc s0 p x s Hr)
            (issuffixof_str oeq resolve vexc s0 p x s Hr)))).
  Qed.

  (** On lists isprefixof decides prefix, and hassuffix and issuffixof decide suffix when
      the looked-for suffix is not empty. *)
  Theorem C17_lists : forall p x l, denotes p (VList x) ->
    decided (validate (LIsPrefixOf p) (VList l)) (starts_with oeq x l) /\
    (x <> [] -> decided (validate (LHasSuffix p) (VList l)) (ends_with oeq l x)) /\
    (l <> [] -> decided (validate (LIsSuffixOf p) (VList l)) (ends_with oeq x l)).
  Proof.
    exact (fun p x l Hr =>
      conj (isprefixof_list oeq resolve vexc s0 p x l Hr)
      (conj (hassuffix_list oeq resolve vexc s0 p x l Hr)
            (issuffixof_list oeq resolve vexc s0 p x l Hr))).
  Qed.

  (** Exceptions: hasprefix on a list demands that the whole list equals the prefix; an
      empty suffix is accepted only for an empty list. *)
  Theorem C17_lists_refuted : forall p x l, denotes p (VList x) ->
    decided (validate (LHasPrefix p) (VList l)) (items_equal oeq l x) /\
    (x = [] -> decided (validate (LHasSuffix p) (VList l)) (l = [])) /\
    decided (validate (LIsSuffixOf p) (VList [])) (x = []).
  Proof.
    exact (fun p x l Hr =>
      conj (hasprefix_list oeq resolve vexc s0 p x l Hr)
      (conj (fun E => hassuffix_list_empty oeq resolve vexc s0 p l
                        (eq_ind x (fun x => denotes p (VList x)) Hr [] E))
            (issuffixof_list_empty oeq resolve vexc s0 p x Hr))).
  Qed.

  (** A list is refused when the given one is a text; a text checked against a list
      raises an error that is not a validation failure. *)
  Theorem C17_mixed : forall p q x y l s, denotes p (VStr x) -> denotes q (VList y) ->
    (rejects vexc (validate (LHasPrefix p) (VList l)) /\
     rejects vexc (validate (LHasSuffix p) (VList l)) /\
     rejects vexc (validate (LIsPrefixOf p) (VList l)) /\
     rejects vexc (validate (LIsSuffixOf p) (VList l))) /\
    raises (validate (LHasPrefix q) (VStr s)) ETypeError /\
    raises (validate (LHasSuffix q) (VStr s)) ETypeError /\
    raises (validate (LIsPrefixOf q) (VStr s)) EAttributeError /\
    raises (validate (LIsSuffixOf q) (VStr s)) EAttributeError.
  Proof.
    intros p q x y l s Hp Hq. split; [split; [| split; [| split]] | split; [| split; [| split]]].
    - exists "prefix is not found"%string. intros w. cbn. unfold v_hasprefix, bind.
      rewrite Hp. reflexivity.
    - exists "suffix is not found"%string. intros w. cbn. unfold v_hassuffix, bind.
      rewrite Hp. cbn. rewrite Hp. reflexivity.
    - exists "prefix is not found"%string. intros w. cbn. unfold v_isprefixof, bind.
      rewrite Hp. reflexivity.
    - exists "suffix is not found"%string. intros w. cbn. unfold v_issuffixof, bind.
      rewrite Hp. reflexivity.
    - intros w. cbn. unfold v_hasprefix, bind. rewrite Hq. reflexivity.
    - intros w. cbn. unfold v_hassuffix, bind. rewrite Hq. reflexivity.
    - intros w. cbn. unfold v_isprefixof, bind. rewrite Hq. reflexivity.
    - intros w. cbn. unfold v_issuffixof, bind. rewrite Hq. reflexivity.
  Qed.

  (** Other values pass. *)
  Theorem C17_others_pass : forall p v, lengthless v ->
    accepts (validate (LHasPrefix p) v) /\ accepts (validate (LHasSuffix p) v) /\
    accepts (validate (LIsPrefixOf p) v) /\ accepts (validate (LIsSuffixOf p) v).
  Proof. exact (affix_skips oeq resolve vexc). Qed.

  (** ** C22 *)

  (** A type modifier other than date accepts exactly None and the values of its type. *)
  Theorem C22_types : forall k v, k <> TDate ->
    decided (validate (LType k) v) (v = VNone \/ has_type k v).
  Proof. exact (type_decides oeq resolve vexc s0). Qed.

  (** The date modifier also accepts datetimes (but turns them into dates on input). *)
  Theorem C22_date :
    (forall v, decided (validate (LType TDate) v)
       (v = VNone \/ has_type TDate v \/ has_type TDatetime v)) /\
    (forall t, gives (transform (LType TDate) (VDatetime t)) (VDate (t_date t))).
  Proof. exact (conj (date_type_decides oeq resolve vexc s0) (fun t s => eq_refl)). Qed.

  (** An int given to a float field becomes a float, equal to it below 2^53; an int too
      large for a float raises OverflowError. *)
  Theorem C22_int_to_float : forall z,
    ((exists f, gives (transform (LType TFloat) (VInt z)) (VFloat f)) \/
     raises (transform (LType TFloat) (VInt z)) EOverflow) /\
    (Z.abs z < 2 ^ 53 ->
       gives (transform (LType TFloat) (VInt z)) (VFloat (FFin (inject_Z z))) /\
       veq oeq (VFloat (FFin (inject_Z z))) (VInt z) = true).
  Proof.
    exact (fun z => conj (float_gets_int other_str farith resolve vexc z)
                         (float_small_int oeq other_str farith resolve vexc z)).
  Qed.

  (** str, int and bool do not convert their input. *)
  Theorem C22_no_conversion : forall k v, k = TStr \/ k = TInt \/ k = TBool ->
    gives (transform (LType k) v) v.
  Proof. exact (type_leaves other_str farith resolve vexc). Qed.
End Props.

Print Assumptions C15_truncate.
Print Assumptions C15_pad.
Print Assumptions C15_reverse.
Print Assumptions C15_append_prepend.
Print Assumptions C15_prepend_int_refuted.
Print Assumptions C15_truncate_dict_refuted.
Print Assumptions C15_insertat.
Print Assumptions C15_split_join.
Print Assumptions C15_trim.
Print Assumptions C15_others_unchanged.
Print Assumptions C16_length.
Print Assumptions C16_length_others_pass.
Print Assumptions C16_membership.
Print Assumptions C17_strings.
Print Assumptions C17_lists.
Print Assumptions C17_lists_refuted.
Print Assumptions C17_mixed.
Print Assumptions C17_others_pass.
Print Assumptions C22_types.
Print Assumptions C22_date.
Print Assumptions C22_int_to_float.
Print Assumptions C22_no_conversion.

(** ** Concrete cases *)
Definition k_resolve (v : value) : st unit value := ret v.
Definition k_vexc (m : string) : exn := EValidation [("name"%string, m)].
Definition k_arith (op : arith) (a b : value) : res value := Err ETypeError.
Notation k_run l v := (leaf_transform (fun _ => ""%string) k_arith k_resolve k_vexc l v).
Notation k_check l v := (leaf_validate Nat.eqb k_resolve k_vexc l v).

Example C15_example :
  gives (k_run (LTruncate (VInt 3)) (VStr "hello")) (VStr "hel") /\
  gives (k_run (LPadStart (VStr "0") (VInt 5)) (VStr "42")) (VStr "00042") /\
  gives (k_run (LSplit (VStr ", ")) (VStr "a, b,c, "))
    (VList [VStr "a"; VStr "b,c"; VStr ""]) /\
  gives (k_run (LInsertAt (VInt 9) (VInt (-1))) (VList [VInt 1; VInt 2; VInt 3]))
    (VList [VInt 1; VInt 2; VInt 9; VInt 3]) /\
  gives (k_run LTrim (VStr "  a b ")) (VStr "a b").
Proof. repeat split; intros s; reflexivity. Qed.

Example C16_example :
  has_length (VStr "abc") 3 /\
  accepts (k_check (LLength (VInt 2) (Some (VInt 3))) (VStr "abc")) /\
  rejects k_vexc (k_check (LLength (VInt 2) (Some (VInt 3))) (VStr "abcd")) /\
  accepts (k_check (LOneOf (VList [VInt 1; VStr "a"])) (VBool true)) /\
  rejects k_vexc (k_check (LOneOf (VList [VInt 1; VStr "a"])) (VStr "b")).
Proof.
  repeat split; try (intros s; reflexivity).
  - exact (hl_str "abc").
  - exists "length of value is not between"%string. intros s. reflexivity.
  - exists "value is not in choices"%string. intros s. reflexivity.
Qed.

Example C17_example :
  rejects k_vexc (k_check (LHasPrefix (VList [VInt 1])) (VList [VInt 1; VInt 2])) /\
  starts_with Nat.eqb [VInt 1; VInt 2] [VInt 1] /\
  rejects k_vexc (k_check (LHasSuffix (VList [])) (VList [VInt 1])) /\
  ends_with Nat.eqb [VInt 1] [] /\
  accepts (k_check (LHasSuffix (VList [VInt 2])) (VList [VInt 1; VInt 2])).
Proof.
  repeat split; try (intros s; reflexivity).
  - exists "prefix is not found"%string. intros s. reflexivity.
  - exists [VInt 1], [VInt 2]. split; [reflexivity|]. repeat constructor.
  - exists "suffix is not found"%string. intros s. reflexivity.
  - exists [VInt 1], []. split; [reflexivity|]. constructor.
Qed.

Example C17_mixed_example :
  rejects k_vexc (k_check (LHasSuffix (VStr "b")) (VList [VStr "a"; VStr "b"])) /\
  raises (k_check (LHasPrefix (VList [VStr "a"])) (VStr "ab")) ETypeError.
Proof.
  split.
  - exists "suffix is not found"%string. intros s. reflexivity.
  - intros s. reflexivity.
Qed.

Example C22_example :
  rejects k_vexc (k_check (LType TInt) (VBool true)) /\
  rejects k_vexc (k_check (LType TBool) (VInt 1)) /\
  accepts (k_check (LType TInt) (VInt 1)) /\
  gives (k_run (LType TFloat) (VInt 3)) (VFloat (FFin 3)).
Proof.
  repeat split; try (intros s; reflexivity).
  - exists "value is not int"%string. intros s. reflexivity.
  - exists "value is not bool"%string. intros s. reflexivity.
Qed.
