(** PropRTypes.v -- C47: type strings parse to the type they denote. *)
From Verif Require Import Base Values PyStr LeafModel TypesModel RTypesModel RTypesSpec RTypesProofs.
Open Scope string_scope.
Open Scope list_scope.
Open Scope nat_scope.

(** ** Splitting a union *)

(** Every text has exactly one cut at the bars outside brackets, and splitting gives the
    pieces of that cut without the white space around them. *)
Theorem C47_union_split : forall l, exists pieces,
  cut [] l pieces /\ (forall pieces', cut [] l pieces' -> pieces' = pieces) /\
  union_split l = map strip pieces.
Proof.
  intros l. destruct (split_go_cut l [] [] []) as (ps & E & C).
  { intros x y H. destruct x; discriminate H. }
  exists ps. split; [exact C|]. split.
  - intros ps' C'. exact (cut_unique _ _ _ _ C' C).
  - unfold union_split. simpl in E. rewrite E. reflexivity.
Qed.
Print Assumptions C47_union_split.

Example C47_union_split_example :
  union_split (chars "list[int | str] | dict[str, a | b] | None") =
  map chars ["list[int | str]"; "dict[str, a | b]"; "None"].
Proof. reflexivity. Qed.

(** ** Reading back *)

(** The text of every accepted expression gives its types; a name is kept as a name.
    The recursion need not go deeper than the text is long. *)
Theorem C47_parse_print : forall t, accepted t -> forall n opt,
  length (chars (print t)) < n ->
  str_to_types n (chars (print t)) opt = Ok (denote (fun s => [MUnresolved s]) t opt).
Proof. exact parse_print. Qed.
Print Assumptions C47_parse_print.

Definition ex_texp : texp :=
  XBar [Some (XList (XUnion [XDict (XOptional (XName "User")); XScalar TInt; XList XAny]));
        Some (XDict (XBar [Some (XScalar TStr); Some (XName "Color")])); None].
Example C47_parse_print_example :
  accepted ex_texp /\
  print ex_texp =
    "list[Union[dict[str, Optional[User]], int, list[Any]]] | dict[str, str | Color] | None" /\
  str_to_types 100 (chars (print ex_texp)) false =
    Ok [MUnion
          [[MListOf [MUnion [[MDictOf [MUnresolved "User"]]; [MLeaf (LType TInt)];
                             [MListOf [MAny; MRequired]]]; MRequired]];
           [MDictOf [MUnion [[MLeaf (LType TStr)]; [MUnresolved "Color"]]; MRequired]]]].
Proof.
  split; [|split; reflexivity].
  unfold ex_texp. simpl. unfold comma_free, good_name, reserved.
  repeat split; try lia; try discriminate; try (intros H; simpl in H; intuition discriminate).
  - right. eauto.
  - left. intros H. simpl in H. intuition discriminate.
  - left. intros H. simpl in H. intuition discriminate.
Qed.


(** Parsing any text at all ends: it gives types or a proper exception after no more
    nested calls than the text has characters. *)
Theorem C47_parse_ends : forall s n opt, length s < n ->
  str_to_types n s opt <> Err ERecursion.
Proof. intros s n opt. apply parse_never_deep. Qed.
Print Assumptions C47_parse_ends.

(** ** Links *)

(** [Annotated[t, linkto]], [Annotated[t, linkedby('f')]] and
    [Annotated[t, linkedthru('f')]] are the types of [t] with that link. *)
Theorem C47_annotated : forall t fk, accepted t -> forallb ident_char (chars fk) = true -> fk <> "" ->
  forall n opt, length (chars (print t)) < n ->
  let parse link := str_to_types (S n) (chars ("Annotated[" ++ print t ++ ", " ++ link ++ "]")) opt in
  let ts := denote (fun s => [MUnresolved s]) t opt in
  parse "linkto" = Ok (ts ++ [MLinkto]) /\
  parse ("linkedby('" ++ fk ++ "')")%string =
    Ok (ts ++ (if is_list_type (f_ftype (fdef_of ts)) then [MNonnull; MLinkedby fk] else [MLinkedby fk])) /\
  parse ("linkedthru('" ++ fk ++ "')")%string = Ok (ts ++ [MNonnull; MLinkedthru fk]).
Proof.
  intros t fk A F N n opt L parse ts.
  assert (Q : quoted (chars fk ++ chars "')") = Some fk).
  { unfold quoted.
    assert (K : forall a, a <> [] -> forallb ident_char a = true ->
                dots (starts "')") (a ++ chars "')") = Some (a, [])).
    { induction a as [|c a IH]; intros Na Ha; [contradiction|].
      simpl in Ha. apply andb_true_iff in Ha as [Hc Ha].
      change ((c :: a) ++ chars "')") with (c :: (a ++ chars "')")). cbn [dots].
      destruct a as [|d a].
      - reflexivity.
      - rewrite IH by (assumption || discriminate). reflexivity. }
    rewrite K; [rewrite unchars_chars; reflexivity| |exact F].
    destruct fk; [contradiction N; reflexivity|discriminate]. }
  assert (PC : forallb (fun c => plain_char c && negb (Ascii.eqb c ",")) (chars fk) = true).
  { eapply forallb_imp; [|exact F]. intros c H. rewrite (ident_plain c H).
    destruct (Ascii.eqb_spec c ",") as [->|]; [discriminate H|reflexivity]. }
  assert (B : forall link, tight (chars link) ->
     forallb (fun c => plain_char c && negb (Ascii.eqb c ",")) (chars link) = true ->
     parse link = apply_link ts (chars link)).
  { intros link T P. unfold parse. apply annotated_parse; assumption. }
  assert (TW : forall pre, tight (chars pre) -> tight (chars (pre ++ fk ++ "')"))).
  { intros pre T. rewrite !chars_app. apply tight_wrap; [exact T|]. tight_const. }
  split; [|split].
  - rewrite B; [reflexivity|tight_const|reflexivity].
  - rewrite B.
    + rewrite !chars_app. unfold apply_link.
      change (starts "linkto" (chars "linkedby('" ++ chars fk ++ chars "')")) with (@None text).
      change (starts "linkedby('" (chars "linkedby('" ++ chars fk ++ chars "')"))
        with (Some (chars fk ++ chars "')")). cbv iota. rewrite Q.
      destruct (is_list_type (f_ftype (fdef_of ts))); reflexivity.
    + apply TW. tight_const.
    + rewrite !chars_app, !forallb_app, PC. reflexivity.
  - rewrite B.
    + rewrite !chars_app. unfold apply_link.
      change (starts "linkto" (chars "linkedthru('" ++ chars fk ++ chars "')")) with (@None text).
      change (starts "linkedby('" (chars "linkedthru('" ++ chars fk ++ chars "')")) with (@None text).
      change (starts "linkedthru('" (chars "linkedthru('" ++ chars fk ++ chars "')"))
        with (Some (chars fk ++ chars "')")). cbv iota. rewrite Q. reflexivity.
    + apply TW. tight_const.
    + rewrite !chars_app, !forallb_app, PC. reflexivity.
Qed.
Print Assumptions C47_annotated.

Example C47_annotated_example :
  str_to_types 100 (chars "Annotated[list[Post], linkedby('author')]") false =
  Ok [MListOf [MUnresolved "Post"; MRequired]; MRequired; MNonnull; MLinkedby "author"].
Proof. reflexivity. Qed.

(** ** Annotations that are objects *)

(** The Python object an expression evaluates to, without quotes.  [typing] merges
    nested unions and drops one-member unions, so those are left out; [AClass] is a
    class. *)
Fixpoint object_of (t : texp) : anno :=
  match t with
  | XScalar k => AScalar k
  | XAny => AAny
  | XName s => AClass s
  | XList t => AList (object_of t)
  | XDict t => ADict (AScalar TStr) (object_of t)
  | XOptional t => AUnion [object_of t; ANone]
  | XUnion ts => AUnion (map object_of ts)
  | XBar ts => ABar (map (fun m => match m with Some t => object_of t | None => ANone end) ts)
  end.
Definition no_union (t : texp) : Prop :=
  match t with XOptional _ | XUnion _ | XBar _ => False | _ => True end.
Fixpoint object_ok (t : texp) : Prop :=
  match t with
  | XScalar k => k <> TList /\ k <> TDict
  | XAny | XName _ => True
  | XList t | XDict t => object_ok t
  | XOptional t => object_ok t /\ no_union t
  | XUnion ts => 2 <= length ts /\
      (fix all l := match l with
                    | [] => True
                    | t :: r => (object_ok t /\ no_union t) /\ all r
                    end) ts
  | XBar _ => False
  end.

Lemma to_types_object limit t : object_ok t ->
  to_types limit (object_of t) false = Ok (denote (fun s => [MInstance s]) t false) /\
  (no_union t -> forall opt,
     to_types limit (object_of t) opt = Ok (denote (fun s => [MInstance s]) t opt)).
Proof.
  assert (NT : forall t ts, object_of t <> ATypes ts) by (intros []; discriminate).
  assert (NN : forall t, object_of t <> ANone) by (intros []; discriminate).
  induction t as [k| |s|t IH|t IH|t IH|ts IH|ts IH] using texp_rect'; intros A.
  - destruct A as [A1 A2]. destruct k; try contradiction; split; reflexivity.
  - split; reflexivity.
  - split; reflexivity.
  - assert (K : forall opt, to_types limit (object_of (XList t)) opt =
                            Ok (denote (fun s => [MInstance s]) (XList t) opt)).
    { intros opt. cbn [object_of to_types denote]. specialize (NT t).
      destruct (IH A) as [IH1 _].
      destruct (object_of t); try (rewrite IH1; reflexivity). exfalso. exact (NT _ eq_refl). }
    split; [apply K|]. intros _. exact K.
  - assert (K : forall opt, to_types limit (object_of (XDict t)) opt =
                            Ok (denote (fun s => [MInstance s]) (XDict t) opt)).
    { intros opt. cbn [object_of to_types denote]. specialize (NT t).
      destruct (IH A) as [IH1 _].
      destruct (object_of t); try (rewrite IH1; reflexivity). exfalso. exact (NT _ eq_refl). }
    split; [apply K|]. intros _. exact K.
  - split; [|intros []]. destruct A as [A1 A2]. destruct (IH A1) as [_ IH2].
    cbn [object_of to_types denote]. specialize (NN t).
    specialize (IH2 A2 true). destruct (object_of t); try exact IH2. exfalso. apply NN. reflexivity.
  - split; [|intros []]. destruct A as [A1 A2]. cbn [object_of].
    assert (M : Forall (fun t => to_types limit (object_of t) true =
                                 Ok (denote (fun s => [MInstance s]) t true)) ts).
    { clear A1. induction IH as [|t ts Ht IHts IHl]; constructor.
      - apply Ht; [apply A2|apply A2].
      - apply IHl, A2. }
    assert (F : filter (fun x => match x with ANone => false | _ => true end) (map object_of ts) =
                map object_of ts).
    { clear -NN. induction ts as [|t ts IH]; [reflexivity|]. cbn [map filter].
      pose proof (NN t). destruct (object_of t); try (rewrite IH; reflexivity). contradiction. }
    assert (X : existsb (fun x => match x with ANone => true | _ => false end) (map object_of ts) = false).
    { clear -NN. induction ts as [|t ts IH]; [reflexivity|]. cbn [map existsb].
      pose proof (NN t). destruct (object_of t); try (rewrite IH; reflexivity). contradiction. }
    cbn [to_types denote]. rewrite F, X.
    match goal with |- context [let* us := ?g (map object_of ts) in _] =>
      assert (G : g (map object_of ts) = Ok (map (fun t => denote (fun s => [MInstance s]) t true) ts)) end.
    { clear -M NN. induction M as [|t ts E M IH]; [reflexivity|]. cbn [map].
      pose proof (NN t). destruct (object_of t); try (rewrite E, IH; reflexivity). contradiction. }
    rewrite G. destruct ts as [|a [|b ts]]; simpl in A1; try lia. reflexivity.
  - destruct A.
Qed.

(** An annotation that is an object means the same as its text, except that classes are
    known at once. *)
Theorem C47_objects : forall limit t, object_ok t ->
  rtypes limit (object_of t) = Ok (denote (fun s => [MInstance s]) t false).
Proof.
  intros limit t A. pose proof (proj1 (to_types_object limit t A)) as E.
  destruct t; exact E.
Qed.
Print Assumptions C47_objects.

Example C47_objects_example :
  object_ok (XDict (XUnion [XList (XOptional (XName "User")); XScalar TInt])) /\
  rtypes 5 (object_of (XDict (XUnion [XList (XOptional (XName "User")); XScalar TInt]))) =
  Ok [MDictOf [MUnion [[MListOf [MInstance "User"]]; [MLeaf (LType TInt)]]; MRequired]; MRequired].
Proof. split; [|reflexivity]. simpl. repeat split; try discriminate; lia. Qed.

(** A chain written by hand is kept as it is, as a field and as the items of a list or
    dict. *)
Theorem C47_chains_are_kept : forall limit ts,
  rtypes limit (ATypes ts) = Ok ts /\
  rtypes limit (AList (ATypes ts)) = Ok [MListOf ts; MRequired] /\
  (forall k, rtypes limit (ADict k (ATypes ts)) = Ok [MDictOf ts; MRequired]) /\
  rtypes limit (AUnion [AList (ATypes ts); ANone]) = Ok [MListOf ts].
Proof. intros limit ts. repeat split. Qed.
Print Assumptions C47_chains_are_kept.

(** A text annotation is read when the class is defined, with the recursion limit. *)
Theorem C47_text_annotation : forall limit t, accepted t -> length (chars (print t)) < limit ->
  rtypes limit (AText (print t)) = Ok (denote (fun s => [MUnresolved s]) t false).
Proof. intros limit t A L. apply parse_print; assumption. Qed.
Print Assumptions C47_text_annotation.

(** ** Names *)

(** A field of a named class or enum becomes an instance or enum field of that name, a
    class being preferred; a name that is neither raises.  The chain is otherwise
    unchanged, so it is required just when it was. *)
Theorem C47_names : forall has_class has_enum s opt,
  let ts := denote (fun s => [MUnresolved s]) (XName s) opt in
  let r := rnamedtypes has_class has_enum ts in
  (has_class s = true -> exists ts', r = Ok ts' /\ f_ftype (fdef_of ts') = Some FTInstance /\
      f_inst (fdef_of ts') = Some s /\ f_required (fdef_of ts') = negb opt) /\
  (has_class s = false -> has_enum s = true -> exists ts', r = Ok ts' /\
      f_ftype (fdef_of ts') = Some FTEnum /\ f_enum (fdef_of ts') = Some s /\
      f_required (fdef_of ts') = negb opt) /\
  (has_class s = false -> has_enum s = false -> r = Err EUnresolvedName).
Proof.
  intros hc he s opt ts r. unfold r, rnamedtypes.
  assert (U : unresolved_name ts = Some s) by (destruct opt; reflexivity). rewrite U.
  split; [|split].
  - intros ->. eexists. split; [reflexivity|]. destruct opt; repeat split; reflexivity.
  - intros -> ->. eexists. split; [reflexivity|]. destruct opt; repeat split; reflexivity.
  - intros -> ->. reflexivity.
Qed.
Print Assumptions C47_names.

Example C47_names_example :
  rnamedtypes (String.eqb "User") (String.eqb "Color") [MUnresolved "Color"; MRequired] =
  Ok [MUnresolved "Color"; MRequired; MEnum "Color"].
Proof. reflexivity. Qed.

(** ** Notations that are not read as written *)

(** A dict of dicts becomes a dict of the innermost values with a bracket left in the
    name; a dict of a union keeps the last member only, again with a bracket. *)
Theorem C47_nested_dict_refuted :
  (let t := XDict (XDict (XScalar TInt)) in
   str_to_types 100 (chars (print t)) false = Ok [MDictOf [MUnresolved "int]"; MRequired]; MRequired]) /\
  (let t := XDict (XUnion [XScalar TInt; XScalar TStr]) in
   str_to_types 100 (chars (print t)) false = Ok [MDictOf [MUnresolved "str]"; MRequired]; MRequired]).
Proof. split; reflexivity. Qed.
Print Assumptions C47_nested_dict_refuted.

(** Members of [Union[...]] with a comma inside brackets are torn apart, unless they
    are dicts. *)
Theorem C47_nested_union_refuted :
  (let t := XUnion [XList (XDict (XScalar TInt)); XScalar TStr] in
   str_to_types 100 (chars (print t)) false = Err EAssertion) /\
  (let t := XUnion [XUnion [XScalar TInt; XScalar TStr]; XScalar TFloat] in
   str_to_types 100 (chars (print t)) false = Err EAssertion).
Proof. split; reflexivity. Qed.
Print Assumptions C47_nested_union_refuted.

(** [Union[int, None]] as text is a required union with a class called None;
    [Optional['User']] is required although it is optional; [int | str] without quotes
    raises. *)
Theorem C47_optional_refuted :
  str_to_types 100 (chars "Union[int, None]") false =
    Ok [MUnion [[MLeaf (LType TInt)]; [MUnresolved "None"]]; MRequired] /\
  rtypes 100 (AUnion [AForward "User"; ANone]) = Ok [MUnresolved "User"; MRequired] /\
  str_to_types 100 (chars "Optional[User]") false = Ok [MUnresolved "User"] /\
  rtypes 100 (ABar [AScalar TInt; AScalar TStr]) = Err EValueError.
Proof. repeat split; reflexivity. Qed.
Print Assumptions C47_optional_refuted.
