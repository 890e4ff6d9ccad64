(** RTypesModel.v -- model of jsonclasses/rtypes.py: from type annotations, as text or
    as Python objects, to types chains.

    Text is a list of characters.  Simplification: the text has no line breaks (the
    dot of a regular expression does not match them), and [strip] takes away the white
    space of PyStr.v. *)
From Verif Require Import Base Values PyStr LeafModel TypesModel.
Open Scope string_scope.
Open Scope list_scope.

Notation text := (list ascii).

Definition text_eqb (a : text) (b : string) : bool := String.eqb (unchars a) b.

(** ** Pieces of regular expressions *)

(** [l] without the prefix [p] *)
Fixpoint drop_prefix (p l : text) : option text :=
  match p, l with
  | [], _ => Some l
  | c :: p', d :: l' => if Ascii.eqb c d then drop_prefix p' l' else None
  | _, [] => None
  end.
Definition starts (p : string) (l : text) : option text := drop_prefix (chars p) l.

(** Any text and then the character [c], as much text as possible: everything before
    the last [c]. *)
Fixpoint upto_last (c : ascii) (l : text) : option text :=
  match l with
  | [] => None
  | d :: r => match upto_last c r with
              | Some x => Some (d :: x)
              | None => if Ascii.eqb c d then Some [] else None
              end
  end.

(** The same with at least one character before *)
Definition upto_last1 (c : ascii) (l : text) : option text :=
  match l with
  | [] => None
  | d :: r => option_map (cons d) (upto_last c r)
  end.

Fixpoint drop_spaces (l : text) : text :=
  match l with
  | c :: r => if Ascii.eqb c " " then drop_spaces r else l
  | [] => []
  end.

(** A comma, spaces, and any text as a group up to a closing bracket *)
Definition comma_group (l : text) : option text :=
  match l with
  | c :: r => if Ascii.eqb c "," then upto_last "]" (drop_spaces r) else None
  | [] => None
  end.

(** The same with a group of at least one character: the spaces give back one if the
    group needs it *)
Fixpoint spaces_group1 (l : text) : option text :=
  match l with
  | c :: r => if Ascii.eqb c " " then
                match spaces_group1 r with
                | Some g => Some g
                | None => upto_last1 "]" l
                end
              else upto_last1 "]" l
  | [] => None
  end.
Definition comma_group1 (l : text) : option text :=
  match l with
  | c :: r => if Ascii.eqb c "," then spaces_group1 r else None
  | [] => None
  end.

(** At least one character of any kind, as many as possible, and then [x]: the text
    before and what [x] gives *)
Fixpoint dots {A} (x : text -> option A) (l : text) : option (text * A) :=
  match l with
  | [] => None
  | c :: r => match dots x r with
              | Some (p, a) => Some (c :: p, a)
              | None => match x r with Some a => Some ([c], a) | None => None end
              end
  end.

(** rtypes.py:132, splitting at each comma with the spaces after it *)
Fixpoint split_commas (l : text) (skipping : bool) (cur : text) : list text :=
  match l with
  | [] => [cur]
  | c :: r =>
      if skipping && Ascii.eqb c " " then split_commas r true cur
      else if Ascii.eqb c "," then cur :: split_commas r true []
      else split_commas r false (cur ++ [c])
  end.

Definition first_is (p : ascii -> bool) (l : text) : bool :=
  match l with c :: _ => p c | [] => false end.

(** [^[Ll]ist\[] and [^[Dd]ict\[] *)
Definition list_prefix (l : text) : option text :=
  match starts "list[" l with Some r => Some r | None => starts "List[" l end.
Definition dict_prefix (l : text) : option text :=
  match starts "dict[" l with Some r => Some r | None => starts "Dict[" l end.

(** ** rtypes.py *)

Definition strip (l : text) : text := rev (lstrip (rev (lstrip l))).

(** rtypes.py:48-67 union_split: the pieces, the last one under construction first *)
Fixpoint union_split_go (l : text) (depth : Z) (done : list text) (cur : text) : list text :=
  match l with
  | [] => done ++ [cur]
  | c :: r =>
      if Ascii.eqb c "[" then union_split_go r (depth + 1)%Z done (cur ++ [c])
      else if Ascii.eqb c "]" then union_split_go r (depth - 1)%Z done (cur ++ [c])
      else if Ascii.eqb c "|" then
        if (depth <? 1)%Z then union_split_go r depth (done ++ [cur]) []
        else union_split_go r depth done (cur ++ [c])
      else union_split_go r depth done (cur ++ [c])
  end.
Definition union_split (l : text) : list text := map strip (union_split_go l 0%Z [] []).

(** rtypes.py:69-93 merge_back_dicts; [args[idx + 1]] raises past the end *)
Fixpoint merge_back_dicts (l : list text) : res (list text) :=
  match l with
  | [] => Ok []
  | a :: r =>
      match dict_prefix a with
      | Some _ => match r with
                  | [] => Err EIndexError
                  | b :: r' => let* m := merge_back_dicts r' in Ok ((a ++ chars ", " ++ b) :: m)
                  end
      | None => let* m := merge_back_dicts r in Ok (a :: m)
      end
  end.

(** [t if opt else t.required] *)
Definition req (opt : bool) (ts : types) : types := if opt then ts else ts ++ [MRequired].

Definition scalar (k : tykind) : types := [MLeaf (LType k)].

(** rtypes.py:18-46 apply_link_specifier *)
Definition quoted (l : text) : option string :=
  match dots (starts "')") l with Some (g, _) => Some (unchars g) | None => None end.
Definition apply_link (ts : types) (spec : text) : res types :=
  match starts "linkto" spec with
  | Some _ => Ok (ts ++ [MLinkto])
  | None =>
      match starts "linkedby('" spec with
      | Some r => match quoted r with
                  | None => Err EAssertion
                  | Some fk => if is_list_type (f_ftype (fdef_of ts))
                               then Ok (ts ++ [MNonnull; MLinkedby fk])
                               else Ok (ts ++ [MLinkedby fk])
                  end
      | None =>
          match starts "linkedthru('" spec with
          | Some r => match quoted r with
                      | None => Err EAssertion
                      | Some fk => Ok (ts ++ [MNonnull; MLinkedthru fk])
                      end
          | None => Err ETypeError
          end
      end
  end.

Fixpoint all_ok {A B} (f : A -> res B) (l : list A) : res (list B) :=
  match l with
  | [] => Ok []
  | x :: r => let* y := f x in let* ys := all_ok f r in Ok (y :: ys)
  end.

(** rtypes.py:96-175 str_to_types.  The recursion is on shorter text; [n] bounds its
    depth, Python's recursion limit. *)
Fixpoint str_to_types (n : nat) (s : text) (opt : bool) : res types :=
  match n with
  | O => Err ERecursion
  | S n' =>
      if text_eqb s "str" then Ok (req opt (scalar TStr))
      else if text_eqb s "int" then Ok (req opt (scalar TInt))
      else if text_eqb s "float" then Ok (req opt (scalar TFloat))
      else if text_eqb s "bool" then Ok (req opt (scalar TBool))
      else if text_eqb s "date" then Ok (req opt (scalar TDate))
      else if text_eqb s "datetime" then Ok (req opt (scalar TDatetime))
      else if text_eqb s "Any" then Ok (req opt [MAny])
      else
        let args := union_split s in
        if Nat.eqb (length args) 1 then
          match starts "Union[" s with
          | Some r =>
              match upto_last "]" r with
              | None => Err EAssertion
              | Some inner =>
                  let* toks := merge_back_dicts (split_commas inner false []) in
                  let* us := all_ok (fun t => str_to_types n' t true) toks in
                  Ok (req opt [MUnion us])
              end
          | None =>
          match starts "Optional[" s with
          | Some r =>
              match upto_last "]" r with
              | None => Err EAssertion
              | Some inner => str_to_types n' inner true
              end
          | None =>
          match list_prefix s with
          | Some r =>
              match upto_last "]" r with
              | None => Err EAssertion
              | Some inner => let* it := str_to_types n' inner false in
                              Ok (req opt [MListOf it])
              end
          | None =>
          match dict_prefix s with
          | Some r =>
              match dots comma_group r with
              | None => Err EAssertion
              | Some (_, inner) => let* it := str_to_types n' inner false in
                                   Ok (req opt [MDictOf it])
              end
          | None =>
          match starts "Annotated[" s with
          | Some r =>
              match dots comma_group1 r with
              | None => Err EAssertion
              | Some (inst, spec) =>
                  let* ts := str_to_types n' inst opt in apply_link ts spec
              end
          | None => Ok (req opt [MUnresolved (unchars s)])
          end end end end end
        else
          let rs := filter (fun a => negb (text_eqb a "None")) args in
          let opt' := opt || negb (Nat.eqb (length args) (length rs)) in
          match rs with
          | [r] => str_to_types n' r opt'
          | _ => let* us := all_ok (fun t => str_to_types n' t true) rs in
                 Ok (req opt' [MUnion us])
          end
  end.

(** Annotations that are Python objects; [ABar] is [X | Y] written without quotes
    (types.UnionType), [ATypes] is a [Types] object. *)
Inductive anno :=
| AText (s : string) | AScalar (k : tykind) | AAny | ANone
| AList (a : anno) | ADict (k v : anno) | AUnion (l : list anno) | ABar (l : list anno)
| AAnnotated (a : anno) (spec : string) | AEnum (e : string) | AClass (c : string)
| AForward (s : string) | ATypes (ts : types) | AOther.

Section ToTypes.
  (** the recursion limit *)
  Context (limit : nat).

  (** rtypes.py:178-246 to_types and 249-264 rtypes.  The item type of a list or dict
      is converted when it is first needed (fdef.py:344-347); here at once. *)
  Fixpoint to_types (a : anno) (opt : bool) : res types :=
    match a with
    | AText s => str_to_types limit (chars s) false
    | AScalar TList | AScalar TDict => Err EValueError
    | AScalar k => Ok (req opt (scalar k))
    | AAny => Ok (req opt [MAny])
    | AList x => let* it := (match x with ATypes ts => Ok ts | _ => to_types x false end) in
                 Ok (req opt [MListOf it])
    | ADict _ x => let* it := (match x with ATypes ts => Ok ts | _ => to_types x false end) in
                   Ok (req opt [MDictOf it])
    | AUnion l =>
        let members := filter (fun x => match x with ANone => false | _ => true end) l in
        let opt' := existsb (fun x => match x with ANone => true | _ => false end) l in
        let fix go (l : list anno) : res (list types) :=
          match l with
          | [] => Ok []
          | ANone :: r => go r
          | x :: r => let* y := to_types x true in let* ys := go r in Ok (y :: ys)
          end in
        let fix only (l : list anno) : res types :=
          match l with
          | [] => Err EValueError
          | ANone :: r => only r
          | x :: _ => to_types x opt'
          end in
        match members with
        | [_] => only l
        | _ => let* us := go l in Ok (req opt' [MUnion us])
        end
    | AAnnotated x spec => let* ts := to_types x opt in apply_link ts (chars spec)
    | AEnum e => Ok (req opt [MEnum e])
    | AClass c => Ok (req opt [MInstance c])
    | AForward s => str_to_types limit (chars s) false
    | ATypes _ | ANone | ABar _ | AOther => Err EValueError
    end.

  Definition rtypes (a : anno) : res types :=
    match a with
    | ATypes ts => Ok ts
    | _ => to_types a false
    end.
End ToTypes.

(** fdef._unresolved_name of a chain that is not resolved yet
    (modifiers/unresolved_modifier.py:12-14) *)
Definition unresolved_name (ts : types) : option string :=
  fold_left (fun a m => match m with MUnresolved n => Some n | _ => a end) ts None.

(** rtypes.py:267-289 rnamedtypes, with the classes and enums of the class graph *)
Definition rnamedtypes (has_class has_enum : string -> bool) (ts : types) : res types :=
  match unresolved_name ts with
  | None => Ok ts
  | Some n => if has_class n then Ok (ts ++ [MInstance n])
              else if has_enum n then Ok (ts ++ [MEnum n])
              else Err EUnresolvedName
  end.
