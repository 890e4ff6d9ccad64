(** RTypesSpec.v -- type expressions, their notation and the types they denote. *)
From Verif Require Import Base Values PyStr LeafModel TypesModel.
Open Scope string_scope.

(** Type expressions.  [XUnion] is written [Union[a, b]] and [XBar] is written
    [a | b]; a missing member of [XBar] is [None]. *)
Inductive texp :=
| XScalar (k : tykind)
| XAny
| XName (s : string)
| XList (t : texp)
| XDict (t : texp)
| XOptional (t : texp)
| XUnion (ts : list texp)
| XBar (ts : list (option texp)).

(** ** The notation *)

Fixpoint separated (sep : string) (l : list string) : string :=
  match l with
  | [] => ""
  | [x] => x
  | x :: r => x ++ sep ++ separated sep r
  end.

Definition scalar_name (k : tykind) : string :=
  match k with
  | TStr => "str" | TInt => "int" | TFloat => "float" | TBool => "bool"
  | TDate => "date" | TDatetime => "datetime" | TList => "list" | TDict => "dict"
  end.

Fixpoint print (t : texp) : string :=
  match t with
  | XScalar k => scalar_name k
  | XAny => "Any"
  | XName s => s
  | XList t => "list[" ++ print t ++ "]"
  | XDict t => "dict[str, " ++ print t ++ "]"
  | XOptional t => "Optional[" ++ print t ++ "]"
  | XUnion ts => "Union[" ++ separated ", " (map print ts) ++ "]"
  | XBar ts => separated " | " (map (fun m => match m with Some t => print t | None => "None" end) ts)
  end.

(** ** The types *)

Definition required_unless (opt : bool) (ts : types) : types :=
  if opt then ts else (ts ++ [MRequired])%list.

Fixpoint somes {A} (l : list (option A)) : list A :=
  match l with
  | [] => []
  | Some x :: r => x :: somes r
  | None :: r => somes r
  end.
Definition has_none {A} (l : list (option A)) : bool :=
  existsb (fun m => match m with None => true | Some _ => false end) l.

(** [denote name t opt]: the types of a field annotated [t]; a field is required unless
    [opt].  Members of unions are never required on their own.  [name] gives the types
    of a name. *)
Fixpoint denote (name : string -> types) (t : texp) (opt : bool) : types :=
  match t with
  | XScalar k => required_unless opt [MLeaf (LType k)]
  | XAny => required_unless opt [MAny]
  | XName s => required_unless opt (name s)
  | XList t => required_unless opt [MListOf (denote name t false)]
  | XDict t => required_unless opt [MDictOf (denote name t false)]
  | XOptional t => denote name t true
  | XUnion ts => required_unless opt [MUnion (map (fun t => denote name t true) ts)]
  | XBar ts =>
      let opt' := opt || has_none ts in
      let single :=
        match somes ts with
        | [_] => true
        | _ => false
        end in
      if single
      then hd [] (somes (map (fun m => match m with
                                       | Some t => Some (denote name t opt')
                                       | None => None
                                       end) ts))
      else required_unless opt'
             [MUnion (somes (map (fun m => match m with
                                           | Some t => Some (denote name t true)
                                           | None => None
                                           end) ts))]
  end.

(** ** Which expressions *)

(** A character of an identifier *)
Definition ident_char (c : ascii) : bool := is_alnum c || Ascii.eqb c "_".
Definition reserved : list string :=
  ["str"; "int"; "float"; "bool"; "date"; "datetime"; "Any"; "None"].
Definition good_name (s : string) : Prop :=
  s <> "" /\ forallb ident_char (chars s) = true /\ ~ In s reserved.

Definition comma_free (t : texp) : Prop := ~ In ","%char (chars (print t)).
Definition is_bar (t : texp) : bool := match t with XBar _ => true | _ => false end.

(** Accepted expressions: the value type of a dict has no comma in it (no dict and no
    [Union[...]] of two members inside); a member of [Union[...]] has none either, or
    is a dict; a bar is no direct member of a bar. *)
Fixpoint accepted (t : texp) : Prop :=
  match t with
  | XScalar k => k <> TList /\ k <> TDict
  | XAny => True
  | XName s => good_name s
  | XList t | XOptional t => accepted t
  | XDict t => accepted t /\ comma_free t
  | XUnion ts =>
      ts <> [] /\
      (fix all l := match l with
                    | [] => True
                    | t :: r => (accepted t /\ (comma_free t \/ exists v, t = XDict v)) /\ all r
                    end) ts
  | XBar ts =>
      (2 <= length ts)%nat /\ somes ts <> [] /\
      (fix all l := match l with
                    | [] => True
                    | Some t :: r => (accepted t /\ is_bar t = false) /\ all r
                    | None :: r => all r
                    end) ts
  end.

(** ** Splitting at the top level *)

(** How many brackets are open after some text *)
Fixpoint open_brackets (l : list ascii) : Z :=
  match l with
  | [] => 0
  | c :: r => (open_brackets r + (if Ascii.eqb c "[" then 1
                                  else if Ascii.eqb c "]" then -1 else 0))%Z
  end.

(** [l] is cut into [pieces] at exactly the bars outside brackets; [before] is the text
    that comes before [l]. *)
Inductive cut : list ascii -> list ascii -> list (list ascii) -> Prop :=
| cut_last before l :
    (forall a b, l = (a ++ "|"%char :: b)%list -> (1 <= open_brackets (before ++ a))%Z) ->
    cut before l [l]
| cut_bar before a b pieces :
    (forall x y, a = (x ++ "|"%char :: y)%list -> (1 <= open_brackets (before ++ x))%Z) ->
    (open_brackets (before ++ a) < 1)%Z ->
    cut (before ++ a ++ ["|"%char])%list b pieces ->
    cut before (a ++ "|"%char :: b)%list (a :: pieces).
