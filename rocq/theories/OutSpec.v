(** OutSpec.v -- the words of C41, C42 and C43: what output shows of an object, and which
    types and graphs output is about. *)
From Verif Require Import Base Mon Values TypesModel ObjModel IoModel.
From Verif Require LeafModel.
Open Scope list_scope.

(** The object [x] is in the value: it is it, or it is in an item of it. *)
Inductive occurs (x : oid) : value -> Prop :=
| occurs_here : occurs x (VObj x)
| occurs_list l v : In v l -> occurs x v -> occurs x (VList l)
| occurs_dict m k v : In (k, v) m -> occurs x v -> occurs x (VDict m).

(** What reading field [f] of [o] gives *)
Definition reads (P : program) (h : heap) (o : oid) (n : string) (v : value) : Prop :=
  fst (ObjModel.getattr (p_ct P) (p_getter P) o n h) = Ok v.

(** A modifier that concerns the parts of a value *)
Definition about_parts (m : mdf) : bool :=
  match m with MInstance _ | MListOf _ | MDictOf _ | MUnion _ => true | _ => false end.
(** A modifier that replaces the value by another one in output *)
Definition replaces (m : mdf) : bool := match m with MFmt _ | MEnum _ => true | _ => false end.
Definition parts_of (m : mdf) : list types :=
  match m with MListOf ts | MDictOf ts => [ts] | MUnion us => us | _ => [] end.

(** A chain has at most one modifier that concerns the parts, and nothing replaces the
    value before it. *)
Fixpoint in_order (ts : types) : Prop :=
  match ts with
  | [] => True
  | m :: r => (forall x, In x r -> about_parts x = true -> about_parts m = false /\ replaces m = false) /\ in_order r
  end.
Inductive orderly (ts : types) : Prop :=
| Orderly : in_order ts -> (forall m us, In m ts -> In us (parts_of m) -> orderly us) -> orderly ts.
Definition orderly_classes (P : program) : Prop :=
  forall cls d f, p_ct P cls = Some d -> In f (cd_fields d) -> orderly (fl_types f).

(** Finitely many classes *)
Definition classes_named (P : program) (U : list string) : Prop :=
  forall cls d, p_ct P cls = Some d -> In (cd_name d) U.

(** [rk] counts the levels of embedding, at most [M]: what a field that is not a reference
    (nor temporary) holds is embedded less deeply than its object. *)
Definition embedding (P : program) (h : heap) (rk : oid -> nat) (M : nat) : Prop :=
  (forall o, (rk o <= M)%nat) /\
  forall o d f v x, p_ct P (o_class (h_obj h o)) = Some d -> In f (cd_fields d) ->
    is_ref (fl_fdef f) = false -> f_fstore (fl_fdef f) <> Temp -> reads P h o (fl_name f) v -> occurs x v -> (rk x < rk o)%nat.

(** What tojson is to show of the fields of an object: neither write-only (unless told to
    ignore the mark) nor temporary, and among the picked ones. *)
Definition visible (ignore_writeonly : bool) (x : ext) (f : field) : bool :=
  negb (match f_read_rule (fl_fdef f) with NoRead => negb ignore_writeonly | _ => false end) &&
  negb (fstore_eqb (f_fstore (fl_fdef f)) Temp) && picked x (fl_name f).

Definition value_at (P : program) (h : heap) (o : oid) (n : string) : value :=
  match fst (ObjModel.getattr (p_ct P) (p_getter P) o n h) with Ok v => v | Err _ => VNone end.

(** The entries of a field: the key that is stored for a reference, and the JSON form of
    its value, None only if nulls are to be output. *)
Definition entry (out_null : bool) (k : string) (v : value) : list (string * value) :=
  if out_null || negb (is_none v) then [(k, v)] else [].
Definition entries_of (P : program) (h : heap) (x : ext) (o : oid) (ignore_writeonly out_null : bool)
                      (form : field -> value) (f : field) : list (string * value) :=
  (if is_local f && picked x (fl_name f) then entry out_null (fl_cref f) (value_at P h o (fl_ref f)) else []) ++
  (if visible ignore_writeonly x f then entry out_null (fl_json f) (form f) else []).
Definition out_names (f : field) : list string :=
  (if is_local f then [fl_cref f] else []) ++ [fl_json f].

(** What the types of field [f] write for the value that [o] has in it, called somewhere in
    the output of [o] *)
Definition writes (P : program) (n : nat) (h : heap) (x : oid -> ext) (o : oid) (f : field) (v : value) : Prop :=
  exists (c : ctx) (w w' : world), (w_heap w = h) /\ (w_ext w = x) /\ reads P h o (fl_name f) (c_val c) /\
    t_tojson (interp P n) (fl_types f) c w = (Ok v, w').

(** A modifier that leaves the value as it is in output *)
Definition inert (m : mdf) : bool :=
  match m with
  | MInstance _ | MListOf _ | MDictOf _ | MUnion _ | MFmt _ | MEnum _ | MCanRead _
  | MLeaf (LeafModel.LType LeafModel.TDate) | MLeaf (LeafModel.LType LeafModel.TDatetime) => false
  | _ => true
  end.

(** ** Secrets: single values that are to stay inside *)
Definition single (secret : value -> Prop) : Prop :=
  ~ secret VNone /\ (forall l, ~ secret (VList l)) /\ (forall m, ~ secret (VDict m)) /\ (forall o, ~ secret (VObj o)).
Inductive contains (secret : value -> Prop) : value -> Prop :=
| contains_it v : secret v -> contains secret v
| contains_item l v : In v l -> contains secret v -> contains secret (VList l)
| contains_entry m k v : In (k, v) m -> contains secret v -> contains secret (VDict m).

(** The modifiers that the classes of a program use, at any depth *)
Inductive used (P : program) : mdf -> Prop :=
| used_field cls d f m : p_ct P cls = Some d -> In f (cd_fields d) -> In m (fl_types f) -> used P m
| used_part m ts y : used P m -> In ts (parts_of m) -> In y ts -> used P y.
(** The modifiers that make a new text of a value in output: dates, enums, formatters *)
Definition makes_text (m : mdf) : bool :=
  match m with
  | MFmt _ | MEnum _ | MLeaf (LeafModel.LType LeafModel.TDate) | MLeaf (LeafModel.LType LeafModel.TDatetime) => true
  | _ => false
  end.
(** No secret is in what the visible fields hold, in the stored keys of references, or in
    what dates, enums and formatters write for a value without secrets. *)
Record kept_secret (P : program) (h : heap) (x : oid -> ext) (ignore_writeonly : bool) (secret : value -> Prop) : Prop := {
  ks_fields : forall o d f v, p_ct P (o_class (h_obj h o)) = Some d -> In f (cd_fields d) ->
    visible ignore_writeonly (x o) f = true -> reads P h o (fl_name f) v -> ~ contains secret v;
  ks_keys : forall o d f k, p_ct P (o_class (h_obj h o)) = Some d -> In f (cd_fields d) -> is_local f = true ->
    picked (x o) (fl_name f) = true -> reads P h o (fl_ref f) k -> ~ contains secret k;
  ks_texts : forall n m c w v w', used P m -> makes_text m = true -> ~ contains secret (c_val c) ->
    ChainModel.m_tojson (interp P n m) c w = (Ok v, w') -> ~ contains secret v
}.
