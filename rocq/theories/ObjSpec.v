(** ObjSpec.v -- what the theorems about the object store say, in terms of classes,
    attributes and the modification record. *)
From Verif Require Import Base PyList PyDict KeypathModel Values OListModel TypesModel ObjModel.

(** A plain data field: neither a reference nor calculated. *)
Definition plain_field (f : field) : bool :=
  negb (is_ref (fl_fdef f)) && negb (is_calc f).

Section Spec.
  Context (ct : string -> option cdef).
  Notation ofield := (ofield ct).

  (** The objects that a value of reference field [f] refers to. *)
  Definition refers (f : field) (v : value) (b : Values.oid) : Prop :=
    In (VObj b) (link_items f v).

  (** ** Well-formed classes: names are unique and have no dots; a stored-key name is
      not a field name; the other side of a relation is a reference. *)
  Record wf_class (c : string) (d : cdef) : Prop := {
    wf_names : NoDup (map fl_name (cd_fields d));
    wf_nodot : forall f, In f (cd_fields d) -> initial_keypath (fl_name f) = fl_name f;
    wf_refdot : forall f, In f (cd_fields d) -> initial_keypath (fl_ref f) = fl_ref f;
    wf_refname : forall f g, In f (cd_fields d) -> In g (cd_fields d) ->
                   is_local f = true -> fl_ref f <> fl_name g;
    wf_other : forall f g, In f (cd_fields d) ->
                 foreign_field ct c f = Some g -> is_ref (fl_fdef g) = true
  }.
  Definition wf_classes : Prop := forall c d, ct c = Some d -> wf_class c d.

  (** ** Well-typed heaps: a reference holds objects of its class, and the local keys
      of an object are those of its references that store their keys; only stored keys
      can be plain lists. *)
  Record typed_heap (h : heap) : Prop := {
    th_refs : forall o n f v b,
      ofield h o n = Some f -> is_ref (fl_fdef f) = true ->
      attr h o n = Some v -> refers f v b ->
      foreign_class f = Some (o_class (h_obj h b));
    th_keys : forall o k n,
      sget k (o_lkeys (h_obj h o)) = Some n ->
      exists f, ofield h o n = Some f /\ is_local f = true /\ fl_ref f = k;
    th_local : forall o n f,
      ofield h o n = Some f -> is_local f = true ->
      sget (fl_ref f) (o_lkeys (h_obj h o)) = Some n;
    th_raw : forall o k, In k (o_raw (h_obj h o)) -> ofield h o k = None
  }.

  (** The values that a list operation brings in. *)
  Definition op_items (op : lop value) : list value :=
    match op with
    | LAppend x | LInsert _ x | LRemove x | LSetInt _ x => [x]
    | LExtend (ItList xs | ItOnce xs) | LIAdd (ItList xs | ItOnce xs)
    | LSetSlice _ (ItList xs | ItOnce xs) => xs
    | _ => []
    end.

  (** An operation a user can perform on the fields of objects: it assigns a field
      that is not calculated, or a stored key; or it changes a list or dict held by a
      field (a plain one at any depth, a reference list itself), or a list of stored
      keys.  Objects given to a reference are of its class. *)
  Definition typed_task (h : heap) (t : task) : Prop :=
    match t with
    | TSet o n v =>
        (exists f, ofield h o n = Some f /\ is_calc f = false /\
           (is_ref (fl_fdef f) = true ->
            forall b, refers f v b -> foreign_class f = Some (o_class (h_obj h b))))
        \/ (ofield h o n = None /\ exists m, sget n (o_lkeys (h_obj h o)) = Some m)
    | TUnlink o f v | TLink o f v =>
        ofield h o (fl_name f) = Some f /\ is_ref (fl_fdef f) = true /\
        (forall b, refers f v b -> foreign_class f = Some (o_class (h_obj h b)))
    | TOp o a p lab op =>
        (exists f, ofield h o a = Some f /\ plain_field f = true /\ initial_keypath lab = a)
        \/ (exists f, ofield h o a = Some f /\ is_ref (fl_fdef f) = true /\ p = [] /\ lab = a /\
              forall b, refers f (VList (op_items op)) b -> foreign_class f = Some (o_class (h_obj h b)))
        \/ (ofield h o a = None /\ p = [] /\ lab = a /\
              exists m, sget a (o_lkeys (h_obj h o)) = Some m)
    | TDOp o a p lab op =>
        exists f, ofield h o a = Some f /\ plain_field f = true /\ initial_keypath lab = a
    end.
  Definition typed_hop (h : heap) (x : hop) : Prop := typed_task h (task_of x).

  (** Two operations that change a collection without telling its owner: [setdefault]
      with no default, and assigning a one-shot iterator to a slice. *)
  Definition silent_list (op : lop value) : bool :=
    match op with LSetSlice _ (ItOnce _) => true | _ => false end.
  Definition silent_dict (op : dop string value) : bool :=
    match op with DSetdefault _ None => true | _ => false end.
  Definition silent (t : task) : bool :=
    match t with
    | TOp _ _ _ _ op => silent_list op
    | TDOp _ _ _ _ op => silent_dict op
    | _ => false
    end.

  (** The object and attribute an operation is about. *)
  Definition touches (t : task) (o : Values.oid) (n : string) : Prop :=
    match t with
    | TSet o' n' _ => o = o' /\ n = n'
    | TOp o' a _ _ _ | TDOp o' a _ _ _ => o = o' /\ n = a
    | TUnlink _ _ _ | TLink _ _ _ => False
    end.

  (** [n] is in the modification record, by name or by a keypath below it. *)
  Definition listed (h : heap) (o : Values.oid) (n : string) : Prop :=
    exists k, In k (o_mfields (h_obj h o)) /\ initial_keypath k = n.
  Definition tracked (h : heap) (o : Values.oid) (n : string) : Prop :=
    o_modified (h_obj h o) = true /\ listed h o n.
End Spec.

(** ** Reset *)

(** A list is only put into a list field, a dict only into a dict field. *)
Definition fits (f : field) (v : value) : Prop :=
  match v with
  | VList _ => f_ftype (fl_fdef f) = Some FTList
  | VDict _ => f_ftype (fl_fdef f) = Some FTDict
  | _ => True
  end.

(** A field of this definition holds the objects of a relation, itself or in the items
    of its list, at any depth. *)
Inductive relates : fdef -> Prop :=
| rel_here d : f_fstore d = LocalKey \/ f_fstore d = ForeignKey -> relates d
| rel_items d it : f_ftype d = Some FTList -> item_types d = Some it -> relates (fdef_of it) -> relates d.

(** An operation on a plain data field: an assignment of a value that fits, or a list
    or dict method at any depth below a field without linked items.  [setdefault] with
    no default is left out (it warns nobody). *)
Definition data_task (ct : string -> option cdef) (h : heap) (t : task) : Prop :=
  match t with
  | TSet o n v => exists f, ofield ct h o n = Some f /\ plain_field f = true /\ fits f v
  | TOp o a p lab op =>
      exists f, ofield ct h o a = Some f /\ plain_field f = true /\
                ~ relates (fl_fdef f) /\ initial_keypath lab = a
  | TDOp o a p lab op =>
      exists f, ofield ct h o a = Some f /\ plain_field f = true /\
                ~ relates (fl_fdef f) /\ initial_keypath lab = a /\
                silent_dict op = false
  | _ => False
  end.
