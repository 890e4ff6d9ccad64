(** LinkSpec.v -- relations between two classes, seen through the attributes of objects. *)
From Verif Require Import Base PyList PyDict KeypathModel Values OListModel TypesModel ObjModel ObjSpec LinkOps OListSpec.

(** A relation: field [ra_field] of class [ra_class] and field [rb_field] of class
    [rb_class], each the other side of the other. *)
Record relation := { ra_class : string; ra_field : field; rb_class : string; rb_field : field }.
Definition flip (R : relation) : relation :=
  {| ra_class := rb_class R; ra_field := rb_field R; rb_class := ra_class R; rb_field := ra_field R |}.

Definition is_list_type (f : field) : bool :=
  match f_ftype (fl_fdef f) with Some FTList => true | _ => false end.

Section LinkSpec.
  Context (ct : string -> option cdef).

  Definition field_of (c : string) (f : field) : Prop := exists d, ct c = Some d /\ In f (cd_fields d).

  (** One side: a reference to objects of the other class, whose other side is the
      other field, and that is the other side of no third field. *)
  Record one_side (R : relation) : Prop := {
    os_field : field_of (ra_class R) (ra_field R);
    os_ref : is_ref (fl_fdef (ra_field R)) = true;
    os_type : f_ftype (fl_fdef (ra_field R)) = Some FTList \/ f_ftype (fl_fdef (ra_field R)) = Some FTInstance;
    os_class : foreign_class (ra_field R) = Some (rb_class R);
    os_other : foreign_field ct (ra_class R) (ra_field R) = Some (rb_field R);
    os_only : forall c f, field_of c f -> foreign_class f = Some (ra_class R) ->
                foreign_field ct c f = Some (ra_field R) -> c = rb_class R /\ f = rb_field R
  }.
  Record relation_ok (R : relation) : Prop := {
    ro_a : one_side R;
    ro_b : one_side (flip R);
    ro_two : ra_class R = rb_class R -> fl_name (ra_field R) <> fl_name (rb_field R)
  }.

  (** The primary key of a class is a data field. *)
  Definition plain_primary : Prop :=
    forall c d f, ct c = Some d -> primary_field d = Some f -> is_ref (fl_fdef f) = false.

  Definition in_relation (R : relation) (h : heap) (o : Values.oid) : Prop :=
    o_class (h_obj h o) = ra_class R \/ o_class (h_obj h o) = rb_class R.

  (** As long as the objects keep their classes and primary keys, different objects of
      the relation are not equal. *)
  Definition distinct_objects (oeq : heap -> Values.oid -> Values.oid -> bool) (R : relation) (h : heap) : Prop :=
    forall h' a b,
      (forall z, o_class (h_obj h' z) = o_class (h_obj h z)) -> (forall z, id_of ct h' z = id_of ct h z) ->
      in_relation R h a \/ in_relation R h b -> oeq h' a b = Nat.eqb a b.

  (** If a list of the relation stores its keys, different objects it may list have
      different primary keys. *)
  Definition distinct_keys (oeq : heap -> Values.oid -> Values.oid -> bool) (R : relation) (h : heap) : Prop :=
    is_local (ra_field R) = true -> is_list_type (ra_field R) = true ->
    forall h' a b, o_class (h_obj h a) = rb_class R -> o_class (h_obj h b) = rb_class R ->
      eqv oeq h' (id_of ct h a) (id_of ct h b) = Nat.eqb a b.

  (** ** What the attributes show *)
  Definition objs (v : option value) : list Values.oid :=
    match v with
    | Some (VObj b) => [b]
    | Some (VList l) => flat_map (fun x => match x with VObj b => [b] | _ => [] end) l
    | _ => []
    end.
  (** the objects that [o] refers to through [f] *)
  Definition refs (h : heap) (o : Values.oid) (f : field) : list Values.oid := objs (attr h o (fl_name f)).
  (** the objects recorded as unlinked from [o] through [f] *)
  Definition recorded (h : heap) (o : Values.oid) (f : field) : list value :=
    match sget (fl_name f) (o_unlinked (h_obj h o)) with Some l => l | None => [] end.
  Definition unlinked (h : heap) (o : Values.oid) (f : field) : list Values.oid := objs (Some (VList (recorded h o f))).
  (** the attribute that stores the key or keys of [f] *)
  Definition stored (h : heap) (o : Values.oid) (f : field) : option value := attr h o (fl_ref f).
  (** the primary key or keys of the objects referred to *)
  Definition keys_shown (h : heap) (o : Values.oid) (f : field) : value :=
    if is_list_type f then VList (map (id_of ct h) (refs h o f))
    else match refs h o f with [] => VNone | b :: _ => id_of ct h b end.

  (** The reference of a side holds None, or an object or a list of objects as its type
      says, each once; nothing it refers to is recorded as unlinked. *)
  Record side_fine (h : heap) (c : string) (f : field) : Prop := {
    sf_shape : forall o, o_class (h_obj h o) = c ->
      attr h o (fl_name f) = Some VNone \/
      (if is_list_type f then attr h o (fl_name f) = Some (VList (map VObj (refs h o f)))
       else exists b, attr h o (fl_name f) = Some (VObj b));
    sf_once : forall o, o_class (h_obj h o) = c -> NoDup (refs h o f);
    sf_pool : forall o, o_class (h_obj h o) = c -> recorded h o f = map VObj (unlinked h o f) /\ NoDup (unlinked h o f);
    sf_apart : forall o b, o_class (h_obj h o) = c -> In b (refs h o f) -> ~ In b (unlinked h o f);
    sf_stored : forall o, o_class (h_obj h o) = c -> is_local f = true ->
      exists k, stored h o f = Some k /\ (is_list_type f = true -> exists ks, k = VList ks)
  }.
  Record consistent (R : relation) (h : heap) : Prop := {
    co_a : side_fine h (ra_class R) (ra_field R);
    co_b : side_fine h (rb_class R) (rb_field R);
    co_sym : forall a b, o_class (h_obj h a) = ra_class R -> o_class (h_obj h b) = rb_class R ->
      (In b (refs h a (ra_field R)) <-> In a (refs h b (rb_field R)))
  }.
  (** The stored keys are those of the objects referred to, in the same order. *)
  Definition keys_agree (h : heap) (c : string) (f : field) : Prop :=
    is_local f = true -> forall o, o_class (h_obj h o) = c -> stored h o f = Some (keys_shown h o f).

  (** ** Operations *)

  (** An attribute of the relation: one of its fields, a stored key of one of them, or a
      primary key. *)
  Definition of_side (h : heap) (c : string) (f : field) (o : Values.oid) (n : string) : Prop :=
    o_class (h_obj h o) = c /\ (n = fl_name f \/ (is_local f = true /\ n = fl_ref f)).
  Definition of_relation (R : relation) (h : heap) (o : Values.oid) (n : string) : Prop :=
    of_side h (ra_class R) (ra_field R) o n \/ of_side h (rb_class R) (rb_field R) o n \/
    (exists d f, ct (o_class (h_obj h o)) = Some d /\ primary_field d = Some f /\ n = fl_name f).

  (** An operation on any other attribute *)
  Definition elsewhere (R : relation) (h : heap) (x : hop) : Prop :=
    typed_hop ct h x /\
    match x with HSet o n _ | HList o n _ _ _ | HDict o n _ _ _ => ~ of_relation R h o n end.

  (** Assigning None, an object, or a list of different objects, of the right class, to
      the field of one side; or calling a list method that puts only objects into the list
      that are not in it yet. *)
  Definition on_side (R : relation) (h : heap) (x : hop) : Prop :=
    match x with
    | HSet o n v =>
        o_class (h_obj h o) = ra_class R /\ n = fl_name (ra_field R) /\
        exists new, NoDup new /\ (forall b, In b new -> o_class (h_obj h b) = rb_class R) /\
          ((v = VNone /\ new = []) \/
           (if is_list_type (ra_field R) then v = VList (map VObj new) else exists b, v = VObj b /\ new = [b]))
    | HList o n p lab op =>
        o_class (h_obj h o) = ra_class R /\ n = fl_name (ra_field R) /\ p = [] /\ lab = n /\
        is_list_type (ra_field R) = true /\ loud op /\
        exists new, inserts op (map VObj (refs h o (ra_field R))) = map VObj new /\
          NoDup (refs h o (ra_field R) ++ new) /\ (forall b, In b new -> o_class (h_obj h b) = rb_class R)
    | HDict _ _ _ _ _ => False
    end.
  Definition link_op (R : relation) (h : heap) (x : hop) : Prop :=
    elsewhere R h x \/ on_side R h x \/ on_side (flip R) h x.

  (** Methods that keep a stored key list in step: all but [sort], [reverse] and
      assignment to an index or a slice. *)
  Definition in_step (R : relation) (h : heap) (x : hop) : Prop :=
    match x with
    | HList o n p lab op =>
        (o_class (h_obj h o) = ra_class R /\ n = fl_name (ra_field R) /\ is_local (ra_field R) = true) \/
        (o_class (h_obj h o) = rb_class R /\ n = fl_name (rb_field R) /\ is_local (rb_field R) = true) ->
        mirrored op = true
    | _ => True
    end.

  (** What an operation on the field of a side is called for: the assigned objects are
      the ones referred to, or the list holds what the method leaves in a plain list. *)
  Definition takes_effect (oeq : heap -> Values.oid -> Values.oid -> bool) (R : relation)
      (h h' : heap) (x : hop) : Prop :=
    match x with
    | HSet o _ v => refs h' o (ra_field R) = objs (Some v)
    | HList o _ _ _ op =>
        sized_argument op ->
        exists y, plain_step (eqv oeq h) op (map VObj (refs h o (ra_field R))) =
          (Ok y, map VObj (refs h' o (ra_field R)))
    | HDict _ _ _ _ _ => True
    end.

  (** What an operation on the field of one object does to the others of its class: they
      keep their links, except that an object which can have only one link is taken away
      from the others by the one that links it. *)
  Definition leaves_others (R : relation) (h h' : heap) (x : hop) : Prop :=
    match x with
    | HSet o _ _ | HList o _ _ _ _ | HDict o _ _ _ _ =>
        forall a b, a <> o -> o_class (h_obj h a) = ra_class R ->
          (In b (refs h' a (ra_field R)) <->
           In b (refs h a (ra_field R)) /\
           (is_list_type (rb_field R) = true \/ ~ In b (refs h' o (ra_field R))))
    end.

  (** ** Histories: each operation meets the condition in the heap it finds. *)
  Section Hist.
    Context (run1 : hop -> heap -> res unit * heap) (P : heap -> hop -> Prop).
    Fixpoint lawful (xs : list hop) (h : heap) : Prop :=
      match xs with
      | [] => True
      | x :: r => P h x /\ forall h', run1 x h = (Ok tt, h') -> lawful r h'
      end.
  End Hist.

  (** What the theorems assume of the classes, of equality and of the objects at hand. *)
  Record setting (oeq : heap -> Values.oid -> Values.oid -> bool) (R : relation) (h : heap) : Prop := {
    st_wf : wf_classes ct;
    st_primary : plain_primary;
    st_rel : relation_ok R;
    st_typed : typed_heap ct h;
    st_objects : distinct_objects oeq R h;
    st_akeys : distinct_keys oeq R h;
    st_bkeys : distinct_keys oeq (flip R) h;
    st_consistent : consistent R h
  }.
End LinkSpec.
