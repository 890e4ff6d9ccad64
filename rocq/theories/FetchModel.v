(** FetchModel.v -- the parts of jsonclassify.py that ask a data base for more of an object,
    or list what is to be written: [include], [complete], [pick], [omit],
    [persisted_modified_fields].

    Simplifications: a query is a value that an arbitrary function answers; it may make
    objects or raise.  [complete]'s ORM method is arbitrary, too. *)
From Verif Require Import Base Mon PyList PyDict KeypathModel Values TypesModel ObjModel.
Open Scope string_scope.
Open Scope list_scope.

(** orm.py: the queries that [include] runs *)
Inductive query :=
| QId (cls : string) (id : value)                       (* cls.id(id).exec() *)
| QIds (cls : string) (ids : value)                     (* cls.ids(ids).exec() *)
| QOne (cls key : string) (v : value)                   (* cls.one(key=v).exec() *)
| QFind (cls key : string) (v : value).                 (* cls.find(key=v).exec() *)

Section Fetch.
  Context (ct : string -> option cdef).
  Context (oeq : heap -> Values.oid -> Values.oid -> bool).
  Context (getter : heap -> Values.oid -> string -> res value).
  Context (setter : Values.oid -> string -> value -> st heap unit).
  Context (pystr : value -> string).
  Context (fuel : nat).
  Variable ask : query -> st heap value.

  (** jsonclassify.py:395-398: the class of the objects of a field.  [cls] is not bound for
      other fields, which have no stored or foreign key. *)
  Definition target (f : field) : st heap string :=
    match foreign_class f with
    | Some c => match ct c with Some _ => ret c | None => throw ENotFound end
    | None => throw EAttributeError
    end.

  (** jsonclassify.py:415-417, 421-423, 427-429: the name of the key on the other side *)
  Definition other_key (o : Values.oid) (f : field) : st heap string :=
    do* ff <- gets (fun h => foreign_field ct (o_class (h_obj h o)) f);
    match ff with Some g => ret (fl_ref g) | None => throw EAttributeError end.

  (** jsonclassify.py:401-432: the query, if any *)
  Definition include_query (o : Values.oid) (f : field) : st heap (option query) :=
    match f_fstore (fl_fdef f), f_ftype (fl_fdef f) with
    | LocalKey, Some FTInstance =>
        do* c <- target f; do* k <- getattr ct getter o (fl_ref f); ret (Some (QId c k))
    | LocalKey, Some FTList =>
        do* c <- target f; do* k <- getattr ct getter o (fl_ref f); ret (Some (QIds c k))
    | ForeignKey, Some FTInstance =>
        do* c <- target f; do* k <- other_key o f; do* i <- gets (fun h => id_of ct h o);
        ret (Some (match f_join_table (fl_fdef f) with
                   | Some true => QFind c k (VList [i])
                   | _ => QOne c k i
                   end))
    | ForeignKey, Some FTList =>
        do* c <- target f; do* k <- other_key o f; do* i <- gets (fun h => id_of ct h o);
        ret (Some (QFind c k (VList [i])))
    | _, _ => ret None
    end.

  (** jsonclassify.py:391-435 include *)
  Definition include (o : Values.oid) (name : string) : st heap unit :=
    do* fo <- gets (fun h => ofield ct h o name);
    match fo with
    | None => throw EValueError
    | Some f =>
        do* b <- gets (fun h => h_obj h o);
        do* q <- include_query o f;
        (match q with
         | None => ret tt
         | Some q => do* v <- ask q; run ct oeq getter setter pystr fuel (TSet o (fl_name f) v)
         end) >>
        updm o (fun b' => set_modified (o_modified b) (set_mfields (o_mfields b) b'))
    end.

  (** jsonclassify.py:295-305 persisted_modified_fields *)
  Fixpoint persisted_loop (d : cdef) (names : list string) : res (list string) :=
    match names with
    | [] => Ok []
    | n :: r =>
        match field_named n d with
        | None => Err EValueError
        | Some f =>
            match persisted_loop d r with
            | Ok l => Ok (if fstore_eqb (f_fstore (fl_fdef f)) Temp then l else n :: l)
            | Err e => Err e
            end
        end
    end.
  Definition persisted_modified_fields (h : heap) (o : Values.oid) : res (list string) :=
    persisted_loop (cdef_of ct h o) (o_mfields (h_obj h o)).

  (** ** Partial objects *)

  (** [_is_partial], and whether [_modified_fields] is a list instead of a set *)
  Record fheap := { fh_heap : heap; fh_partial : Values.oid -> bool; fh_listed : Values.oid -> bool }.
  Definition on_heap {A} (m : st heap A) : st fheap A :=
    fun s => let (r, h) := m (fh_heap s) in
             (r, {| fh_heap := h; fh_partial := fh_partial s; fh_listed := fh_listed s |}).

  (** jsonclassify.py:379-388 complete; line 383 makes the list, line 387 stores it *)
  Definition complete (orm : Values.oid -> st heap unit) (o : Values.oid) : st fheap unit :=
    do* p <- (fun s => (Ok (fh_partial s o), s));
    if p then
      do* b <- on_heap (gets (fun h => h_obj h o));
      on_heap (orm o) >>
      on_heap (updm o (fun b' => set_mfields (o_mfields b) (set_modified (o_modified b) b'))) >>
      (fun s => (Ok tt, {| fh_heap := fh_heap s; fh_partial := fh_partial s;
                           fh_listed := fun x => if Nat.eqb x o then true else fh_listed s x |}))
    else ret tt.

  (** jsonclassify.py:671-766 __setattr__ of a data field, with line 731,
      [self._modified_fields.add(name)], when that is a list.  Line 730 has set
      [_is_modified]. *)
  Definition assign (o : Values.oid) (f : field) (v : value) : st fheap unit :=
    fun s =>
      let h := fh_heap s in
      let same := match attr h o (fl_name f) with Some cur => eqv oeq h v cur | None => false end in
      if fh_listed s o && negb (o_new (h_obj h o)) && negb same
      then (Err EAttributeError,
            {| fh_heap := upd o (set_modified true) h; fh_partial := fh_partial s; fh_listed := fh_listed s |})
      else on_heap (run ct oeq getter setter pystr fuel (TSet o (fl_name f) v)) s.

  (** jsonclassify.py:169-190 pick and omit: their first statement assigns the property
      [is_partial] (271-277), which has no setter *)
  Definition pick (o : Values.oid) (names : list string) : st fheap unit := throw EAttributeError.
  Definition omit (o : Values.oid) (names : list string) : st fheap unit := throw EAttributeError.
End Fetch.
