(** ObjModel.v -- model of the attribute and link layer of jsonclasses/jsonclassify.py:
    __setattr__, __getattribute__, the callbacks of owned lists and dicts,
    __unlink_field__, __link_field__, __link_graph__, the pool of unlinked objects and
    reset.

    Objects live in a heap and refer to each other by identity.  A computation keeps
    the heap it reached when it raises.  All mutually recursive methods are tasks of
    one interpreter [run] with fuel; running out of fuel is Python's RecursionError.

    Simplifications:
    - a list or dict held by an object is addressed by its object, attribute and path
      below it, and carries the keypath label it was given when it was owned; there are
      no other references to it (assigning a list copies it, as to_owned_list does);
    - [previous_values] holds values, not references to the replaced lists;
    - [__link_field__] goes through the items of the list as they were when it started;
    - a field belongs to the class of the object that has it (no inherited relations);
    - the methods return nothing (the values that list methods return are in
      OListModel.v). *)
From Verif Require Import Base Mon PyList PyDict OListModel ODictModel KeypathModel
  Values OGraphModel TypesModel.
Open Scope Z_scope.

(** ** The heap *)

(** The instance attributes (jsonclassify.py:472-484 for the private ones):
    [o_attr] is the public part of [__dict__]; [o_lkeys] is [_local_key_map] (its keys
    are [_local_keys]); [o_raw] lists the local keys that hold a plain list. *)
Record obj := {
  o_class : string;
  o_attr : string -> option value;
  o_new : bool;
  o_modified : bool;
  o_mfields : list string;
  o_prev : list (string * value);
  o_lkeys : list (string * string);
  o_raw : list string;
  o_unlinked : list (string * list value);
  o_operator : value
}.

Record heap := {
  h_obj : Values.oid -> obj;
  h_next : Values.oid;
  h_graph : gstore
}.

(** ** Updating one setting of an object *)
Definition set_attr (n : string) (v : value) (b : obj) : obj :=
  {| o_class := o_class b;
     o_attr := fun m => if String.eqb m n then Some v else o_attr b m;
     o_new := o_new b; o_modified := o_modified b; o_mfields := o_mfields b;
     o_prev := o_prev b; o_lkeys := o_lkeys b; o_raw := o_raw b;
     o_unlinked := o_unlinked b; o_operator := o_operator b |}.
Definition set_new (x : bool) (b : obj) : obj :=
  {| o_class := o_class b; o_attr := o_attr b; o_new := x; o_modified := o_modified b;
     o_mfields := o_mfields b; o_prev := o_prev b; o_lkeys := o_lkeys b;
     o_raw := o_raw b; o_unlinked := o_unlinked b; o_operator := o_operator b |}.
Definition set_modified (x : bool) (b : obj) : obj :=
  {| o_class := o_class b; o_attr := o_attr b; o_new := o_new b; o_modified := x;
     o_mfields := o_mfields b; o_prev := o_prev b; o_lkeys := o_lkeys b;
     o_raw := o_raw b; o_unlinked := o_unlinked b; o_operator := o_operator b |}.
Definition set_mfields (x : list string) (b : obj) : obj :=
  {| o_class := o_class b; o_attr := o_attr b; o_new := o_new b;
     o_modified := o_modified b; o_mfields := x; o_prev := o_prev b;
     o_lkeys := o_lkeys b; o_raw := o_raw b; o_unlinked := o_unlinked b;
     o_operator := o_operator b |}.
Definition set_prev (x : list (string * value)) (b : obj) : obj :=
  {| o_class := o_class b; o_attr := o_attr b; o_new := o_new b;
     o_modified := o_modified b; o_mfields := o_mfields b; o_prev := x;
     o_lkeys := o_lkeys b; o_raw := o_raw b; o_unlinked := o_unlinked b;
     o_operator := o_operator b |}.
Definition set_lkeys (x : list (string * string)) (b : obj) : obj :=
  {| o_class := o_class b; o_attr := o_attr b; o_new := o_new b;
     o_modified := o_modified b; o_mfields := o_mfields b; o_prev := o_prev b;
     o_lkeys := x; o_raw := o_raw b; o_unlinked := o_unlinked b;
     o_operator := o_operator b |}.
Definition set_raw (x : list string) (b : obj) : obj :=
  {| o_class := o_class b; o_attr := o_attr b; o_new := o_new b;
     o_modified := o_modified b; o_mfields := o_mfields b; o_prev := o_prev b;
     o_lkeys := o_lkeys b; o_raw := x; o_unlinked := o_unlinked b;
     o_operator := o_operator b |}.
Definition set_unlinked (x : list (string * list value)) (b : obj) : obj :=
  {| o_class := o_class b; o_attr := o_attr b; o_new := o_new b;
     o_modified := o_modified b; o_mfields := o_mfields b; o_prev := o_prev b;
     o_lkeys := o_lkeys b; o_raw := o_raw b; o_unlinked := x;
     o_operator := o_operator b |}.

Definition upd (o : Values.oid) (f : obj -> obj) (h : heap) : heap :=
  {| h_obj := fun x => if Nat.eqb x o then f (h_obj h o) else h_obj h x;
     h_next := h_next h; h_graph := h_graph h |}.
Definition with_graph (g : gstore) (h : heap) : heap :=
  {| h_obj := h_obj h; h_next := h_next h; h_graph := g |}.

Definition modify (f : heap -> heap) : st heap unit := fun h => (Ok tt, f h).
Definition gets {A} (f : heap -> A) : st heap A := fun h => (Ok (f h), h).
Definition updm (o : Values.oid) (f : obj -> obj) : st heap unit := modify (upd o f).

(** [getattr(o, n)] for an attribute kept in [__dict__] *)
Definition attr (h : heap) (o : Values.oid) (n : string) : option value := o_attr (h_obj h o) n.

(** ** Addresses inside an attribute *)
Inductive pstep := PIdx (i : nat) | PKey (k : string).
Definition path := list pstep.

Fixpoint vget (p : path) (v : value) : option value :=
  match p with
  | [] => Some v
  | PIdx i :: p' => match v with
                    | VList l => match nth_error l i with Some x => vget p' x | None => None end
                    | _ => None
                    end
  | PKey k :: p' => match v with
                    | VDict d => match sget k d with Some x => vget p' x | None => None end
                    | _ => None
                    end
  end.

Fixpoint vput (p : path) (c : value) (v : value) : value :=
  match p with
  | [] => c
  | PIdx i :: p' => match v with
                    | VList l => match nth_error l i with
                                 | Some x => VList (replace_nth i (vput p' c x) l)
                                 | None => v
                                 end
                    | _ => v
                    end
  | PKey k :: p' => match v with
                    | VDict d => match sget k d with
                                 | Some x => VDict (sset k (vput p' c x) d)
                                 | None => v
                                 end
                    | _ => v
                    end
  end.

Definition attr_at (h : heap) (o : Values.oid) (a : string) (p : path) : option value :=
  match attr h o a with Some v => vget p v | None => None end.

Definition put_at (o : Values.oid) (a : string) (p : path) (c : value) (h : heap) : heap :=
  match attr h o a with
  | Some v => upd o (set_attr a (vput p c v)) h
  | None => h
  end.

(** ** Tasks: the mutually recursive methods *)
Inductive task :=
| TSet (o : Values.oid) (name : string) (v : value)         (* setattr(o, name, v) *)
| TUnlink (o : Values.oid) (f : field) (v : value)          (* o.__unlink_field__(f, v) *)
| TLink (o : Values.oid) (f : field) (v : value)            (* o.__link_field__(f, v) *)
| TOp (o : Values.oid) (a : string) (p : path) (lab : string) (op : lop value)
                                                     (* a list method *)
| TDOp (o : Values.oid) (a : string) (p : path) (lab : string) (op : dop string value).
                                                     (* a dict method *)

Definition cdef0 : cdef :=
  {| cd_name := ""; cd_fields := []; cd_abstract := false; cd_reset_all := false;
     cd_strict := false; cd_validate_all := false; cd_output_null := false;
     cd_outkey := fun s => s |}.

Definition is_calc (f : field) : bool := fstore_eqb (f_fstore (fl_fdef f)) Calculated.
Definition is_local (f : field) : bool := fstore_eqb (f_fstore (fl_fdef f)) LocalKey.
Definition is_inst_field (f : field) : bool :=
  match f_ftype (fl_fdef f) with Some FTInstance => true | _ => false end.
Definition is_list_field (f : field) : bool :=
  match f_ftype (fl_fdef f) with Some FTList => true | _ => false end.

Section Obj.
  (** the class graph; object equality; getters and setters of calculated fields;
      [str] of a primary key *)
  Context (ct : string -> option cdef)
          (oeq : heap -> Values.oid -> Values.oid -> bool)
          (getter : heap -> Values.oid -> string -> res value)
          (setter : Values.oid -> string -> value -> st heap unit)
          (pystr : value -> string).

  Definition cdef_of (h : heap) (o : Values.oid) : cdef :=
    match ct (o_class (h_obj h o)) with Some c => c | None => cdef0 end.
  Definition ofield (h : heap) (o : Values.oid) (n : string) : option field :=
    field_named n (cdef_of h o).
  Definition eqv (h : heap) : value -> value -> bool := veq (oeq h).

  (** jsonclassify.py:769-784 __getattribute__ for public names *)
  Definition getattr (o : Values.oid) (n : string) : st heap value :=
    fun h => match ofield h o n with
             | Some f => if is_calc f then (getter h o n, h)
                         else (match attr h o n with Some v => Ok v | None => Err EAttributeError end, h)
             | None => (match attr h o n with Some v => Ok v | None => Err EAttributeError end, h)
             end.

  (** jsonclassify.py:645-650 _id *)
  Definition id_of (h : heap) (o : Values.oid) : value :=
    match primary_field (cdef_of h o) with
    | None => VNone
    | Some f => match attr h o (fl_name f) with Some v => v | None => VNone end
    end.
  (** [v._id] for a value: only objects have it *)
  Definition vid (v : value) : st heap value :=
    fun h => match v with VObj x => (Ok (id_of h x), h) | _ => (Err EAttributeError, h) end.

  (** jsonclassify.py:520-527 _add_unlinked_object *)
  Definition add_unlinked (o : Values.oid) (fname : string) (x : value) : st heap unit :=
    modify (fun h =>
      upd o (fun b =>
        let l := match sget fname (o_unlinked b) with Some l => l | None => [] end in
        set_unlinked (sset fname (if list_contains (oeq h) x l then l else l ++ [x])
                           (o_unlinked b)) b) h).

  Definition remove_first (eqb : value -> value -> bool) (x : value) (l : list value) : list value :=
    match py_remove eqb x l with Ok l' => l' | Err _ => l end.

  (** jsonclassify.py:530-537 _del_unlinked_object *)
  Definition del_unlinked (o : Values.oid) (fname : string) (x : value) : st heap unit :=
    modify (fun h =>
      upd o (fun b =>
        let l := match sget fname (o_unlinked b) with Some l => l | None => [] end in
        set_unlinked (sset fname (remove_first (eqv h) x l) (o_unlinked b)) b) h).

  (** [self._is_modified = True; self._modified_fields.add(k)] unless new
      (jsonclassify.py:729-731 and the end of each collection callback) *)
  Definition mark (o : Values.oid) (k : string) : st heap unit :=
    updm o (fun b => if o_new b then b
                     else set_mfields (sadd k (o_mfields b)) (set_modified true b)).

  (** [self.previous_values[name] = v] unless there *)
  Definition remember (o : Values.oid) (name : string) (v : value) : st heap unit :=
    updm o (fun b => if smem name (o_prev b) then b
                     else set_prev (o_prev b ++ [(name, v)]) b).

  Definition resettable (h : heap) (o : Values.oid) (f : field) : bool :=
    cd_reset_all (cdef_of h o) || f_reset (fl_fdef f).

  (** outils.py:48-69: the kind of copy is chosen by the field's type *)
  Definition copy_for (f : field) (v : value) : res (option value) :=
    match f_ftype (fl_fdef f) with
    | Some FTDict => match v with
                     | VDict _ => Ok (Some v)
                     | _ => Err EAttributeError
                     end
    | Some FTList => match v with
                     | VList _ => Ok (Some v)
                     | VDict d => Ok (Some (VList (map (fun kv => VStr (fst kv)) d)))
                     | _ => Err ETypeError
                     end
    | _ => Ok None
    end.

  (** jsonclassify.py:791-801 = 833-843: record the value before an in-place change *)
  Definition record_previous (o : Values.oid) (f : field) : st heap unit :=
    do* r <- gets (fun h => resettable h o f);
    if r then
      if has_linked (types_depth (fl_types f)) (fl_fdef f) then ret tt
      else
        do* known <- gets (fun h => smem (fl_name f) (o_prev (h_obj h o)));
        if known then ret tt
        else match f_ftype (fl_fdef f) with
             | Some FTDict | Some FTList =>
                 do* v <- getattr o (fl_name f);
                 do* c <- lift (copy_for f v);
                 match c with Some c => remember o (fl_name f) c | None => ret tt end
             | _ => ret tt
             end
    else ret tt.

  (** jsonclassify.py:824-843 __olist_will_change__ *)
  Definition olist_will (o : Values.oid) (lab : string) : st heap unit :=
    do* f <- gets (fun h => ofield h o (initial_keypath lab));
    match f with Some f => record_previous o f | None => ret tt end.

  (** jsonclassify.py:787-801 __odict_will_change__ *)
  Definition odict_will (o : Values.oid) (lab : string) : st heap unit :=
    do* f <- gets (fun h => ofield h o (initial_keypath lab));
    match f with Some f => record_previous o f | None => throw EValueError end.

  Definition local_field_of (h : heap) (o : Values.oid) (lab : string) : option string :=
    sget lab (o_lkeys (h_obj h o)).

  (** jsonclassify.py:850-852 = 884-886 *)
  Definition mark_local (o : Values.oid) (fname : string) : st heap unit :=
    updm o (fun b => if negb (o_new b) && negb (sinb fname (o_mfields b))
                     then set_mfields (sadd fname (o_mfields b)) (set_modified true b)
                     else b).

  (** [len(x)] of a list attribute or of the list itself *)
  Definition len_at (o : Values.oid) (a : string) (p : path) : st heap Z :=
    fun h => match attr_at h o a p with
             | Some (VList l) => (Ok (zlen l), h)
             | Some _ => (Err ETypeError, h)
             | None => (Err EAttributeError, h)
             end.

  Section Rec.
    Context (rec : task -> st heap unit).

    (** jsonclassify.py:846-877 __olist_add__ *)
    Definition olist_add (o : Values.oid) (a : string) (p : path) (lab : string)
                         (idx : Z) (x : value) : st heap unit :=
      do* lk <- gets (fun h => local_field_of h o lab);
      match lk with
      | Some fname => mark_local o fname
      | None =>
          do* fo <- gets (fun h => ofield h o lab);
          (match fo with
           | Some f =>
               if is_ref (fl_fdef f) then
                 rec (TLink o f (VList [x])) >>
                 if is_local f then
                   do* n <- len_at o (fl_ref f) [];
                   do* m <- len_at o a p;
                   if n =? m then ret tt
                   else do* i <- vid x;
                        if is_none i then throw EValueError
                        else rec (TOp o (fl_ref f) [] (fl_ref f) (LInsert idx i))
                 else ret tt
               else ret tt
           | None => ret tt
           end) >>
          (match x with
           | VDict _ | VList _ => rec (TOp o a p lab (LSetInt idx x))
           | _ => ret tt
           end) >>
          mark o lab
      end.

    (** [next((v for v in flist if v._id == val), ...)] *)
    Fixpoint first_with_id (val : value) (l : list value) : st heap (option value) :=
      match l with
      | [] => ret None
      | v :: r => do* i <- vid v;
                  do* e <- gets (fun h => eqv h i val);
                  if e then ret (Some v) else first_with_id val r
      end.

    (** jsonclassify.py:880-913 __olist_del__ *)
    Definition olist_del (o : Values.oid) (a : string) (p : path) (lab : string)
                         (x : value) : st heap unit :=
      do* lk <- gets (fun h => local_field_of h o lab);
      match lk with
      | Some fname =>
          mark_local o fname >>
          do* fl <- getattr o fname;
          match fl with
          | VList l =>
              do* m <- len_at o a p;
              if zlen l =? m then ret tt
              else do* r <- first_with_id x l;
                   match r with
                   | Some v => rec (TOp o fname [] fname (LRemove v))
                   | None => ret tt
                   end
          | _ => ret tt
          end
      | None =>
          do* fo <- gets (fun h => ofield h o lab);
          (match fo with
           | Some f =>
               if is_ref (fl_fdef f) then
                 rec (TUnlink o f (VList [x])) >>
                 if is_local f then
                   do* n <- len_at o (fl_ref f) [];
                   do* m <- len_at o a p;
                   if n =? m then ret tt
                   else if is_none x then ret tt
                   else do* i <- vid x;
                        do* isin <- gets (fun h =>
                          match attr h o (fl_ref f) with
                          | Some (VList l) => existsb (fun y => eqv h i y) l
                          | _ => false
                          end);
                        if isin then rec (TOp o (fl_ref f) [] (fl_ref f) (LRemove i)) else ret tt
                 else ret tt
               else ret tt
           | None => ret tt
           end) >>
          mark o lab
      end.

    (** jsonclassify.py:916-921 __olist_sor__ *)
    Definition olist_sor (o : Values.oid) (lab : string) : st heap unit := mark o lab.

    Definition list_event (o : Values.oid) (a : string) (p : path) (lab : string)
                          (e : ev value) : st heap unit :=
      match fst e with
      | CWill => ret tt
      | CAdd i x => olist_add o a p lab i x
      | CDel x => olist_del o a p lab (match x with Some v => v | None => VNone end)
      | CSor => olist_sor o lab
      end.

    Definition is_will {A} (e : ev A) : bool := match fst e with CWill => true | _ => false end.

    (** A list method on the list at [p] below attribute [a] of [o], with label [lab]
        (OListModel.v): warn, change, report.  A plain list only changes. *)
    Definition do_list (o : Values.oid) (a : string) (p : path) (lab : string)
                       (op : lop value) : st heap unit :=
      fun h =>
        match attr_at h o a p with
        | Some (VList l) =>
            if sinb a (o_raw (h_obj h o)) then
              let '(r, l') := plain_step (eqv h) op l in
              ((modify (put_at o a p (VList l'))) >>
               match r with Ok _ => ret tt | Err e => throw e end) h
            else
              let '(r, l', es) := owned_step (eqv h) op l in
              ((if existsb is_will es then olist_will o lab else ret tt) >>
               modify (put_at o a p (VList l')) >>
               match r with
               | Ok _ => for_st es (list_event o a p lab)
               | Err e => throw e
               end) h
        | Some _ | None => (Err EAttributeError, h)
        end.

    (** jsonclassify.py:804-814 __odict_add__ and 817-821 __odict_del__ *)
    Definition dict_event (o : Values.oid) (a : string) (p : path) (lab : string)
                          (e : dcall string value * list (string * value)) : st heap unit :=
      match fst e with
      | DWill => ret tt
      | DAdd k x =>
          (match x with
           | VDict _ | VList _ => rec (TDOp o a p lab (DSetItem k x))
           | _ => ret tt
           end) >> mark o lab
      | DDel _ => mark o lab
      end.

    Definition is_dwill {K V} (e : dcall K V * list (K * V)) : bool :=
      match fst e with DWill => true | _ => false end.

    (** A dict method (ODictModel.v) *)
    Definition do_dict (o : Values.oid) (a : string) (p : path) (lab : string)
                       (op : dop string value) : st heap unit :=
      fun h =>
        match attr_at h o a p with
        | Some (VDict d) =>
            let '(r, d', es) := owned_dstep String.eqb VNone op d in
            ((if existsb is_dwill es then odict_will o lab else ret tt) >>
             modify (put_at o a p (VDict d')) >>
             match r with
             | Ok _ => for_st es (dict_event o a p lab)
             | Err e => throw e
             end) h
        | Some _ | None => (Err EAttributeError, h)
        end.

    (** The items of jsonclassify.py:925-933 = 957-965 *)
    Definition link_items (f : field) (v : value) : list value :=
      match f_ftype (fl_fdef f) with
      | Some FTInstance => match v with VObj _ => [v] | _ => [] end
      | Some FTList => match v with VList l => l | _ => [] end
      | _ => []
      end.

    (** [getattr(item, name)] for an item of a reference field *)
    Definition item_attr (x : value) (n : string) : st heap value :=
      match x with VObj b => getattr b n | _ => throw EAttributeError end.

    (** jsonclassify.py:938-953, one item of __unlink_field__ with other field [g] *)
    Definition unlink_item (o : Values.oid) (g : field) (x : value) : st heap unit :=
      match f_ftype (fl_fdef g) with
      | Some FTInstance =>
          do* cur <- item_attr x (fl_name g);
          match x, cur with
          | VObj b, VObj c =>
              if Nat.eqb c o then
                updm b (set_attr (fl_name g) VNone) >>
                (if is_local g then
                   updm b (fun ob => set_mfields (sadd (fl_name g) (o_mfields ob))
                                       (set_attr (fl_ref g) VNone ob))
                 else ret tt) >>
                add_unlinked b (fl_name g) (VObj o)
              else ret tt
          | _, _ => ret tt
          end
      | Some FTList =>
          do* cur <- item_attr x (fl_name g);
          match x, cur with
          | VObj b, VList l =>
              do* isin <- gets (fun h => list_contains (oeq h) (VObj o) l);
              if isin then
                rec (TOp b (fl_name g) [] (fl_name g) (LRemove (VObj o))) >>
                add_unlinked b (fl_name g) (VObj o)
              else ret tt
          | _, _ => ret tt
          end
      | _ => ret tt
      end.

    (** jsonclassify.py:924-953 __unlink_field__; with no other field the loop ends at
        the first item (line 938 is a return) *)
    Definition unlink (o : Values.oid) (f : field) (v : value) : st heap unit :=
      do* go <- gets (fun h => foreign_field ct (o_class (h_obj h o)) f);
      match go with
      | None => match link_items f v with
                | [] => ret tt
                | x :: _ => add_unlinked o (fl_name f) x
                end
      | Some g => for_st (link_items f v) (fun x =>
                    add_unlinked o (fl_name f) x >> unlink_item o g x)
      end.

    (** jsonclassify.py:986-994 __link_graph__ *)
    Definition link_graphs (o : Values.oid) (x : value) : st heap unit :=
      match x with
      | VObj b =>
          fun h =>
            let pid c := match id_of h c with VNone => None | v => Some (pystr v) end in
            let '(r, g) := link_graph (fun c => o_class (h_obj h c)) pid o b (h_graph h) in
            (r, with_graph g h)
      | _ => throw EAttributeError
      end.

    (** jsonclassify.py:971-982, one item of __link_field__ *)
    Definition link_item (o : Values.oid) (g : field) (x : value) : st heap unit :=
      match f_ftype (fl_fdef g) with
      | Some FTInstance =>
          do* cur <- item_attr x (fl_name g);
          match x with
          | VObj b =>
              do* same <- gets (fun h => eqv h cur (VObj o));
              if same then ret tt
              else rec (TSet b (fl_name g) (VObj o)) >> del_unlinked b (fl_name g) (VObj o)
          | _ => ret tt
          end
      | Some FTList =>
          do* cur <- item_attr x (fl_name g);
          match x, cur with
          | VObj b, VList l =>
              do* isin <- gets (fun h => list_contains (oeq h) (VObj o) l);
              if isin then ret tt
              else rec (TOp b (fl_name g) [] (fl_name g) (LAppend (VObj o))) >>
                   del_unlinked b (fl_name g) (VObj o)
          | VObj b, _ =>
              rec (TSet b (fl_name g) (VList [VObj o])) >> del_unlinked b (fl_name g) (VObj o)
          | _, _ => ret tt
          end
      | _ => ret tt
      end.

    (** jsonclassify.py:956-983 __link_field__ *)
    Definition link (o : Values.oid) (f : field) (v : value) : st heap unit :=
      do* go <- gets (fun h => foreign_field ct (o_class (h_obj h o)) f);
      match go with
      | None => match link_items f v with
                | [] => ret tt
                | x :: _ => del_unlinked o (fl_name f) x
                end
      | Some g => for_st (link_items f v) (fun x =>
                    del_unlinked o (fl_name f) x >> link_item o g x >> link_graphs o x)
      end.

    (** [keys] of jsonclassify.py:758-761 *)
    Fixpoint keys_of (l : list value) : st heap (list value) :=
      match l with
      | [] => ret []
      | v :: r => if is_none v then keys_of r
                  else do* i <- vid v; do* is <- keys_of r; ret (i :: is)
      end.

    (** An owned list under a local key: the key no longer holds a plain list. *)
    Definition store_keys (o : Values.oid) (rk : string) (l : list value) : st heap unit :=
      updm o (fun b => set_raw (filter (fun n => negb (String.eqb n rk)) (o_raw b))
                               (set_attr rk (VList l) b)).

    (** jsonclassify.py:745-763: the stored key or keys follow the reference *)
    Definition store_local (o : Values.oid) (f : field) (v : value) : st heap unit :=
      if is_local f then
        match f_ftype (fl_fdef f) with
        | Some FTInstance =>
            match v with
            | VNone => updm o (set_attr (fl_ref f) VNone)
            | VObj b => do* i <- vid v; updm o (set_attr (fl_ref f) i)
            | _ => ret tt
            end
        | Some FTList =>
            match v with
            | VNone => store_keys o (fl_ref f) []
            | VList l => do* ks <- keys_of l; store_keys o (fl_ref f) ks
            | _ => throw ETypeError
            end
        | _ => ret tt
        end
      else ret tt.

    (** jsonclassify.py:701-704: the listed objects that have one of the ids *)
    Fixpoint pick_by_ids (ids cur : list value) : st heap (list value) :=
      match ids with
      | [] => ret []
      | i :: r => do* v <- first_with_id i cur;
                  do* rest <- pick_by_ids r cur;
                  ret (match v with Some x => x :: rest | None => rest end)
      end.

    (** jsonclassify.py:677-708: assigning to a stored key *)
    Definition set_local_key (o : Values.oid) (name fname : string) (v : value) : st heap unit :=
      do* fo <- gets (fun h => ofield h o fname);
      match fo with
      | None => throw EValueError
      | Some f =>
          (match f_ftype (fl_fdef f) with
           | Some FTInstance =>
               updm o (set_attr name v) >> rec (TSet o fname VNone)
           | Some FTList =>
               match v with
               | VNone => store_keys o name [] >> rec (TSet o fname (VList []))
               | VList ids =>
                   store_keys o name ids >>
                   do* cur <- getattr o fname;
                   match cur with
                   | VNone => rec (TSet o fname (VList []))
                   | VList l => do* nl <- pick_by_ids ids l; rec (TSet o fname (VList nl))
                   | _ => throw ETypeError
                   end
               | _ => throw ETypeError
               end
           | _ => ret tt
           end) >>
          mark o fname
      end.

    (** jsonclassify.py:710-713: [__original_setattr__] for a name that is no field; a
        list put under a stored key this way is a plain list *)
    Definition set_plain (o : Values.oid) (name : string) (v : value) : st heap unit :=
      updm o (fun b =>
        let raw := filter (fun n => negb (String.eqb n name)) (o_raw b) in
        set_raw (match v with VList _ => raw ++ [name] | _ => raw end) (set_attr name v b)).

    (** jsonclassify.py:715-766: assigning to a field *)
    Definition set_field (o : Values.oid) (f : field) (v : value) : st heap unit :=
      let name := fl_name f in
      if is_calc f then
        match f_setter (fl_fdef f) with
        | None => throw EReadonlyCalc
        | Some _ => setter o name v
        end
      else
        do* cur <- gets (fun h => attr h o name);
        do* same <- gets (fun h => match cur with Some c => eqv h v c | None => false end);
        if same then ret tt
        else
          do* isnew <- gets (fun h => o_new (h_obj h o));
          (if isnew then ret tt
           else mark o name >>
                do* r <- gets (fun h => resettable h o f);
                if r then
                  do* known <- gets (fun h => smem name (o_prev (h_obj h o)));
                  if known then ret tt
                  else do* c <- getattr o name; remember o name c
                else ret tt) >>
          if is_ref (fl_fdef f) then
            (match cur with Some c => rec (TUnlink o f c) | None => ret tt end) >>
            updm o (set_attr name v) >>
            store_local o f v >>
            rec (TLink o f v)
          else updm o (set_attr name v).

    (** jsonclassify.py:671-766 __setattr__ for public names *)
    Definition set_attribute (o : Values.oid) (name : string) (v : value) : st heap unit :=
      do* lk <- gets (fun h => local_field_of h o name);
      do* fo <- gets (fun h => ofield h o name);
      let rest := match fo with
                  | None => set_plain o name v
                  | Some f => set_field o f v
                  end in
      match lk with
      | Some fname =>
          do* cur <- getattr o name;
          do* same <- gets (fun h => eqv h v cur);
          if same then ret tt
          else set_local_key o name fname v >> rest
      | None => rest
      end.

    Definition body (t : task) : st heap unit :=
      match t with
      | TSet o name v => set_attribute o name v
      | TUnlink o f v => unlink o f v
      | TLink o f v => link o f v
      | TOp o a p lab op => do_list o a p lab op
      | TDOp o a p lab op => do_dict o a p lab op
      end.
  End Rec.

  Fixpoint run (n : nat) (t : task) : st heap unit :=
    match n with
    | O => throw ERecursion
    | S n' => body (run n') t
    end.

  (** jsonclassify.py:464-469 _mark_unmodified *)
  Definition mark_unmodified (o : Values.oid) : st heap unit :=
    updm o (fun b => set_prev [] (set_mfields [] (set_modified false (set_new false b)))).

  (** jsonclassify.py:324-335 reset; [_previous_values] is replaced inside the loop,
      which goes on over the old dict *)
  Definition reset (n : nat) (o : Values.oid) : st heap unit :=
    do* c <- gets (fun h => cdef_of h o);
    if negb (cd_reset_all c) then throw EResetNotEnabled
    else
      do* b <- gets (fun h => h_obj h o);
      if o_new b then throw EReset
      else for_st (o_prev b) (fun kv =>
             run n (TSet o (fst kv) (snd kv)) >>
             updm o (fun b => set_prev [] (set_modified false (set_mfields [] b)))).

  (** ** Histories *)
  Inductive hop :=
  | HSet (o : Values.oid) (name : string) (v : value)
  | HList (o : Values.oid) (a : string) (p : path) (lab : string) (op : lop value)
  | HDict (o : Values.oid) (a : string) (p : path) (lab : string) (op : dop string value).

  Definition task_of (x : hop) : task :=
    match x with
    | HSet o n v => TSet o n v
    | HList o a p lab op => TOp o a p lab op
    | HDict o a p lab op => TDOp o a p lab op
    end.

  (** Each step runs with the fuel given; the history ends at the first exception. *)
  Definition history (n : nat) (xs : list hop) : st heap unit :=
    for_st xs (fun x => run n (task_of x)).
End Obj.
