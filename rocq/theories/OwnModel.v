(** OwnModel.v -- the modifiers fval, fobj and isobj, and the permission
    [types.getop.isobj(types.this.fval(name))] that is made of them.

    fval may give an [ObjRef]: the class name and the key of an object that is not there. *)
From Verif Require Import Base Mon Values TypesModel ObjModel FetchModel.
Open Scope string_scope.
Open Scope list_scope.

(** objref.py:4-6, and any other value *)
Inductive item :=
| IVal (v : value)
| IRef (cls : string) (id : value).

Section Own.
  Context (ct : string -> option cdef).
  Context (oeq : heap -> Values.oid -> Values.oid -> bool).
  Context (getter : heap -> Values.oid -> string -> res value).
  Variable vexc : string -> exn.

  (** modifiers/fval_modifier.py:18-38.  A value that is neither None nor an object has no
      [cdef]; [inst_cls] is None for a list of references. *)
  Definition fval (name : string) (v : value) : st heap item :=
    match v with
    | VNone => ret (IVal VNone)
    | VObj o =>
        do* fo <- gets (fun h => ofield ct h o name);
        match fo with
        | None => throw EValueError
        | Some f =>
            do* x <- getattr ct getter o name;
            match f_fstore (fl_fdef f) with
            | LocalKey =>
                match x with
                | VNone =>
                    match f_ftype (fl_fdef f), foreign_class f with
                    | Some FTInstance, Some c =>
                        match ct c with
                        | None => throw ENotFound
                        | Some _ =>
                            do* k <- getattr ct getter o (fl_ref f);
                            match k with
                            | VNone => ret (IVal VNone)
                            | _ => ret (IRef c k)
                            end
                        end
                    | _, _ => throw EAttributeError
                    end
                | _ => ret (IVal x)
                end
            | _ => ret (IVal x)
            end
        end
    | _ => throw EAttributeError
    end.

  (** modifiers/isobj_modifier.py:22-33: the class name and the key of one side *)
  Definition identity (i : item) : st heap (string * value) :=
    match i with
    | IVal (VObj o) => gets (fun h => (o_class (h_obj h o), id_of ct h o))
    | IRef c k => ret (c, k)
    | IVal _ => throw EAttributeError
    end.

  (** modifiers/isobj_modifier.py:14-37; [that] runs the types given to the modifier *)
  Definition isobj (that : st heap item) (this : item) : st heap unit :=
    match this with
    | IVal VNone => throw (vexc "none is not an object")
    | _ =>
        do* t <- that;
        match t with
        | IVal VNone => throw (vexc "comparing value not found")
        | _ =>
            do* a <- identity this;
            do* b <- identity t;
            do* same <- gets (fun h => String.eqb (fst b) (fst a) && eqv oeq h (snd b) (snd a));
            if same then ret tt else throw (vexc "objects are not equal")
        end
    end.

  (** jsonclassify.py:573-596 _can_cu_check_common for the callback
      [types.getop.isobj(types.this.fval(name))]: getop (getop_modifier.py:12-13) replaces
      the value by the operator, this (this_modifier.py:12-13) is the object. *)
  Definition owner_guard (action name : string) (op : value) (o : Values.oid) : st heap unit :=
    match op with
    | VNone => throw (EUnauthorized "no operator")
    | _ =>
        fun h => match isobj (fval name (VObj o)) (IVal op) h with
                 | (Err (EValidation _), h') => (Err (EUnauthorized ("cannot " ++ action)%string), h')
                 | r => r
                 end
    end.

  (** modifiers/fobj_modifier.py:17-24 *)
  Definition fobj (setter : Values.oid -> string -> value -> st heap unit) (pystr : value -> string)
    (fuel : nat) (ask : query -> st heap value) (name : string) (v : value) : st heap value :=
    match v with
    | VNone => ret VNone
    | VObj o =>
        do* x <- getattr ct getter o name;
        (match x with
         | VNone => include ct oeq getter setter pystr fuel ask o name
         | _ => ret tt
         end) >>
        getattr ct getter o name
    | _ => throw EAttributeError
    end.
End Own.
