(** PrevIdModel.v -- the key under which an object is stored: the [_previous_id] property of
    jsonclassify.py.  Simplification: as in [id_of], a primary field is read as an attribute
    (it is not calculated). *)
From Verif Require Import Base PyList PyDict Values TypesModel ObjModel.

(** jsonclassify.py:654-663 _previous_id *)
Definition previous_id (ct : string -> option cdef) (h : heap) (o : Values.oid) : res value :=
  let b := h_obj h o in
  if o_new b then Ok (id_of ct h o)
  else
    match primary_field (cdef_of ct h o) with
    | None => Ok VNone
    | Some f =>
        if o_modified b then
          if sinb (fl_name f) (o_mfields b) then
            match sget (fl_name f) (o_prev b) with
            | Some v => Ok v
            | None => Err EKeyError
            end
          else Ok (id_of ct h o)
        else Ok (id_of ct h o)
    end.
