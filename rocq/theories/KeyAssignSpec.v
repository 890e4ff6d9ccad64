(** KeyAssignSpec.v -- assigning to the attribute that stores the key or keys of a
    reference, [post.author_id = 5] or [user.group_ids = [1, 2]]. *)
From Verif Require Import Base PyList PyDict KeypathModel Values TypesModel ObjModel ObjSpec LinkSpec.
Open Scope list_scope.

(** Keys as they come from a database or from JSON. *)
Definition key_value (v : value) : Prop := match v with VInt _ | VStr _ => True | _ => False end.

Section KeyAssign.
  Context (ct : string -> option cdef) (oeq : heap -> Values.oid -> Values.oid -> bool).

  (** Of the objects [l], those with the keys [ids], in the order of the keys. *)
  Definition with_keys (h : heap) (l : list Values.oid) (ids : list value) : list Values.oid :=
    flat_map (fun i => match find (fun b => eqv oeq h (id_of ct h b) i) l with
                       | Some b => [b] | None => [] end) ids.

  (** The references of [o] that an assignment of [v] to the stored key leaves: for a single
      reference none, the object with the new key not being known; for a list those of the
      listed objects whose keys are among the new ones. *)
  Definition kept_by (R : relation) (h : heap) (o : Values.oid) (v : value) : list Values.oid :=
    if is_list_type (ra_field R) then
      match v with VList ids => with_keys h (refs h o (ra_field R)) ids | _ => [] end
    else [].

  (** An assignment of keys to the stored key of side [ra] of [R]: anything for a single
      reference; a list of keys for a list, where no listed object is named twice. *)
  Definition key_assignment (R : relation) (h : heap) (x : hop) : Prop :=
    match x with
    | HSet o n v =>
        o_class (h_obj h o) = ra_class R /\ is_local (ra_field R) = true /\ n = fl_ref (ra_field R) /\
        (is_list_type (ra_field R) = true ->
         exists ids, v = VList ids /\ Forall key_value ids /\ NoDup (with_keys h (refs h o (ra_field R)) ids))
    | _ => False
    end.

  (** Histories of operations on the relation, on its stored keys, and elsewhere *)
  Definition link_or_key (R : relation) (h : heap) (x : hop) : Prop :=
    link_op ct R h x \/ key_assignment R h x \/ key_assignment (flip R) h x.
End KeyAssign.
