(** EqSpec.v -- objects with the same content. *)
From Verif Require Import Base PyDict Values TypesModel ObjModel LinkSpec.

Definition plain (v : value) : Prop :=
  match v with VList _ | VDict _ | VObj _ => False | _ => True end.

Section Spec.
  Context (ct : string -> option cdef).
  Context (getter : heap -> Values.oid -> string -> res value).

  (** [v] can be read in the field [f] of [o]. *)
  Definition reads (h : heap) (o : Values.oid) (f : field) (v : value) : Prop :=
    fst (getattr ct getter o (fl_name f) h) = Ok v.

  (** Two values are the same, down to the fields of the objects in them: lists item by
      item, dicts key by key, objects of one class field by field, and an object is the
      same as itself. *)
  Inductive same (h : heap) : value -> value -> Prop :=
  | sm_plain : forall v w, plain v -> plain w -> veq (fun _ _ => false) v w = true -> same h v w
  | sm_list : forall l l', Forall2 (same h) l l' -> same h (VList l) (VList l')
  | sm_dict : forall d d', length d = length d' ->
      Forall (fun kv => exists y, sget (fst kv) d' = Some y /\ same h (snd kv) y) d ->
      same h (VDict d) (VDict d')
  | sm_self : forall a, same h (VObj a) (VObj a)
  | sm_object : forall a b xs ys, o_class (h_obj h a) = o_class (h_obj h b) ->
      Forall2 (reads h a) (cd_fields (cdef_of ct h a)) xs ->
      Forall2 (reads h b) (cd_fields (cdef_of ct h b)) ys ->
      Forall2 (same h) xs ys -> same h (VObj a) (VObj b).

  (** No dict has a key twice. *)
  Inductive proper : value -> Prop :=
  | pr_plain : forall v, plain v -> proper v
  | pr_list : forall l, Forall proper l -> proper (VList l)
  | pr_dict : forall d, NoDup (map fst d) -> Forall (fun kv => proper (snd kv)) d -> proper (VDict d)
  | pr_object : forall a, proper (VObj a).
  Definition proper_heap (h : heap) : Prop :=
    forall a n v, fst (getattr ct getter a n h) = Ok v -> proper v.

  (** Objects of the relation have keys, numbers or text, that are told apart within each
      class, and the key is the first field of the class. *)
  Definition key_first (c : string) : Prop :=
    exists d f r, ct c = Some d /\ cd_fields d = f :: r /\ primary_field d = Some f /\
      ~ In (fl_name f) (map fl_name r) /\ is_calc f = false.
  Definition key (v : value) : Prop := (exists z, v = VInt z) \/ (exists s, v = VStr s).
  Definition keyed (h : heap) (c : string) : Prop :=
    key_first c /\
    (forall a, o_class (h_obj h a) = c -> key (id_of ct h a)) /\
    (forall a b, o_class (h_obj h a) = c -> o_class (h_obj h b) = c -> id_of ct h a = id_of ct h b -> a = b).
End Spec.
