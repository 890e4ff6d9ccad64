(** FetchSpec.v -- what [include] asks the data base for. *)
From Verif Require Import Base KeypathModel Values TypesModel ObjModel ObjSpec LinkSpec FetchModel.

Section Spec.
  Context (ct : string -> option cdef).

  (** A reference of class [c] that stores its key or keys is fetched by them; one whose
      key is stored on the other side [g] is fetched by the key of the object: several
      objects, or one. *)
  Inductive asks (h : heap) (o : Values.oid) (f : field) : query -> Prop :=
  | as_key : forall c k, foreign_class f = Some c -> is_local f = true -> is_list_type f = false ->
      attr h o (fl_ref f) = Some k -> asks h o f (QId c k)
  | as_keys : forall c k, foreign_class f = Some c -> is_local f = true -> is_list_type f = true ->
      attr h o (fl_ref f) = Some k -> asks h o f (QIds c k)
  | as_one : forall c g, foreign_class f = Some c -> is_local f = false -> is_list_type f = false ->
      f_join_table (fl_fdef f) <> Some true ->
      foreign_field ct (o_class (h_obj h o)) f = Some g -> asks h o f (QOne c (fl_ref g) (id_of ct h o))
  | as_many : forall c g, foreign_class f = Some c -> is_local f = false ->
      is_list_type f = true \/ f_join_table (fl_fdef f) = Some true ->
      foreign_field ct (o_class (h_obj h o)) f = Some g ->
      asks h o f (QFind c (fl_ref g) (VList [id_of ct h o])).
End Spec.
