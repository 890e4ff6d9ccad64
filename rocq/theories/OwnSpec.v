(** OwnSpec.v -- whose an object is. *)
From Verif Require Import Base Values TypesModel ObjModel OwnModel.

Section Spec.
  Context (ct : string -> option cdef).

  (** The object that the reference [f] of [o] stands for has the class [c] and the key
      [k]: either it is there, or only its key is stored. *)
  Inductive stands_for (h : heap) (o : Values.oid) (f : field) : string -> value -> Prop :=
  | sf_object : forall a, attr h o (fl_name f) = Some (VObj a) ->
      stands_for h o f (o_class (h_obj h a)) (id_of ct h a)
  | sf_key : forall c k, attr h o (fl_name f) = Some VNone -> is_local f = true ->
      f_inst (fl_fdef f) = Some c -> attr h o (fl_ref f) = Some k -> k <> VNone ->
      stands_for h o f c k.

  (** The value [i] stands for an object of class [c] with the key [k]. *)
  Inductive denotes (h : heap) : item -> string -> value -> Prop :=
  | dn_object : forall a, denotes h (IVal (VObj a)) (o_class (h_obj h a)) (id_of ct h a)
  | dn_ref : forall c k, denotes h (IRef c k) c k.

  (** [f] is a reference of [o] to one object, as assignments leave it. *)
  Record single_reference (h : heap) (o : Values.oid) (f : field) : Prop := {
    sr_field : ofield ct h o (fl_name f) = Some f;
    sr_ref : is_ref (fl_fdef f) = true;
    sr_type : f_ftype (fl_fdef f) = Some FTInstance;
    sr_class : exists c, f_inst (fl_fdef f) = Some c /\ ct c <> None;
    sr_value : attr h o (fl_name f) = Some VNone \/ exists a, attr h o (fl_name f) = Some (VObj a);
    sr_key : is_local f = true -> exists k, attr h o (fl_ref f) = Some k }.
End Spec.
