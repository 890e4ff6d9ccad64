(** OnsaveSpec.v -- the words of C46: which modifiers do something on save, and graphs of
    objects that a save has nothing to do for. *)
From Verif Require Import Base Mon Values TypesModel ObjModel IoModel OutSpec.
Open Scope list_scope.

(** New or modified *)
Definition to_save (b : obj) : Prop := o_new b = true \/ o_modified b = true.

(** The callables that a modifier runs whenever its field is prepared for saving *)
Definition sets_with (g : cbid) (m : mdf) : Prop :=
  match m with MSetonsave (PCall f) _ => f = g | MOnsave f => f = g | _ => False end.

(** A modifier that has nothing to do on save *)
Definition idle (m : mdf) : bool :=
  match m with
  | MInstance _ | MListOf _ | MDictOf _ | MUnion _ | MSetonsave _ _ | MOnsave _ | MOnwrite _ | MOnupdate _ | MPreserialize => false
  | _ => true
  end.
(** ... or only something to pass on to objects: an object or a list of passing types *)
Inductive passing : mdf -> Prop :=
| pass_object cls : passing (MInstance cls)
| pass_list ts : (forall m, In m ts -> passing m) -> passing (MListOf ts)
| pass_idle m : idle m = true -> passing m.

(** A closed set [K] of objects none of which is new or modified or has a field that is
    forced; the fields that hold objects have passing types, and a value that equals itself. *)
Record at_rest (P : program) (h : heap) (K : oid -> Prop) : Prop := {
  rest_flags : forall o, K o -> o_new (h_obj h o) = false /\ o_modified (h_obj h o) = false;
  rest_names : forall o d, K o -> p_ct P (o_class (h_obj h o)) = Some d -> NoDup (map fl_name (cd_fields d));
  rest_forced : forall o d f, K o -> p_ct P (o_class (h_obj h o)) = Some d -> In f (cd_fields d) ->
    f_force_set_on_save (fl_fdef f) = false;
  rest_types : forall o d f m, K o -> p_ct P (o_class (h_obj h o)) = Some d -> In f (cd_fields d) ->
    is_ref (fl_fdef f) = true \/ is_inst (fl_fdef f) = true -> In m (fl_types f) -> passing m;
  rest_values : forall o d f v, K o -> p_ct P (o_class (h_obj h o)) = Some d -> In f (cd_fields d) ->
    is_ref (fl_fdef f) = true \/ is_inst (fl_fdef f) = true -> reads P h o (fl_name f) v ->
    veq (p_oeq P h) v v = true /\ forall x, occurs x v -> K x
}.
