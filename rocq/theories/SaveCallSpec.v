(** SaveCallSpec.v -- the words of C70 for a whole save: which calls are due. *)
From Verif Require Import Base Values TypesModel ObjModel ObjSpec IoModel OnsaveSpec.
Open Scope list_scope.

(** The calls that one modifier of the field [k] of the object [b] asks for. *)
Definition calls_of (b : obj) (k : string) (m : mdf) : list event :=
  match m with
  | MOnsave g => [EvCall KSave g]
  | MOnwrite g => if o_new b || existsb (String.eqb k) (o_mfields b) then [EvCall KSave g] else []
  | MOnupdate g => if existsb (String.eqb k) (map fst (o_prev b)) then [EvCall KSave g] else []
  | _ => []
  end.
(** ... and all fields: nothing, if the object is neither new nor modified *)
Definition due_calls (b : obj) (d : cdef) : list event :=
  if o_new b || o_modified b
  then flat_map (fun f => flat_map (calls_of b (fl_name f)) (fl_types f)) (cd_fields d) else [].

(** Data fields whose modifiers do nothing on save, or only call. *)
Definition calls_only (m : mdf) : Prop :=
  idle m = true \/ exists g, m = MOnsave g \/ m = MOnwrite g \/ m = MOnupdate g.
Definition caller (f : field) : Prop :=
  plain_field f = true /\ is_inst (fl_fdef f) = false /\ f_force_set_on_save (fl_fdef f) = false /\
  forall m, In m (fl_types f) -> calls_only m.
