(** UpdateSpec.v -- what the theorems about [update] say: the names it accepts, assignment
    in order, and data fields. *)
From Verif Require Import Base Mon PyDict Values TypesModel ObjModel ObjSpec IoModel.
Open Scope list_scope.

(** The names of a class: its fields, and the stored keys of its references. *)
Definition known_name (d : cdef) (k : string) : Prop :=
  exists f, In f (cd_fields d) /\
            (k = fl_name f \/
             (is_local f = true /\ (is_inst_field f = true \/ is_list_field f = true) /\ k = fl_ref f)).

(** The values are assigned one after the other, up to the first exception. *)
Inductive assigns (P : program) (o : oid) : list (string * value) -> world -> res unit -> world -> Prop :=
| as_done : forall w, assigns P o [] w (Ok tt) w
| as_next : forall k v l w w1 r w2,
    setattr P o k v w = (Ok tt, w1) -> assigns P o l w1 r w2 -> assigns P o ((k, v) :: l) w r w2
| as_stop : forall k v l w e w1,
    setattr P o k v w = (Err e, w1) -> assigns P o ((k, v) :: l) w (Err e) w1.

Definition attr_of (w : world) (o : oid) (k : string) : option value := attr (w_heap w) o k.

(** [k] is a field of [o] that holds data (no reference, not calculated), which is not
    also the name of a stored key, and [o] has a value for it. *)
Definition data_field (P : program) (w : world) (o : oid) (k : string) : Prop :=
  exists f, field_named k (wcdef P w o) = Some f /\ plain_field f = true /\
            sget k (o_lkeys (wobj w o)) = None /\ attr_of w o k <> None.
