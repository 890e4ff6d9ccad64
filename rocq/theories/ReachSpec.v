(** ReachSpec.v -- the words of C79: which objects an object refers to, which it reaches,
    and what it means that a field of an object has been checked and accepted. *)
From Verif Require Import Base Mon Values ChainModel TypesModel ObjModel IoModel ValidateSpec TameSpec.
Open Scope list_scope.

(** [checks ts m]: the modifier [m] of the chain [ts] takes part in validation: no eager
    mark comes after it, and it is not a pre-serialize mark nor after one. *)
Definition checks (ts : types) (m : mdf) : Prop :=
  exists a b, ts = a ++ m :: b /\ (forall x, In x b -> kind_of x <> KEager) /\
              (forall x, In x (a ++ [m]) -> kind_of x <> KPreserialize).

(** The types of the items of a list or dict: those the last such mark of the chain names *)
Definition items (ts it : types) : Prop :=
  exists a m b, ts = a ++ m :: b /\ (m = MListOf it \/ m = MDictOf it) /\
                (forall x, In x b -> match x with MListOf _ | MDictOf _ => False | _ => True end).

(** [held ts v y]: the value [v] of a field with the types [ts] is the object [y], or a
    list or dict in which [y] is held. *)
Inductive held : types -> value -> oid -> Prop :=
| held_obj ts cls y : checks ts (MInstance cls) -> held ts (VObj y) y
| held_list ts it0 it l u y : checks ts (MListOf it0) -> items ts it -> In u l -> held it u y ->
    held ts (VList l) y
| held_dict ts it0 it l k u y : checks ts (MDictOf it0) -> items ts it -> In (k, u) l -> held it u y ->
    held ts (VDict l) y.

(** [inert d m]: the modifier [m] is not about objects; [plain d m]: neither is any member
    of a union in it. *)
Fixpoint inert (d : nat) (m : mdf) : Prop :=
  match d with
  | O => False
  | S d' =>
      match m with
      | MInstance _ => False
      | MListOf ts | MDictOf ts => forall x, In x ts -> inert d' x
      | MUnion us => forall ts x, In ts us -> In x ts -> inert d' x
      | _ => flat d m
      end
  end.
Fixpoint plain (d : nat) (m : mdf) : Prop :=
  match d with
  | O => False
  | S d' =>
      match m with
      | MInstance _ => True
      | MListOf ts | MDictOf ts => forall x, In x ts -> plain d' x
      | MUnion us => inert d m
      | _ => flat d m
      end
  end.
Definition plain_classes (d : nat) (P : program) : Prop :=
  forall cls c f m, p_ct P cls = Some c -> In f (cd_fields c) -> In m (fl_types f) -> plain d m.

Section Reach.
  Context (P : program) (w : world).

  (** The field [f], which has the value [v] and is due, is a field of [x]. *)
  Record due_field (x : oid) (f : field) (v : value) : Prop := {
    df_field : exists d, p_ct P (wclass w x) = Some d /\ In f (cd_fields d);
    df_due : due w x f;
    df_value : value_of P w x (fl_name f) v
  }.
  (** [x] refers to [y] in a field that is due. *)
  Definition refers (x y : oid) : Prop := exists f v, due_field x f v /\ held (fl_types f) v y.
  Inductive reaches (o : oid) : oid -> Prop :=
  | re_self : reaches o o
  | re_step x y : reaches o x -> refers x y -> reaches o y.

  (** No two objects that [o] reaches are of one class and have primary keys that print
      the same. *)
  Definition told_apart (o : oid) : Prop :=
    forall x y k, reaches o x -> reaches o y -> wclass w x = wclass w y ->
      pk_of P w x = Some k -> pk_of P w y = Some k -> x = y.

  (** The field [f] of [x] has been validated when it had the value [v] and all objects
      were as they are in [w]; its chain accepted, and so did every modifier of it that
      takes part in validation. *)
  Record accepted (x : oid) (f : field) (v : value) (fuel : nat) (c : ctx) : Prop := {
    ac_value : c_val c = v;
    ac_def : c_fdef c = fl_fdef f;
    ac_owner : is_inst_field f = false -> c_owner c = VObj x;
    ac_chain : exists w1 w2, w_heap w1 = w_heap w /\ t_validate (interp P fuel) (fl_types f) c w1 = (Ok tt, w2);
    ac_each : forall m, checks (fl_types f) m ->
      exists w1 w2, w_heap w1 = w_heap w /\ m_validate (interp P fuel m) c w1 = (Ok tt, w2)
  }.
End Reach.
