(** PrepSpec.v -- the words of C103: which objects a save must prepare, and how often a
    setter is due for each of them. *)
From Verif Require Import Base Mon Values TypesModel ObjModel ObjSpec IoModel OutSpec OnsaveSpec TameSpec.
From Verif Require ReachSpec.
Open Scope list_scope.

(** A field that passes the save on to the objects in it, and does nothing else on save;
    and a field whose modifiers look at one value only *)
Definition carrier (f : field) : Prop := forall m, In m (fl_types f) -> passing m.
Definition data (f : field) : Prop := exists d, forall m, In m (fl_types f) -> flat d m.

(** Fields have different names and are of one of these two kinds, references of the first;
    a primary key is a data field that nothing sets on save. *)
Record tidy (P : program) : Prop := {
  td_names : forall cls d, p_ct P cls = Some d -> NoDup (map fl_name (cd_fields d));
  td_kinds : forall cls d f, p_ct P cls = Some d -> In f (cd_fields d) -> is_calc f = false ->
    carrier f \/ (is_ref (fl_fdef f) = false /\ data f);
  td_key : forall cls d f, p_ct P cls = Some d -> primary_field d = Some f ->
    plain_field f = true /\ forall m, In m (fl_types f) -> idle m = true
}.

(** [carried ts v y]: the value [v] of a field with the types [ts] is the object [y], or a
    list in which [y] is, at any depth. *)
Inductive carried : types -> value -> oid -> Prop :=
| carried_obj ts cls y : In (MInstance cls) ts -> carried ts (VObj y) y
| carried_list ts it0 it l u y : In (MListOf it0) ts -> ReachSpec.items ts it -> In u l -> carried it u y ->
    carried ts (VList l) y.

Section Prep.
  Context (P : program) (w : world).
  Notation h := (w_heap w).

  Definition field_at (x : oid) (f : field) : Prop :=
    exists d, p_ct P (o_class (h_obj h x)) = Some d /\ In f (cd_fields d).

  (** A save looks at the field: it is a reference, an embedded object or a list of
      them, or the object is new or modified, or the field forces it. *)
  Definition looked_at (x : oid) (f : field) : Prop :=
    is_ref (fl_fdef f) = true \/ is_inst (fl_fdef f) = true \/ to_save (h_obj h x) \/
    f_force_set_on_save (fl_fdef f) = true.

  Definition leads (x y : oid) : Prop :=
    exists f v, field_at x f /\ is_calc f = false /\ looked_at x f /\ carrier f /\
      reads P h x (fl_name f) v /\ carried (fl_types f) v y.
  Inductive leads_to (o : oid) : oid -> Prop :=
  | lt_self : leads_to o o
  | lt_step x y : leads_to o x -> leads x y -> leads_to o y.

  (** [sets g m]: [m] calls [g] whenever its field is prepared for saving. *)
  Definition sets (g : cbid) (m : mdf) : bool :=
    match m with MSetonsave (PCall f) _ | MOnsave f => Nat.eqb f g | _ => false end.
  Definition due_here (g : cbid) (x : oid) (f : field) : bool :=
    existsb (sets g) (fl_types f) && negb (is_calc f) && negb (is_local f) &&
    (o_new (h_obj h x) || o_modified (h_obj h x) || f_force_set_on_save (fl_fdef f)).
  (** In how many fields of [x] the callable [g] is due *)
  Definition dues (g : cbid) (x : oid) : nat :=
    match p_ct P (o_class (h_obj h x)) with
    | Some d => length (filter (due_here g x) (cd_fields d))
    | None => 0%nat
    end.

  (** What is asked of the objects: no two of one class have the same key; stored keys are
      not named like fields; the values of references equal themselves; and the object that
      is saved refers to others by lists only. *)
  Record ready (root : oid) : Prop := {
    rd_apart : forall x y k, o_class (h_obj h x) = o_class (h_obj h y) ->
      pk_of P w x = Some k -> pk_of P w y = Some k -> x = y;
    rd_labels : forall x f, field_at x f -> sget (fl_name f) (o_lkeys (h_obj h x)) = None;
    rd_same : forall x f v, field_at x f -> is_ref (fl_fdef f) = true -> attr h x (fl_name f) = Some v ->
      forall h', veq (p_oeq P h') v v = true;
    rd_root : forall f cls, field_at root f -> is_ref (fl_fdef f) = true -> ~ In (MInstance cls) (fl_types f)
  }.
End Prep.
