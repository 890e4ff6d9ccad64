(** CollectionSpec.v -- the items inside nested collections, and what it means for an item
    type to admit None. *)
From Verif Require Import Base Mon KeypathModel Values ChainModel ChainSpec TypesModel TypesSpec ObjModel IoModel IoBase.
Open Scope list_scope.

(** [x] is the item of the list (or dict) [v] with index (or key) [k]. *)
Definition item_at (dict : bool) (v : value) (k : karg) (x : value) : Prop :=
  if dict then exists d s, v = VDict d /\ k = KStr s /\ In (s, x) d
  else exists l i, v = VList l /\ k = KInt (Z.of_nat i) /\ nth_error l i = Some x.

Definition is_col (m : mdf) : bool := match m with MListOf _ | MDictOf _ => true | _ => false end.
(** The type [ts] is a list (or dict) of items of type [raw]: it has exactly one modifier
    saying so. *)
Definition collection (dict : bool) (ts raw : types) : Prop :=
  exists before after, ts = before ++ (if dict then MDictOf raw else MListOf raw) :: after /\
    forall m', In m' (before ++ after) -> is_col m' = false.

(** [within ts v path raw x]: following [path] inside the value [v] of type [ts] one
    arrives at the item [x], whose type was written [raw].  Types on the way have no
    eager or pre-serialize marks. *)
Inductive within : types -> value -> list karg -> types -> value -> Prop :=
| wi_here dict ts v raw k x : unmarked ts -> unmarked raw -> collection dict ts raw -> item_at dict v k x ->
    within ts v [k] raw x
| wi_below dict ts v it k y path raw x : unmarked ts -> collection dict ts it -> item_at dict v k y ->
    within it y path raw x -> within ts v (k :: path) raw x.

(** the item type is marked nullable *)
Definition nullable (raw : types) : Prop := In MNullable raw.
(** the item type does not say how the item is stored *)
Definition plain_store (raw : types) : Prop := forall m, In m raw -> store_mark m = None.
(** None passes the checks of [m] *)
Definition admits_none (P : program) (fuel : nat) (m : mdf) : Prop :=
  forall c w, c_val c = VNone -> m_validate (interp P fuel m) c w = (Ok tt, w).
(** type modifiers and marks *)
Definition is_type (m : mdf) : bool :=
  match m with
  | MLeaf (LeafModel.LType _) | MAny | MInstance _ | MListOf _ | MDictOf _ | MUnion _ | MEnum _
  | MNullable | MNonnull | MStrict | MReadonly | MReadwrite | MWriteonly | MWriteonce | MWritenonnull => true
  | _ => false
  end.

(** validation ended without an exception of another kind *)
Definition regular (r : res unit) : Prop := r = Ok tt \/ exists msgs, r = Err (EValidation msgs).
(** it failed, with a message for [key] *)
Definition says (r : res unit) (key : string) : Prop := exists msgs, r = Err (EValidation msgs) /\ sget key msgs <> None.
(** the modifier gives every value back as it is *)
Definition passes_on (P : program) (fuel : nat) (m : mdf) : Prop :=
  forall c w, m_transform (interp P fuel m) c w = (Ok (c_val c), w).
