(** TameSpec.v -- what the theorems about whole object graphs ask of the program: its
    callables change no object, and the chains of types that are given to modifiers as
    arguments look at one value only. *)
From Verif Require Import Base Mon Values TypesModel ObjModel IoModel.
From Verif Require LeafModel.
Open Scope list_scope.

(** No callable changes an object. *)
Definition calm (P : program) : Prop :=
  forall f c args h, snd (p_call P f c args h) = h.

(** No callable, getter or arithmetic of the program recurses without end. *)
Record ending (P : program) : Prop := {
  ending_getter : forall h o n, p_getter P h o n <> Err ERecursion;
  ending_call : forall f c args h, fst (p_call P f c args h) <> Err ERecursion;
  ending_arith : forall op a b, p_arith P op a b <> Err ERecursion
}.

(** The arguments of a modifier that may be a chain of types *)
Definition params_of (m : mdf) : list param :=
  match m with
  | MLeaf l => LeafModel.leaf_params l
  | MDefault p | MTransform p | MValidate p _ | MSetonsave p _ | MFilter p | MFmt p
  | MCanRead p | MMap p | MAt p | MCanWrite _ p => [p]
  | MOneIsValid ps => ps
  | _ => []
  end.

(** [flat d m]: the modifier [m] is not about the parts of a value (objects, lists, dicts,
    unions), nor is any modifier in its arguments, which are nested less than [d] deep. *)
Fixpoint flat (d : nat) (m : mdf) : Prop :=
  match d with
  | O => False
  | S d =>
      match m with
      | MInstance _ | MListOf _ | MDictOf _ | MUnion _ => False
      | _ => forall ts, In (PTypes ts) (params_of m) -> forall x, In x ts -> flat d x
      end
  end.

(** [tame d m]: the chains given to [m], and to the modifiers of its parts, as arguments
    are flat; everything is nested less than [d] deep. *)
Fixpoint tame (d : nat) (m : mdf) : Prop :=
  match d with
  | O => False
  | S d' =>
      match m with
      | MInstance _ => True
      | MListOf ts | MDictOf ts => forall x, In x ts -> tame d' x
      | MUnion us => forall ts x, In ts us -> In x ts -> tame d' x
      | _ => flat d m
      end
  end.

(** The callables given to a modifier, and the chains of types in it *)
Definition own_calls (m : mdf) : list cbid :=
  flat_map (fun p => match p with PCall f => [f] | _ => [] end) (params_of m) ++
  match m with MCompare f | MOnsave f | MOnwrite f | MOnupdate f => [f] | _ => [] end.
Definition chains_of (m : mdf) : list types :=
  flat_map (fun p => match p with PTypes ts => [ts] | _ => [] end) (params_of m) ++
  match m with MListOf ts | MDictOf ts => [ts] | MUnion us => us | _ => [] end.
(** [uses d f m]: the callable [f] is given to [m], or to a modifier less than [d] deep in it. *)
Fixpoint uses (d : nat) (f : cbid) (m : mdf) : Prop :=
  match d with
  | O => False
  | S d => In f (own_calls m) \/ exists ts x, In ts (chains_of m) /\ In x ts /\ uses d f x
  end.

(** Every field of every class has tame types. *)
Definition tame_classes (d : nat) (P : program) : Prop :=
  forall cls c f m, p_ct P cls = Some c -> In f (cd_fields c) -> In m (fl_types f) -> tame d m.

(** The types given as guards of an action are flat. *)
Definition flat_guards (d : nat) (P : program) (a : action) : Prop :=
  forall cls ts x, In (PTypes ts) (p_guards P cls a) -> In x ts -> flat d x.
