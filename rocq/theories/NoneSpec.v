(** NoneSpec.v -- the words of C104: which modifiers can tell that there is no value. *)
From Verif Require Import Base Values TypesModel.
From Verif Require LeafModel.
Open Scope list_scope.

(** Modifiers that may refuse None when a value is checked *)
Definition asks_value (m : mdf) : Prop :=
  match m with
  | MRequired | MPresent | MPresentwith _ | MPresentwithout _ | MInvalid | MOneIsValid _ | MValidate (PTypes _) _
  | MCompare _ | MCanWrite _ _ | MIsthis | MIsobjof _ | MAsop _ | MLeaf (LeafModel.LNeq _) => True
  | _ => False
  end.

(** A parameter that is a value, not a callable or a chain of types *)
Definition fixed (p : param) : Prop := match p with PVal _ => True | _ => False end.

(** Modifiers that may turn None into something when input is taken, or that compute their
    parameters before they look at the value *)
Definition makes_value (m : mdf) : Prop :=
  match m with
  | MDefault _ | MTransform (PTypes _) | MThis | MPassin | MGetop | MNonnull | MLeaf LeafModel.LToBool => True
  | MLeaf (LeafModel.LPadStart a b) | MLeaf (LeafModel.LPadEnd a b) | MLeaf (LeafModel.LInsertAt a b)
  | MLeaf (LeafModel.LReplace a b) => ~ (fixed a /\ fixed b)
  | _ => False
  end.

(** ... when output is made *)
Definition shows_value (m : mdf) : Prop :=
  match m with MFmt (PTypes _) | MCanRead _ => True | _ => False end.

(** ... when the object is saved *)
Definition saves_value (m : mdf) : Prop :=
  match m with MSetonsave _ _ | MOnsave _ | MOnwrite _ | MOnupdate _ | MPreserialize => True | _ => False end.
