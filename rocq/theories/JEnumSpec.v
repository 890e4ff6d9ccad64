(** JEnumSpec.v -- which enum a decoration registers, and where. *)
From Verif Require Import Base CGraphModel JEnumModel.
Open Scope string_scope.
Open Scope list_scope.

(** [d] decorates [a] for the graph [g]. *)
Inductive decorates : decoration -> string -> darg -> Prop :=
| dc_plain : forall a, decorates (Plain a) "default" a
| dc_direct : forall g a, decorates (Direct g a) g a
| dc_called : forall g a, decorates (Called g a) g a.

(** [h] is the history of registrations that the decorations ask for. *)
Inductive asked_for : list decoration -> list cop -> Prop :=
| af_nil : asked_for [] []
| af_class : forall d ds h g e, decorates d g (AClass e) -> asked_for ds h ->
    asked_for (d :: ds) (PutEnum g e :: h)
| af_other : forall d ds h g a, decorates d g a -> (forall e, a <> AClass e) -> asked_for ds h ->
    asked_for (d :: ds) h.
