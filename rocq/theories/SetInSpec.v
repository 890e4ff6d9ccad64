(** SetInSpec.v -- the words of C84: what [set] leaves in a data field. *)
From Verif Require Import Base Mon Values TypesModel ObjModel IoModel MakeSpec.
Open Scope list_scope.

(** Whether the field [f], which holds [cur], takes the input [v] *)
Definition takes_now (f : field) (cur v : value) : Prop :=
  match f_write_rule (fl_fdef f) with
  | NoWrite => False
  | WriteOnce => cur = VNone
  | WriteNonnull => v <> VNone
  | WriteUnlimited => True
  end.

(** [z] is what a field with [cur] holds after the assignment of [y]: [y], or still [cur] if
    that is equal to [y] in Python's sense. *)
Definition becomes (P : program) (cur y z : value) : Prop :=
  z = y \/ z = cur /\ exists h, eqv (p_oeq P) h y cur = true.

(** What the field [f] of [x], holding [cur], holds after [set] with this input *)
Definition after_set (P : program) (x : oid) (f : field) (kwargs : list (string * value)) (cur z : value) : Prop :=
  match input_of f kwargs with
  | None => z = cur
  | Some v => takes_now f cur v /\ (exists y, makes_of P x f v y /\ becomes P cur y z) \/ ~ takes_now f cur v /\ z = cur
  end.
