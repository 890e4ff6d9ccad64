(** CivilSpec.v -- what some theorems ask of the user's own code. *)
From Verif Require Import Base Mon Values ObjModel IoModel.
Open Scope list_scope.

(** No getter, setter, callable or arithmetic of the program raises a validation error
    that has no message in it (the library itself never does). *)
Record civil (P : program) : Prop := {
  civil_getter : forall h o n, p_getter P h o n <> Err (EValidation []);
  civil_setter : forall o n v h, fst (p_setter P o n v h) <> Err (EValidation []);
  civil_call : forall f c args h, fst (p_call P f c args h) <> Err (EValidation []);
  civil_arith : forall op a b, p_arith P op a b <> Err (EValidation [])
}.
