(** UnionSpec.v -- what it means that a member of a union takes a value. *)
From Verif Require Import Base Mon Values ChainModel TypesModel ObjModel IoModel.
Open Scope list_scope.

Section Union.
  Context (P : program) (fuel : nat).

  (** The member type [u] accepts the value of [c], or refuses it with a validation error;
      both may change the state, from [w] to [w']. *)
  Definition takes (c : ctx) (u : types) (w w' : world) : Prop :=
    t_validate (interp P fuel) u (alterfdef c (fdef_of u)) w = (Ok tt, w').
  Definition refuses (c : ctx) (u : types) (w w' : world) : Prop :=
    exists msgs, t_validate (interp P fuel) u (alterfdef c (fdef_of u)) w = (Err (EValidation msgs), w').

  (** Each of [us] refuses, one after the other. *)
  Inductive all_refuse (c : ctx) : list types -> world -> world -> Prop :=
  | refuse_nil w : all_refuse c [] w w
  | refuse_cons u us w w1 w' : refuses c u w w1 -> all_refuse c us w1 w' -> all_refuse c (u :: us) w w'.

  (** [u] is the first of [us] that accepts the value. *)
  Definition first_to_take (c : ctx) (us : list types) (u : types) (w w' : world) : Prop :=
    exists before after w1, us = before ++ u :: after /\ all_refuse c before w w1 /\ takes c u w1 w'.

  (** The member types only look: they decide without a change of state and raise nothing
      but validation errors. *)
  Definition only_looks (c : ctx) (us : list types) (w : world) : Prop :=
    forall u, In u us -> takes c u w w \/ refuses c u w w.
End Union.
