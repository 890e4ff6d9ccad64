(** GraphSpec.v -- the words of C40: what a finite graph of objects is, and how often a
    validator may be called on it. *)
From Verif Require Import Base Mon Values TypesModel ObjModel IoModel.
Open Scope list_scope.

(** All objects of the program's classes have identities below [h_next]: there are
    finitely many, linked in any way, cyclic or not. *)
Definition finite_graph (P : program) (h : heap) : Prop :=
  forall o, p_ct P (o_class (h_obj h o)) <> None -> (o < h_next h)%nat.

(** [types.validate(f)] *)
Definition checks_with (f : cbid) (m : mdf) : bool :=
  match m with MValidate (PCall g) _ => Nat.eqb g f | _ => false end.
(** In how many places of the fields of a class it stands *)
Definition places (f : cbid) (d : cdef) : nat :=
  length (filter (checks_with f) (flat_map fl_types (cd_fields d))).
Definition places_at (P : program) (f : cbid) (h : heap) (o : oid) : nat :=
  match p_ct P (o_class (h_obj h o)) with Some d => places f d | None => 0%nat end.
(** Once for each object of the graph and each such place *)
Definition once_for_each_object (P : program) (f : cbid) (h : heap) : nat :=
  list_sum (map (places_at P f h) (seq 0 (h_next h))).
(** How often [f] has been called as a validator *)
Definition is_check (f : cbid) (e : event) : bool :=
  match e with EvCall KValidate g => Nat.eqb g f | _ => false end.
Definition checks (f : cbid) (w : world) : nat := length (filter (is_check f) (w_log w)).
