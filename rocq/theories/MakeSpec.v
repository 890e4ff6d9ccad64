(** MakeSpec.v -- the words of C30: what the fields of a newly made object should hold. *)
From Verif Require Import Base Mon Values PyDict KeypathSpec ChainModel TypesModel ObjModel IoModel WriteSpec.
Open Scope list_scope.

(** The value the input has for a field: under its JSON name, or, if that is absent or null,
    under its own name. *)
Definition input_of (f : field) (kwargs : list (string * value)) : option value :=
  match sget (fl_json f) kwargs, sget (fl_name f) kwargs with
  | None, None => None
  | Some VNone, Some v => Some v
  | Some v, _ => Some v
  | None, Some v => Some v
  end.

(** Whether a new object takes the value [v] for the field [f] *)
Definition takes (f : field) (v : value) : Prop :=
  match f_write_rule (fl_fdef f) with NoWrite => False | WriteNonnull => v <> VNone | _ => True end.

(** [y] is what the types of the field [f] of object [x] make of [v]; there is no object yet
    that [v] is to be filled into. *)
Definition makes_of (P : program) (x : oid) (f : field) (v y : value) : Prop :=
  exists n c w1 w2, c_val c = v /\ c_owner c = VObj x /\ c_fdef c = fl_fdef f /\ c_original c = VNone /\
    t_transform (interp P n) (fl_types f) c w1 = (Ok y, w2).

(** [y] is the default of the field: the one of the class body, or what its types make of None. *)
Definition default_of (P : program) (x : oid) (f : field) (y : value) : Prop :=
  match fl_default f with VNone => makes_of P x f VNone y | v => y = v end.

Definition expected (P : program) (x : oid) (f : field) (kwargs : list (string * value)) (y : value) : Prop :=
  match input_of f kwargs with
  | Some v => takes f v /\ makes_of P x f v y \/ ~ takes f v /\ default_of P x f y
  | None => default_of P x f y
  end.

Definition key_given (d : cdef) (kwargs : list (string * value)) : Prop :=
  exists pf v, primary_field d = Some pf /\ sget (fl_name pf) kwargs = Some v /\ v <> VNone.

(** No field of any class holds objects of the class named [c]. *)
Definition nowhere_held (c : string) (D : nat) (P : program) : Prop := only_holds (fun c' => c' <> c) D P.
