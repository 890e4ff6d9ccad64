(** TripSpec.v -- the words of C90: a tree of objects and the copy of it that reading its
    JSON form makes. *)
From Verif Require Import Base Mon Values TypesModel ObjModel ObjSpec IoModel OutSpec WriteSpec MakeSpec SetInSpec RoundSpec NestSpec.
Open Scope list_scope.

(** The field has no default, or an empty one *)
Definition no_default (P : program) (g : field) : Prop := forall x y, default_of P x g y -> y = VNone.
Definition empty_default (P : program) (g : field) : Prop :=
  forall x y, default_of P x g y -> y = VNone \/ y = VList [] \/ y = VDict [].
(** The same value, or an equal one in Python's sense *)
Definition equal (P : program) (u z : value) : Prop := z = u \/ exists h, eqv (p_oeq P) h u z = true.

(** An object, a list or a dict, in a field for such *)
Definition structured (ts : types) (v : value) : Prop :=
  (exists cl o, object_types cl ts /\ v = VObj o) \/ (exists it l, list_types it ts /\ v = VList l) \/
  (exists it m, dict_types it ts /\ v = VDict m /\ NoDup (map fst m)).

Section Trip.
  (** The objects that were written, and what the call of tojson was to show of them *)
  Context (P : program) (h : heap) (x : oid -> ext) (ignore_writeonly : bool).
  (** The field [g] of [o] is data, is shown, and has its place in JSON for itself. *)
  Record travels (d : cdef) (o : oid) (g : field) : Prop := {
    tv_data : described P g;
    tv_key : own_key d g;
    tv_shown : visible ignore_writeonly (x o) g = true
  }.
  (** A new object inside another takes input for the field. *)
  Definition settable (g : field) : Prop :=
    match f_write_rule (fl_fdef g) with NoWrite => False | WriteOnce => no_default P g | _ => True end.
  (** [o] has no primary key: its class has none, or it is None in [o]. *)
  Definition keyless (d : cdef) (o : oid) : Prop :=
    match primary_field d with
    | None => True
    | Some pf => travels d o pf /\ no_default P pf /\ reads P h o (fl_name pf) VNone /\ kept P (fl_types pf) VNone
    end.

  (** The objects after reading; those from [N] on are new. *)
  Context (h' : heap) (N : oid).
  (** [alike k ts v y]: down to depth [k], [y] is a copy of [v], for the types [ts].  For an
      object there is a new object of its class, whose fields are copies; lists and dicts
      are copied item by item. *)
  Fixpoint alike (k : nat) (ts : types) (v y : value) : Prop :=
    match k with
    | O => True
    | S k =>
        (forall cl d o, object_types cl ts -> v = VObj o -> o_class (h_obj h o) = cl -> p_ct P cl = Some d -> keyless d o ->
           exists o', y = VObj o' /\ (N <= o')%nat /\ is_in h' o' cl /\
             forall g u, In g (cd_fields d) -> travels d o g -> settable g -> reads P h o (fl_name g) u ->
               exists z, has_in h' o' g z /\
                 (kept P (fl_types g) u -> (u = VNone -> no_default P g) -> equal P u z) /\
                 (empty_default P g -> alike k (fl_types g) u z)) /\
        (forall it l, list_types it ts -> v = VList l -> exists l', y = VList l' /\ Forall2 (alike k it) l l') /\
        (forall it m, dict_types it ts -> v = VDict m -> NoDup (map fst m) ->
           exists m', y = VDict m' /\ Forall2 (fun a b => fst a = fst b /\ alike k it (snd a) (snd b)) m m')
    end.
End Trip.
