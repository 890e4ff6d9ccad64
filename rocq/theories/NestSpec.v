(** NestSpec.v -- the words of C89: the objects that the input of a constructor or of [set]
    describes inside the object it is for, and what their fields hold. *)
From Verif Require Import Base Mon Values TypesModel ObjModel ObjSpec IoModel WriteSpec MakeSpec SetInSpec RoundSpec.
Open Scope list_scope.

(** A modifier that leaves a value that is not None alone *)
Definition beside (m : mdf) : Prop := silent m = true \/ exists p, m = MDefault p.
(** Types for one object of class [cl], for a list and for a dict with items of the types [it] *)
Definition object_types (cl : string) (ts : types) : Prop :=
  exists before after, ts = before ++ MInstance cl :: after /\ Forall beside before /\ Forall beside after.
Definition list_types (it ts : types) : Prop :=
  exists before raw after, ts = before ++ MListOf raw :: after /\ Forall beside before /\ Forall beside after /\
    is_ref (fdef_of ts) = false /\ item_types (fdef_of ts) = Some it.
Definition dict_types (it ts : types) : Prop :=
  exists before raw after, ts = before ++ MDictOf raw :: after /\ Forall beside before /\ Forall beside after /\
    item_types (fdef_of ts) = Some it.

(** A data field, which no relation and no user code writes to *)
Record described (P : program) (g : field) : Prop := {
  ds_plain : plain_field g = true;
  ds_name : own_name P (fl_name g);
  ds_user : forall x, considerate P x (fl_name g)
}.

(** The default of a field for the owner [a] *)
Definition default_by (P : program) (a : value) (f : field) (y : value) : Prop :=
  match fl_default f with
  | VNone => exists n c w1 w2, c_val c = VNone /\ c_owner c = a /\ c_fdef c = fl_fdef f /\ c_original c = VNone /\
               t_transform (interp P n) (fl_types f) c w1 = (Ok y, w2)
  | v => y = v
  end.

(** The object has no key when it is made: its class has no primary key, or the input gives
    none and it has no default. *)
Definition unkeyed (P : program) (d : cdef) (m : list (string * value)) : Prop :=
  match primary_field d with
  | None => True
  | Some pf => described P pf /\ (sget (fl_name pf) m = None \/ sget (fl_name pf) m = Some VNone) /\
               forall x y, default_of P x pf y -> y = VNone
  end.

Section Nest.
  (** whether absent fields get their defaults; the objects below [N] are old; the classes of
      objects and what their fields hold *)
  Context (P : program) (fill : bool) (N : oid) (is_a : oid -> string -> Prop) (has : oid -> field -> value -> Prop).

  (** The field [f] of [x], which held [cur], holds [z] after input [m]; [a] is the owner that
      its default is computed for.  [inner] says what is made of the input of a field. *)
  Definition outcome (inner : types -> value -> value -> Prop) (a : value) (x : oid) (f : field) (m : list (string * value)) (cur z : value) : Prop :=
    let rest := if fill then exists y, default_by P a f y /\ becomes P cur y z else z = cur in
    match input_of f m with
    | Some u => takes_now f cur u /\ (exists y, makes_of P x f u y /\ inner (fl_types f) u y /\ becomes P cur y z) \/
                ~ takes_now f cur u /\ rest
    | None => rest
    end.

  (** [built k ts v y]: down to depth [k], [y] is what the input [v] describes, for the types
      [ts]: a dict for an object is a new object of the class whose fields first had their
      defaults and then took the entries of the dict; lists and dicts are taken item by item. *)
  Fixpoint built (k : nat) (ts : types) (v y : value) : Prop :=
    match k with
    | O => True
    | S k =>
        (forall cl d m, object_types cl ts -> v = VDict m -> p_ct P cl = Some d -> unkeyed P d m ->
           exists o, y = VObj o /\ (N <= o)%nat /\ is_a o cl /\
             forall g, In g (cd_fields d) -> described P g ->
               exists y0 z, default_of P o g y0 /\ has o g z /\ outcome (built k) VNone o g m y0 z) /\
        (forall it l, list_types it ts -> v = VList l ->
           exists l', y = VList l' /\ Forall2 (built k it) l l') /\
        (forall it m, dict_types it ts -> v = VDict m -> NoDup (map fst m) ->
           exists m', y = VDict m' /\ Forall2 (fun a b => fst a = fst b /\ built k it (snd a) (snd b)) m m')
    end.
End Nest.

(** In the heap [h] *)
Definition is_in (h : heap) (o : oid) (cl : string) : Prop := (o < h_next h)%nat /\ o_class (h_obj h o) = cl.
Definition has_in (h : heap) (o : oid) (g : field) (z : value) : Prop := attr h o (fl_name g) = Some z.
Definition nested (P : program) (h : heap) (fill : bool) (N : oid) : nat -> types -> value -> value -> Prop :=
  built P fill N (is_in h) (has_in h).
