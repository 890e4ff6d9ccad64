(** NestLinkSpec.v -- the words of C105: input that describes the objects of a relation inside
    the object it is for. *)
From Verif Require Import Base Mon Values TypesModel ObjModel ObjSpec LinkOps LinkSpec IoModel TameSpec RoundSpec InitProofs GiveSpec.
Open Scope list_scope.

(** What a field holds: data, one object of a class, or a list of objects of a class *)
Inductive shape := Data | One (cl : string) | Many (cl : string).

(** Its types: for data, no modifier is about objects, lists, dicts or unions, or it is a list or
    a dict of such data; for objects, lists and dicts, the other modifiers leave every value
    alone. *)
Definition one_chain (cl : string) (ts : types) : Prop :=
  exists before after, ts = before ++ MInstance cl :: after /\ (forall m, In m (before ++ after) -> silent m = true).
Definition chain_shape (D : nat) (ts : types) (s : shape) : Prop :=
  match s with
  | Data => (forall m, In m ts -> flat D m) \/
            exists before m after raw it, ts = before ++ m :: after /\ (m = MListOf raw \/ m = MDictOf raw) /\
              (forall x, In x (before ++ after) -> silent x = true) /\ is_ref (fdef_of ts) = false /\
              item_types (fdef_of ts) = Some it /\ (forall x, In x it -> flat D x)
  | One cl => one_chain cl ts
  | Many cl => exists before raw after it, ts = before ++ MListOf raw :: after /\ (forall m, In m (before ++ after) -> silent m = true) /\
                 item_types (fdef_of ts) = Some it /\ one_chain cl it
  end.
(** A field of that shape; a relation holds objects of its class, and has no default. *)
Record shaped (D : nat) (f : field) (s : shape) : Prop := {
  sh_chain : chain_shape D (fl_types f) s;
  sh_ref : is_ref (fl_fdef f) = true ->
    fl_default f = VNone /\
    match s with
    | Data => False
    | One cl => f_ftype (fl_fdef f) = Some FTInstance /\ foreign_class f = Some cl
    | Many cl => f_ftype (fl_fdef f) = Some FTList /\ foreign_class f = Some cl
    end
}.
Definition shapely (D : nat) (P : program) : Prop :=
  forall cls d f, p_ct P cls = Some d -> In f (cd_fields d) -> exists s, shaped D f s.

(** Input that names no stored key *)
Definition no_stored_keys (d : cdef) (m : list (string * value)) : Prop :=
  forall f, In f (cd_fields d) -> is_local f = true -> get_or_none (fl_ref f) m = VNone /\ get_or_none (fl_cref f) m = VNone.
(** and no primary key *)
Definition no_key (d : cdef) (m : list (string * value)) : Prop :=
  forall f, primary_field d = Some f -> get_or_none (fl_name f) m = VNone.
(** a dict that does not ask for keys to be added to a list or taken from it *)
Definition no_link_words (v : value) : Prop :=
  match v with VDict m => smem "_add" m = false /\ smem "_del" m = false | _ => True end.

Section Input.
  (** [old]: the objects that may be given as they are *)
  Context (D : nat) (P : program) (h : heap) (old : oid -> Prop).

  (** [v] is input for a field of this shape. *)
  Inductive describes : shape -> value -> Prop :=
  | ds_data v : describes Data v
  | ds_none s : describes s VNone
  | ds_object cl b : old b -> (b < h_next h)%nat -> o_class (h_obj h b) = cl -> describes (One cl) (VObj b)
  | ds_dict cl m : (forall d, p_ct P cl = Some d -> no_key d m /\ entries d m) -> describes (One cl) (VDict m)
  | ds_list cl l : (forall v, In v l -> v <> VNone /\ no_link_words v /\ describes (One cl) v) -> NoDup (objs (Some (VList l))) ->
      describes (Many cl) (VList l)
  with entries : cdef -> list (string * value) -> Prop :=
  | en_all d m : no_stored_keys d m -> (forall f s, In f (cd_fields d) -> shaped D f s -> describes s (get_field_value f m)) -> entries d m.
End Input.

(** How many objects the input describes *)
Definition described_objects (v : value) : nat :=
  match v with VDict _ => 1%nat | VList l => List.length l | _ => 0%nat end.

(** What the theorems assume of the program: its callables change no object and its setters
    make none, two objects are equal if they are the same one, relations are between declared
    classes, and field names and stored keys are as the decorator makes them. *)
Record plain_program (D : nat) (P : program) : Prop := {
  pl_calm : calm P;
  pl_setter : forall o n v h, h_next (snd (p_setter P o n v h)) = h_next h;
  pl_equal : forall h a b, p_oeq P h a b = Nat.eqb a b;
  pl_lim : (2 <= p_lim P)%nat;
  pl_wf : wf_classes (p_ct P);
  pl_primary : plain_primary (p_ct P);
  pl_names : forall cls d, p_ct P cls = Some d -> proper_names d /\ own_keys d;
  pl_declared : forall cls d f cl, p_ct P cls = Some d -> In f (cd_fields d) -> is_ref (fl_fdef f) = true -> foreign_class f = Some cl -> p_ct P cl <> None;
  pl_shapes : shapely D P
}.
(** Neither side of the relation is a list that stores the keys of its objects. *)
Definition no_key_list (R : relation) : Prop :=
  (is_local (ra_field R) = true -> is_list_type (ra_field R) = true -> False) /\
  (is_local (rb_field R) = true -> is_list_type (rb_field R) = true -> False).

(** The objects at hand: references lead to objects of their classes, both sides of the
    relation agree, and there are no others. *)
Record sound_heap (P : program) (R : relation) (h : heap) : Prop := {
  sd_typed : typed_heap (p_ct P) h;
  sd_agree : consistent R h;
  sd_no_others : forall o, (h_next h <= o)%nat -> p_ct P (o_class (h_obj h o)) = None
}.
