(** WriteSpec.v -- the words of C26 and C27: a field of an object that is to be protected,
    and what is asked of the classes and of the user's code. *)
From Verif Require Import Base Mon Values KeypathModel TypesModel ObjModel ObjSpec IoModel TameSpec.
From Verif Require LeafModel.
Open Scope list_scope.

(** No field named [k] is the other side of a relation, and no class uses [k] as the name that
    the stored keys of a reference have (or would have). *)
Record own_name (P : program) (k : string) : Prop := {
  on_objects : forall c cls d f g, p_ct P cls = Some d -> In f (cd_fields d) -> foreign_field (p_ct P) c f = Some g -> fl_name g <> k;
  on_keys : forall cls d g, p_ct P cls = Some d -> In g (cd_fields d) -> fl_ref g <> k
}.

(** [f] is a data field of the existing object [x]; its name is used by no other field of the
    class and is not in the table of stored keys. *)
Record holds_data (P : program) (h : heap) (x : oid) (f : field) : Prop := {
  hd_exists : (x < h_next h)%nat;
  hd_field : exists d, p_ct P (o_class (h_obj h x)) = Some d /\ In f (cd_fields d) /\
                       forall g, In g (cd_fields d) -> fl_name g = fl_name f -> g = f;
  hd_plain : plain_field f = true;
  hd_keys : forall lab, sget lab (o_lkeys (h_obj h x)) <> Some (fl_name f);
  hd_label : sget (fl_name f) (o_lkeys (h_obj h x)) = None
}.

(** The user's callables and setters leave the attribute [k] of [x] alone, as well as its
    class and its stored keys, and remove no object. *)
Definition leaves (x : oid) (k : string) (h h' : heap) : Prop :=
  attr h' x k = attr h x k /\ o_class (h_obj h' x) = o_class (h_obj h x) /\
  o_lkeys (h_obj h' x) = o_lkeys (h_obj h x) /\ ((x < h_next h)%nat -> (x < h_next h')%nat).
Record considerate (P : program) (x : oid) (k : string) : Prop := {
  cs_call : forall f c args h, leaves x k h (snd (p_call P f c args h));
  cs_setter : forall o n v h, leaves x k h (snd (p_setter P o n v h))
}.

(** The user's callables and setters leave a new, unmodified [x] new and unmodified. *)
Definition stays_new (x : oid) (h h' : heap) : Prop :=
  o_new (h_obj h x) = true -> o_modified (h_obj h x) = false -> o_new (h_obj h' x) = true /\ o_modified (h_obj h' x) = false.
Record newborn (P : program) (x : oid) : Prop := {
  nb_call : forall f c args h, stays_new x h (snd (p_call P f c args h));
  nb_setter : forall o n v h, stays_new x h (snd (p_setter P o n v h))
}.

(** A chain that does not check objects, lists, dicts or unions before an eager marker *)
Definition checks_late (ts : types) : Prop :=
  forall pre post, ts = pre ++ MEager :: post -> forall m, In m pre ->
    match m with MInstance _ | MListOf _ | MDictOf _ | MUnion _ => False | _ => True end.
Fixpoint late (d : nat) (m : mdf) : Prop :=
  match d with
  | O => False
  | S d =>
      match m with
      | MListOf ts | MDictOf ts => checks_late ts /\ forall x, In x ts -> late d x
      | MUnion us => forall ts, In ts us -> checks_late ts /\ forall x, In x ts -> late d x
      | _ => True
      end
  end.
(** Only classes in [R] are held, at any depth. *)
Fixpoint holds_only (R : string -> Prop) (d : nat) (m : mdf) : Prop :=
  match d with
  | O => False
  | S d =>
      match m with
      | MInstance c => R c
      | MListOf ts | MDictOf ts => forall x, In x ts -> holds_only R d x
      | MUnion us => forall ts x, In ts us -> In x ts -> holds_only R d x
      | _ => True
      end
  end.
Definition only_holds (R : string -> Prop) (d : nat) (P : program) : Prop :=
  forall cls c f m, p_ct P cls = Some c -> In f (cd_fields c) -> In m (fl_types f) -> holds_only R d m.
Definition late_classes (d : nat) (P : program) : Prop :=
  forall cls c f, p_ct P cls = Some c -> In f (cd_fields c) -> checks_late (fl_types f) /\ forall m, In m (fl_types f) -> late d m.

(** A modifier that never turns a value into None *)
Definition solid (m : mdf) : bool :=
  match m with
  | MEnum _ | MTransform _ | MAt _ | MThis | MPassin | MGetop | MUnion _ | MLeaf (LeafModel.LArith _ _) => false
  | _ => true
  end.

(** The keys of the input that lead into something do not go through [k]. *)
Definition avoids (k : string) (kwargs : list (string * value)) : Prop :=
  forall key v, In (key, v) (compound_key_args kwargs) -> ~ In k (removelast (keypath_split key)).

(** A history of calls of [set] on any objects, each of which may have raised. *)
Inductive sets (P : program) (k : string) : world -> world -> Prop :=
| sets_none w : sets P k w w
| sets_one n o kwargs w r w' w'' : avoids k kwargs -> jset P n o kwargs w = (r, w') -> sets P k w' w'' -> sets P k w w''.
