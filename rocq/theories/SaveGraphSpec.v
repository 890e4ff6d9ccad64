(** SaveGraphSpec.v -- the words of C56: what is asked of the program, and how often a
    callable may be called while a graph of objects is prepared for saving. *)
From Verif Require Import Base Mon Values TypesModel ObjModel ObjSpec IoModel OnsaveSpec WriteSpec.
From Verif Require LeafModel.
Open Scope list_scope.

(** [k] is the name of the primary key of some class. *)
Definition key_name (P : program) (k : string) : Prop :=
  exists cls d f, p_ct P cls = Some d /\ primary_field d = Some f /\ fl_name f = k.

(** No object is made, removed, or changes its class, its table of stored keys or its
    primary key. *)
Definition spares (P : program) (h h' : heap) : Prop :=
  forall x, o_class (h_obj h' x) = o_class (h_obj h x) /\ o_lkeys (h_obj h' x) = o_lkeys (h_obj h x) /\
            ((x < h_next h)%nat -> (x < h_next h')%nat) /\
            forall k, key_name P k -> attr h' x k = attr h x k.

(** The program's callables, and the setters of its calculated fields, do nothing of that kind. *)
Record gentle (P : program) : Prop := {
  gentle_call : forall f c args h, spares P h (snd (p_call P f c args h));
  gentle_setter : forall o n v h, spares P h (snd (p_setter P o n v h))
}.

(** The primary key of a class is a data field that no modifier sets on save; no two fields of a
    class have the same name; a name of a primary key is not also used for objects or stored keys. *)
Record plain_keys (P : program) : Prop := {
  pk_names : forall cls d, p_ct P cls = Some d -> NoDup (map fl_name (cd_fields d));
  pk_plain : forall cls d f, p_ct P cls = Some d -> primary_field d = Some f -> plain_field f = true;
  pk_idle : forall cls d f m, p_ct P cls = Some d -> primary_field d = Some f -> In m (fl_types f) -> idle m = true;
  pk_own : forall k, key_name P k -> own_name P k
}.
Definition keys_apart (P : program) (h : heap) : Prop :=
  forall x k, key_name P k ->
    sget k (o_lkeys (h_obj h x)) = None /\ forall lab, sget lab (o_lkeys (h_obj h x)) <> Some k.

(** Assigning to an attribute does not recurse too deep, whatever the attributes hold, in
    objects with the classes and the tables of stored keys that they have in [h]. *)
Definition assignments_end (P : program) (h : heap) : Prop :=
  forall o n v h', (forall x, o_class (h_obj h' x) = o_class (h_obj h x) /\ o_lkeys (h_obj h' x) = o_lkeys (h_obj h x)) ->
    fst (run (p_ct P) (p_oeq P) (p_getter P) (p_setter P) (LeafModel.py_str (p_str P)) (p_lim P) (TSet o n v) h') <> Err ERecursion.

(** [f] is what a modifier calls on save. *)
Definition saves_with (f : cbid) (m : mdf) : bool :=
  match m with
  | MSetonsave (PCall g) _ | MOnsave g | MOnwrite g | MOnupdate g => Nat.eqb g f
  | _ => false
  end.
(** In how many places of the fields of a class it stands *)
Definition save_places (f : cbid) (d : cdef) : nat :=
  length (filter (saves_with f) (flat_map fl_types (cd_fields d))).
Definition save_places_at (P : program) (f : cbid) (h : heap) (o : oid) : nat :=
  match p_ct P (o_class (h_obj h o)) with Some d => save_places f d | None => 0%nat end.
(** Once for each object of the graph and each such place *)
Definition once_for_each (P : program) (f : cbid) (h : heap) : nat :=
  list_sum (map (save_places_at P f h) (seq 0 (h_next h))).
(** How often [f] has been called as an on-save setter or callback *)
Definition is_save (f : cbid) (e : event) : bool :=
  match e with EvCall KSave g => Nat.eqb g f | _ => false end.
Definition saves (f : cbid) (w : world) : nat := length (filter (is_save f) (w_log w)).

(** No eager marker stands after a preserialize marker. *)
Definition eager_first (ts : types) : Prop :=
  forall pre post, ts = pre ++ MPreserialize :: post -> ~ In MEager post.
