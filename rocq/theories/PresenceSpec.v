(** PresenceSpec.v -- what the rules about missing values say. *)
From Verif Require Import Base Mon KeypathModel Values ChainModel TypesModel ObjModel IoModel.
Open Scope list_scope.

Section Presence.
  Context (P : program).

  (** A modifier accepts a context: validation ends normally and changes nothing. *)
  Definition accepted (fuel : nat) (m : mdf) (c : ctx) (w : world) : Prop :=
    m_validate (interp P fuel m) c w = (Ok tt, w).
  (** It rejects it, with this message at the field's keypath, and changes nothing. *)
  Definition rejected (fuel : nat) (m : mdf) (c : ctx) (w : world) (msg : string) : Prop :=
    m_validate (interp P fuel m) c w = (Err (EValidation [(skp (c_fkr c), msg)]), w).

  (** Reading attribute [k] of object [o] gives [v]. *)
  Definition reads_as (w : world) (o : oid) (k : string) (v : value) : Prop :=
    getattr P o k w = (Ok v, w).
  (** The key stored for a reference, in the object that holds the reference. *)
  Definition stored (w : world) (o : oid) (f : field) : option value :=
    o_attr (h_obj (w_heap w) o) (fl_ref f).
  Definition has_key (w : world) (o : oid) (f : field) : Prop :=
    exists v, stored w o f = Some v /\ v <> VNone.
  (** A stored key's name is not the name of a field. *)
  Definition key_is_no_field (w : world) (o : oid) (f : field) : Prop :=
    ofield (p_ct P) (w_heap w) o (fl_ref f) = None.
  Definition has_field (w : world) (o : oid) (f : field) : Prop :=
    ofield (p_ct P) (w_heap w) o (fl_name f) = Some f.
End Presence.
