(** RefKeysSpec.v -- the words of C81: linking and unlinking by key in the input of [set]. *)
From Verif Require Import Base Mon KeypathModel KeypathSpec Values TypesModel ObjModel IoModel UpdateSpec KpSetSpec.
Open Scope string_scope.
Open Scope list_scope.

(** What an item of the input may ask for, and how it is written in JSON *)
Inductive command := Link (k : value) | Unlink (k : value).
Definition json_of (x : command) : value :=
  match x with Link k => VDict [("_add", k)] | Unlink k => VDict [("_del", k)] end.
Definition key_of (x : command) : value := match x with Link k | Unlink k => k end.
(** Keys are ints or strings. *)
Definition is_key (v : value) : Prop := match v with VInt _ | VStr _ => True | _ => False end.

(** [obeys xs ks ks']: the commands, done in order, take the keys [ks] to [ks']: a key that
    is linked comes last, one that is unlinked goes away where it stands first. *)
Inductive obeys : list command -> list value -> list value -> Prop :=
| ob_nil ks : obeys [] ks ks
| ob_link k r ks ks' : obeys r (ks ++ [k]) ks' -> obeys (Link k :: r) ks ks'
| ob_unlink k r a b ks' : ~ In k a -> obeys r (a ++ b) ks' -> obeys (Unlink k :: r) (a ++ k :: b) ks'.

Definition links (xs : list command) : list value :=
  flat_map (fun x => match x with Link k => [k] | Unlink _ => [] end) xs.
Definition unlinks (xs : list command) : list value :=
  flat_map (fun x => match x with Link _ => [] | Unlink k => [k] end) xs.

(** A modifier that changes no value and does not cut the chain *)
Definition quiet_mark (m : mdf) : Prop :=
  match m with
  | MLinkto | MLinkedby _ | MLinkedthru _ | MRequired | MPresent | MNonnull | MNullable
  | MNullify | MCascade | MDeny | MQueryable | MUnqueryable | MReadwrite | MWriteonly => True
  | _ => False
  end.

(** [f] is a list of references of [o] that may be written, none of whose objects is loaded.
    Its name belongs to no other field, neither as a name nor as the name of stored keys. *)
Record unloaded (P : program) (w : world) (o : oid) (d : cdef) (f : field) : Prop := {
  un_class : p_ct P (wclass w o) = Some d;
  un_field : In f (cd_fields d);
  un_alone : forall g, In g (cd_fields d) -> g = f \/
    (fl_name g <> fl_name f /\ fl_json g <> fl_name f /\ fl_ref g <> fl_name f /\ fl_cref g <> fl_name f);
  un_once : NoDup (cd_fields d);
  un_plain : plain (fl_name f);
  un_types : exists a it b, fl_types f = a ++ MListOf it :: b /\ Forall quiet_mark a /\ Forall quiet_mark b;
  un_list : is_ref (fl_fdef f) = true /\ is_list_field f = true;
  un_write : f_write_rule (fl_fdef f) = WriteUnlimited;
  un_table : sget (fl_name f) (o_lkeys (wobj w o)) = None;
  un_empty : attr_of w o (fl_name f) = Some (VList []);
  un_others : lists_there P w o
}.

(** The references keep their keys in the object itself. *)
Record keeps_keys (w : world) (o : oid) (d : cdef) (f : field) : Prop := {
  kk_local : is_local f = true;
  kk_name : plain (fl_ref f) /\ forall g, In g (cd_fields d) -> fl_name g <> fl_ref f;
  kk_table : sget (fl_ref f) (o_lkeys (wobj w o)) = Some (fl_name f)
}.

(** The keys noted under a field's name *)
Definition keys_under (n : string) (t : list (string * list value)) : list value :=
  match sget n t with Some l => l | None => [] end.
