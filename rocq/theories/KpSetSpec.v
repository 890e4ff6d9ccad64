(** KpSetSpec.v -- what the theorems about setting by keypath say: the item a path addresses
    inside a list or dict, and the value with that item replaced. *)
From Coq Require Import DecimalString.
From Verif Require Import Base Mon PyDict KeypathModel KeypathSpec Values TypesModel ObjModel ObjSpec IoModel UpdateSpec.
Open Scope list_scope.

(** [k] reads as the integer [z]. *)
Definition reads (k : string) (z : Z) : Prop :=
  exists i, NilZero.int_of_string k = Some i /\ z = Z.of_int i.
(** The integer [z] is position [i] of a list of length [len]; negative ones count from the end. *)
Definition position (len : nat) (z : Z) (i : nat) : Prop :=
  (i < len)%nat /\ (z = Z.of_nat i \/ z = (Z.of_nat i - Z.of_nat len)%Z).

(** [l'] is [l] with [x] at position [i]. *)
Definition list_with (l : list value) (i : nat) (x : value) (l' : list value) : Prop :=
  length l' = length l /\ nth_error l' i = Some x /\ (forall j, j <> i -> nth_error l' j = nth_error l j).
(** [m'] is [m] with [x] under [k]: a key that was there keeps its place, a new one comes last. *)
Definition dict_with (m : list (string * value)) (k : string) (x : value) (m' : list (string * value)) : Prop :=
  sget k m' = Some x /\ (forall k', k' <> k -> sget k' m' = sget k' m) /\
  ((In k (map fst m) /\ map fst m' = map fst m) \/ (~ In k (map fst m) /\ map fst m' = map fst m ++ [k])).

Definition declared (d : fdef) (t : ftype) : Prop := f_ftype d = Some t.

(** [new] is [old], a value of declared type [d], with [x] at the item the keys lead to. *)
Inductive replaced (x : value) : fdef -> list string -> value -> value -> Prop :=
| rp_item : forall d k z i l l',
    declared d FTList -> reads k z -> position (length l) z i -> list_with l i x l' ->
    replaced x d [k] (VList l) (VList l')
| rp_in_item : forall d it k ks z i l l' y y',
    declared d FTList -> item_types d = Some it -> reads k z -> position (length l) z i ->
    nth_error l i = Some y -> replaced x (fdef_of it) ks y y' -> list_with l i y' l' ->
    replaced x d (k :: ks) (VList l) (VList l')
| rp_entry : forall d k m m',
    declared d FTDict -> dict_with m k x m' -> replaced x d [k] (VDict m) (VDict m')
| rp_in_entry : forall d it k ks m m' y y',
    declared d FTDict -> item_types d = Some it -> sget k m = Some y ->
    replaced x (fdef_of it) ks y y' -> dict_with m k y' m' ->
    replaced x d (k :: ks) (VDict m) (VDict m').

(** The keys lead, through lists and dicts, to a place declared as type [d'] that holds [v'],
    with [rest] left. *)
Inductive leads : fdef -> list string -> value -> fdef -> list string -> value -> Prop :=
| ld_here : forall d ks v, leads d ks v d ks v
| ld_item : forall d it k ks z i l y d' rest v',
    declared d FTList -> item_types d = Some it -> reads k z -> position (length l) z i ->
    nth_error l i = Some y -> ks <> [] -> leads (fdef_of it) ks y d' rest v' ->
    leads d (k :: ks) (VList l) d' rest v'
| ld_entry : forall d it k ks m y d' rest v',
    declared d FTDict -> item_types d = Some it -> sget k m = Some y -> ks <> [] ->
    leads (fdef_of it) ks y d' rest v' -> leads d (k :: ks) (VDict m) d' rest v'.

(** ... to an object, with [rest] left to set in it. *)
Definition reaches (d : fdef) (ks : list string) (v : value) (x : oid) (rest : list string) : Prop :=
  exists d', leads d ks v d' rest (VObj x) /\ declared d' FTInstance.
(** ... to a place that is declared as something with no items. *)
Definition dead_end (d : fdef) (ks : list string) (v : value) : Prop :=
  exists d' rest v', leads d ks v d' rest v' /\
    ~ declared d' FTList /\ ~ declared d' FTDict /\ ~ declared d' FTInstance.

Definition scalar (v : value) : Prop :=
  match v with VList _ | VDict _ => False | _ => True end.

(** No field and no stored key of [o] has a dot or bracket in its name. *)
Definition plain_names (P : program) (w : world) (o : oid) : Prop :=
  (forall f, In f (cd_fields (wcdef P w o)) -> plain (fl_name f)) /\
  (forall k, sget k (o_lkeys (wobj w o)) <> None -> plain k).

(** No list of references that may not be null is None ([set] makes those lists empty). *)
Definition lists_there (P : program) (w : world) (o : oid) : Prop :=
  forall f, In f (cd_fields (wcdef P w o)) -> is_ref (fl_fdef f) = true -> is_list_field f = true ->
    f_collection_null (fl_fdef f) = NNonnull ->
    is_calc f = false /\ field_named (fl_name f) (wcdef P w o) = Some f /\
    exists v, attr_of w o (fl_name f) = Some v /\ v <> VNone.

(** Nothing but attribute [k] of [o] has another value. *)
Definition only_attr (o : oid) (k : string) (w w' : world) : Prop :=
  forall x n, x <> o \/ n <> k -> attr_of w' x n = attr_of w x n.

(** The keys lead from object [o], through [k] objects on the way, to object [y] with [items]
    left. *)
Inductive through (P : program) (w : world) : oid -> list string -> nat -> oid -> list string -> Prop :=
| th_here : forall o items, through P w o items 0 o items
| th_object : forall o a f old ks x rest k y items,
    field_named a (wcdef P w o) = Some f -> is_calc f = false -> attr_of w o a = Some old ->
    reaches (fl_fdef f) ks old x rest -> (2 <= length rest)%nat -> through P w x rest k y items ->
    through P w o (a :: ks) (S k) y items.
