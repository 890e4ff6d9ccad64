(** GiveSpec.v -- the words of C93 and C94: objects and other finished values given to [set] and
    to the constructor. *)
From Verif Require Import Base Mon Values CalModel TypesModel ObjModel ObjSpec LinkSpec IoModel MakeSpec RoundSpec StrictSpec.
From Verif Require LeafModel.
Open Scope list_scope.

(** A value that the type [k] takes as it is *)
Definition of_type (k : LeafModel.tykind) (v : value) : bool :=
  match k, v with
  | _, VNone => true
  | LeafModel.TStr, VStr _ | LeafModel.TInt, VInt _ | LeafModel.TFloat, VFloat _ | LeafModel.TBool, VBool _
  | LeafModel.TDate, VDate _ | LeafModel.TDatetime, VDatetime _ | LeafModel.TList, VList _ | LeafModel.TDict, VDict _ => true
  | _, _ => false
  end.

Section Give.
  Context (P : program).

  (** [turns ts j v]: the type [ts] turns [j] into [v], where [v] is [j] itself, but for the
      defaults and the empty collections that stand for None. *)
  Inductive turns : types -> value -> value -> Prop :=
  | turns_at ts j v : turn (fdef_of ts) ts j v -> turns ts j v
  (** modifier by modifier, in a chain with definition [d] *)
  with turn : fdef -> list mdf -> value -> value -> Prop :=
  | tn_nil d v : turn d [] v v
  | tn_cons d m ms j u v : turn1 d m j u -> turn d ms u v -> turn d (m :: ms) j v
  with turn1 : fdef -> mdf -> value -> value -> Prop :=
  | t_silent d m v : silent m = true -> turn1 d m v v
  | t_given d p v : v <> VNone -> turn1 d (MDefault p) v v
  | t_default d v : turn1 d (MDefault (PVal v)) VNone v
  | t_leaf d k v : of_type k v = true -> turn1 d (MLeaf (LeafModel.LType k)) v v
  | t_member d e ms n : p_enums P e = Some ms -> turn1 d (MEnum e) (VEnum e n) (VEnum e n)
  | t_object d cls b : turn1 d (MInstance cls) (VObj b) (VObj b)
  | t_no_object d cls : turn1 d (MInstance cls) VNone VNone
  | t_no_member d e : turn1 d (MEnum e) VNone VNone
  (** the items of a list of references are not dicts, which could be [_add] or [_del] *)
  | t_list d raw it l vs : item_types d = Some it -> (is_ref d = true -> forall m, ~ In (VDict m) l) ->
      turns_all it l vs -> turn1 d (MListOf raw) (VList l) (VList vs)
  | t_dict d raw it m vs : item_types d = Some it -> NoDup (map fst m) -> turns_all it (map snd m) vs ->
      turn1 d (MDictOf raw) (VDict m) (VDict (combine (map fst m) vs))
  | t_no_list d raw : turn1 d (MListOf raw) VNone (match f_collection_null d with NNonnull => VList [] | _ => VNone end)
  | t_no_dict d raw : turn1 d (MDictOf raw) VNone (match f_collection_null d with NNonnull => VDict [] | _ => VNone end)
  with turns_all : types -> list value -> list value -> Prop :=
  | ta_nil it : turns_all it [] []
  | ta_cons it j v l vs : turns it j v -> turns_all it l vs -> turns_all it (j :: l) (v :: vs).

  (** The default of a field: the one of the class body, or what its types turn None into *)
  Definition defaults (f : field) (u : value) : Prop :=
    match fl_default f with VNone => turns (fl_types f) VNone u | v => u = v end.

  (** What the input says about the field [f] of [o], as assignments.  [new] tells whether the
      object is being made, so that fields that get nothing get their default.  Fields that can
      be written once only are left out. *)
  Definition key_given_as (k : string) (kwargs : list (string * value)) : list value :=
    match sget k kwargs with None | Some VNone => [] | Some v => [v] end.
  Inductive assigns (new : bool) (o : oid) (kwargs : list (string * value)) (f : field) : list hop -> Prop :=
  | as_input v u : input_of f kwargs = Some v -> takes f v -> f_write_rule (fl_fdef f) <> WriteOnce ->
      is_calc f = false -> turns (fl_types f) v u -> assigns new o kwargs f [HSet o (fl_name f) u]
  | as_calculated v u : input_of f kwargs = Some v -> takes f v -> f_write_rule (fl_fdef f) <> WriteOnce ->
      is_calc f = true -> turns (fl_types f) v u -> assigns new o kwargs f []
  | as_refused v : input_of f kwargs = Some v -> ~ takes f v -> new = false \/ is_calc f = true -> assigns new o kwargs f []
  | as_instead v u : input_of f kwargs = Some v -> ~ takes f v -> new = true -> is_calc f = false -> defaults f u ->
      assigns new o kwargs f [HSet o (fl_name f) u]
  (** a reference that is not in the input, but whose stored key may be *)
  | as_key : input_of f kwargs = None -> is_ref (fl_fdef f) = true ->
      assigns new o kwargs f
        (if is_local f then map (HSet o (fl_ref f)) (key_given_as (fl_ref f) kwargs ++ key_given_as (fl_cref f) kwargs) else [])
  | as_absent : input_of f kwargs = None -> is_ref (fl_fdef f) = false -> new = false \/ is_calc f = true -> assigns new o kwargs f []
  | as_default u : input_of f kwargs = None -> is_ref (fl_fdef f) = false -> new = true -> is_calc f = false -> defaults f u ->
      assigns new o kwargs f [HSet o (fl_name f) u].

  (** A list of references that is declared never to be None, and is not in the input, *)
  Definition owed_list (kwargs : list (string * value)) (f : field) : bool :=
    is_ref (fl_fdef f) && is_list_field f && match f_collection_null (fl_fdef f) with NNonnull => true | _ => false end
    && match input_of f kwargs with None => true | Some _ => false end.
  (** is made empty if it is None. *)
  Definition assign (x : hop) : st heap unit := run (p_ct P) (p_oeq P) (p_getter P) (p_setter P) (LeafModel.py_str (p_str P)) (p_lim P) (task_of x).
  Definition ensure_list (o : oid) (f : field) : st heap unit :=
    do* cur <- ObjModel.getattr (p_ct P) (p_getter P) o (fl_name f);
    match cur with VNone => assign (HSet o (fl_name f) (VList [])) | _ => ret tt end.

  (** The assignments [xss] of the fields of [d], in order, and then the lists that are owed *)
  Definition given (o : oid) (d : cdef) (kwargs : list (string * value)) (xss : list (list hop)) : st heap unit :=
    history (p_ct P) (p_oeq P) (p_getter P) (p_setter P) (LeafModel.py_str (p_str P)) (p_lim P) (concat xss) >>
    for_st (filter (owed_list kwargs) (cd_fields d)) (ensure_list o).

  (** The input names nothing the class [d] does not know, or the class takes any names. *)
  Definition names_known (d : cdef) (kwargs : list (string * value)) : Prop :=
    cd_strict d = true -> forall k, In k (map fst kwargs) -> allowed d k.

  (** ** A new object *)

  (** No attribute of another object is the object [o] or lists it. *)
  Definition unborn (h : heap) (o : oid) : Prop := forall z n, z <> o -> ~ In o (objs (attr h z n)).
  (** [h1]: an object [o] of class [cls] among the objects of [h], with a name for each stored key *)
  Record born (cls : string) (d : cdef) (o : oid) (h h1 : heap) : Prop := {
    bn_others : forall z, z <> o -> h_obj h1 z = h_obj h z;
    bn_class : o_class (h_obj h1 o) = cls;
    bn_keys : forall f, In f (cd_fields d) -> is_local f = true -> sget (fl_ref f) (o_lkeys (h_obj h1 o)) = Some (fl_name f)
  }.
  (** and all its attributes are None, or empty lists of stored keys *)
  Record empty (cls : string) (d : cdef) (o : oid) (h h1 : heap) : Prop := {
    em_born : born cls d o h h1;
    em_fields : forall f, In f (cd_fields d) -> is_calc f = false -> attr h1 o (fl_name f) = Some VNone;
    em_keys : forall f, In f (cd_fields d) -> is_local f = true -> stored h1 o f = Some (if is_list_type f then VList [] else VNone);
    em_new : o_new (h_obj h1 o) = true;
    em_unlinked : o_unlinked (h_obj h1 o) = []
  }.
  (** An assignment to a field that is not of the relation, which may be a primary key *)
  Definition beside (R : relation) (h : heap) (x : hop) : Prop :=
    typed_hop (p_ct P) h x /\
    match x with
    | HSet o n _ => ~ of_side h (ra_class R) (ra_field R) o n /\ ~ of_side h (rb_class R) (rb_field R) o n
    | _ => False
    end.
  (** Stored keys have different names. *)
  Definition own_keys (d : cdef) : Prop :=
    forall f g, In f (cd_fields d) -> In g (cd_fields d) -> is_local f = true -> is_local g = true -> fl_ref f = fl_ref g -> f = g.
End Give.

Scheme turns_mut := Induction for turns Sort Prop
with turn_mut := Induction for turn Sort Prop
with turn1_mut := Induction for turn1 Sort Prop
with turns_all_mut := Induction for turns_all Sort Prop.
Combined Scheme turns_mutind from turns_mut, turn_mut, turn1_mut, turns_all_mut.
