(** OutFormSpec.v -- the words of C82: the JSON form of a value of a declared type, at any
    depth. *)
From Verif Require Import Base Mon StrDict KeypathModel Values CalModel PyStr ChainModel TypesModel ObjModel IoModel OutSpec.
From Verif Require LeafModel ReachSpec.
Open Scope list_scope.

(** JSON data *)
Inductive json : value -> Prop :=
| js_none : json VNone
| js_bool b : json (VBool b)
| js_int z : json (VInt z)
| js_float q : json (VFloat q)
| js_str s : json (VStr s)
| js_list l : Forall json l -> json (VList l)
| js_dict m : Forall (fun kv => json (snd kv)) m -> json (VDict m).

(** A dict written entry by entry: a later entry replaces an earlier one of the same key. *)
Definition as_dict (es : list (string * value)) : list (string * value) :=
  fold_left (fun acc kv => sset (fst kv) (snd kv) acc) es [].

(** Where output has come to: the classes that are being written further up, the path from
    the top, and, just below a field of an object, that field. *)
Record place := { pl_classes : list string; pl_path : list karg; pl_field : option (string * string) }.
Definition at_item (p : place) (k : karg) : place :=
  {| pl_classes := pl_classes p; pl_path := pl_path p ++ [k]; pl_field := None |}.
Definition at_member (p : place) : place :=
  {| pl_classes := pl_classes p; pl_path := pl_path p; pl_field := None |}.
Definition at_field (p : place) (d : cdef) (cls : string) (f : field) : place :=
  {| pl_classes := pl_classes p ++ [cd_name d]; pl_path := pl_path p ++ [KStr (fl_name f)]; pl_field := Some (cls, fl_name f) |}.

Section Form.
  (** The program, the objects, who asks for the output, and the options of the call *)
  Context (P : program) (h : heap) (x : oid -> ext) (operator : value).
  Context (ignore_writeonly reverse : bool) (out_null : option bool).

  Definition class_of (o : oid) : cdef := match p_ct P (o_class (h_obj h o)) with Some d => d | None => cdef0 end.
  Definition nulls (d : cdef) : bool := match out_null with Some b => b | None => cd_output_null d end.
  (** The entry of the key stored for a reference *)
  Definition stored (o : oid) (f : field) : list (string * value) :=
    if is_local f && picked (x o) (fl_name f) then entry (nulls (class_of o)) (fl_cref f) (value_at P h o (fl_ref f)) else [].

  (** Reference [f] of an object of class [cls] leads back to where output came from: its
      other side is the field just passed, or has the name next to the last on the path. *)
  Definition leads_back (p : place) (cls : string) (f : field) : Prop :=
    reverse = false /\ exists g, foreign_field (p_ct P) cls f = Some g /\
      ((exists fc, foreign_class f = Some fc /\ pl_field p = Some (fc, fl_name g)) \/
       (exists before last, pl_path p = before ++ [KStr (fl_name g); last])).
  (** A reference is left out if it leads back, or if an object of its object's class is
      being written further up. *)
  Definition left_out (p : place) (o : oid) (f : field) : Prop :=
    is_ref (fl_fdef f) = true /\ (leads_back p (o_class (h_obj h o)) f \/ In (cd_name (class_of o)) (pl_classes p)).

  (** A value passes a member of a union. *)
  Definition accepts (ts : types) (v : value) : Prop :=
    exists n c w w', c_val c = v /\ c_fdef c = fdef_of ts /\ t_validate (interp P n) ts c w = (Ok tt, w').
  (** It does not: checking or writing it ends with a validation error. *)
  Definition declines (ts : types) (v : value) : Prop :=
    exists n c w w' msgs, c_val c = v /\ c_fdef c = fdef_of ts /\
      (t_validate (interp P n) ts c >> t_tojson (interp P n) ts c) w = (Err (EValidation msgs), w').
  (** What a formatter, or a reading permission, answers for a value *)
  Definition answers (m : mdf) (v j : value) : Prop :=
    exists n c w w', c_val c = v /\ c_operator c = operator /\ m_tojson (interp P n m) c w = (Ok j, w').

  Notation tdate := (MLeaf (LeafModel.LType LeafModel.TDate)).
  Notation tdatetime := (MLeaf (LeafModel.LType LeafModel.TDatetime)).

  (** [form p ts v j]: at [p], a value [v] of type [ts] is written [j]. *)
  Inductive form : place -> types -> value -> value -> Prop :=
  | fo_chain p ts v j : steps p (fdef_of ts) ts v j -> form p ts v j
  with steps : place -> fdef -> types -> value -> value -> Prop :=
  | st_nil p d v : steps p d [] v v
  | st_cons p d m r v u j : step p d m v u -> steps p d r u j -> steps p d (m :: r) v j
  (** [step p d m v u]: modifier [m] of a chain with definition [d] turns [v] into [u]. *)
  with step : place -> fdef -> mdf -> value -> value -> Prop :=
  | s_inert p d m v : inert m = true -> step p d m v v
  | s_none p d m : about_parts m = true \/ makes_text m = true -> step p d m VNone VNone
  | s_shown p d a v : operator <> VNone -> answers (MCanRead a) v v -> step p d (MCanRead a) v v
  | s_withheld p d a v : answers (MCanRead a) v VNone -> step p d (MCanRead a) v VNone
  | s_format p d a v j : answers (MFmt a) v j -> step p d (MFmt a) v j
  | s_date p d t : step p d tdate (VDate t) (VStr (json_date t))
  | s_datetime p d t : step p d tdatetime (VDatetime t) (VStr (json_datetime t))
  | s_as_date p d t : step p d tdate (VDatetime t) (VStr (unchars (datetime_iso t ++ chars "T00:00:00.000Z")))
  | s_as_datetime p d t : step p d tdatetime (VDate t) (VStr (unchars (firstn 23 (date_iso t) ++ chars "Z")))
  | s_name p d e c n : f_enum_output d = Some OutName -> step p d (MEnum e) (VEnum c n) (VStr n)
  | s_lname p d e c n : f_enum_output d = Some OutLname -> step p d (MEnum e) (VEnum c n) (VStr (str_lower n))
  | s_value p d e c n ms v : f_enum_output d = Some OutValue -> p_enums P c = Some ms -> sget n ms = Some v ->
      step p d (MEnum e) (VEnum c n) v
  | s_list p d raw it l js : item_types d = Some it -> items p it 0 l js -> step p d (MListOf raw) (VList l) (VList js)
  | s_no_list p d raw v : (forall l, v <> VList l) -> step p d (MListOf raw) v v
  | s_dict p d raw it m es : item_types d = Some it -> entries p it m es -> step p d (MDictOf raw) (VDict m) (VDict (as_dict es))
  | s_no_dict p d raw v : (forall m, v <> VDict m) -> step p d (MDictOf raw) v v
  | s_union p d us before ts after v j : f_union d = before ++ ts :: after -> Forall (fun t => declines t v) before ->
      accepts ts v -> form (at_member p) ts v j -> step p d (MUnion us) v j
  | s_no_member p d us v : Forall (fun t => declines t v) (f_union d) -> step p d (MUnion us) v VNone
  | s_object p d cls o es : fields p o (cd_fields (class_of o)) es -> step p d (MInstance cls) (VObj o) (VDict (as_dict es))
  with items : place -> types -> nat -> list value -> list value -> Prop :=
  | it_nil p ts i : items p ts i [] []
  | it_cons p ts i v l j js : form (at_item p (KInt (Z.of_nat i))) ts v j -> items p ts (S i) l js -> items p ts i (v :: l) (j :: js)
  with entries : place -> types -> list (string * value) -> list (string * value) -> Prop :=
  | en_nil p ts : entries p ts [] []
  | en_cons p ts k v m j es : form (at_item p (KStr k)) ts v j -> entries p ts m es -> entries p ts ((k, v) :: m) ((k, j) :: es)
  (** The entries of an object, field by field *)
  with fields : place -> oid -> list field -> list (string * value) -> Prop :=
  | fi_nil p o : fields p o [] []
  | fi_shown p o f r v j es :
      visible ignore_writeonly (x o) f = true -> ~ left_out p o f -> reads P h o (fl_name f) v ->
      form (at_field p (class_of o) (o_class (h_obj h o)) f) (fl_types f) v j -> fields p o r es ->
      fields p o (f :: r) (stored o f ++ entry (nulls (class_of o)) (fl_json f) j ++ es)
  | fi_hidden p o f r es :
      visible ignore_writeonly (x o) f = false \/ left_out p o f -> fields p o r es ->
      fields p o (f :: r) (stored o f ++ es).

  (** ** Values that become JSON *)
  (** A modifier that hands a value on as it is, or withholds it *)
  Definition passes_on (m : mdf) : Prop := inert m = true \/ exists c, m = MCanRead c.
  (** [fits ts v]: [v] is JSON data already, or the first modifier of [ts] that is about
      such values knows how to write it. *)
  Inductive fits : types -> value -> Prop :=
  | fit_json ts v : json v -> fits ts v
  | fit_at before m after v : Forall passes_on before -> writable (fdef_of (before ++ m :: after)) m v ->
      fits (before ++ m :: after) v
  with writable : fdef -> mdf -> value -> Prop :=
  | w_date d t : writable d tdate (VDate t)
  | w_as_date d t : writable d tdate (VDatetime t)
  | w_datetime d t : writable d tdatetime (VDatetime t)
  | w_enum d e c n : (forall ms v, f_enum_output d = Some OutValue -> p_enums P c = Some ms -> sget n ms = Some v -> json v) ->
      writable d (MEnum e) (VEnum c n)
  | w_list d raw l : (forall it v, item_types d = Some it -> In v l -> fits it v) -> writable d (MListOf raw) (VList l)
  | w_dict d raw m : (forall it k v, item_types d = Some it -> In (k, v) m -> fits it v) -> writable d (MDictOf raw) (VDict m)
  | w_union d us v : (forall ts, In ts (f_union d) -> accepts ts v -> fits ts v) -> writable d (MUnion us) v
  | w_object d cls o : writable d (MInstance cls) (VObj o).

  (** Types whose accepted values fit: such a modifier takes part in the validation (see C79,
      [checks]), and is one for text, number, truth value, date, enum, object, or for a
      list, dict or union of such types. *)
  Inductive json_types : types -> Prop :=
  | jt_at before m after : Forall passes_on before -> ReachSpec.checks (before ++ m :: after) m ->
      json_type (fdef_of (before ++ m :: after)) m -> json_types (before ++ m :: after)
  with json_type : fdef -> mdf -> Prop :=
  | jm_leaf d k : In k [LeafModel.TStr; LeafModel.TInt; LeafModel.TFloat; LeafModel.TBool; LeafModel.TDate; LeafModel.TDatetime] ->
      json_type d (MLeaf (LeafModel.LType k))
  | jm_enum d e : (forall ms n v, f_enum_output d = Some OutValue -> p_enums P e = Some ms -> sget n ms = Some v -> json v) ->
      json_type d (MEnum e)
  | jm_list d raw : (forall it, item_types d = Some it -> json_types it) -> json_type d (MListOf raw)
  | jm_dict d raw : (forall it, item_types d = Some it -> json_types it) -> json_type d (MDictOf raw)
  | jm_union d us : (forall ts, In ts (f_union d) -> json_types ts) -> json_type d (MUnion us)
  | jm_object d cls : json_type d (MInstance cls).

  (** What the visible fields of all objects hold fits their types, the keys stored for
      references are JSON data, and formatters answer JSON data. *)
  Record well_typed : Prop := {
    wt_fields : forall o d f v, p_ct P (o_class (h_obj h o)) = Some d -> In f (cd_fields d) ->
      visible ignore_writeonly (x o) f = true -> reads P h o (fl_name f) v -> fits (fl_types f) v;
    wt_keys : forall o d f v, p_ct P (o_class (h_obj h o)) = Some d -> In f (cd_fields d) -> is_local f = true ->
      picked (x o) (fl_name f) = true -> reads P h o (fl_ref f) v -> json v;
    wt_formats : forall a v j, used P (MFmt a) -> answers (MFmt a) v j -> json j
  }.
End Form.
