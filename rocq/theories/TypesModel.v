(** TypesModel.v -- model of jsonclasses/fdef.py (FDef), of the [define] method of
    the modifiers, of jsonclasses/types.py (Types.__init__) and of the part of
    jsonclasses/cdef.py and jfield.py that looks fields up.

    Simplifications: user callables are numbers, interpreted by a parameter of the
    later models; class and enum references are names; [packages], indexes and the
    upload, mongo id, password, random and cross-fetch modifiers have no definition
    here (see DESIGN.md). *)
From Verif Require Import Base Values LeafModel.

(** fdef.py:13-28 FType (a missing type is None in the record below) *)
Inductive ftype := FTStr | FTInt | FTFloat | FTBool | FTDate | FTDatetime | FTEnum
                 | FTList | FTDict | FTInstance | FTAny | FTUnion.
(** fdef.py:38-46 FStore *)
Inductive fstore := Embedded | LocalKey | ForeignKey | Calculated | Temp.
(** fdef.py:49-54 ReadRule *)
Inductive readrule := ReadUnlimited | NoRead.
(** fdef.py:57-64 WriteRule *)
Inductive writerule := WriteUnlimited | NoWrite | WriteOnce | WriteNonnull.
(** fdef.py:67-74 Nullability *)
Inductive nullability := NUndefined | NNullable | NNonnull.
(** fdef.py:77-83 Strictness *)
Inductive strictness := SUndefined | SStrict | SUnstrict.
(** fdef.py:86-92 DeleteRule *)
Inductive deleterule := DNullify | DCascade | DDeny.
(** fdef.py:95-102 EnumInput, a set of flags *)
Record enuminput := { in_name : bool; in_value : bool; in_lname : bool }.
(** fdef.py:105-108 EnumOutput *)
Inductive enumoutput := OutName | OutValue | OutLname.
(** fdef.py:111-113 Queryability *)
Inductive queryability := QQueryable | QUnqueryable.

Definition ftype_eqb (a b : ftype) : bool :=
  match a, b with
  | FTStr, FTStr | FTInt, FTInt | FTFloat, FTFloat | FTBool, FTBool | FTDate, FTDate
  | FTDatetime, FTDatetime | FTEnum, FTEnum | FTList, FTList | FTDict, FTDict
  | FTInstance, FTInstance | FTAny, FTAny | FTUnion, FTUnion => true
  | _, _ => false
  end.
Definition fstore_eqb (a b : fstore) : bool :=
  match a, b with
  | Embedded, Embedded | LocalKey, LocalKey | ForeignKey, ForeignKey
  | Calculated, Calculated | Temp, Temp => true
  | _, _ => false
  end.

(** A user callable: its number. *)
Definition cbid := nat.

(** The modifiers.  A [Types] object is the list of its modifiers
    (chained_modifier.py:20-22 [append]).  [param] is a modifier argument: a value,
    a callable, or a [Types]. *)
Inductive param : Type :=
| PVal (v : value)
| PCall (f : cbid)
| PTypes (ts : list mdf)
with mdf : Type :=
(* modifiers over values, LeafModel.v *)
| MLeaf (l : leaf param)
(* modifiers/eager_modifier.py, preserialize_modifier.py *)
| MEager | MPreserialize
(* type modifiers *)
| MAny | MInstance (cls : string) | MListOf (item : list mdf) | MDictOf (item : list mdf)
| MUnion (ts : list (list mdf)) | MEnum (e : string)
(* marks, which only define *)
| MPrimary | MReadonly | MReadwrite | MWriteonly | MWriteonce | MWritenonnull
| MTemp | MEmbedded | MLinkto | MLinkedby (key : string) | MLinkedthru (key : string)
| MLinkedin (cls : string) | MNonnull | MNullable | MStrict | MReset
| MNullify | MCascade | MDeny | MQueryable | MUnqueryable
| MInputName | MInputValue | MInputLname | MInputAll
| MOutputName | MOutputValue | MOutputLname
| MIndex (name : option string) (unique : bool)
| MGetter (f : cbid) | MSetter (f : cbid)
(* presence *)
| MRequired | MPresent | MPresentwith (key : string) | MPresentwithout (keys : list string)
(* callables *)
| MDefault (p : param) | MTransform (p : param) | MValidate (p : param) (msg : option string)
| MSetonsave (p : param) (force : bool) | MOnsave (f : cbid) | MOnwrite (f : cbid)
| MOnupdate (f : cbid) | MCompare (f : cbid) | MFilter (p : param) | MFmt (p : param)
| MUnresolved (name : string)   (* modifiers/unresolved_modifier.py *)
| MInvalid | MThis | MPassin | MGetop | MCanRead (p : param)
| MMap (p : param) | MOneIsValid (ps : list param) | MAt (p : param)
| MCanWrite (when_new : option bool) (p : param)   (* canc, canu, cancu *)
| MIsthis | MIsobjof (cls : string) | MAsop (f : option cbid).   (* asop, asopd *)

(** [Types] as far as the chain is concerned *)
Definition types := list mdf.

(** fdef.py:121-172 FDef, the settings that the modelled code reads *)
Record fdef := {
  f_ftype : option ftype;
  f_fstore : fstore;
  f_primary : bool;
  f_required : bool;
  f_getter : option cbid;
  f_setter : option cbid;
  f_enum : option string;
  f_enum_input : option enuminput;
  f_enum_output : option enumoutput;
  f_union : list types;
  f_item : option types;
  f_inst : option string;
  f_force_set_on_save : bool;
  f_foreign_key : option string;
  f_join_table : option bool;
  f_delete_rule : option deleterule;
  f_read_rule : readrule;
  f_write_rule : writerule;
  f_collection_null : nullability;
  f_item_null : nullability;
  f_strictness : strictness;
  f_eager : bool;
  f_reset : bool;
  f_preserialize : bool;
  f_query : option queryability;
  f_index : bool;
  f_unique : bool;
  f_cindex_names : list string;
  f_cunique_names : list string
}.

(** fdef.py:121-172 FDef.__init__ *)
Definition fdef0 : fdef :=
  {| f_ftype := None; f_fstore := Embedded; f_primary := false; f_required := false;
     f_getter := None; f_setter := None; f_enum := None; f_enum_input := None;
     f_enum_output := None; f_union := []; f_item := None; f_inst := None;
     f_force_set_on_save := false; f_foreign_key := None; f_join_table := None;
     f_delete_rule := None; f_read_rule := ReadUnlimited; f_write_rule := WriteUnlimited;
     f_collection_null := NNullable; f_item_null := NUndefined; f_strictness := SUndefined;
     f_eager := false; f_reset := false; f_preserialize := false; f_query := None;
     f_index := false; f_unique := false; f_cindex_names := []; f_cunique_names := [] |}.

(** Assignments to one setting of a definition. *)
Definition with_ftype (x : option ftype) (d : fdef) : fdef :=
  {| f_ftype := x; f_fstore := f_fstore d; f_primary := f_primary d; f_required :=
     f_required d; f_getter := f_getter d; f_setter := f_setter d; f_enum := f_enum d;
     f_enum_input := f_enum_input d; f_enum_output := f_enum_output d; f_union :=
     f_union d; f_item := f_item d; f_inst := f_inst d; f_force_set_on_save :=
     f_force_set_on_save d; f_foreign_key := f_foreign_key d; f_join_table :=
     f_join_table d; f_delete_rule := f_delete_rule d; f_read_rule := f_read_rule d;
     f_write_rule := f_write_rule d; f_collection_null := f_collection_null d;
     f_item_null := f_item_null d; f_strictness := f_strictness d; f_eager := f_eager d;
     f_reset := f_reset d; f_preserialize := f_preserialize d; f_query := f_query d;
     f_index := f_index d; f_unique := f_unique d; f_cindex_names := f_cindex_names d;
     f_cunique_names := f_cunique_names d |}.
Definition with_fstore (x : fstore) (d : fdef) : fdef :=
  {| f_ftype := f_ftype d; f_fstore := x; f_primary := f_primary d; f_required :=
     f_required d; f_getter := f_getter d; f_setter := f_setter d; f_enum := f_enum d;
     f_enum_input := f_enum_input d; f_enum_output := f_enum_output d; f_union :=
     f_union d; f_item := f_item d; f_inst := f_inst d; f_force_set_on_save :=
     f_force_set_on_save d; f_foreign_key := f_foreign_key d; f_join_table :=
     f_join_table d; f_delete_rule := f_delete_rule d; f_read_rule := f_read_rule d;
     f_write_rule := f_write_rule d; f_collection_null := f_collection_null d;
     f_item_null := f_item_null d; f_strictness := f_strictness d; f_eager := f_eager d;
     f_reset := f_reset d; f_preserialize := f_preserialize d; f_query := f_query d;
     f_index := f_index d; f_unique := f_unique d; f_cindex_names := f_cindex_names d;
     f_cunique_names := f_cunique_names d |}.
Definition with_primary (x : bool) (d : fdef) : fdef :=
  {| f_ftype := f_ftype d; f_fstore := f_fstore d; f_primary := x; f_required :=
     f_required d; f_getter := f_getter d; f_setter := f_setter d; f_enum := f_enum d;
     f_enum_input := f_enum_input d; f_enum_output := f_enum_output d; f_union :=
     f_union d; f_item := f_item d; f_inst := f_inst d; f_force_set_on_save :=
     f_force_set_on_save d; f_foreign_key := f_foreign_key d; f_join_table :=
     f_join_table d; f_delete_rule := f_delete_rule d; f_read_rule := f_read_rule d;
     f_write_rule := f_write_rule d; f_collection_null := f_collection_null d;
     f_item_null := f_item_null d; f_strictness := f_strictness d; f_eager := f_eager d;
     f_reset := f_reset d; f_preserialize := f_preserialize d; f_query := f_query d;
     f_index := f_index d; f_unique := f_unique d; f_cindex_names := f_cindex_names d;
     f_cunique_names := f_cunique_names d |}.
Definition with_required (x : bool) (d : fdef) : fdef :=
  {| f_ftype := f_ftype d; f_fstore := f_fstore d; f_primary := f_primary d; f_required
     := x; f_getter := f_getter d; f_setter := f_setter d; f_enum := f_enum d;
     f_enum_input := f_enum_input d; f_enum_output := f_enum_output d; f_union :=
     f_union d; f_item := f_item d; f_inst := f_inst d; f_force_set_on_save :=
     f_force_set_on_save d; f_foreign_key := f_foreign_key d; f_join_table :=
     f_join_table d; f_delete_rule := f_delete_rule d; f_read_rule := f_read_rule d;
     f_write_rule := f_write_rule d; f_collection_null := f_collection_null d;
     f_item_null := f_item_null d; f_strictness := f_strictness d; f_eager := f_eager d;
     f_reset := f_reset d; f_preserialize := f_preserialize d; f_query := f_query d;
     f_index := f_index d; f_unique := f_unique d; f_cindex_names := f_cindex_names d;
     f_cunique_names := f_cunique_names d |}.
Definition with_getter (x : option cbid) (d : fdef) : fdef :=
  {| f_ftype := f_ftype d; f_fstore := f_fstore d; f_primary := f_primary d; f_required
     := f_required d; f_getter := x; f_setter := f_setter d; f_enum := f_enum d;
     f_enum_input := f_enum_input d; f_enum_output := f_enum_output d; f_union :=
     f_union d; f_item := f_item d; f_inst := f_inst d; f_force_set_on_save :=
     f_force_set_on_save d; f_foreign_key := f_foreign_key d; f_join_table :=
     f_join_table d; f_delete_rule := f_delete_rule d; f_read_rule := f_read_rule d;
     f_write_rule := f_write_rule d; f_collection_null := f_collection_null d;
     f_item_null := f_item_null d; f_strictness := f_strictness d; f_eager := f_eager d;
     f_reset := f_reset d; f_preserialize := f_preserialize d; f_query := f_query d;
     f_index := f_index d; f_unique := f_unique d; f_cindex_names := f_cindex_names d;
     f_cunique_names := f_cunique_names d |}.
Definition with_setter (x : option cbid) (d : fdef) : fdef :=
  {| f_ftype := f_ftype d; f_fstore := f_fstore d; f_primary := f_primary d; f_required
     := f_required d; f_getter := f_getter d; f_setter := x; f_enum := f_enum d;
     f_enum_input := f_enum_input d; f_enum_output := f_enum_output d; f_union :=
     f_union d; f_item := f_item d; f_inst := f_inst d; f_force_set_on_save :=
     f_force_set_on_save d; f_foreign_key := f_foreign_key d; f_join_table :=
     f_join_table d; f_delete_rule := f_delete_rule d; f_read_rule := f_read_rule d;
     f_write_rule := f_write_rule d; f_collection_null := f_collection_null d;
     f_item_null := f_item_null d; f_strictness := f_strictness d; f_eager := f_eager d;
     f_reset := f_reset d; f_preserialize := f_preserialize d; f_query := f_query d;
     f_index := f_index d; f_unique := f_unique d; f_cindex_names := f_cindex_names d;
     f_cunique_names := f_cunique_names d |}.
Definition with_enum (x : option string) (d : fdef) : fdef :=
  {| f_ftype := f_ftype d; f_fstore := f_fstore d; f_primary := f_primary d; f_required
     := f_required d; f_getter := f_getter d; f_setter := f_setter d; f_enum := x;
     f_enum_input := f_enum_input d; f_enum_output := f_enum_output d; f_union :=
     f_union d; f_item := f_item d; f_inst := f_inst d; f_force_set_on_save :=
     f_force_set_on_save d; f_foreign_key := f_foreign_key d; f_join_table :=
     f_join_table d; f_delete_rule := f_delete_rule d; f_read_rule := f_read_rule d;
     f_write_rule := f_write_rule d; f_collection_null := f_collection_null d;
     f_item_null := f_item_null d; f_strictness := f_strictness d; f_eager := f_eager d;
     f_reset := f_reset d; f_preserialize := f_preserialize d; f_query := f_query d;
     f_index := f_index d; f_unique := f_unique d; f_cindex_names := f_cindex_names d;
     f_cunique_names := f_cunique_names d |}.
Definition with_enum_input (x : option enuminput) (d : fdef) : fdef :=
  {| f_ftype := f_ftype d; f_fstore := f_fstore d; f_primary := f_primary d; f_required
     := f_required d; f_getter := f_getter d; f_setter := f_setter d; f_enum := f_enum
     d; f_enum_input := x; f_enum_output := f_enum_output d; f_union := f_union d;
     f_item := f_item d; f_inst := f_inst d; f_force_set_on_save := f_force_set_on_save
     d; f_foreign_key := f_foreign_key d; f_join_table := f_join_table d; f_delete_rule
     := f_delete_rule d; f_read_rule := f_read_rule d; f_write_rule := f_write_rule d;
     f_collection_null := f_collection_null d; f_item_null := f_item_null d;
     f_strictness := f_strictness d; f_eager := f_eager d; f_reset := f_reset d;
     f_preserialize := f_preserialize d; f_query := f_query d; f_index := f_index d;
     f_unique := f_unique d; f_cindex_names := f_cindex_names d; f_cunique_names :=
     f_cunique_names d |}.
Definition with_enum_output (x : option enumoutput) (d : fdef) : fdef :=
  {| f_ftype := f_ftype d; f_fstore := f_fstore d; f_primary := f_primary d; f_required
     := f_required d; f_getter := f_getter d; f_setter := f_setter d; f_enum := f_enum
     d; f_enum_input := f_enum_input d; f_enum_output := x; f_union := f_union d; f_item
     := f_item d; f_inst := f_inst d; f_force_set_on_save := f_force_set_on_save d;
     f_foreign_key := f_foreign_key d; f_join_table := f_join_table d; f_delete_rule :=
     f_delete_rule d; f_read_rule := f_read_rule d; f_write_rule := f_write_rule d;
     f_collection_null := f_collection_null d; f_item_null := f_item_null d;
     f_strictness := f_strictness d; f_eager := f_eager d; f_reset := f_reset d;
     f_preserialize := f_preserialize d; f_query := f_query d; f_index := f_index d;
     f_unique := f_unique d; f_cindex_names := f_cindex_names d; f_cunique_names :=
     f_cunique_names d |}.
Definition with_union (x : list types) (d : fdef) : fdef :=
  {| f_ftype := f_ftype d; f_fstore := f_fstore d; f_primary := f_primary d; f_required
     := f_required d; f_getter := f_getter d; f_setter := f_setter d; f_enum := f_enum
     d; f_enum_input := f_enum_input d; f_enum_output := f_enum_output d; f_union := x;
     f_item := f_item d; f_inst := f_inst d; f_force_set_on_save := f_force_set_on_save
     d; f_foreign_key := f_foreign_key d; f_join_table := f_join_table d; f_delete_rule
     := f_delete_rule d; f_read_rule := f_read_rule d; f_write_rule := f_write_rule d;
     f_collection_null := f_collection_null d; f_item_null := f_item_null d;
     f_strictness := f_strictness d; f_eager := f_eager d; f_reset := f_reset d;
     f_preserialize := f_preserialize d; f_query := f_query d; f_index := f_index d;
     f_unique := f_unique d; f_cindex_names := f_cindex_names d; f_cunique_names :=
     f_cunique_names d |}.
Definition with_item (x : option types) (d : fdef) : fdef :=
  {| f_ftype := f_ftype d; f_fstore := f_fstore d; f_primary := f_primary d; f_required
     := f_required d; f_getter := f_getter d; f_setter := f_setter d; f_enum := f_enum
     d; f_enum_input := f_enum_input d; f_enum_output := f_enum_output d; f_union :=
     f_union d; f_item := x; f_inst := f_inst d; f_force_set_on_save :=
     f_force_set_on_save d; f_foreign_key := f_foreign_key d; f_join_table :=
     f_join_table d; f_delete_rule := f_delete_rule d; f_read_rule := f_read_rule d;
     f_write_rule := f_write_rule d; f_collection_null := f_collection_null d;
     f_item_null := f_item_null d; f_strictness := f_strictness d; f_eager := f_eager d;
     f_reset := f_reset d; f_preserialize := f_preserialize d; f_query := f_query d;
     f_index := f_index d; f_unique := f_unique d; f_cindex_names := f_cindex_names d;
     f_cunique_names := f_cunique_names d |}.
Definition with_inst (x : option string) (d : fdef) : fdef :=
  {| f_ftype := f_ftype d; f_fstore := f_fstore d; f_primary := f_primary d; f_required
     := f_required d; f_getter := f_getter d; f_setter := f_setter d; f_enum := f_enum
     d; f_enum_input := f_enum_input d; f_enum_output := f_enum_output d; f_union :=
     f_union d; f_item := f_item d; f_inst := x; f_force_set_on_save :=
     f_force_set_on_save d; f_foreign_key := f_foreign_key d; f_join_table :=
     f_join_table d; f_delete_rule := f_delete_rule d; f_read_rule := f_read_rule d;
     f_write_rule := f_write_rule d; f_collection_null := f_collection_null d;
     f_item_null := f_item_null d; f_strictness := f_strictness d; f_eager := f_eager d;
     f_reset := f_reset d; f_preserialize := f_preserialize d; f_query := f_query d;
     f_index := f_index d; f_unique := f_unique d; f_cindex_names := f_cindex_names d;
     f_cunique_names := f_cunique_names d |}.
Definition with_force_set_on_save (x : bool) (d : fdef) : fdef :=
  {| f_ftype := f_ftype d; f_fstore := f_fstore d; f_primary := f_primary d; f_required
     := f_required d; f_getter := f_getter d; f_setter := f_setter d; f_enum := f_enum
     d; f_enum_input := f_enum_input d; f_enum_output := f_enum_output d; f_union :=
     f_union d; f_item := f_item d; f_inst := f_inst d; f_force_set_on_save := x;
     f_foreign_key := f_foreign_key d; f_join_table := f_join_table d; f_delete_rule :=
     f_delete_rule d; f_read_rule := f_read_rule d; f_write_rule := f_write_rule d;
     f_collection_null := f_collection_null d; f_item_null := f_item_null d;
     f_strictness := f_strictness d; f_eager := f_eager d; f_reset := f_reset d;
     f_preserialize := f_preserialize d; f_query := f_query d; f_index := f_index d;
     f_unique := f_unique d; f_cindex_names := f_cindex_names d; f_cunique_names :=
     f_cunique_names d |}.
Definition with_foreign_key (x : option string) (d : fdef) : fdef :=
  {| f_ftype := f_ftype d; f_fstore := f_fstore d; f_primary := f_primary d; f_required
     := f_required d; f_getter := f_getter d; f_setter := f_setter d; f_enum := f_enum
     d; f_enum_input := f_enum_input d; f_enum_output := f_enum_output d; f_union :=
     f_union d; f_item := f_item d; f_inst := f_inst d; f_force_set_on_save :=
     f_force_set_on_save d; f_foreign_key := x; f_join_table := f_join_table d;
     f_delete_rule := f_delete_rule d; f_read_rule := f_read_rule d; f_write_rule :=
     f_write_rule d; f_collection_null := f_collection_null d; f_item_null :=
     f_item_null d; f_strictness := f_strictness d; f_eager := f_eager d; f_reset :=
     f_reset d; f_preserialize := f_preserialize d; f_query := f_query d; f_index :=
     f_index d; f_unique := f_unique d; f_cindex_names := f_cindex_names d;
     f_cunique_names := f_cunique_names d |}.
Definition with_join_table (x : option bool) (d : fdef) : fdef :=
  {| f_ftype := f_ftype d; f_fstore := f_fstore d; f_primary := f_primary d; f_required
     := f_required d; f_getter := f_getter d; f_setter := f_setter d; f_enum := f_enum
     d; f_enum_input := f_enum_input d; f_enum_output := f_enum_output d; f_union :=
     f_union d; f_item := f_item d; f_inst := f_inst d; f_force_set_on_save :=
     f_force_set_on_save d; f_foreign_key := f_foreign_key d; f_join_table := x;
     f_delete_rule := f_delete_rule d; f_read_rule := f_read_rule d; f_write_rule :=
     f_write_rule d; f_collection_null := f_collection_null d; f_item_null :=
     f_item_null d; f_strictness := f_strictness d; f_eager := f_eager d; f_reset :=
     f_reset d; f_preserialize := f_preserialize d; f_query := f_query d; f_index :=
     f_index d; f_unique := f_unique d; f_cindex_names := f_cindex_names d;
     f_cunique_names := f_cunique_names d |}.
Definition with_delete_rule (x : option deleterule) (d : fdef) : fdef :=
  {| f_ftype := f_ftype d; f_fstore := f_fstore d; f_primary := f_primary d; f_required
     := f_required d; f_getter := f_getter d; f_setter := f_setter d; f_enum := f_enum
     d; f_enum_input := f_enum_input d; f_enum_output := f_enum_output d; f_union :=
     f_union d; f_item := f_item d; f_inst := f_inst d; f_force_set_on_save :=
     f_force_set_on_save d; f_foreign_key := f_foreign_key d; f_join_table :=
     f_join_table d; f_delete_rule := x; f_read_rule := f_read_rule d; f_write_rule :=
     f_write_rule d; f_collection_null := f_collection_null d; f_item_null :=
     f_item_null d; f_strictness := f_strictness d; f_eager := f_eager d; f_reset :=
     f_reset d; f_preserialize := f_preserialize d; f_query := f_query d; f_index :=
     f_index d; f_unique := f_unique d; f_cindex_names := f_cindex_names d;
     f_cunique_names := f_cunique_names d |}.
Definition with_read_rule (x : readrule) (d : fdef) : fdef :=
  {| f_ftype := f_ftype d; f_fstore := f_fstore d; f_primary := f_primary d; f_required
     := f_required d; f_getter := f_getter d; f_setter := f_setter d; f_enum := f_enum
     d; f_enum_input := f_enum_input d; f_enum_output := f_enum_output d; f_union :=
     f_union d; f_item := f_item d; f_inst := f_inst d; f_force_set_on_save :=
     f_force_set_on_save d; f_foreign_key := f_foreign_key d; f_join_table :=
     f_join_table d; f_delete_rule := f_delete_rule d; f_read_rule := x; f_write_rule :=
     f_write_rule d; f_collection_null := f_collection_null d; f_item_null :=
     f_item_null d; f_strictness := f_strictness d; f_eager := f_eager d; f_reset :=
     f_reset d; f_preserialize := f_preserialize d; f_query := f_query d; f_index :=
     f_index d; f_unique := f_unique d; f_cindex_names := f_cindex_names d;
     f_cunique_names := f_cunique_names d |}.
Definition with_write_rule (x : writerule) (d : fdef) : fdef :=
  {| f_ftype := f_ftype d; f_fstore := f_fstore d; f_primary := f_primary d; f_required
     := f_required d; f_getter := f_getter d; f_setter := f_setter d; f_enum := f_enum
     d; f_enum_input := f_enum_input d; f_enum_output := f_enum_output d; f_union :=
     f_union d; f_item := f_item d; f_inst := f_inst d; f_force_set_on_save :=
     f_force_set_on_save d; f_foreign_key := f_foreign_key d; f_join_table :=
     f_join_table d; f_delete_rule := f_delete_rule d; f_read_rule := f_read_rule d;
     f_write_rule := x; f_collection_null := f_collection_null d; f_item_null :=
     f_item_null d; f_strictness := f_strictness d; f_eager := f_eager d; f_reset :=
     f_reset d; f_preserialize := f_preserialize d; f_query := f_query d; f_index :=
     f_index d; f_unique := f_unique d; f_cindex_names := f_cindex_names d;
     f_cunique_names := f_cunique_names d |}.
Definition with_collection_null (x : nullability) (d : fdef) : fdef :=
  {| f_ftype := f_ftype d; f_fstore := f_fstore d; f_primary := f_primary d; f_required
     := f_required d; f_getter := f_getter d; f_setter := f_setter d; f_enum := f_enum
     d; f_enum_input := f_enum_input d; f_enum_output := f_enum_output d; f_union :=
     f_union d; f_item := f_item d; f_inst := f_inst d; f_force_set_on_save :=
     f_force_set_on_save d; f_foreign_key := f_foreign_key d; f_join_table :=
     f_join_table d; f_delete_rule := f_delete_rule d; f_read_rule := f_read_rule d;
     f_write_rule := f_write_rule d; f_collection_null := x; f_item_null := f_item_null
     d; f_strictness := f_strictness d; f_eager := f_eager d; f_reset := f_reset d;
     f_preserialize := f_preserialize d; f_query := f_query d; f_index := f_index d;
     f_unique := f_unique d; f_cindex_names := f_cindex_names d; f_cunique_names :=
     f_cunique_names d |}.
Definition with_item_null (x : nullability) (d : fdef) : fdef :=
  {| f_ftype := f_ftype d; f_fstore := f_fstore d; f_primary := f_primary d; f_required
     := f_required d; f_getter := f_getter d; f_setter := f_setter d; f_enum := f_enum
     d; f_enum_input := f_enum_input d; f_enum_output := f_enum_output d; f_union :=
     f_union d; f_item := f_item d; f_inst := f_inst d; f_force_set_on_save :=
     f_force_set_on_save d; f_foreign_key := f_foreign_key d; f_join_table :=
     f_join_table d; f_delete_rule := f_delete_rule d; f_read_rule := f_read_rule d;
     f_write_rule := f_write_rule d; f_collection_null := f_collection_null d;
     f_item_null := x; f_strictness := f_strictness d; f_eager := f_eager d; f_reset :=
     f_reset d; f_preserialize := f_preserialize d; f_query := f_query d; f_index :=
     f_index d; f_unique := f_unique d; f_cindex_names := f_cindex_names d;
     f_cunique_names := f_cunique_names d |}.
Definition with_strictness (x : strictness) (d : fdef) : fdef :=
  {| f_ftype := f_ftype d; f_fstore := f_fstore d; f_primary := f_primary d; f_required
     := f_required d; f_getter := f_getter d; f_setter := f_setter d; f_enum := f_enum
     d; f_enum_input := f_enum_input d; f_enum_output := f_enum_output d; f_union :=
     f_union d; f_item := f_item d; f_inst := f_inst d; f_force_set_on_save :=
     f_force_set_on_save d; f_foreign_key := f_foreign_key d; f_join_table :=
     f_join_table d; f_delete_rule := f_delete_rule d; f_read_rule := f_read_rule d;
     f_write_rule := f_write_rule d; f_collection_null := f_collection_null d;
     f_item_null := f_item_null d; f_strictness := x; f_eager := f_eager d; f_reset :=
     f_reset d; f_preserialize := f_preserialize d; f_query := f_query d; f_index :=
     f_index d; f_unique := f_unique d; f_cindex_names := f_cindex_names d;
     f_cunique_names := f_cunique_names d |}.
Definition with_eager (x : bool) (d : fdef) : fdef :=
  {| f_ftype := f_ftype d; f_fstore := f_fstore d; f_primary := f_primary d; f_required
     := f_required d; f_getter := f_getter d; f_setter := f_setter d; f_enum := f_enum
     d; f_enum_input := f_enum_input d; f_enum_output := f_enum_output d; f_union :=
     f_union d; f_item := f_item d; f_inst := f_inst d; f_force_set_on_save :=
     f_force_set_on_save d; f_foreign_key := f_foreign_key d; f_join_table :=
     f_join_table d; f_delete_rule := f_delete_rule d; f_read_rule := f_read_rule d;
     f_write_rule := f_write_rule d; f_collection_null := f_collection_null d;
     f_item_null := f_item_null d; f_strictness := f_strictness d; f_eager := x; f_reset
     := f_reset d; f_preserialize := f_preserialize d; f_query := f_query d; f_index :=
     f_index d; f_unique := f_unique d; f_cindex_names := f_cindex_names d;
     f_cunique_names := f_cunique_names d |}.
Definition with_reset (x : bool) (d : fdef) : fdef :=
  {| f_ftype := f_ftype d; f_fstore := f_fstore d; f_primary := f_primary d; f_required
     := f_required d; f_getter := f_getter d; f_setter := f_setter d; f_enum := f_enum
     d; f_enum_input := f_enum_input d; f_enum_output := f_enum_output d; f_union :=
     f_union d; f_item := f_item d; f_inst := f_inst d; f_force_set_on_save :=
     f_force_set_on_save d; f_foreign_key := f_foreign_key d; f_join_table :=
     f_join_table d; f_delete_rule := f_delete_rule d; f_read_rule := f_read_rule d;
     f_write_rule := f_write_rule d; f_collection_null := f_collection_null d;
     f_item_null := f_item_null d; f_strictness := f_strictness d; f_eager := f_eager d;
     f_reset := x; f_preserialize := f_preserialize d; f_query := f_query d; f_index :=
     f_index d; f_unique := f_unique d; f_cindex_names := f_cindex_names d;
     f_cunique_names := f_cunique_names d |}.
Definition with_preserialize (x : bool) (d : fdef) : fdef :=
  {| f_ftype := f_ftype d; f_fstore := f_fstore d; f_primary := f_primary d; f_required
     := f_required d; f_getter := f_getter d; f_setter := f_setter d; f_enum := f_enum
     d; f_enum_input := f_enum_input d; f_enum_output := f_enum_output d; f_union :=
     f_union d; f_item := f_item d; f_inst := f_inst d; f_force_set_on_save :=
     f_force_set_on_save d; f_foreign_key := f_foreign_key d; f_join_table :=
     f_join_table d; f_delete_rule := f_delete_rule d; f_read_rule := f_read_rule d;
     f_write_rule := f_write_rule d; f_collection_null := f_collection_null d;
     f_item_null := f_item_null d; f_strictness := f_strictness d; f_eager := f_eager d;
     f_reset := f_reset d; f_preserialize := x; f_query := f_query d; f_index := f_index
     d; f_unique := f_unique d; f_cindex_names := f_cindex_names d; f_cunique_names :=
     f_cunique_names d |}.
Definition with_query (x : option queryability) (d : fdef) : fdef :=
  {| f_ftype := f_ftype d; f_fstore := f_fstore d; f_primary := f_primary d; f_required
     := f_required d; f_getter := f_getter d; f_setter := f_setter d; f_enum := f_enum
     d; f_enum_input := f_enum_input d; f_enum_output := f_enum_output d; f_union :=
     f_union d; f_item := f_item d; f_inst := f_inst d; f_force_set_on_save :=
     f_force_set_on_save d; f_foreign_key := f_foreign_key d; f_join_table :=
     f_join_table d; f_delete_rule := f_delete_rule d; f_read_rule := f_read_rule d;
     f_write_rule := f_write_rule d; f_collection_null := f_collection_null d;
     f_item_null := f_item_null d; f_strictness := f_strictness d; f_eager := f_eager d;
     f_reset := f_reset d; f_preserialize := f_preserialize d; f_query := x; f_index :=
     f_index d; f_unique := f_unique d; f_cindex_names := f_cindex_names d;
     f_cunique_names := f_cunique_names d |}.
Definition with_index (x : bool) (d : fdef) : fdef :=
  {| f_ftype := f_ftype d; f_fstore := f_fstore d; f_primary := f_primary d; f_required
     := f_required d; f_getter := f_getter d; f_setter := f_setter d; f_enum := f_enum
     d; f_enum_input := f_enum_input d; f_enum_output := f_enum_output d; f_union :=
     f_union d; f_item := f_item d; f_inst := f_inst d; f_force_set_on_save :=
     f_force_set_on_save d; f_foreign_key := f_foreign_key d; f_join_table :=
     f_join_table d; f_delete_rule := f_delete_rule d; f_read_rule := f_read_rule d;
     f_write_rule := f_write_rule d; f_collection_null := f_collection_null d;
     f_item_null := f_item_null d; f_strictness := f_strictness d; f_eager := f_eager d;
     f_reset := f_reset d; f_preserialize := f_preserialize d; f_query := f_query d;
     f_index := x; f_unique := f_unique d; f_cindex_names := f_cindex_names d;
     f_cunique_names := f_cunique_names d |}.
Definition with_unique (x : bool) (d : fdef) : fdef :=
  {| f_ftype := f_ftype d; f_fstore := f_fstore d; f_primary := f_primary d; f_required
     := f_required d; f_getter := f_getter d; f_setter := f_setter d; f_enum := f_enum
     d; f_enum_input := f_enum_input d; f_enum_output := f_enum_output d; f_union :=
     f_union d; f_item := f_item d; f_inst := f_inst d; f_force_set_on_save :=
     f_force_set_on_save d; f_foreign_key := f_foreign_key d; f_join_table :=
     f_join_table d; f_delete_rule := f_delete_rule d; f_read_rule := f_read_rule d;
     f_write_rule := f_write_rule d; f_collection_null := f_collection_null d;
     f_item_null := f_item_null d; f_strictness := f_strictness d; f_eager := f_eager d;
     f_reset := f_reset d; f_preserialize := f_preserialize d; f_query := f_query d;
     f_index := f_index d; f_unique := x; f_cindex_names := f_cindex_names d;
     f_cunique_names := f_cunique_names d |}.
Definition with_cindex_names (x : list string) (d : fdef) : fdef :=
  {| f_ftype := f_ftype d; f_fstore := f_fstore d; f_primary := f_primary d; f_required
     := f_required d; f_getter := f_getter d; f_setter := f_setter d; f_enum := f_enum
     d; f_enum_input := f_enum_input d; f_enum_output := f_enum_output d; f_union :=
     f_union d; f_item := f_item d; f_inst := f_inst d; f_force_set_on_save :=
     f_force_set_on_save d; f_foreign_key := f_foreign_key d; f_join_table :=
     f_join_table d; f_delete_rule := f_delete_rule d; f_read_rule := f_read_rule d;
     f_write_rule := f_write_rule d; f_collection_null := f_collection_null d;
     f_item_null := f_item_null d; f_strictness := f_strictness d; f_eager := f_eager d;
     f_reset := f_reset d; f_preserialize := f_preserialize d; f_query := f_query d;
     f_index := f_index d; f_unique := f_unique d; f_cindex_names := x; f_cunique_names
     := f_cunique_names d |}.
Definition with_cunique_names (x : list string) (d : fdef) : fdef :=
  {| f_ftype := f_ftype d; f_fstore := f_fstore d; f_primary := f_primary d; f_required
     := f_required d; f_getter := f_getter d; f_setter := f_setter d; f_enum := f_enum
     d; f_enum_input := f_enum_input d; f_enum_output := f_enum_output d; f_union :=
     f_union d; f_item := f_item d; f_inst := f_inst d; f_force_set_on_save :=
     f_force_set_on_save d; f_foreign_key := f_foreign_key d; f_join_table :=
     f_join_table d; f_delete_rule := f_delete_rule d; f_read_rule := f_read_rule d;
     f_write_rule := f_write_rule d; f_collection_null := f_collection_null d;
     f_item_null := f_item_null d; f_strictness := f_strictness d; f_eager := f_eager d;
     f_reset := f_reset d; f_preserialize := f_preserialize d; f_query := f_query d;
     f_index := f_index d; f_unique := f_unique d; f_cindex_names := f_cindex_names d;
     f_cunique_names := x |}.

Definition orb_input (a b : enuminput) : enuminput :=
  {| in_name := in_name a || in_name b; in_value := in_value a || in_value b;
     in_lname := in_lname a || in_lname b |}.
Definition only_name := {| in_name := true; in_value := false; in_lname := false |}.
Definition only_value := {| in_name := false; in_value := true; in_lname := false |}.
Definition only_lname := {| in_name := false; in_value := false; in_lname := true |}.
Definition all_inputs := {| in_name := true; in_value := true; in_lname := true |}.

(** inputname_modifier.py:9-13, inputvalue_modifier.py:9-13, inputlname_modifier.py:9-13:
    set the flag, or add it to those already set *)
Definition add_input (i : enuminput) (d : fdef) : fdef :=
  with_enum_input (Some (match f_enum_input d with None => i | Some j => orb_input j i end)) d.

Definition is_nundefined (n : nullability) : bool :=
  match n with NUndefined => true | _ => false end.
Definition is_list_type (t : option ftype) : bool :=
  match t with Some FTList => true | _ => false end.

(** linkto_modifier.py:11-12 and the same lines of linkedby, linkedthru, linkedin *)
Definition default_nullify (d : fdef) : fdef :=
  match f_delete_rule d with None => with_delete_rule (Some DNullify) d | Some _ => d end.

(** linkto_modifier.py:13-15, linkedby_modifier.py:18-20, linkedthru_modifier.py:18-20,
    listof_modifier.py:21-22 *)
Definition nonnull_if_undefined (d : fdef) : fdef :=
  if is_nundefined (f_collection_null d) then with_collection_null NNonnull d else d.
Definition link_list_nonnull (d : fdef) : fdef :=
  if is_list_type (f_ftype d) then nonnull_if_undefined d else d.

(** type_modifier.py:18-19 with the [ftype] each type modifier sets *)
Definition ftype_of_kind (k : tykind) : ftype :=
  match k with
  | TStr => FTStr | TInt => FTInt | TFloat => FTFloat | TBool => FTBool
  | TDate => FTDate | TDatetime => FTDatetime | TList => FTList | TDict => FTDict
  end.

(** The [define] method of each modifier; the base method (modifier.py:38-39) does
    nothing. *)
Definition define (m : mdf) (d : fdef) : fdef :=
  match m with
  | MLeaf (LType k) => with_ftype (Some (ftype_of_kind k)) d           (* type_modifier.py:18-19 *)
  | MLeaf _ => d
  | MEager => with_eager true d                                         (* eager_modifier.py:11-12 *)
  | MPreserialize => with_preserialize true d                           (* preserialize_modifier.py:14-15 *)
  | MAny => with_ftype (Some FTAny) d                                   (* any_modifier.py:10-11 *)
  | MInstance c => with_inst (Some c) (with_ftype (Some FTInstance) d)  (* instanceof_modifier.py:23-25 *)
  | MListOf it =>                                                       (* listof_modifier.py:18-22 *)
      let d' := with_item (Some it) (with_ftype (Some FTList) d) in
      if fstore_eqb (f_fstore d') LocalKey
         || match f_foreign_key d' with Some _ => true | None => false end
      then nonnull_if_undefined d' else d'
  | MDictOf it => with_item (Some it) (with_ftype (Some FTDict) d)      (* collection_type_modifier.py:26-28 *)
  | MUnion ts => with_union ts (with_ftype (Some FTUnion) d)            (* union_modifier.py:19-21 *)
  | MEnum e =>                                                          (* enum_modifier.py:19-26 *)
      let d1 := with_enum (Some e) (with_ftype (Some FTEnum) d) in
      let d2 := match f_enum_input d1 with
                | None => with_enum_input (Some only_name) d1 | Some _ => d1 end in
      match f_enum_output d2 with
      | None => with_enum_output (Some OutName) d2 | Some _ => d2 end
  | MPrimary => with_primary true d                                     (* primary_modifier.py:9-10 *)
  | MReadonly => with_write_rule NoWrite d                              (* readonly_modifier.py:9-10 *)
  | MReadwrite => with_read_rule ReadUnlimited (with_write_rule WriteUnlimited d)
                                                                        (* readwrite_modifier.py:9-11 *)
  | MWriteonly => with_read_rule NoRead d                               (* writeonly_modifier.py:9-10 *)
  | MWriteonce => with_write_rule WriteOnce d                           (* writeonce_modifier.py:9-10 *)
  | MWritenonnull => with_write_rule WriteNonnull d                     (* writenonnull_modifier.py:11-12 *)
  | MTemp => with_fstore Temp d                                         (* temp_modifier.py:12-13 *)
  | MEmbedded => with_fstore Embedded d                                 (* embedded_modifier.py:9-10 *)
  | MLinkto =>                                                          (* linkto_modifier.py:9-15 *)
      link_list_nonnull (default_nullify (with_fstore LocalKey d))
  | MLinkedby k =>                                                      (* linkedby_modifier.py:12-20 *)
      link_list_nonnull (default_nullify
        (with_join_table (Some false) (with_foreign_key (Some k) (with_fstore ForeignKey d))))
  | MLinkedthru k =>                                                    (* linkedthru_modifier.py:12-20 *)
      link_list_nonnull (default_nullify
        (with_join_table (Some true) (with_foreign_key (Some k) (with_fstore ForeignKey d))))
  | MLinkedin _ =>                                                      (* linkedin_modifier.py:14-19 *)
      default_nullify (with_join_table (Some true) (with_fstore ForeignKey d))
  | MNonnull => with_collection_null NNonnull d                         (* nonnull_modifier.py:9-10 *)
  | MNullable => with_item_null NNullable d                             (* nullable_modifier.py:9-10 *)
  | MStrict => with_strictness SStrict d                                (* strict_modifier.py:9-10 *)
  | MReset => with_reset true d                                         (* reset_modifier.py:11-12 *)
  | MNullify => with_delete_rule (Some DNullify) d                      (* nullify_modifier.py:9-10 *)
  | MCascade => with_delete_rule (Some DCascade) d                      (* cascade_modifier.py:9-10 *)
  | MDeny => with_delete_rule (Some DDeny) d                            (* deny_modifier.py:9-10 *)
  | MQueryable => with_query (Some QQueryable) d                        (* queryable_modifier.py:9-10 *)
  | MUnqueryable => with_query (Some QUnqueryable) d                    (* unqueryable_modifier.py:9-10 *)
  | MInputName => add_input only_name d
  | MInputValue => add_input only_value d
  | MInputLname => add_input only_lname d
  | MInputAll => with_enum_input (Some all_inputs) d                    (* inputall_modifier.py:9-10 *)
  | MOutputName => with_enum_output (Some OutName) d                    (* outputname_modifier.py:9-10 *)
  | MOutputValue => with_enum_output (Some OutValue) d                  (* outputvalue_modifier.py:9-10 *)
  | MOutputLname => with_enum_output (Some OutLname) d                  (* outputlname_modifier.py:9-10 *)
  | MIndex (Some n) true => with_cunique_names (f_cunique_names d ++ [n]) d
  | MIndex (Some n) false => with_cindex_names (f_cindex_names d ++ [n]) d
  | MIndex None true => with_unique true d
  | MIndex None false => with_index true d                              (* index_modifier.py:13-25 *)
  | MGetter f => with_getter (Some f) (with_fstore Calculated d)        (* getter_modifier.py:24-26 *)
  | MSetter f => with_setter (Some f) (with_fstore Calculated d)        (* setter_modifier.py:24-26 *)
  | MRequired | MPresent => with_required true d         (* required_modifier.py:16-17, present:17-18 *)
  | MSetonsave _ true => with_force_set_on_save true d                  (* fsetonsave_modifier.py:12-13 *)
  | _ => d
  end.

(** types.py:93-98, repeated: the definition of a chain built from [types] *)
Definition fdef_of (ts : types) : fdef := fold_left (fun d m => define m d) ts fdef0.

(** types.py, one method call of the chain language and the modifiers it appends;
    [types.primary] is [Types(self, ResetModifier(), PrimaryModifier())] (types.py:105),
    and the calendar roundings append an eager mark first (types.py:654-726). *)
Definition types_primary : list mdf := [MReset; MPrimary].

(** ** [Types] objects with their mutable definition (types.py:84-98).
    A definition is a mutable Python object, shared by reference: it lives in a
    store, and a [Types] object is the place of its definition and its chain. *)
Record typesobj := { to_fdef : nat; to_chain : types }.
Record tstore := { ts_fdefs : list fdef; ts_types : list typesobj }.

Definition set_nth {A} (i : nat) (x : A) (l : list A) : list A :=
  firstn i l ++ match skipn i l with [] => [] | _ :: r => x :: r end.

(** [arg.define(self.fdef)] on the definition at place [i] *)
Definition define_at (i : nat) (m : mdf) (s : tstore) : tstore :=
  match nth_error (ts_fdefs s) i with
  | Some d => {| ts_fdefs := set_nth i (define m d) (ts_fdefs s); ts_types := ts_types s |}
  | None => s
  end.

(** types.py:84-98 Types.__init__: no original gives a fresh definition and an empty
    chain; otherwise the definition is a deep copy and the chain is extended.
    Returns the new [Types] object. *)
Definition new_types (orig : option nat) (args : list mdf) (s : tstore) : nat * tstore :=
  let fresh := length (ts_fdefs s) in
  let i := length (ts_types s) in
  match orig with
  | None =>
      (i, {| ts_fdefs := ts_fdefs s ++ [fdef0];
             ts_types := ts_types s ++ [{| to_fdef := fresh; to_chain := [] |}] |})
  | Some o =>
      match nth_error (ts_types s) o with
      | None => (i, s)
      | Some t =>
          let d := nth (to_fdef t) (ts_fdefs s) fdef0 in
          let s1 := {| ts_fdefs := ts_fdefs s ++ [d]; ts_types := ts_types s |} in
          let '(chain, s2) :=
            fold_left (fun acc m => (fst acc ++ [m], define_at fresh m (snd acc)))
                      args (to_chain t, s1) in
          (i, {| ts_fdefs := ts_fdefs s2;
                 ts_types := ts_types s2 ++ [{| to_fdef := fresh; to_chain := chain |}] |})
      end
  end.

(** A program that builds [Types] objects: each step extends an earlier one. *)
Definition build (steps : list (option nat * list mdf)) : tstore :=
  fold_left (fun s st => snd (new_types (fst st) (snd st) s)) steps
            {| ts_fdefs := []; ts_types := [] |}.

(** What a user sees of a [Types] object: its definition and its chain. *)
Definition see (s : tstore) (i : nat) : option (fdef * types) :=
  match nth_error (ts_types s) i with
  | Some t => match nth_error (ts_fdefs s) (to_fdef t) with
              | Some d => Some (d, to_chain t)
              | None => None
              end
  | None => None
  end.

(** fdef.py:338-355 item_types: an item type that does not mark nullable is
    required. *)
Definition item_types (d : fdef) : option types :=
  match f_item d with
  | None => None
  | Some it => Some (match f_item_null (fdef_of it) with
                     | NUndefined => it ++ [MRequired]
                     | _ => it
                     end)
  end.

(** fdef.py:547-552 is_ref *)
Definition is_ref (d : fdef) : bool :=
  match f_fstore d with LocalKey | ForeignKey => true | _ => false end.

(** fdef.py:554-562 is_inst *)
Definition is_inst (d : fdef) : bool :=
  match f_ftype d with
  | Some FTInstance => true
  | Some FTList => match item_types d with
                   | Some it => match f_ftype (fdef_of it) with
                                | Some FTInstance => true | _ => false end
                   | None => false
                   end
  | _ => false
  end.

(** fdef.py:564-573 has_linked; the recursion goes into the item types, [n] bounds
    the nesting of lists and dicts. *)
Fixpoint has_linked (n : nat) (d : fdef) : bool :=
  match f_fstore d with
  | LocalKey | ForeignKey => true
  | _ => match f_ftype d with
         | Some FTList => match n, item_types d with
                          | S n', Some it => has_linked n' (fdef_of it)
                          | _, _ => false
                          end
         | _ => false
         end
  end.

(** The nesting depth of list and dict types in a type. *)
Fixpoint mod_depth (m : mdf) : nat :=
  match m with
  | MListOf it | MDictOf it => S (fold_right (fun x a => Nat.max (mod_depth x) a) 0%nat it)
  | _ => 0%nat
  end.
Definition types_depth (ts : types) : nat :=
  fold_right (fun x a => Nat.max (mod_depth x) a) 0%nat ts.

(** ** Classes (cdef.py, jfield.py) *)

(** jfield.py:19-36, with the names that jconf's strategies give: [fl_json] is
    [output_key_strategy(name)] (jfield.py:51-54), [fl_ref] is
    [ref_name_strategy(field)], [fl_cref] is [output_key_strategy(ref name)]. *)
Record field := {
  fl_name : string; fl_json : string; fl_ref : string; fl_cref : string;
  fl_default : value; fl_types : types
}.
Definition fl_fdef (f : field) : fdef := fdef_of (fl_types f).

(** cdef.py:26-100 CDef with the settings of its JConf that the models read *)
Record cdef := {
  cd_name : string;
  cd_fields : list field;
  cd_abstract : bool;
  cd_reset_all : bool;
  cd_strict : bool;
  cd_validate_all : bool;
  cd_output_null : bool;
  cd_outkey : string -> string
}.

(** cdef.py:123-138 field_named; [_dict_fields] keeps the last of equal names. *)
Definition field_named (n : string) (c : cdef) : option field :=
  find (fun f => String.eqb n (fl_name f)) (rev (cd_fields c)).

(** cdef.py:80-81, 209-214: the last field marked primary *)
Definition primary_field (c : cdef) : option field :=
  find (fun f => f_primary (fl_fdef f)) (rev (cd_fields c)).

(** jfield.py:103-113 foreign_class *)
Definition foreign_class (f : field) : option string :=
  match f_ftype (fl_fdef f) with
  | Some FTInstance => f_inst (fl_fdef f)
  | Some FTList => match item_types (fl_fdef f) with
                   | Some it => f_inst (fdef_of it)
                   | None => None
                   end
  | _ => None
  end.

Definition eq_opt_str (a : option string) (b : string) : bool :=
  match a with Some x => String.eqb x b | None => false end.

(** cdef.py:276-288 rfield *)
Definition rfield_by_name (c : cdef) (fcls fname : string) : option field :=
  find (fun f => eq_opt_str (foreign_class f) fcls && String.eqb (fl_name f) fname)
       (cd_fields c).
Definition rfield_by_key (c : cdef) (fcls fkey : string) : option field :=
  find (fun f => eq_opt_str (foreign_class f) fcls
                 && eq_opt_str (f_foreign_key (fl_fdef f)) fkey) (cd_fields c).

Section Foreign.
  (** the class graph: cgraph.py fetch *)
  Context (ct : string -> option cdef).

  (** jfield.py:171-195 _do_resolve_foreign, and 93-98 foreign_field.  With no
      foreign key, [rfield] is called with two Nones and finds nothing. *)
  Definition foreign_field (scls : string) (f : field) : option field :=
    let d := fl_fdef f in
    match f_fstore d with
    | LocalKey =>
        match foreign_class f with
        | Some fc => match ct fc with
                     | Some c => rfield_by_key c scls (fl_name f)
                     | None => None
                     end
        | None => None
        end
    | ForeignKey =>
        match foreign_class f with
        | Some fc => match ct fc, f_foreign_key d with
                     | Some c, Some k => rfield_by_name c scls k
                     | _, _ => None
                     end
        | None => None
        end
    | _ => None
    end.
End Foreign.

(** cdef.py:320-337: the names accepted in input, and by update.  The virtual
    reference names of join tables are not in either list. *)
Definition local_fields (c : cdef) : list field :=
  filter (fun f => fstore_eqb (f_fstore (fl_fdef f)) LocalKey
                   && match f_ftype (fl_fdef f) with
                      | Some FTInstance | Some FTList => true | _ => false end)
         (cd_fields c).
Definition available_names (c : cdef) : list string :=
  map fl_name (cd_fields c) ++ map fl_json (cd_fields c)
  ++ map fl_ref (local_fields c) ++ map fl_cref (local_fields c).
Definition update_names (c : cdef) : list string :=
  map fl_name (cd_fields c) ++ map fl_ref (local_fields c).
