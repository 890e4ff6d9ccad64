(** RoundSpec.v -- the words of C85: values that survive being written to JSON and read back. *)
From Verif Require Import Base Mon Values CalModel CalSpec TypesModel ObjModel IoModel EnumSpec OutSpec.
From Verif Require LeafModel.
Open Scope list_scope.

(** A modifier over values that only checks *)
Definition only_checks (l : LeafModel.leaf param) : bool :=
  match l with
  | LeafModel.LMin _ | LeafModel.LMax _ | LeafModel.LRange _ _ | LeafModel.LGt _ | LeafModel.LLt _
  | LeafModel.LPositive | LeafModel.LNegative | LeafModel.LNonpositive | LeafModel.LNonnegative | LeafModel.LEven | LeafModel.LOdd
  | LeafModel.LLength _ _ | LeafModel.LMinlength _ | LeafModel.LMaxlength _
  | LeafModel.LOneOf _ | LeafModel.LEq _ | LeafModel.LNeq _
  | LeafModel.LHasPrefix _ | LeafModel.LHasSuffix _ | LeafModel.LIsPrefixOf _ | LeafModel.LIsSuffixOf _
  | LeafModel.LAlnum | LeafModel.LAlpha | LeafModel.LDigit | LeafModel.LNumeric
  | LeafModel.LBefore _ | LeafModel.LAfter _ => true
  | _ => false
  end.

(** A modifier that is no type and changes a value neither on the way in nor on the way out:
    a mark, a check, or something to do on save *)
Definition silent (m : mdf) : bool :=
  match m with
  | MLeaf l => only_checks l
  | MAny | MPrimary | MReadonly | MReadwrite | MWriteonly | MWriteonce | MWritenonnull
  | MTemp | MEmbedded | MLinkto | MLinkedby _ | MLinkedthru _ | MLinkedin _ | MNonnull | MNullable | MStrict | MReset
  | MNullify | MCascade | MDeny | MQueryable | MUnqueryable
  | MInputName | MInputValue | MInputLname | MInputAll | MOutputName | MOutputValue | MOutputLname
  | MIndex _ _ | MGetter _ | MSetter _
  | MRequired | MPresent | MPresentwith _ | MPresentwithout _
  | MValidate _ _ | MSetonsave _ _ | MOnsave _ | MOnwrite _ | MOnupdate _ | MCompare _
  | MInvalid | MOneIsValid _ | MCanWrite _ _ | MIsthis | MIsobjof _ | MAsop _ => true
  | _ => false
  end.
(** It leaves the value [v] alone: it is silent, or it gives a default and [v] is not None. *)
Definition leaves_alone (v : value) (m : mdf) : Prop := silent m = true \/ v <> VNone /\ exists p, m = MDefault p.

Section Kept.
  Context (P : program).

  (** [kept ts v]: a value [v] of type [ts] has a JSON form that reads back as [v]. *)
  Inductive kept : types -> value -> Prop :=
  | kept_at before m after v :
      Forall (leaves_alone v) before -> Forall (leaves_alone v) after ->
      keeps (fdef_of (before ++ m :: after)) m v -> kept (before ++ m :: after) v
  (** [keeps d m v]: the type [m] of a chain with definition [d] does so. *)
  with keeps : fdef -> mdf -> value -> Prop :=
  | k_str d s : keeps d (MLeaf (LeafModel.LType LeafModel.TStr)) (VStr s)
  | k_int d z : keeps d (MLeaf (LeafModel.LType LeafModel.TInt)) (VInt z)
  | k_float d q : keeps d (MLeaf (LeafModel.LType LeafModel.TFloat)) (VFloat q)
  | k_bool d b : keeps d (MLeaf (LeafModel.LType LeafModel.TBool)) (VBool b)
  | k_date d t : valid_date t = true -> keeps d (MLeaf (LeafModel.LType LeafModel.TDate)) (VDate t)
  (** a time in UTC, in milliseconds, and not on a whole second *)
  | k_datetime d t : valid_datetime t = true -> in_utc_ms t = t -> t_us t <> 0%Z ->
      keeps d (MLeaf (LeafModel.LType LeafModel.TDatetime)) (VDatetime t)
  | k_enum d e ms n v i o : p_enums P e = Some ms -> member ms n v -> (forall m, v <> VEnum e m) ->
      f_enum_input d = Some i -> f_enum_output d = Some o -> reads_own_output i o ms n v -> keeps d (MEnum e) (VEnum e n)
  | k_list d raw it l : is_ref d = false -> item_types d = Some it -> (forall v, In v l -> kept it v) ->
      keeps d (MListOf raw) (VList l)
  | k_dict d raw it m : item_types d = Some it -> NoDup (map fst m) -> (forall k v, In (k, v) m -> kept it v) ->
      keeps d (MDictOf raw) (VDict m)
  | k_none_leaf d k : keeps d (MLeaf (LeafModel.LType k)) VNone
  | k_none_object d cls : keeps d (MInstance cls) VNone
  | k_none_enum d e : keeps d (MEnum e) VNone
  | k_none_list d raw : f_collection_null d <> NNonnull -> keeps d (MListOf raw) VNone
  | k_none_dict d raw : f_collection_null d <> NNonnull -> keeps d (MDictOf raw) VNone.
End Kept.

(** In the output of its class, nothing else is written under the JSON name of [f], and its
    own name is not the JSON name of anything else. *)
Definition own_key (d : cdef) (f : field) : Prop :=
  forall g, In g (cd_fields d) ->
    (g <> f -> fl_json g <> fl_json f /\ fl_json g <> fl_name f) /\
    (is_local g = true -> fl_cref g <> fl_json f /\ fl_cref g <> fl_name f).
