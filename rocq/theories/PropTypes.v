(** PropTypes.v -- C49: a field definition is decided by its marks. *)
From Verif Require Import Base Values LeafModel TypesModel TypesSpec TypesProofs.

Theorem C49_write_rule : decided_by f_write_rule write_mark WriteUnlimited.
Proof. exact (decided f_write_rule write_mark WriteUnlimited write_step eq_refl). Qed.
Print Assumptions C49_write_rule.

Theorem C49_read_rule : decided_by f_read_rule read_mark ReadUnlimited.
Proof. exact (decided f_read_rule read_mark ReadUnlimited read_step eq_refl). Qed.
Print Assumptions C49_read_rule.

Theorem C49_storage : decided_by f_fstore store_mark Embedded.
Proof. exact (decided f_fstore store_mark Embedded store_step eq_refl). Qed.
Print Assumptions C49_storage.

Theorem C49_item_nullability : decided_by f_item_null item_null_mark NUndefined.
Proof. exact (decided f_item_null item_null_mark NUndefined item_null_step eq_refl). Qed.
Print Assumptions C49_item_nullability.

(** Only the nonnull mark makes a collection non-null: the link marks, which mean to
    do so for lists, test for "undefined", and the setting starts as "nullable". *)
Theorem C49_collection_nullability :
  decided_by f_collection_null collection_null_mark NNullable.
Proof. exact coll_decided. Qed.
Print Assumptions C49_collection_nullability.

Theorem C49_strictness : decided_by f_strictness strict_mark SUndefined.
Proof. exact (decided f_strictness strict_mark SUndefined strict_step eq_refl). Qed.
Print Assumptions C49_strictness.

Theorem C49_delete_rule : forall before m after x,
  delete_mark m = Some x -> (forall m', In m' after -> delete_mark m' = None) ->
  f_delete_rule (fdef_of (before ++ m :: after)) = Some x.
Proof. exact (sticky_decided f_delete_rule delete_mark _ delete_step). Qed.
Print Assumptions C49_delete_rule.

Theorem C49_enum_output : forall before m after x,
  output_mark m = Some x -> (forall m', In m' after -> output_mark m' = None) ->
  f_enum_output (fdef_of (before ++ m :: after)) = Some x.
Proof. exact (sticky_decided f_enum_output output_mark _ output_step). Qed.
Print Assumptions C49_enum_output.

(** A [Types] object always carries the definition its own chain gives, ... *)
Theorem C49_definition_of_chain : forall steps i d ts,
  see (build steps) i = Some (d, ts) -> d = fdef_of ts.
Proof. exact build_see. Qed.
Print Assumptions C49_definition_of_chain.

(** ... building further types, from it or from others, leaves it as it was, ... *)
Theorem C49_extending_keeps_original : forall steps more i x,
  see (build steps) i = Some x -> see (build (steps ++ more)) i = Some x.
Proof. exact build_stable. Qed.
Print Assumptions C49_extending_keeps_original.

(** ... and the extended type has the marks of the original followed by the new ones. *)
Theorem C49_extension : forall steps o args d ts,
  see (build steps) o = Some (d, ts) ->
  see (build (steps ++ [(Some o, args)])) (length (ts_types (build steps)))
  = Some (fdef_of (ts ++ args), ts ++ args).
Proof. exact build_extends. Qed.
Print Assumptions C49_extension.

(** The last of two conflicting marks decides; a mark of another kind does not. *)
Example C49_example_last :
  f_write_rule (fdef_of [MReadonly; MLeaf (LType TStr); MWriteonce; MRequired]) = WriteOnce
  /\ f_fstore (fdef_of [MLinkto; MInstance "A"; MTemp]) = Temp.
Proof. split; reflexivity. Qed.

(** [t = types.str; u = t.readonly; v = t.writeonce.index('i')]: all three differ. *)
Example C49_example_types :
  let s := build [(None, []); (Some 0%nat, [MLeaf (LType TStr)]); (Some 1%nat, [MReadonly]);
                  (Some 1%nat, [MWriteonce; MIndex (Some "i"%string) false])] in
  option_map (fun p => f_write_rule (fst p)) (see s 1%nat) = Some WriteUnlimited /\
  option_map (fun p => f_write_rule (fst p)) (see s 2%nat) = Some NoWrite /\
  option_map (fun p => f_write_rule (fst p)) (see s 3%nat) = Some WriteOnce /\
  option_map (fun p => f_cindex_names (fst p)) (see s 1%nat) = Some [].
Proof. repeat split; reflexivity. Qed.
