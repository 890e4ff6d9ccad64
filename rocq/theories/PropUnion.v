(** PropUnion.v -- C23: union fields. *)
From Verif Require Import Base Mon KeypathModel Values ChainModel TypesModel ObjModel ObjExample IoModel IoBase IoExample
  UnionSpec UnionProofs.
From Verif Require LeafModel.
Open Scope string_scope.
Open Scope list_scope.

(** A union accepts a value exactly when one of its member types does, those before it
    having refused it. *)
Theorem C23_union_accepts_iff_a_member_does :
  forall (P : program) (fuel : nat) (us : list types) (c : ctx) (w w' : world),
    c_fdef c = fdef_of [MUnion us] -> c_val c <> VNone ->
    (m_validate (interp P (S fuel) (MUnion us)) c w = (Ok tt, w') <->
     exists u, first_to_take P fuel c us u w w').
Proof.
  intros P fuel us c w w' Hd Hv. rewrite <- (loop_ok P fuel us c w w').
  cbn [m_validate interp modif_of validate_of]. unfold union_validate. rewrite Hd.
  destruct (c_val c); try reflexivity. contradiction.
Qed.
Print Assumptions C23_union_accepts_iff_a_member_does.

(** When the member types only look at the value, the order does not matter. *)
Theorem C23_union_is_the_union :
  forall (P : program) (fuel : nat) (us : list types) (c : ctx) (w : world),
    c_fdef c = fdef_of [MUnion us] -> c_val c <> VNone -> only_looks P fuel c us w ->
    (m_validate (interp P (S fuel) (MUnion us)) c w = (Ok tt, w) <->
     exists u, In u us /\ takes P fuel c u w w).
Proof.
  intros P fuel us c w Hd Hv L. rewrite C23_union_accepts_iff_a_member_does by assumption.
  symmetry. apply looks_decide. exact L.
Qed.
Print Assumptions C23_union_is_the_union.

(** If every member type refuses, so does the union, at the field's keypath. *)
Theorem C23_union_refuses :
  forall (P : program) (fuel : nat) (us : list types) (c : ctx) (w w' : world),
    c_fdef c = fdef_of [MUnion us] -> c_val c <> VNone -> all_refuse P fuel c us w w' ->
    m_validate (interp P (S fuel) (MUnion us)) c w =
      (Err (EValidation [(skp (c_fkr c), "value is not of any provided type")]), w').
Proof.
  intros P fuel us c w w' Hd Hv H. rewrite <- (loop_refused P fuel us c w w' H).
  cbn [m_validate interp modif_of validate_of]. unfold union_validate. rewrite Hd.
  destruct (c_val c); try reflexivity. contradiction.
Qed.
Print Assumptions C23_union_refuses.

(** The JSON form, and what is stored on save, are those of the first member type that
    accepts the value: same result, same exception, same state. *)
Theorem C23_union_output_is_that_of_first_member :
  forall (P : program) (fuel : nat) (us : list types) (c : ctx) (u : types) (w w1 : world),
    c_fdef c = fdef_of [MUnion us] -> c_val c <> VNone -> first_to_take P fuel c us u w w1 ->
    (forall r w2, t_tojson (interp P fuel) u (alterfdef c (fdef_of u)) w1 = (r, w2) ->
       (forall msgs, r <> Err (EValidation msgs)) ->
       m_tojson (interp P (S fuel) (MUnion us)) c w = (r, w2)) /\
    (forall r w2, t_serialize P (interp P fuel) u (alterfdef c (fdef_of u)) w1 = (r, w2) ->
       (forall msgs, r <> Err (EValidation msgs)) ->
       m_serialize (interp P (S fuel) (MUnion us)) c w = (r, w2)).
Proof.
  intros P fuel us c u w w1 Hd Hv H.
  split; intros r w2 Hr Hn;
    cbn [m_tojson m_serialize interp modif_of tojson_of serialize_of]; unfold union_out; rewrite Hd.
  - assert (G : union_out_loop (interp P fuel) (t_tojson (interp P fuel)) us c w = (r, w2)).
    { apply out_first with (u := u) (w1 := w1); [exact H | | exact Hr].
      intros m w' K. rewrite Hr in K. inversion K. exact (Hn m H1). }
    destruct (c_val c); try exact G. contradiction.
  - assert (G : union_out_loop (interp P fuel) (t_serialize P (interp P fuel)) us c w = (r, w2)).
    { apply out_first with (u := u) (w1 := w1); [exact H | | exact Hr].
      intros m w' K. rewrite Hr in K. inversion K. exact (Hn m H1). }
    destruct (c_val c); try exact G. contradiction.
Qed.
Print Assumptions C23_union_output_is_that_of_first_member.

(** A value that no member type accepts has no JSON form: None is output. *)
Theorem C23_union_no_member_no_output :
  forall (P : program) (fuel : nat) (us : list types) (c : ctx) (w w' : world),
    c_fdef c = fdef_of [MUnion us] -> all_refuse P fuel c us w w' -> c_val c <> VNone ->
    m_tojson (interp P (S fuel) (MUnion us)) c w = (Ok VNone, w').
Proof.
  intros P fuel us c w w' Hd H Hv.
  cbn [m_tojson interp modif_of tojson_of]. unfold union_out. rewrite Hd.
  rewrite <- (out_none P fuel us (t_tojson (interp P fuel)) c w w' H).
  destruct (c_val c); try reflexivity. contradiction.
Qed.
Print Assumptions C23_union_no_member_no_output.

Definition tdate : mdf := MLeaf (LeafModel.LType LeafModel.TDate).
Definition ex_union : list types := [[tint]; [tstr]; [tdate]].

(** int, str or date; a date is refused by the first two and written as the third writes it *)
Example C23_example :
  let d := VDate {| d_year := 2020; d_month := 1; d_day := 31 |} in
  let c := ex_ctx [MUnion ex_union] d in
  c_fdef c = fdef_of [MUnion ex_union] /\ c_val c <> VNone /\
  only_looks ex_prog 3 c ex_union (ex_world true) /\
  first_to_take ex_prog 3 c ex_union [tdate] (ex_world true) (ex_world true) /\
  t_tojson (interp ex_prog 3) [tdate] (alterfdef c (fdef_of [tdate])) (ex_world true)
    = (Ok (VStr "2020-01-31T00:00:00.000Z"), ex_world true) /\
  all_refuse ex_prog 3 (nval c (VBool true)) [[tstr]; [tdate]] (ex_world true) (ex_world true).
Proof.
  cbn zeta. split; [reflexivity |]. split; [discriminate |].
  split.
  { intros u [<- | [<- | [<- | []]]]; [right | right | left]; try (eexists; vm_compute; reflexivity);
    vm_compute; reflexivity. }
  split.
  { exists [[tint]; [tstr]], [], (ex_world true). split; [reflexivity |]. split.
    - econstructor; [eexists; vm_compute; reflexivity |]. econstructor; [eexists; vm_compute; reflexivity |]. constructor.
    - vm_compute. reflexivity. }
  split; [vm_compute; reflexivity |].
  econstructor; [eexists; vm_compute; reflexivity |]. econstructor; [eexists; vm_compute; reflexivity |]. constructor.
Qed.

(** Finding: input goes to the first member type whose transformation does not raise,
    whether or not it accepts the value.  A string given to "colour by value, or string"
    is lost although the second member type accepts it as it is. *)
Theorem C23_union_input_loses_accepted_value_refuted :
  let us := [[MInputValue; MEnum "Color"]; [tstr]] in
  exists (P : program) (w : world),
    let c := ex_ctx [MUnion us] (VStr "hello") in
    takes P 3 c [tstr] w w /\
    m_transform (interp P 4 (MUnion us)) c w = (Ok VNone, w).
Proof. exists ex_prog, (ex_world true). split; vm_compute; reflexivity. Qed.
Print Assumptions C23_union_input_loses_accepted_value_refuted.
