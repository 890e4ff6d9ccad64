(** PropReset.v -- C32: reset. *)
From Verif Require Import Base Mon PyList PyDict KeypathModel Values OListModel TypesModel ObjModel ObjSpec ObjTrack
  ObjReset ObjExample.
Open Scope nat_scope.

(** ** C32 Reset restores the persisted values

    [o] is marked persisted, which gives the heap [h0].  Then any history of assignments
    and list and dict methods at any depth, on the plain data fields of any objects, even
    one that ends in an exception.  Then reset succeeds, the record is empty, and each
    plain data field has the value it had, or one that Python finds equal to it. *)
Theorem C32_reset_restores :
  forall (ct : string -> option cdef) oeq getter setter pystr fuel xs h h0 o r h' n,
    wf_classes ct ->
    mark_unmodified o h = (Ok tt, h0) -> typed_heap ct h0 ->
    cd_reset_all (cdef_of ct h0 o) = true ->
    (forall k f, ofield ct h0 o k = Some f -> plain_field f = true ->
       exists v, attr h0 o k = Some v /\ fits f v) ->
    Forall (fun x => data_task ct h0 (task_of x)) xs ->
    history ct oeq getter setter pystr fuel xs h0 = (r, h') ->
    exists h2, reset ct oeq getter setter pystr (S n) o h' = (Ok tt, h2) /\
      o_modified (h_obj h2 o) = false /\ o_mfields (h_obj h2 o) = [] /\
      forall k f v, ofield ct h0 o k = Some f -> plain_field f = true -> attr h0 o k = Some v ->
        exists v', attr h2 o k = Some v' /\ (v' = v \/ exists hm, eqv oeq hm v v' = true).
Proof.
  intros ct oeq getter setter pystr fuel xs h h0 o r h' n W HM HT HE HV HF HH.
  assert (HO : h_obj h0 o = set_prev [] (set_mfields [] (set_modified false (set_new false (h_obj h o))))).
  { unfold mark_unmodified, updm, modify in HM. inversion HM as [HM']. apply upd_self. }
  assert (I : inv ct h0 o h0).
  { split; [intros x; repeat split |]. constructor.
    - rewrite HO. reflexivity.
    - intros k f Hf Hp. destruct (HV k f Hf Hp) as (v & V1 & V2). exists v.
      split; [exact V1 | split; [exact V2 | left; exact V1]].
    - rewrite HO. intros k v [].
    - rewrite HO. constructor.
    - rewrite HO. intros _. split; reflexivity. }
  pose proof (history_data ct oeq getter setter pystr W h0 o HT HE fuel xs h0 I HF) as I'.
  rewrite HH in I'. cbn [snd] in I'.
  destruct (reset_restores ct oeq getter setter pystr W h0 o HT HE n h' I') as (A & (_ & B1 & B2) & _ & C).
  destruct (reset ct oeq getter setter pystr (S n) o h') as [r2 h2]. cbn [fst snd] in *. subst r2.
  exists h2. split; [reflexivity | split; [exact B2 | split; [exact B1 |]]].
  intros k f v Hf Hp Hv. destruct (C k f Hf Hp) as (v' & V1 & w & V2 & V3).
  exists v'. split; [exact V1 |]. rewrite Hv in V2. inversion V2; subst w. exact V3.
Qed.
Print Assumptions C32_reset_restores.

Definition ex_reset := reset ex_ct ex_oeq ex_getter ex_setter ex_str.
Definition ex_edits : list hop :=
  [ HSet 0 "name" (VStr "n"); HList 0 "tags" [] "tags" (LAppend (VStr "b")); HSet 0 "tags" VNone;
    HDict 0 "meta" [] "meta" (DSetItem "q"%string (VInt 1%Z));
    HList 0 "meta" [PKey "k"] "meta.k" (LAppend (VInt 2%Z)) ]%string.
Definition ex_start : heap :=
  snd (ex_history 20 [HSet 0 "tags" (VList [VStr "a"]); HSet 0 "meta" (VDict [("k", VList [VInt 1%Z])])]%string
                  (ex_heap true)).


Example C32_example :
  let h0 := snd (mark_unmodified 0 ex_start) in
  Forall (fun x => data_task ex_ct h0 (task_of x)) ex_edits /\
  cd_reset_all (cdef_of ex_ct h0 0%nat) = true /\
  let h1 := snd (ex_history 20 ex_edits h0) in
  attr h1 0%nat "tags" = Some VNone /\
  attr h1 0%nat "meta" = Some (VDict [("k", VList [VInt 1%Z; VInt 2%Z]); ("q", VInt 1%Z)]%string) /\
  let h2 := snd (ex_reset 5 0 h1) in
  attr h2 0%nat "tags" = Some (VList [VStr "a"]) /\
  attr h2 0%nat "meta" = Some (VDict [("k", VList [VInt 1%Z])]%string) /\
  attr h2 0%nat "name" = Some VNone.
Proof.
  split; [| vm_compute; repeat split].
  repeat (apply Forall_cons || apply Forall_nil); cbn [task_of ex_edits data_task];
    (eexists; split; [reflexivity |]; repeat split; try reflexivity; apply linked_not; reflexivity).
Qed.

(** All the hypotheses, for the heap of unlinked objects. *)
Example C32_example_hypotheses :
  let h0 := snd (mark_unmodified 0 (ex_heap true)) in
  wf_classes ex_ct /\ typed_heap ex_ct h0 /\
  (forall k f, ofield ex_ct h0 0 k = Some f -> plain_field f = true -> exists v, attr h0 0 k = Some v /\ fits f v).
Proof.
  cbn zeta. split; [exact ex_wf | split].
  - pose proof (ex_typed true) as T. destruct T as [T1 T2 T3 T4].
    assert (E : forall o, let b := h_obj (snd (mark_unmodified 0 (ex_heap true))) o in
              let b0 := h_obj (ex_heap true) o in
              o_class b = o_class b0 /\ o_attr b = o_attr b0 /\ o_lkeys b = o_lkeys b0 /\ o_raw b = o_raw b0).
    { intros [| o]; repeat split. }
    assert (EO : forall o n, ofield ex_ct (snd (mark_unmodified 0 (ex_heap true))) o n = ofield ex_ct (ex_heap true) o n).
    { intros o n. apply ofield_class. apply E. }
    assert (EA : forall o n, attr (snd (mark_unmodified 0 (ex_heap true))) o n = attr (ex_heap true) o n).
    { intros o n. unfold attr. destruct (E o) as (_ & -> & _). reflexivity. }
    constructor.
    + intros o n f v b. rewrite EO, EA. destruct (E b) as (-> & _). apply T1.
    + intros o k n. destruct (E o) as (_ & _ & -> & _). setoid_rewrite EO. apply T2.
    + intros o n f. rewrite EO. destruct (E o) as (_ & _ & -> & _). apply T3.
    + intros o k. destruct (E o) as (_ & _ & _ & ->). rewrite EO. apply T4.
  - intros k f Hf Hp. change (attr (snd (mark_unmodified 0 (ex_heap true))) 0 k) with (attr (ex_heap true) 0 k).
    unfold attr, ex_heap, ex_obj. cbn [h_obj o_attr].
    destruct (String.eqb k "id"); [exists (VInt 1); split; [reflexivity | exact I] |].
    destruct (String.eqb k "group_ids") eqn:E; [| exists VNone; split; [reflexivity | exact I]].
    apply String.eqb_eq in E. subst k. discriminate Hf.
Qed.

(** *** Findings *)

(** A value equal to the old one is not written back: 1 becomes 2, then True, and reset
    leaves True. *)
Theorem C32_equal_value_stays_refuted :
  let h0 := snd (mark_unmodified 0 (snd (ex_run 5 (TSet 0 "name" (VInt 1%Z)) (ex_heap true)))) in
  let h1 := snd (ex_history 5 [HSet 0 "name" (VInt 2%Z); HSet 0 "name" (VBool true)]%string h0) in
  let (r, h2) := ex_reset 5 0 h1 in
  r = Ok tt /\ attr h0 0%nat "name" = Some (VInt 1%Z) /\ attr h2 0%nat "name" = Some (VBool true).
Proof. vm_compute. repeat split. Qed.
Print Assumptions C32_equal_value_stays_refuted.

(** A list or dict in a field of any type: in-place changes are not recorded, reset
    restores nothing and leaves the object modified. *)
Definition c_note : cdef := mkc "User" [ f_id; mkf "data" "data_id" [MAny] ].
Definition note_ct (c : string) : option cdef := if String.eqb c "User" then Some c_note else None.
Theorem C32_any_field_refuted :
  let h := snd (run note_ct ex_oeq ex_getter ex_setter ex_str 5 (TSet 0 "data" (VList [])) (ex_heap true)) in
  let h0 := snd (mark_unmodified 0 h) in
  let h1 := snd (run note_ct ex_oeq ex_getter ex_setter ex_str 5 (TOp 0 "data" [] "data" (LAppend (VInt 1%Z))) h0) in
  let (r, h2) := reset note_ct ex_oeq ex_getter ex_setter ex_str 5 0 h1 in
  r = Ok tt /\ attr h0 0%nat "data" = Some (VList []) /\ attr h2 0%nat "data" = Some (VList [VInt 1%Z]) /\
  o_modified (h_obj h2 0%nat) = true /\ o_mfields (h_obj h2 0%nat) = ["data"]%string.
Proof. vm_compute. repeat split. Qed.
Print Assumptions C32_any_field_refuted.

(** [setdefault] with no default is not undone. *)
Theorem C32_setdefault_refuted :
  let h := snd (ex_run 5 (TSet 0 "meta" (VDict [])) (ex_heap true)) in
  let h0 := snd (mark_unmodified 0 h) in
  let h1 := snd (ex_run 5 (TDOp 0 "meta" [] "meta" (DSetdefault "k"%string None)) h0) in
  let (r, h2) := ex_reset 5 0 h1 in
  r = Ok tt /\ attr h0 0%nat "meta" = Some (VDict []) /\
  attr h2 0%nat "meta" = Some (VDict [("k"%string, VNone)]).
Proof. vm_compute. repeat split. Qed.
Print Assumptions C32_setdefault_refuted.
