(** PropTrack.v -- C31 and C33: the modification record. *)
From Verif Require Import Base Mon PyList PyDict KeypathModel Values OListModel TypesModel ObjModel ObjSpec ObjTrack
  ObjExample.
Open Scope nat_scope.

(** ** C31 Every change to a persisted object is tracked

    After any history that raised nothing, over any number of objects, of assignments
    to fields and stored keys and of list and dict operations at any depth: a plain data
    field whose value differs is in the record, by name or by a keypath below it, and the
    object is modified.  The operations named by [silent] must not be among those on this
    field (C31_silent_refuted, C31_slice_refuted). *)
Theorem C31_changes_are_tracked :
  forall (ct : string -> option cdef) oeq getter setter pystr fuel xs h h' o k f,
    wf_classes ct -> typed_heap ct h -> Forall (typed_hop ct h) xs ->
    history ct oeq getter setter pystr fuel xs h = (Ok tt, h') ->
    o_new (h_obj h o) = false ->
    ofield ct h o k = Some f -> plain_field f = true ->
    (forall x, In x xs -> silent (task_of x) = true -> ~ touches (task_of x) o k) ->
    attr h' o k <> attr h o k ->
    o_modified (h_obj h' o) = true /\
    exists kp, In kp (o_mfields (h_obj h' o)) /\ initial_keypath kp = k.
Proof.
  intros ct oeq getter setter pystr fuel xs h h' o k f W Ht HF HH Hn Hf Hp Hs Hd.
  exact (proj1 (history_tracked ct oeq getter setter pystr W fuel xs h h' o k f Ht HF HH Hn Hf Hs Hd) Hp).
Qed.
Print Assumptions C31_changes_are_tracked.

(** The same for a reference that stores its key or keys in the object: it is listed. *)
Theorem C31_reference_changes_are_listed :
  forall (ct : string -> option cdef) oeq getter setter pystr fuel xs h h' o k f,
    wf_classes ct -> typed_heap ct h -> Forall (typed_hop ct h) xs ->
    history ct oeq getter setter pystr fuel xs h = (Ok tt, h') ->
    o_new (h_obj h o) = false ->
    ofield ct h o k = Some f -> f_fstore (fl_fdef f) = LocalKey ->
    (forall x, In x xs -> silent (task_of x) = true -> ~ touches (task_of x) o k) ->
    attr h' o k <> attr h o k ->
    exists kp, In kp (o_mfields (h_obj h' o)) /\ initial_keypath kp = k.
Proof.
  intros ct oeq getter setter pystr fuel xs h h' o k f W Ht HF HH Hn Hf Hp Hs Hd.
  apply (proj2 (history_tracked ct oeq getter setter pystr W fuel xs h h' o k f Ht HF HH Hn Hf Hs Hd)).
  unfold is_local. rewrite Hp. reflexivity.
Qed.
Print Assumptions C31_reference_changes_are_listed.

(** A plain data field that no operation of the history was about keeps its value and
    does not get into the record, whether or not the history ends in an exception. *)
Theorem C31_untouched_fields_are_not_listed :
  forall (ct : string -> option cdef) oeq getter setter pystr fuel xs h r h' o k f,
    wf_classes ct -> typed_heap ct h -> Forall (typed_hop ct h) xs ->
    history ct oeq getter setter pystr fuel xs h = (r, h') ->
    ofield ct h o k = Some f -> plain_field f = true ->
    (forall x, In x xs -> ~ touches (task_of x) o k) ->
    attr h' o k = attr h o k /\
    forall kp, In kp (o_mfields (h_obj h' o)) -> initial_keypath kp = k ->
      exists kp0, In kp0 (o_mfields (h_obj h o)) /\ initial_keypath kp0 = k.
Proof.
  intros ct oeq getter setter pystr fuel xs h r h' o k f W Ht HF HH Hf Hp Hx.
  destruct (history_untouched ct oeq getter setter pystr W fuel xs h r h' o k f Ht HF HH Hf Hp Hx) as [A B].
  split; [exact A |]. intros kp H1 H2. apply B. exists kp. split; assumption.
Qed.
Print Assumptions C31_untouched_fields_are_not_listed.

(** A persisted user is renamed, given tags, a tag is appended, and gets a post. *)
Definition ex_changes : list hop :=
  [ HSet 0 "name" (VStr "n"); HSet 0 "tags" (VList [VStr "a"]);
    HList 0 "tags" [] "tags" (LAppend (VStr "b"));
    HSet 0 "meta" (VDict [("k", VList [VInt 1%Z])]);
    HList 0 "meta" [PKey "k"] "meta.k" (LAppend (VInt 2%Z));
    HSet 2 "author" (VObj 0); HSet 0 "groups" (VList [VObj 6]) ]%string.
Example C31_example_typed : Forall (typed_hop ex_ct (ex_heap false)) ex_changes.
Proof.
  repeat (apply Forall_cons || apply Forall_nil); unfold typed_hop; cbn [task_of ex_changes typed_task].
  - left. eexists. split; [reflexivity |]. split; [reflexivity | discriminate].
  - left. eexists. split; [reflexivity |]. split; [reflexivity | discriminate].
  - left. eexists. split; [reflexivity |]. split; reflexivity.
  - left. eexists. split; [reflexivity |]. split; [reflexivity | discriminate].
  - left. eexists. split; [reflexivity |]. split; reflexivity.
  - left. eexists. split; [reflexivity |]. split; [reflexivity |].
    intros _ b [Hb | []]. inversion Hb; subst b. reflexivity.
  - left. eexists. split; [reflexivity |]. split; [reflexivity |].
    intros _ b [Hb | []]. inversion Hb; subst b. reflexivity.
Qed.
Example C31_example_run :
  let (r, h') := ex_history 20 ex_changes (ex_heap false) in
  r = Ok tt /\
  attr h' 0 "meta" = Some (VDict [("k"%string, VList [VInt 1%Z; VInt 2%Z])]) /\
  o_mfields (h_obj h' 0) = ["name"; "tags"; "meta"; "meta.k"; "posts"; "groups"]%string /\
  o_mfields (h_obj h' 2) = ["author"]%string.
Proof. vm_compute. repeat split. Qed.

(** *** Findings *)

(** [setdefault] with no default stores None and tells nobody. *)
Theorem C31_silent_refuted :
  let h := snd (ex_run 5 (TSet 0 "meta" (VDict [])) (ex_heap true)) in
  let h1 := snd (mark_unmodified 0 h) in
  let (r, h2) := ex_run 5 (TDOp 0 "meta" [] "meta" (DSetdefault "k"%string None)) h1 in
  r = Ok tt /\ attr h1 0 "meta" = Some (VDict []) /\
  attr h2 0 "meta" = Some (VDict [("k"%string, VNone)]) /\
  o_modified (h_obj h2 0) = false /\ o_mfields (h_obj h2 0) = [].
Proof. vm_compute. repeat split. Qed.
Print Assumptions C31_silent_refuted.

(** Assigning a one-shot iterator to an empty slice adds items and tells nobody. *)
Theorem C31_slice_refuted :
  let h := snd (ex_run 5 (TSet 0 "tags" (VList [])) (ex_heap true)) in
  let h1 := snd (mark_unmodified 0 h) in
  let (r, h2) := ex_run 5 (TOp 0 "tags" [] "tags"
                   (LSetSlice {| sl_start := None; sl_stop := None; sl_step := None |} (ItOnce [VStr "a"]))) h1 in
  r = Ok tt /\ attr h2 0 "tags" = Some (VList [VStr "a"]) /\
  o_modified (h_obj h2 0) = false /\ o_mfields (h_obj h2 0) = [].
Proof. vm_compute. repeat split. Qed.
Print Assumptions C31_slice_refuted.

(** A call that raises can leave a change that is not tracked: appending something that
    is no object to a reference list stores it and raises. *)
Theorem C31_failed_call_refuted :
  let h := snd (ex_run 9 (TSet 0 "groups" (VList [])) (ex_heap true)) in
  let h1 := snd (mark_unmodified 0 h) in
  let (r, h2) := ex_run 9 (TOp 0 "groups" [] "groups" (LAppend (VInt 3%Z))) h1 in
  r = Err EAttributeError /\ attr h2 0 "groups" = Some (VList [VInt 3%Z]) /\
  o_modified (h_obj h2 0) = false /\ o_mfields (h_obj h2 0) = [].
Proof. vm_compute. repeat split. Qed.
Print Assumptions C31_failed_call_refuted.

(** A to-one reference cleared from the other side is listed, but the object is not
    modified. *)
Theorem C31_unlinked_not_modified_refuted :
  let h := snd (ex_run 9 (TSet 2 "author" (VObj 0)) (ex_heap true)) in
  let h1 := snd (mark_unmodified 2 h) in
  let (r, h2) := ex_run 9 (TOp 0 "posts" [] "posts" (LRemove (VObj 2))) h1 in
  r = Ok tt /\ attr h1 2 "author" = Some (VObj 0) /\ attr h2 2 "author" = Some VNone /\
  o_mfields (h_obj h2 2) = ["author"]%string /\ o_modified (h_obj h2 2) = false.
Proof. vm_compute. repeat split. Qed.
Print Assumptions C31_unlinked_not_modified_refuted.

(** Sorting or reversing a list of stored keys puts the name of the keys, which is no
    field, into the record. *)
Theorem C31_sorted_keys_refuted :
  let h := snd (ex_run 9 (TSet 0 "groups" (VList [VObj 6; VObj 7])) (ex_heap true)) in
  let h1 := snd (mark_unmodified 0 h) in
  let (r, h2) := ex_run 9 (TOp 0 "group_ids" [] "group_ids" LReverse) h1 in
  r = Ok tt /\ o_mfields (h_obj h2 0) = ["group_ids"]%string /\
  ofield ex_ct h2 0 "group_ids" = None.
Proof. vm_compute. repeat split. Qed.
Print Assumptions C31_sorted_keys_refuted.

(** ** C33 New objects never record modifications

    No history, even one that ends in an exception, makes a new object modified, and its
    record stays empty, but for names of to-one references that store their key: such a
    name is added when the link is cleared from the other side (C33_unlinked_refuted). *)
Theorem C33_new_objects_record_nothing :
  forall (ct : string -> option cdef) oeq getter setter pystr fuel xs h r h' o,
    wf_classes ct -> typed_heap ct h -> Forall (typed_hop ct h) xs ->
    history ct oeq getter setter pystr fuel xs h = (r, h') ->
    o_new (h_obj h o) = true -> o_modified (h_obj h o) = false -> o_mfields (h_obj h o) = [] ->
    o_new (h_obj h' o) = true /\ o_modified (h_obj h' o) = false /\
    forall kp, In kp (o_mfields (h_obj h' o)) ->
      exists f, ofield ct h o kp = Some f /\ f_fstore (fl_fdef f) = LocalKey /\
                f_ftype (fl_fdef f) = Some FTInstance.
Proof.
  intros ct oeq getter setter pystr fuel xs h r h' o W Ht HF HH Hn Hm He.
  destruct (history_new ct oeq getter setter pystr W fuel xs h r h' o Ht HF HH Hn) as (A & B & C).
  split; [exact A | split; [congruence |]]. intros kp Hkp.
  destruct (C kp Hkp) as [K | (f & K1 & K2 & K3)]; [rewrite He in K; destruct K |].
  exists f. split; [exact K1 | split].
  - unfold is_local in K2. destruct (f_fstore (fl_fdef f)); first [reflexivity | discriminate K2].
  - unfold is_inst_field in K3. destruct (f_ftype (fl_fdef f)) as [[] |]; first [reflexivity | discriminate K3].
Qed.
Print Assumptions C33_new_objects_record_nothing.

(** An object of a class with no such reference records nothing at all. *)
Theorem C33_new_objects_without_stored_keys_record_nothing :
  forall (ct : string -> option cdef) oeq getter setter pystr fuel xs h r h' o,
    wf_classes ct -> typed_heap ct h -> Forall (typed_hop ct h) xs ->
    history ct oeq getter setter pystr fuel xs h = (r, h') ->
    o_new (h_obj h o) = true -> o_modified (h_obj h o) = false -> o_mfields (h_obj h o) = [] ->
    (forall n f, ofield ct h o n = Some f -> f_ftype (fl_fdef f) = Some FTInstance ->
       f_fstore (fl_fdef f) <> LocalKey) ->
    o_modified (h_obj h' o) = false /\ o_mfields (h_obj h' o) = [].
Proof.
  intros ct oeq getter setter pystr fuel xs h r h' o W Ht HF HH Hn Hm He Hc.
  destruct (C33_new_objects_record_nothing ct oeq getter setter pystr fuel xs h r h' o W Ht HF HH Hn Hm He)
    as (_ & B & C).
  split; [exact B |]. destruct (o_mfields (h_obj h' o)) as [| kp l]; [reflexivity |].
  exfalso. destruct (C kp (or_introl eq_refl)) as (f & K1 & K2 & K3). apply (Hc kp f K1 K3 K2).
Qed.
Print Assumptions C33_new_objects_without_stored_keys_record_nothing.

Example C33_example_run :
  let (r, h') := ex_history 20 ex_changes (ex_heap true) in
  r = Ok tt /\ attr h' 0 "tags" = Some (VList [VStr "a"; VStr "b"]) /\
  o_mfields (h_obj h' 0) = [] /\ o_modified (h_obj h' 0) = false.
Proof. vm_compute. repeat split. Qed.

(** A new post whose author is cleared from the other side has an entry. *)
Theorem C33_unlinked_refuted :
  let (r, h') := ex_history 20 [HSet 2 "author" (VObj 0);
                                HList 0 "posts" [] "posts" (LRemove (VObj 2))]%string (ex_heap true) in
  r = Ok tt /\ o_new (h_obj h' 2) = true /\ o_mfields (h_obj h' 2) = ["author"]%string.
Proof. vm_compute. repeat split. Qed.
Print Assumptions C33_unlinked_refuted.
