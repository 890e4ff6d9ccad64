(** PropPrevId.v -- C106: the key an object is stored under. *)
From Verif Require Import Base Mon PyList PyDict KeypathModel Values OListModel ODictModel TypesModel ObjModel ObjSpec ObjTrack
  ObjExample PropTrack PrevIdModel PrevIdProofs.
Open Scope nat_scope.

(** ** C106 The key an object is stored under is known until it is saved again

    [o] is marked persisted, which gives the heap [h0]; its primary field was declared with
    [types.primary], or its class records all fields.  Then any history of assignments and of
    list and dict operations, on any objects, related to [o] or not, even one that ends in an
    exception: the previous key is the one [o] had when it was marked persisted. *)
Theorem C106_previous_key :
  forall (ct : string -> option cdef) oeq getter setter pystr fuel h h0 o f k xs r h',
    wf_classes ct ->
    mark_unmodified o h = (Ok tt, h0) -> typed_heap ct h0 ->
    primary_field (cdef_of ct h0 o) = Some f -> plain_field f = true ->
    (cd_reset_all (cdef_of ct h0 o) = true \/ exists before after, fl_types f = before ++ types_primary ++ after) ->
    attr h0 o (fl_name f) = Some k -> (forall l, k <> VList l) -> (forall d, k <> VDict d) ->
    Forall (typed_hop ct h0) xs ->
    history ct oeq getter setter pystr fuel xs h0 = (r, h') ->
    previous_id ct h' o = Ok k.
Proof.
  intros ct oeq getter setter pystr fuel h h0 o f k xs r h' W HM HT Hpr Hp Hres Hk Hl Hd HF HH.
  assert (HO : h_obj h0 o = set_prev [] (set_mfields [] (set_modified false (set_new false (h_obj h o))))).
  { unfold mark_unmodified, updm, modify in HM. inversion HM as [HM']. unfold upd. cbn [h_obj]. rewrite Nat.eqb_refl. reflexivity. }
  eapply (stored_key_thm ct oeq getter setter pystr fuel h0 o f k xs r h'); try eassumption; try (rewrite HO; reflexivity).
  - unfold resettable. destruct Hres as [-> | (b & a & E)]; [reflexivity |]. apply orb_true_iff. right.
    unfold fl_fdef. rewrite E. apply primary_fdef.
  - destruct k; try exact I; [eapply Hl | eapply Hd]; reflexivity.
Qed.
Print Assumptions C106_previous_key.

(** While an object is new, and right after it is marked persisted, it is the key it has. *)
Theorem C106_current_key :
  forall (ct : string -> option cdef) h o,
    (o_new (h_obj h o) = true -> previous_id ct h o = Ok (id_of ct h o)) /\
    forall h0, mark_unmodified o h = (Ok tt, h0) ->
      previous_id ct h0 o = Ok (id_of ct h o).
Proof.
  intros ct h o. split.
  - intros N. unfold previous_id. rewrite N. reflexivity.
  - intros h0 HM. unfold mark_unmodified, updm, modify in HM. inversion HM as [HM']. unfold previous_id, id_of, cdef_of, attr, upd.
    cbn [h_obj]. rewrite Nat.eqb_refl. cbn.
    destruct (ct (o_class (h_obj h o))) as [d |]; [| reflexivity]. destruct (primary_field d); reflexivity.
Qed.
Print Assumptions C106_current_key.

(** A field declared with [types.primary], whatever comes before and after, is the primary
    field of its class if no later field is declared so, and its changes are recorded. *)
Theorem C106_primary_is_recorded :
  forall before after,
    f_primary (fdef_of (before ++ types_primary ++ after)) = true /\
    f_reset (fdef_of (before ++ types_primary ++ after)) = true.
Proof. intros b a. split; apply primary_fdef. Qed.
Print Assumptions C106_primary_is_recorded.

(** The user with key 1 is renamed, gets another key, a post and groups, and a third key. *)
Definition ex_rekey : list hop :=
  [HSet 0 "id"%string (VInt 9%Z)] ++ ex_changes ++
  [HSet 0 "id"%string (VInt 12%Z); HList 0 "groups"%string [] "groups"%string (LAppend (VInt 3%Z))].
Example C106_example :
  Forall (typed_hop ex_ct (ex_heap false)) ex_rekey /\
  primary_field (cdef_of ex_ct (ex_heap false) 0) = Some f_id /\ plain_field f_id = true /\
  (let (r, h') := ex_history 20 ex_rekey (ex_heap false) in
   r = Err EAttributeError /\ id_of ex_ct h' 0 = VInt 12%Z /\ previous_id ex_ct h' 0 = Ok (VInt 1%Z)) /\
  (let h' := snd (mark_unmodified 0 (snd (ex_history 20 ex_rekey (ex_heap false)))) in
   previous_id ex_ct h' 0 = Ok (VInt 12%Z)).
Proof.
  split; [| vm_compute; repeat split].
  unfold ex_rekey. repeat (apply Forall_app; split).
  - apply Forall_cons; [| apply Forall_nil]. unfold typed_hop. cbn [task_of typed_task].
    left. eexists. split; [reflexivity |]. split; [reflexivity | discriminate].
  - apply C31_example_typed.
  - repeat (apply Forall_cons || apply Forall_nil); unfold typed_hop; cbn [task_of typed_task].
    + left. eexists. split; [reflexivity |]. split; [reflexivity | discriminate].
    + right. left. eexists. split; [reflexivity |]. repeat (split; [reflexivity |]).
      intros b [Hb | []]. discriminate Hb.
Qed.
