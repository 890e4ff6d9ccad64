(** PropFetch.v -- C71 to C73: fetching more of an object from a data base, and which
    changes are to be written to it. *)
From Verif Require Import Base Mon PyList PyDict KeypathModel KeypathProofs Values TypesModel ObjModel ObjSpec
  ObjTrack ObjExample LinkSpec LinkHist PropTrack PropLink FetchModel FetchSpec.
Open Scope string_scope.
Open Scope list_scope.

(** ** C71 include *)

Section Include.
  Context (ct : string -> option cdef).
  Context (oeq : heap -> Values.oid -> Values.oid -> bool).
  Context (getter : heap -> Values.oid -> string -> res value).
  Context (setter : Values.oid -> string -> value -> st heap unit).
  Context (pystr : value -> string).
  Notation include := (include ct oeq getter setter pystr).

  Lemma include_asks R h o q : setting ct oeq R h -> o_class (h_obj h o) = ra_class R ->
    asks ct h o (ra_field R) q ->
    include_query ct getter o (ra_field R) h = (Ok (Some q), h).
  Proof.
    intros ST C A.
    destruct (st_rel _ _ _ _ ST) as [[[d [D1 D2]] RF TY CL OT _] [[d' [D1' _]] _ _ _ _ _] _].
    cbn [flip ra_class ra_field] in D1'.
    assert (T : target ct (ra_field R) h = (Ok (rb_class R), h)).
    { unfold target. rewrite CL, D1'. reflexivity. }
    assert (G : is_local (ra_field R) = true -> forall k, attr h o (fl_ref (ra_field R)) = Some k ->
                getattr ct getter o (fl_ref (ra_field R)) h = (Ok k, h)).
    { intros L k K. unfold getattr.
      assert (N : ofield ct h o (fl_ref (ra_field R)) = None).
      { destruct (ofield ct h o (fl_ref (ra_field R))) as [g|] eqn:E; [|reflexivity]. exfalso.
        unfold ofield, cdef_of in E. rewrite C, D1 in E. apply field_named_in in E. destruct E as [E1 E2].
        apply (wf_refname _ _ _ (st_wf _ _ _ _ ST _ _ D1) _ _ D2 E1 L). symmetry. exact E2. }
      rewrite N, K. reflexivity. }
    assert (S1 : f_fstore (fl_fdef (ra_field R)) = if is_local (ra_field R) then LocalKey else ForeignKey).
    { unfold is_local. unfold is_ref in RF. destruct (f_fstore (fl_fdef (ra_field R))); try discriminate RF; reflexivity. }
    assert (S2 : f_ftype (fl_fdef (ra_field R)) = Some (if is_list_type (ra_field R) then FTList else FTInstance)).
    { unfold is_list_type. destruct TY as [-> | ->]; reflexivity. }
    unfold include_query. rewrite S1, S2.
    inversion A as [c k F L LT K E|c k F L LT K E|c g F L LT J FF E|c g F L LT FF E]; subst q;
      rewrite CL in F; injection F as <-; rewrite L.
    - rewrite LT. unfold bind. rewrite T, (G L k K). reflexivity.
    - rewrite LT. unfold bind. rewrite T, (G L k K). reflexivity.
    - rewrite LT. unfold bind. rewrite T. unfold other_key, bind, gets. rewrite FF. cbn [ret].
      unfold ret. destruct (f_join_table (fl_fdef (ra_field R))) as [[]|]; congruence || reflexivity.
    - destruct (is_list_type (ra_field R)) eqn:EL;
        unfold bind; rewrite T; unfold other_key, bind, gets; rewrite FF; unfold ret; [reflexivity|].
      destruct LT as [LT|LT]; [discriminate LT|]. rewrite LT. reflexivity.
  Qed.

  Lemma include_run fuel ask R h o q v h1 h' : setting ct oeq R h -> o_class (h_obj h o) = ra_class R ->
    asks ct h o (ra_field R) q -> ask q h = (Ok v, h1) ->
    include fuel ask o (fl_name (ra_field R)) h = (Ok tt, h') ->
    exists h2, run ct oeq getter setter pystr fuel (TSet o (fl_name (ra_field R)) v) h1 = (Ok tt, h2) /\
      h' = upd o (fun b' => set_modified (o_modified (h_obj h o)) (set_mfields (o_mfields (h_obj h o)) b')) h2.
  Proof.
    intros ST C A Q H. unfold FetchModel.include in H. unfold bind at 1, gets at 1 in H.
    assert (F : ofield ct h o (fl_name (ra_field R)) = Some (ra_field R)).
    { destruct (st_rel _ _ _ _ ST) as [[[d [D1 D2]] _ _ _ _ _] _ _].
      unfold ofield, cdef_of. rewrite C, D1. apply field_named_of; [|exact D2].
      apply (wf_names _ _ _ (st_wf _ _ _ _ ST _ _ D1)). }
    rewrite F in H. unfold bind at 1, gets at 1 in H. unfold bind at 1 in H.
    rewrite (include_asks R h o q ST C A) in H. unfold bind in H. rewrite Q in H.
    destruct (run _ _ _ _ _ _ _ h1) as [[[]|e] h2]; [|discriminate H]. exists h2. split; [reflexivity|].
    unfold updm, modify in H. injection H as <-. reflexivity.
  Qed.

  Lemma side_typed R h o v : setting ct oeq R h ->
    on_side R h (HSet o (fl_name (ra_field R)) v) -> typed_hop ct h (HSet o (fl_name (ra_field R)) v).
  Proof.
    intros ST (C & _ & new & _ & CI & SV).
    destruct (st_rel _ _ _ _ ST) as [[[d [D1 D2]] RF TY CL OT _] _ _].
    left. exists (ra_field R). split; [|split].
    - unfold ofield, cdef_of. rewrite C, D1. apply field_named_of; [|exact D2].
      apply (wf_names _ _ _ (st_wf _ _ _ _ ST _ _ D1)).
    - unfold is_ref in RF. unfold is_calc. destruct (f_fstore (fl_fdef (ra_field R))); try discriminate RF; reflexivity.
    - intros _ b Hb. rewrite CL. f_equal. symmetry. apply CI.
      unfold refers, link_items in Hb. unfold is_list_type in SV.
      destruct SV as [[-> _]|SV]; [destruct TY as [E|E]; rewrite E in Hb; destruct Hb|].
      destruct TY as [E|E]; rewrite E in Hb, SV.
      + subst v. apply in_map_iff in Hb. destruct Hb as (z & Q & Hz). injection Q as ->. exact Hz.
      + destruct SV as (z & -> & ->). destruct Hb as [Q|[]]. injection Q as ->. left. reflexivity.
  Qed.

  (** include on one side of a relation, whichever side stores the key: if the data base
      answers with the right objects, the field refers to exactly these, both sides of the
      relation agree for all objects, the object's own record of modifications is as
      before, and no data field of any object has changed. *)
  Theorem C71_include : forall fuel ask R h o q v h1 h',
    setting ct oeq R h -> o_class (h_obj h o) = ra_class R ->
    asks ct h o (ra_field R) q -> ask q h = (Ok v, h1) ->
    setting ct oeq R h1 -> on_side R h1 (HSet o (fl_name (ra_field R)) v) ->
    include fuel ask o (fl_name (ra_field R)) h = (Ok tt, h') ->
    refs h' o (ra_field R) = objs (Some v) /\
    (forall a b, o_class (h_obj h1 a) = ra_class R -> o_class (h_obj h1 b) = rb_class R ->
       (In b (refs h' a (ra_field R)) <-> In a (refs h' b (rb_field R)))) /\
    o_modified (h_obj h' o) = o_modified (h_obj h o) /\
    o_mfields (h_obj h' o) = o_mfields (h_obj h o) /\
    (forall x k f, ofield ct h1 x k = Some f -> plain_field f = true -> attr h' x k = attr h1 x k).
  Proof.
    intros fuel ask R h o q v h1 h' ST C A Q ST1 OS H.
    destruct (include_run fuel ask R h o q v h1 h' ST C A Q H) as (h2 & RUN & ->).
    set (F := fun b' => set_modified _ _).
    assert (AT : forall x k, attr (upd o F h2) x k = attr h2 x k).
    { intros x k. unfold attr, upd. cbn [h_obj]. destruct (Nat.eqb x o) eqn:E; [|reflexivity].
      apply Nat.eqb_eq in E. subst x. reflexivity. }
    assert (RE : forall x f, refs (upd o F h2) x f = refs h2 x f).
    { intros x f. unfold refs. rewrite AT. reflexivity. }
    pose proof (C34_operations_take_effect ct oeq getter setter pystr fuel R _ h1 h2 ST1 OS RUN) as TE.
    cbn [takes_effect] in TE.
    assert (AF : after ct oeq getter setter pystr R fuel [HSet o (fl_name (ra_field R)) v] h1 h2).
    { split.
      - split; [right; left; exact OS|]. intros; exact Logic.I.
      - unfold history. cbn [for_st task_of]. unfold bind. rewrite RUN. reflexivity. }
    destruct (after_sets _ _ _ _ _ _ _ _ _ _ ST1 AF) as (ST2 & EC & _).
    split; [rewrite RE; exact TE|]. split; [|split; [|split]].
    - intros a b CA CB. rewrite !RE. apply (co_sym _ _ (st_consistent _ _ _ _ ST2)); rewrite EC; assumption.
    - unfold upd. cbn [h_obj]. rewrite Nat.eqb_refl. reflexivity.
    - unfold upd. cbn [h_obj]. rewrite Nat.eqb_refl. reflexivity.
    - intros x k f FF PF. rewrite AT.
      destruct (C31_untouched_fields_are_not_listed ct oeq getter setter pystr fuel
                  [HSet o (fl_name (ra_field R)) v] h1 (Ok tt) h2 x k f) as [E _]; auto.
      + apply (st_wf _ _ _ _ ST1).
      + apply (st_typed _ _ _ _ ST1).
      + constructor; [apply side_typed; assumption|constructor].
      + unfold history. cbn [for_st task_of]. unfold bind. rewrite RUN. reflexivity.
      + intros y [<-|[]] T. cbn in T. 
        destruct T as [-> ->]. destruct OS as (C1 & _).
        destruct (st_rel _ _ _ _ ST1) as [[[d [D1 D2]] RF _ _ _ _] _ _].
        assert (E : ofield ct h1 o (fl_name (ra_field R)) = Some (ra_field R)).
        { unfold ofield, cdef_of. rewrite C1, D1. apply field_named_of; [|exact D2].
          apply (wf_names _ _ _ (st_wf _ _ _ _ ST1 _ _ D1)). }
        rewrite E in FF. injection FF as <-. unfold plain_field in PF. rewrite RF in PF. discriminate PF.
  Qed.

  (** include of a name that is no field raises ValueError; of a field that is no reference
      it does nothing; and when the query raises, the exception comes out and nothing else
      than what the query did has happened. *)
  Theorem C71_otherwise : forall fuel ask o n h,
    (ofield ct h o n = None -> include fuel ask o n h = (Err EValueError, h)) /\
    (forall f, ofield ct h o n = Some f -> is_ref (fl_fdef f) = false ->
       exists h', include fuel ask o n h = (Ok tt, h') /\
         (forall x k, attr h' x k = attr h x k) /\
         o_modified (h_obj h' o) = o_modified (h_obj h o) /\ o_mfields (h_obj h' o) = o_mfields (h_obj h o)) /\
    (forall R q e h1, setting ct oeq R h -> o_class (h_obj h o) = ra_class R -> n = fl_name (ra_field R) ->
       asks ct h o (ra_field R) q -> ask q h = (Err e, h1) ->
       include fuel ask o n h = (Err e, h1)).
  Proof.
    intros fuel ask o n h. split; [|split].
    - intros E. unfold FetchModel.include, bind, gets. rewrite E. reflexivity.
    - intros f E NR. eexists. split; [|split; [|split]].
      + unfold FetchModel.include. unfold bind at 1, gets at 1. rewrite E.
        unfold bind at 1, gets at 1. unfold bind at 1.
        unfold include_query. unfold is_ref in NR.
        destruct (f_fstore (fl_fdef f)); try discriminate NR; reflexivity.
      + intros x k. unfold attr, upd. cbn [h_obj]. destruct (Nat.eqb x o) eqn:Q; [|reflexivity].
        apply Nat.eqb_eq in Q. subst x. reflexivity.
      + unfold upd. cbn [h_obj]. rewrite Nat.eqb_refl. reflexivity.
      + unfold upd. cbn [h_obj]. rewrite Nat.eqb_refl. reflexivity.
    - intros R q e h1 ST C -> A Q. unfold FetchModel.include. unfold bind at 1, gets at 1.
      assert (F : ofield ct h o (fl_name (ra_field R)) = Some (ra_field R)).
      { destruct (st_rel _ _ _ _ ST) as [[[d [D1 D2]] _ _ _ _ _] _ _].
        unfold ofield, cdef_of. rewrite C, D1. apply field_named_of; [|exact D2].
        apply (wf_names _ _ _ (st_wf _ _ _ _ ST _ _ D1)). }
      rewrite F. unfold bind at 1, gets at 1. unfold bind at 1.
      rewrite (include_asks R h o q ST C A). unfold bind. rewrite Q. reflexivity.
  Qed.
End Include.
Print Assumptions C71_include.
Print Assumptions C71_otherwise.

Lemma surj_fst {A B} (p : A * B) a : fst p = a -> p = (a, snd p).
Proof. destruct p. intros <-. reflexivity. Qed.

(** A data base with two posts of user 1. *)
Definition ex_ask (q : query) : st heap value :=
  match q with
  | QFind "Post" "author_id" (VList [VInt 1%Z]) => ret (VList [VObj 2; VObj 3])
  | QId "User" _ => ret (VObj 0)
  | _ => throw ENotFound
  end.
Definition ex_include := include ex_ct ex_oeq ex_getter ex_setter ex_str 20 ex_ask.

Example C71_include_example : exists h',
  setting ex_ct ex_oeq r_posts (ex_heap false) /\
  asks ex_ct (ex_heap false) 0 (ra_field r_posts) (QFind "Post" "author_id" (VList [VInt 1%Z])) /\
  on_side r_posts (ex_heap false) (HSet 0 "posts" (VList [VObj 2; VObj 3])) /\
  ex_include 0 "posts" (ex_heap false) = (Ok tt, h') /\
  attr h' 0 "posts" = Some (VList [VObj 2; VObj 3]) /\ attr h' 3 "author" = Some (VObj 0) /\
  attr h' 3 "author_id" = Some (VInt 1%Z) /\ o_modified (h_obj h' 0) = false.
Proof.
  exists (snd (ex_include 0 "posts" (ex_heap false))). split; [|split; [|split; [|split]]].
  - apply ex_setting; [left; reflexivity|left; reflexivity].
  - apply (as_many ex_ct (ex_heap false) 0 (ra_field r_posts) "Post" (rb_field r_posts));
      [reflexivity|reflexivity|left; reflexivity|vm_compute; reflexivity].
  - ex_on [2; 3].
  - apply surj_fst. vm_compute. reflexivity.
  - vm_compute. repeat apply conj; reflexivity.
Qed.

(** *** Findings *)

(** The objects that came from the data base count as modified afterwards, and so would be
    written again. *)
Theorem C71_fetched_objects_refuted :
  let (r, h') := ex_include 0 "posts" (ex_heap false) in
  r = Ok tt /\ o_modified (h_obj (ex_heap false) 2) = false /\
  o_modified (h_obj h' 2) = true /\ o_mfields (h_obj h' 2) = ["author"] /\
  persisted_modified_fields ex_ct h' 2 = Ok ["author"].
Proof. vm_compute. repeat apply conj; reflexivity. Qed.
Print Assumptions C71_fetched_objects_refuted.

(** Resetting an object without modifications drops what was fetched, and clears the
    stored key of the objects fetched. *)
Theorem C71_reset_refuted :
  let h := snd (ex_include 0 "posts" (ex_heap false)) in
  let (r, h') := reset ex_ct ex_oeq ex_getter ex_setter ex_str 20 0 h in
  r = Ok tt /\ o_modified (h_obj h 0) = false /\ attr h 2 "author_id" = Some (VInt 1%Z) /\
  attr h' 0 "posts" = Some VNone /\ attr h' 2 "author_id" = Some VNone.
Proof. vm_compute. repeat apply conj; reflexivity. Qed.
Print Assumptions C71_reset_refuted.

(** ** C72 What is to be written

    The list is there exactly if every entry of the modification record names a field, and
    then holds those that are not temporary, in order, and nothing else. *)
Theorem C72_persisted_modified_fields : forall ct h o,
  (forall l, persisted_modified_fields ct h o = Ok l <->
     (forall n, In n (o_mfields (h_obj h o)) -> ofield ct h o n <> None) /\
     l = filter (fun n => match ofield ct h o n with
                          | Some f => negb (fstore_eqb (f_fstore (fl_fdef f)) Temp)
                          | None => false
                          end) (o_mfields (h_obj h o))) /\
  (forall e, persisted_modified_fields ct h o = Err e ->
     e = EValueError /\ exists n, In n (o_mfields (h_obj h o)) /\ ofield ct h o n = None).
Proof.
  intros ct h o. unfold persisted_modified_fields, ofield. set (d := cdef_of ct h o).
  induction (o_mfields (h_obj h o)) as [|n r IH]; cbn [persisted_loop filter].
  - split; [|intros e H; discriminate H]. intros l. split.
    + intros H. injection H as <-. split; [intros n []|reflexivity].
    + intros [_ ->]. reflexivity.
  - destruct IH as [IO IE]. destruct (field_named n d) as [f|] eqn:F.
    + destruct (persisted_loop d r) as [l'|e'].
      * split; [|intros e H; discriminate H].
        destruct (proj1 (IO l') eq_refl) as [A ->]. intros l. split.
        -- intros H. injection H as <-. split.
           ++ intros m [<-|M]; [rewrite F; discriminate|apply A, M].
           ++ destruct (fstore_eqb (f_fstore (fl_fdef f)) Temp); reflexivity.
        -- intros [_ ->]. destruct (fstore_eqb (f_fstore (fl_fdef f)) Temp); reflexivity.
      * split.
        -- intros l. split; [discriminate|]. intros [A _]. exfalso.
           destruct (IE e' eq_refl) as (_ & m & M & N). apply (A m); [right; exact M|exact N].
        -- intros e H. injection H as <-. destruct (IE e' eq_refl) as (E & m & M & N).
           split; [exact E|]. exists m. split; [right; exact M|exact N].
    + split.
      * intros l. split; [discriminate|]. intros [A _]. exfalso. apply (A n); [left; reflexivity|exact F].
      * intros e H. injection H as <-. split; [reflexivity|]. exists n. split; [left; reflexivity|exact F].
Qed.
Print Assumptions C72_persisted_modified_fields.

(** After any history of assignments and collection operations without exception (see C31
    for [silent]), a saved object's data field that is not temporary and has changed is
    in the list, when there is a list. *)
Theorem C72_changed_fields_are_written :
  forall ct oeq getter setter pystr fuel xs h h' o k f l,
    wf_classes ct -> typed_heap ct h -> Forall (typed_hop ct h) xs ->
    history ct oeq getter setter pystr fuel xs h = (Ok tt, h') ->
    o_new (h_obj h o) = false ->
    ofield ct h o k = Some f -> plain_field f = true -> f_fstore (fl_fdef f) <> Temp ->
    (forall x, In x xs -> silent (task_of x) = true -> ~ touches (task_of x) o k) ->
    attr h' o k <> attr h o k ->
    persisted_modified_fields ct h' o = Ok l -> In k l.
Proof.
  intros ct oeq getter setter pystr fuel xs h h' o k f l W T TH H N F PF NT SI CH P.
  destruct (C31_changes_are_tracked ct oeq getter setter pystr fuel xs h h' o k f W T TH H N F PF SI CH)
    as (_ & kp & IN & KP).
  pose proof (history_good ct oeq getter setter pystr W fuel xs h T TH) as (_ & WK & _).
  rewrite H in WK. cbn [snd] in WK.
  apply (proj1 (C72_persisted_modified_fields ct h' o)) in P. destruct P as [A ->].
  destruct (ofield ct h' o kp) as [g|] eqn:G; [|destruct (A kp IN G)].
  destruct (ofield_in ct W h' o kp g G) as (d & _ & D & E & WD).
  pose proof (wf_nodot _ _ _ WD g D) as ND. rewrite E, KP in ND. subst kp. rewrite <- ND in *.
  apply filter_In. split; [exact IN|].
  rewrite (wk_ofield _ _ _ _ _ k WK), F. destruct (f_fstore (fl_fdef f)); try reflexivity. destruct NT; reflexivity.
Qed.
Print Assumptions C72_changed_fields_are_written.

Definition ex_changes_shallow : list hop :=
  [ HSet 0 "name" (VStr "n"); HSet 0 "tags" (VList [VStr "a"]); HList 0 "tags" [] "tags" (LAppend (VStr "b")) ].
Example C72_example : exists h',
  Forall (typed_hop ex_ct (ex_heap false)) ex_changes_shallow /\
  ex_history 20 ex_changes_shallow (ex_heap false) = (Ok tt, h') /\
  attr h' 0 "name" <> attr (ex_heap false) 0 "name" /\
  persisted_modified_fields ex_ct h' 0 = Ok ["name"; "tags"].
Proof.
  exists (snd (ex_history 20 ex_changes_shallow (ex_heap false))). split; [|split; [|split]].
  - repeat (apply Forall_cons || apply Forall_nil); unfold typed_hop; cbn [task_of typed_task].
    + left. eexists. split; [reflexivity |]. split; [reflexivity | discriminate].
    + left. eexists. split; [reflexivity |]. split; [reflexivity | discriminate].
    + left. eexists. split; [reflexivity |]. split; reflexivity.
  - apply surj_fst. vm_compute. reflexivity.
  - vm_compute. discriminate.
  - vm_compute. reflexivity.
Qed.

(** *** Findings *)

(** A change inside a nested list or dict is recorded by its keypath, and then asking for
    the list raises; so does sorting a list of stored keys. *)
Theorem C72_nested_refuted :
  (let (r, h') := ex_history 20 ex_changes (ex_heap false) in
   r = Ok tt /\ persisted_modified_fields ex_ct h' 0 = Err EValueError) /\
  (let h := snd (ex_run 9 (TSet 0 "groups" (VList [VObj 6; VObj 7])) (ex_heap false)) in
   let (r, h') := ex_run 9 (TOp 0 "group_ids" [] "group_ids" LReverse) h in
   r = Ok tt /\ persisted_modified_fields ex_ct h' 0 = Err EValueError).
Proof. vm_compute. repeat apply conj; reflexivity. Qed.
Print Assumptions C72_nested_refuted.

(** ** C73 Partial objects

    Whatever the data base does, completing an object leaves its modification record as it
    was; an object that is not partial is left alone. *)
Theorem C73_complete : forall orm o s s' r,
  complete orm o s = (r, s') ->
  (fh_partial s o = false -> r = Ok tt /\ s' = s) /\
  (fh_partial s o = true -> forall r1 h1, orm o (fh_heap s) = (r1, h1) ->
     r = r1 /\
     (r1 = Ok tt ->
        o_modified (h_obj (fh_heap s') o) = o_modified (h_obj (fh_heap s) o) /\
        o_mfields (h_obj (fh_heap s') o) = o_mfields (h_obj (fh_heap s) o)) /\
     (forall x k, attr (fh_heap s') x k = attr h1 x k)).
Proof.
  intros orm o s s' r H. unfold complete, bind, on_heap, gets, updm in H. cbn beta iota in H.
  destruct (fh_partial s o) eqn:P; cbn beta iota in H.
  - split; [discriminate|]. intros _ r1 h1 E. cbn [fh_heap] in H. rewrite E in H.
    destruct r1 as [[]|e]; cbn [fh_heap fh_partial fh_listed] in H; injection H as <- <-; cbn [fh_heap].
    + split; [reflexivity|]. split.
      * intros _. unfold upd. cbn [h_obj]. rewrite Nat.eqb_refl. split; reflexivity.
      * intros x k. unfold attr, upd. cbn [h_obj]. destruct (Nat.eqb x o) eqn:Q; [|reflexivity].
        apply Nat.eqb_eq in Q. subst x. reflexivity.
    + split; [reflexivity|]. split; [discriminate|reflexivity].
  - unfold ret in H. injection H as <- <-. split; [intros _; split; reflexivity|discriminate].
Qed.
Print Assumptions C73_complete.

(** *** Findings *)

(** After a partial object has been completed, assigning a value to a field of a saved
    object raises, leaves the field as it was, and marks the object as modified. *)
Theorem C73_assign_refuted : forall ct oeq getter setter pystr fuel orm o f v s s1 cur,
  fh_partial s o = true -> complete orm o s = (Ok tt, s1) ->
  o_new (h_obj (fh_heap s1) o) = false ->
  attr (fh_heap s1) o (fl_name f) = Some cur -> eqv oeq (fh_heap s1) v cur = false ->
  exists s2, assign ct oeq getter setter pystr fuel o f v s1 = (Err EAttributeError, s2) /\
    (forall x k, attr (fh_heap s2) x k = attr (fh_heap s1) x k) /\
    o_modified (h_obj (fh_heap s2) o) = true /\
    o_mfields (h_obj (fh_heap s2) o) = o_mfields (h_obj (fh_heap s1) o).
Proof.
  intros ct oeq getter setter pystr fuel orm o f v s s1 cur P H N A E.
  assert (L : fh_listed s1 o = true).
  { unfold complete, bind, on_heap, gets, updm in H. cbn beta iota in H. rewrite P in H. cbn beta iota in H.
    cbn [fh_heap] in H. destruct (orm o (fh_heap s)) as [[[]|e] h1]; [|discriminate H].
    injection H as <-. cbn [fh_listed]. rewrite Nat.eqb_refl. reflexivity. }
  eexists. split; [|split; [|split]].
  - unfold assign. rewrite L, N, A, E. reflexivity.
  - intros x k. cbn [fh_heap]. unfold attr, upd. cbn [h_obj]. destruct (Nat.eqb x o) eqn:Q; [|reflexivity].
    apply Nat.eqb_eq in Q. subst x. reflexivity.
  - cbn [fh_heap]. unfold upd. cbn [h_obj]. rewrite Nat.eqb_refl. reflexivity.
  - cbn [fh_heap]. unfold upd. cbn [h_obj]. rewrite Nat.eqb_refl. reflexivity.
Qed.
Print Assumptions C73_assign_refuted.

Definition ex_partial : fheap :=
  {| fh_heap := ex_heap false; fh_partial := fun o => Nat.eqb o 0; fh_listed := fun _ => false |}.
Example C73_example : exists s1,
  complete (fun o => ex_run 9 (TSet o "name" (VStr "n"))) 0 ex_partial = (Ok tt, s1) /\
  attr (fh_heap s1) 0 "name" = Some (VStr "n") /\ o_modified (h_obj (fh_heap s1) 0) = false /\
  o_new (h_obj (fh_heap s1) 0) = false /\
  fst (assign ex_ct ex_oeq ex_getter ex_setter ex_str 9 0 (fld_of c_user "name") (VStr "m") s1) = Err EAttributeError.
Proof.
  exists (snd (complete (fun o => ex_run 9 (TSet o "name" (VStr "n"))) 0 ex_partial)). split.
  - apply surj_fst. vm_compute. reflexivity.
  - vm_compute. repeat apply conj; reflexivity.
Qed.

(** [pick] and [omit] raise, whatever they are given, and change nothing. *)
Theorem C73_pick_refuted : forall o names s,
  pick o names s = (Err EAttributeError, s) /\ omit o names s = (Err EAttributeError, s).
Proof. intros. split; reflexivity. Qed.
Print Assumptions C73_pick_refuted.
