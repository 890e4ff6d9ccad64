(** PropStrict.v -- C28: unknown input keys. *)
From Verif Require Import Base Mon PyDict KeypathModel Values OGraphModel MGraphModel ChainModel TypesModel ObjModel ObjExample IoModel
  IoBase IoExample UpdateSpec UpdateProofs StrictSpec StrictProofs InitProofs PropUpdate.
From Verif Require LeafModel.
Open Scope string_scope.
Open Scope list_scope.

Definition refused (path k : string) : exn := EValidation [(concat_keypath [KStr path; KStr k], "key is not allowed")].

Lemma restore g w : set_mg (w_mg w) (set_mg g w) = w.
Proof. destruct w. reflexivity. Qed.
Lemma wcdef_some P w o d : p_ct P (wclass w o) = Some d -> wcdef P w o = d.
Proof. unfold wclass, wcdef, cdef_of, wobj. intros ->. reflexivity. Qed.

(** set on an object of a strict class, with a key that is not allowed: a validation error
    that names the (first such) key, and the state is exactly what it was. *)
Theorem C28_set_refuses :
  forall (P : program) (n : nat) (o : oid) (d : cdef) (kwargs : list (string * value)) (k : string) (w : world),
    p_ct P (wclass w o) = Some d -> cd_strict d = true ->
    first_unknown d (map fst (single_key_args kwargs)) k ->
    jset P (S n) o kwargs w = (Err (EValidation [(k, "key is not allowed")]), w).
Proof.
  intros P n o d kwargs k w D S K. unfold jset. apply bind_eq_err.
  rewrite (set_fields_eq P n o d _ false w D).
  destruct (noted_mg P d (single_key_args kwargs) o (set_mg [] w)) as (g & ->).
  rewrite (fill_refuses P n _ d _ o false k).
  - cbn [c_kr set_ctx rootctx]. rewrite concat_one. rewrite <- (restore g w) at 3. reflexivity.
  - apply (wcdef_some P w o d D).
  - right. split; [reflexivity | exact S].
  - exact K.
Qed.
Print Assumptions C28_set_refuses.

(** Construction is refused in the same way, and no object that existed is changed. *)
Theorem C28_construct_refuses :
  forall (P : program) (n : nat) (cls : string) (d : cdef) (kwargs : list (string * value)) (k : string) (w : world),
    (2 <= p_lim P)%nat -> p_ct P cls = Some d -> proper_names d -> cd_abstract d = false -> cd_strict d = true ->
    first_unknown d (map fst (single_key_args kwargs)) k ->
    exists w', construct P (S n) cls kwargs w = (Err (EValidation [(k, "key is not allowed")]), w') /\
      forall x, x <> h_next (w_heap w) -> h_obj (w_heap w') x = h_obj (w_heap w) x.
Proof.
  intros P n cls d kwargs k w Lim D Pn Ab S K.
  pose proof (alloc_ok cls w) as A. destruct (alloc cls w) as [o w1] eqn:Ea.
  destruct A as (Eo & Ef & Ex & _).
  destruct (init_fields_ok P cls d o Lim D Pn (cd_fields d) [] w1 eq_refl) as (h2 & R & (Ap & _) & B).
  { unfold wobj. rewrite Ef. apply fresh_blank. }
  set (w2 := set_heap h2 w1) in *.
  assert (Dc : p_ct P (wclass w2 o) = Some d) by (unfold wclass, wobj; cbn; rewrite (bl_class _ _ _ B); exact D).
  assert (Er : set_with (m_transform (self_mod P (Datatypes.S n) cls)) o (single_key_args kwargs) true w2 =
               (Err (EValidation [(k, "key is not allowed")]), w2)).
  { assert (Ec : wclass w2 o = cls) by exact (bl_class _ _ _ B).
    transitivity (set_fields P (Datatypes.S n) o (single_key_args kwargs) true w2).
    - unfold set_fields. rewrite (bind_eq (getW (fun w => wclass w o)) _ w2 cls w2); [reflexivity |].
      unfold getW. rewrite Ec. reflexivity.
    - rewrite (set_fields_eq P n o d _ true w2 Dc).
      destruct (noted_mg P d (single_key_args kwargs) o (set_mg [] w2)) as (g & ->).
      rewrite (fill_refuses P n _ d _ o false k).
      + cbn [c_kr set_ctx rootctx]. rewrite concat_one. rewrite <- (restore g w2) at 3. reflexivity.
      + apply (wcdef_some P w2 o d Dc).
      + right. split; [reflexivity | exact S].
      + exact K. }
  exists w2. split.
  - unfold construct. apply bind_eq_err. unfold create, class_named. rewrite D.
    rewrite (bind_eq _ _ w d w eq_refl), Ab.
    rewrite (bind_eq (fun w => let '(o, w') := alloc cls w in (Ok o, w')) _ w o w1) by (rewrite Ea; reflexivity).
    rewrite (bind_eq _ _ w1 tt w2 R). apply bind_eq_err. exact Er.
  - intros x N. rewrite <- Eo in N. cbn. rewrite (Ap x N). apply Ex, N.
Qed.
Print Assumptions C28_construct_refuses.

(** The same at any place of nested input: once the object to fill is known, an input with
    a key that is not allowed is refused (the message has the path to the key) before any of
    its fields is touched.  Strictness can also come from the field. *)
Theorem C28_nested_refuses :
  forall (P : program) (n : nat) (c : ctx) (cls : string) (d : cdef) (m : list (string * value)) (k : string)
         (o : oid) (made_before : bool) (w w1 : world),
    c_val c = VDict m -> f_inst (c_fdef c) = Some cls -> p_ct P cls = Some d ->
    find_dest P (interp P n) c cls d m w = (Ok (o, made_before), w1) -> wcdef P w1 o = d ->
    refuses c d -> first_unknown d (map fst m) k ->
    m_transform (interp P (S n) (MInstance cls)) c w = (Err (refused (skp (c_kr c)) k), w1).
Proof.
  intros P n c cls d m k o mb w w1 V I D F Wd R K. cbn [interp modif_of m_transform transform_of].
  rewrite (transform_dict P n c cls d m w V I D), (bind_eq _ _ w _ _ F).
  apply (fill_refuses P n c d m o mb k w1 Wd R K).
Qed.
Print Assumptions C28_nested_refuses.

(** When every key is allowed, strictness makes no difference: the outcome is the same as
    with any other mark. *)
Theorem C28_known_keys_pass :
  forall (P : program) (n : nat) (c : ctx) (cls : string) (d : cdef) (m : list (string * value)) (o : oid) (w : world) (s : strictness),
    c_val c = VDict m -> c_original c = VObj o -> f_inst (c_fdef c) = Some cls -> p_ct P cls = Some d -> wclass w o = cls ->
    (forall k v, In (k, v) m -> allowed d k) ->
    m_transform (interp P (S n) (MInstance cls)) (marked_as s c) w = m_transform (interp P (S n) (MInstance cls)) c w.
Proof.
  intros P n c cls d m o w s V O I D C K. cbn [interp modif_of m_transform transform_of].
  rewrite (transform_orig P n (marked_as s c) cls d m o w V O I D), (transform_orig P n c cls d m o w V O I D).
  apply fill_any_mark.
  - rewrite noted_cdef. apply wcdef_some. rewrite C. exact D.
  - apply Forall_forall. intros k H. apply in_map_iff in H. destruct H as ((k' & v) & <- & H). apply (K k' v H).
Qed.
Print Assumptions C28_known_keys_pass.

(** A class that is not strict ignores the keys that are not allowed: the outcome is that
    of the input without them. *)
Theorem C28_unknown_keys_ignored :
  forall (P : program) (n : nat) (o : oid) (d : cdef) (m m' : list (string * value)) (fill : bool) (w : world),
    p_ct P (wclass w o) = Some d -> cd_strict d = false -> local_refs_typed d -> only_allowed d m m' ->
    set_fields P (S n) o m' fill w = set_fields P (S n) o m fill w.
Proof.
  intros P n o d m m' fl w D S T O. rewrite (set_fields_eq P n o d m' fl w D), (set_fields_eq P n o d m fl w D).
  rewrite (noted_ignores P d m m' o _ O).
  change (set_ctx o m' fl w) with (nval (set_ctx o m fl w) (VDict m')).
  rewrite (fill_ignores P n d (set_ctx o m fl w) m m' o false); auto.
  - rewrite noted_cdef. apply wcdef_some. exact D.
  - intros [H | [_ H]]; [discriminate H | congruence].
Qed.
Print Assumptions C28_unknown_keys_ignored.
Theorem C28_nested_unknown_ignored :
  forall (P : program) (n : nat) (c : ctx) (cls : string) (d : cdef) (m m' : list (string * value))
         (o : oid) (made_before : bool) (w w1 : world),
    f_inst (c_fdef c) = Some cls -> p_ct P cls = Some d ->
    find_dest P (interp P n) (nval c (VDict m)) cls d m w = (Ok (o, made_before), w1) ->
    find_dest P (interp P n) (nval c (VDict m')) cls d m' w = (Ok (o, made_before), w1) ->
    wcdef P w1 o = d -> ~ refuses c d -> local_refs_typed d -> only_allowed d m m' ->
    m_transform (interp P (S n) (MInstance cls)) (nval c (VDict m')) w =
    m_transform (interp P (S n) (MInstance cls)) (nval c (VDict m)) w.
Proof.
  intros P n c cls d m m' o mb w w1 I D F F' Wd R T O. cbn [interp modif_of m_transform transform_of].
  rewrite (transform_dict P n (nval c (VDict m')) cls d m' w eq_refl I D), (transform_dict P n (nval c (VDict m)) cls d m w eq_refl I D).
  rewrite (bind_eq _ _ w _ _ F), (bind_eq _ _ w _ _ F'). apply fill_ignores; assumption.
Qed.
Print Assumptions C28_nested_unknown_ignored.

(** A strict and a lax class with the same fields. *)
Definition st_class (strict : bool) : cdef :=
  {| cd_name := "Note"; cd_fields := [ f_id;
       {| fl_name := "full_name"; fl_json := "fullName"; fl_ref := "full_name_id"; fl_cref := "fullNameId";
          fl_default := VNone; fl_types := [tstr] |};
       {| fl_name := "owner"; fl_json := "owner"; fl_ref := "owner_id"; fl_cref := "ownerId";
          fl_default := VNone; fl_types := [MInstance "Note"; MLinkto] |} ];
     cd_abstract := false; cd_reset_all := true; cd_strict := strict; cd_validate_all := false; cd_output_null := false;
     cd_outkey := fun s => s |}.
Definition st_prog (strict : bool) : program := mkprog (fun c => if String.eqb c "Note" then Some (st_class strict) else None) no_guards no_hooks.
Definition st_world : world := mkw
  {| h_obj := fun o => {| o_class := "Note";
       o_attr := fun n => sget n [("id", VInt 1); ("full_name", VStr "a"); ("owner", VNone); ("owner_id", VNone)];
       o_new := false; o_modified := false; o_mfields := []; o_prev := []; o_lkeys := [("owner_id", "owner")];
       o_raw := []; o_unlinked := []; o_operator := VNone |};
     h_next := 1%nat; h_graph := {| graphs := repeat [] 2; graph_of := fun o => Nat.min o 1 |} |}.
Example C28_example :
  let m := [("fullName", VStr "b"); ("age", VInt 3); ("ownerId", VInt 4)] in
  p_ct (st_prog true) (wclass st_world 0%nat) = Some (st_class true) /\
  first_unknown (st_class true) (map fst (single_key_args m)) "age" /\ proper_names (st_class true) /\ local_refs_typed (st_class false) /\
  only_allowed (st_class false) m [("fullName", VStr "b"); ("ownerId", VInt 4)] /\
  jset (st_prog true) 9 0%nat m st_world = (Err (EValidation [("age", "key is not allowed")]), st_world) /\
  fst (construct (st_prog true) 9 "Note" m st_world) = Err (EValidation [("age", "key is not allowed")]) /\
  (let w' := snd (jset (st_prog false) 9 0%nat m st_world) in
   attr_of w' 0%nat "full_name" = Some (VStr "b") /\ attr_of w' 0%nat "owner_id" = Some (VInt 4)) /\
  fst (jset (st_prog true) 9 0%nat [("owner", VDict [("nick", VInt 1)])] st_world) =
    Err (EValidation [("owner.nick", "key is not allowed")]).
Proof.
  cbn zeta. split; [reflexivity |].
  assert (N : forall b, ~ allowed (st_class b) "age") by (intros b H; apply allowed_names in H; discriminate H).
  assert (A1 : forall b, allowed (st_class b) "fullName") by (intros b; apply allowed_names; reflexivity).
  assert (A2 : forall b, allowed (st_class b) "ownerId") by (intros b; apply allowed_names; reflexivity).
  split. { exists ["fullName"], ["ownerId"]. split; [reflexivity |]. split; [repeat constructor; apply A1 | apply N]. }
  split. { constructor; [repeat constructor; cbn; intuition discriminate |].
           intros f g F G L. cbn in F, G. destruct F as [<- | [<- | [<- | []]]]; try discriminate L.
           destruct G as [<- | [<- | [<- | []]]]; discriminate. }
  split. { intros f F L. cbn in F. destruct F as [<- | [<- | [<- | []]]]; try discriminate L. left. reflexivity. }
  split. { apply oa_keep; [apply A1 |]. apply oa_drop; [apply N |]. apply oa_keep; [apply A2 | constructor]. }
  split; [reflexivity |]. repeat split; vm_compute; reflexivity.
Qed.
