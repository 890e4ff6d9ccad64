(** PropNestCall.v -- C66 and C70 for the fields of objects in other objects: whose record
    compare, onwrite and onupdate look at. *)
From Verif Require Import Base PyList Mon PyStr KeypathModel Values ChainModel TypesModel ObjModel IoModel
  IoBase ObjExample IoExample CallSpec CallProofs PropCall.
Open Scope string_scope.
Open Scope list_scope.

(** The context in which a field [k] with value [v] is checked, in an object whose own
    context is [c] ([field_check], instanceof_modifier.py:56-60: a field that is no reference
    to one object), and the one in which it is prepared for a save ([save_field],
    instanceof_modifier.py:260). *)
Definition checked_in (c : ctx) (v : value) (k : string) (d : fdef) (t : option (string * string)) (o : oid) : ctx :=
  nextvo c v k k d t (VObj o).
Definition saved_in (c : ctx) (v : value) (k : string) (d : fdef) (t : option (string * string)) : ctx :=
  nextv c v k k d t None.

Section Props.
  Variable P : program.
  Notation I n := (interp P (S n)).

  (** compare on a field of the object that is validated, and on a field of an object [x] that
      a field of any other object holds, at any depth: its function is called exactly when
      [x] has recorded a previous value of the field. *)
  Theorem C66_compare_nested : forall n g c w x k v d t c0 cfg j e d0 t0 d1 op,
    c = rootctx d1 op x cfg VNone \/ c = nexto c0 (VObj x) j e d0 t0 None ->
    let c' := checked_in c v k d t x in
    (sget k (o_prev (h_obj (w_heap w) x)) = None ->
       m_validate (I n (MCompare g)) c' w = (Ok tt, w)) /\
    (forall p, sget k (o_prev (h_obj (w_heap w) x)) = Some p ->
     forall out w', called P KValidate g c' [p; v] w out w' ->
       (out = Ok (VBool true) \/ out = Ok VNone -> m_validate (I n (MCompare g)) c' w = (Ok tt, w')) /\
       (out = Ok (VBool false) -> m_validate (I n (MCompare g)) c' w = (invalid c' "compare failed", w')) /\
       (forall e, out = Err e -> m_validate (I n (MCompare g)) c' w = (Err e, w'))).
  Proof.
    intros n g c w x k v d t c0 cfg j e d0 t0 d1 op Hc c'.
    assert (PA : c_parent c' = VObj x) by (destruct Hc as [-> | ->]; reflexivity).
    assert (KP : c_kp c' = [] ++ [KStr k]) by (destruct Hc as [-> | ->]; reflexivity).
    destruct (C66_compare P n g c' w x [] k PA KP) as [A B]. split; [exact A |].
    intros p Hp out w' C. destruct (B p Hp out w' C) as (B1 & B2 & _ & _ & B3). auto.
  Qed.

  (** Exception: on a field of an object in a list (or dict), compare raises AttributeError,
      whatever is recorded; its function is not called. *)
  Theorem C66_compare_in_list_refuted : forall n g c w x i its dict k v d t d0,
    m_validate (I n (MCompare g))
      (checked_in (colval c (VObj x) i d0 (if dict : bool then VDict its else VList (map snd its))) v k d t x) w
    = (Err EAttributeError, w).
  Proof. intros. destruct dict; reflexivity. Qed.

  (** Exception: on a reference to one object, compare raises IndexError. *)
  Theorem C66_compare_reference_refuted : forall n g c w v k e d t,
    m_validate (I n (MCompare g)) (nexto c v k e d t None) w = (Err EIndexError, w).
  Proof. reflexivity. Qed.

  (** onwrite and onupdate on a field of the object that is saved look at this object. *)
  Theorem C70_saved_object : forall n g w x k v d t cfg d1 op,
    let c := saved_in (rootctx d1 op x cfg VNone) v k d t in
    let due := o_new (h_obj (w_heap w) x) = true \/ In k (o_mfields (h_obj (w_heap w) x)) in
    (~ due -> m_serialize (I n (MOnwrite g)) c w = (Ok v, w)) /\
    (due -> forall out w', called P KSave g c [v] w out w' ->
       m_serialize (I n (MOnwrite g)) c w = (match out with Ok _ => Ok v | Err e => Err e end, w')) /\
    (sget k (o_prev (h_obj (w_heap w) x)) = None -> m_serialize (I n (MOnupdate g)) c w = (Ok v, w)) /\
    (forall p, sget k (o_prev (h_obj (w_heap w) x)) = Some p ->
     forall out w', called P KSave g c [p; v] w out w' ->
       m_serialize (I n (MOnupdate g)) c w = (match out with Ok _ => Ok v | Err e => Err e end, w')).
  Proof.
    intros n g w x k v d t cfg d1 op c due.
    destruct (C70_onwrite P n g c w x [] k eq_refl eq_refl) as [A B].
    destruct (C70_onupdate P n g c w x [] k eq_refl eq_refl) as [C D]. auto.
  Qed.

  (** Exception: in an object [y] that is saved along with [x], reached by references to one
      object, they look at the record of [x] for the name of the field of [y]. *)
  Theorem C70_nested_refuted : forall n g w x j y k v d0 t0 d t cfg d1 op,
    let c := saved_in (saved_in (rootctx d1 op x cfg VNone) (VObj y) j d0 t0) v k d t in
    (o_new (h_obj (w_heap w) x) = false -> ~ In k (o_mfields (h_obj (w_heap w) x)) ->
       m_serialize (I n (MOnwrite g)) c w = (Ok v, w)) /\
    (sget k (o_prev (h_obj (w_heap w) x)) = None -> m_serialize (I n (MOnupdate g)) c w = (Ok v, w)).
  Proof.
    intros n g w x j y k v d0 t0 d t cfg d1 op c.
    destruct (C70_onwrite P n g c w x [KStr j] k eq_refl eq_refl) as [A _].
    destruct (C70_onupdate P n g c w x [KStr j] k eq_refl eq_refl) as [C _].
    split; [| exact C]. intros N K. apply A. intros [X | X]; [congruence | contradiction].
  Qed.

  (** Exception: in an object in a list (or dict), they raise AttributeError. *)
  Theorem C70_in_list_refuted : forall n g c w x i its dict k v d t d0 m, m = MOnwrite g \/ m = MOnupdate g ->
    m_serialize (I n m)
      (saved_in (colval c (VObj x) i d0 (if dict : bool then VDict its else VList (map snd its))) v k d t) w
    = (Err EAttributeError, w).
  Proof. intros n g c w x i its dict k v d t d0 m [-> | ->]; destruct dict; reflexivity. Qed.
End Props.
Print Assumptions C66_compare_nested.
Print Assumptions C66_compare_in_list_refuted.
Print Assumptions C66_compare_reference_refuted.
Print Assumptions C70_saved_object.
Print Assumptions C70_nested_refuted.
Print Assumptions C70_in_list_refuted.

(** The same seen from outside.  Desks have a lamp and pens, all persisted; the colour of a
    pen and a lamp, and the name of a desk, have onwrite; the price has compare. *)
Definition nc_item (name : string) : cdef := mkc name
  [ f_id; mkf "color" "color_id" [tstr; MOnwrite 1%nat]; mkf "price" "price_id" [tint; MCompare 2%nat] ].
Definition nc_desk : cdef := mkc "Desk"
  [ f_id; mkf "name" "name_id" [tstr; MOnwrite 4%nat]; mkf "price" "price_id" [tint; MCompare 2%nat];
    mkf "lamp" "lamp_id" [MInstance "Lamp"];
    mkf "pens" "pen_ids" [MListOf [MInstance "Pen"]] ].
Definition nc_ref : cdef := mkc "Shelf" [ f_id; mkf "lamp" "lamp_id" [MInstance "Lamp"; MCompare 1%nat] ].
Definition nc_ct (c : string) : option cdef :=
  if String.eqb c "Desk" then Some nc_desk else if String.eqb c "Shelf" then Some nc_ref
  else if String.eqb c "Lamp" then Some (nc_item c) else if String.eqb c "Pen" then Some (nc_item c) else None.
Definition nc_prog : program := mkprog nc_ct no_guards no_hooks.
Definition nc_obj (new : bool) (cls : string) (id : Z) (lamp pens : value) : obj :=
  {| o_class := cls;
     o_attr := fun n => if String.eqb n "id" then Some (VInt id) else if String.eqb n "lamp" then Some lamp
                        else if String.eqb n "pens" then Some pens else Some VNone;
     o_new := new; o_modified := false; o_mfields := []; o_prev := []; o_lkeys := [];
     o_raw := []; o_unlinked := []; o_operator := VNone |}.
Definition nc_heap : heap :=
  {| h_obj := fun o => match o with
       | 0%nat => nc_obj false "Desk" 1 (VObj 1%nat) (VList [])
       | 1%nat => nc_obj false "Lamp" 2 VNone VNone
       | 2%nat => nc_obj false "Desk" 3 VNone (VList [VObj 3%nat])
       | 3%nat => nc_obj false "Pen" 4 VNone VNone
       | 4%nat => nc_obj true "Desk" 5 (VObj 1%nat) (VList [])
       | 5%nat => nc_obj true "Desk" 6 VNone (VList [VObj 3%nat])
       | _ => nc_obj true "Shelf" 7 (VObj 1%nat) VNone end;
     h_next := 7%nat; h_graph := h_graph (ex_heap false) |}.
(** [o.k = v], then save or validate *)
Definition nc_put (o : oid) (k : string) (v : value) : st world unit :=
  liftH (run nc_ct ex_oeq ex_getter ex_setter ex_str 9 (TSet o k v)).
Definition nc_save (o : oid) : st world unit := save nc_prog 9 o false false.
Definition nc_valid (o : oid) : st world unit := validate nc_prog 9 o None.
Definition nc_run {A} (m : st world A) : res A * list event :=
  let (r, w) := m (mkw nc_heap) in (r, w_log w).

(** A lamp with a new colour: its onwrite is called if the lamp is saved, and not if the desk
    with the lamp is. *)
Theorem C70_desk_lamp_refuted :
  nc_run (nc_put 1%nat "color" (VStr "red") >> nc_save 1%nat) = (Ok tt, [EvCall KSave 1%nat; EvWrite 1%nat]) /\
  nc_run (nc_put 1%nat "color" (VStr "red") >> nc_save 0%nat) = (Ok tt, [EvWrite 0%nat]).
Proof. vm_compute. split; reflexivity. Qed.
Print Assumptions C70_desk_lamp_refuted.

(** A pen with a new colour can be saved; the desk with the pen can be saved before, and not
    afterwards. *)
Theorem C70_desk_pens_refuted :
  nc_run (nc_save 2%nat) = (Ok tt, [EvWrite 2%nat]) /\
  nc_run (nc_put 3%nat "color" (VStr "red") >> nc_save 3%nat) = (Ok tt, [EvCall KSave 1%nat; EvWrite 3%nat]) /\
  nc_run (nc_put 3%nat "color" (VStr "red") >> nc_save 2%nat) = (Err EAttributeError, []).
Proof. vm_compute. repeat split. Qed.
Print Assumptions C70_desk_pens_refuted.

(** The price of a lamp or pen must not change, says its compare; validating the desk of
    the lamp finds that, validating the desk of the pen raises AttributeError; validating a
    shelf, whose reference has compare, raises IndexError. *)
Theorem C66_desk_refuted :
  nc_run (nc_put 1%nat "price" (VInt 3) >> nc_valid 1%nat)
    = (Err (EValidation [("price", "compare failed")]), [EvCall KValidate 2%nat]) /\
  nc_run (nc_put 1%nat "price" (VInt 3) >> nc_valid 4%nat)
    = (Err (EValidation [("lamp.price", "compare failed")]), [EvCall KValidate 2%nat]) /\
  nc_run (nc_put 3%nat "price" (VInt 3) >> nc_valid 5%nat) = (Err EAttributeError, []) /\
  nc_run (nc_valid 6%nat) = (Err EIndexError, []).
Proof. vm_compute. repeat split. Qed.
Print Assumptions C66_desk_refuted.
