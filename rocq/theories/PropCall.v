(** PropCall.v -- C66 to C70: the modifiers that run functions or types given by the user.

    Every theorem is about one modifier of a field, in any program [P], context [c] and
    state [w]; [n] is the recursion that is left.  How the modifiers of a field work
    together is the subject of C10 to C12. *)
From Verif Require Import Base PyList Mon PyStr KeypathModel Values ChainModel TypesModel ObjModel IoModel
  IoBase ObjExample IoExample CallSpec CallProofs.
From Verif Require ObjTrack.
Open Scope string_scope.
Open Scope list_scope.

Section Props.
  Variable P : program.
  Notation I n := (interp P (S n)).

  (** ** C66 *)

  (** validate: a validator is called once, with the value, unless the value is None; its
      answer decides. *)
  Theorem C66_validate : forall n f msg c w,
    (c_val c = VNone -> m_validate (I n (MValidate (PCall f) msg)) c w = (Ok tt, w)) /\
    (c_val c <> VNone -> forall out w' r, called P KValidate f c [c_val c] w out w' ->
       verdict c msg out r -> m_validate (I n (MValidate (PCall f) msg)) c w = (r, w')).
  Proof.
    intros n f msg c w. cbn [interp modif_of m_validate validate_of]. unfold validate_validate.
    split.
    - intros ->. reflexivity.
    - intros N out w' r C V.
      assert (is_none (c_val c) = false) as -> by (destruct (c_val c); congruence || reflexivity).
      apply call_called in C. unfold bind. rewrite C.
      inversion V as [v N1 N2|m E|E|s m E|s E|e]; subst; try reflexivity.
      destruct v as [|[]| | |s| | | | | | |]; try reflexivity; [destruct (N1 eq_refl)|destruct (N2 s eq_refl)].
  Qed.

  (** validate with types: the value passes them or the message is reported. *)
  Theorem C66_validate_types : forall n ts msg c w w',
    (passes P n ts c w w' -> m_validate (I n (MValidate (PTypes ts) msg)) c w = (Ok tt, w')) /\
    (is_refused P n ts c w w' ->
       m_validate (I n (MValidate (PTypes ts) msg)) c w =
         (invalid c (match msg with Some m => m | None => "invalid value" end), w')).
  Proof.
    intros n ts msg c w w'. cbn [interp modif_of m_validate validate_of]. unfold validate_validate.
    split; intros H.
    - rewrite (checked_passes P _ _ _ _ _ _ _ _ H). reflexivity.
    - rewrite (checked_refused P _ _ _ _ _ _ _ _ H). reflexivity.
  Qed.

  (** oneisvalid accepts a value that passes one of its types, and reports one error when
      it passes none. *)
  Theorem C66_oneisvalid : forall n ps c w,
    (forall ts, In (PTypes ts) ps -> passes P n ts c w w \/ is_refused P n ts c w w) ->
    (Exists (fun p => exists ts, p = PTypes ts /\ passes P n ts c w w) ps ->
       m_validate (I n (MOneIsValid ps)) c w = (Ok tt, w)) /\
    (Forall (fun p => forall ts, p = PTypes ts -> is_refused P n ts c w w) ps ->
       m_validate (I n (MOneIsValid ps)) c w = (invalid c "none is valid", w)).
  Proof. intros n ps c w H. apply oneisvalid_some. exact H. Qed.

  (** Exception: functions in the list are never called and never make a value valid. *)
  Theorem C66_oneisvalid_callable_refuted : forall n fs c w,
    m_validate (I n (MOneIsValid (map PCall fs))) c w = (invalid c "none is valid", w).
  Proof.
    intros n fs c w. apply oneisvalid_some.
    - intros ts H. apply in_map_iff in H. destruct H as (f & E & _). discriminate E.
    - apply Forall_forall. intros p H ts ->. apply in_map_iff in H.
      destruct H as (f & E & _). discriminate E.
  Qed.

  (** compare: its function is called exactly when the field's previous value is recorded,
      with that and the new value. *)
  Theorem C66_compare : forall n f c w o ks k,
    c_parent c = VObj o -> c_kp c = ks ++ [KStr k] ->
    (sget k (o_prev (h_obj (w_heap w) o)) = None ->
       m_validate (I n (MCompare f)) c w = (Ok tt, w)) /\
    (forall p, sget k (o_prev (h_obj (w_heap w) o)) = Some p ->
     forall out w', called P KValidate f c [p; c_val c] w out w' ->
       (out = Ok (VBool true) \/ out = Ok VNone ->
          m_validate (I n (MCompare f)) c w = (Ok tt, w')) /\
       (out = Ok (VBool false) ->
          m_validate (I n (MCompare f)) c w = (invalid c "compare failed", w')) /\
       (forall s, out = Ok (VStr s) ->
          m_validate (I n (MCompare f)) c w = (invalid c s, w')) /\
       (forall v, out = Ok v -> v <> VNone -> v <> VBool true ->
          exists msg, m_validate (I n (MCompare f)) c w = (invalid c msg, w')) /\
       (forall e, out = Err e -> m_validate (I n (MCompare f)) c w = (Err e, w'))).
  Proof.
    intros n f c w o ks k PA KP. cbn [interp modif_of m_validate validate_of].
    unfold compare_validate, the_obj. rewrite KP, PA.
    unfold last_of. rewrite rev_app_distr. cbn [rev app].
    unfold bind, lift, ret, getW, prev_of, wobj. cbn beta iota. split.
    - intros ->. reflexivity.
    - intros p -> out w' C. apply call_called in C. rewrite C.
      repeat apply conj; [intros [->| ->]|intros ->|intros s ->| |intros e ->]; try reflexivity.
      intros v -> N1 N2. destruct v as [|[]| | | | | | | | | |]; try congruence; eexists; reflexivity.
  Qed.

  (** ** C67 *)

  (** default is used for None only; transform is used for everything else. *)
  Theorem C67_default : forall n p c w,
    (c_val c <> VNone -> m_transform (I n (MDefault p)) c w = (Ok (c_val c), w)) /\
    (c_val c = VNone ->
       (forall v, p = PVal v -> m_transform (I n (MDefault p)) c w = (Ok v, w)) /\
       (forall f out w', p = PCall f -> called P KField f c [] w out w' ->
          m_transform (I n (MDefault p)) c w = (out, w'))).
  Proof.
    intros n p c w. cbn [interp modif_of m_transform transform_of]. unfold default_transform. split.
    - intros N. destruct (c_val c); try reflexivity. congruence.
    - intros ->. split.
      + intros v ->. reflexivity.
      + intros f out w' -> C. apply call_called in C. exact C.
  Qed.

  Theorem C67_transform : forall n f c w,
    (c_val c = VNone -> m_transform (I n (MTransform (PCall f))) c w = (Ok VNone, w)) /\
    (c_val c <> VNone -> forall out w', called P KField f c [c_val c] w out w' ->
       m_transform (I n (MTransform (PCall f))) c w = (out, w')).
  Proof.
    intros n f c w. cbn [interp modif_of m_transform transform_of]. unfold transform_transform. split.
    - intros ->. reflexivity.
    - intros N out w' C. apply call_called in C.
      assert (is_none (c_val c) = false) as -> by (destruct (c_val c); congruence || reflexivity).
      exact C.
  Qed.

  (** map calls its function once for each item, in order, and gives the list of the
      answers; filter gives the items for which the answer is None or True, in their
      order.  Both leave what is not a list alone. *)
  Theorem C67_map : forall n f c w l r w', c_val c = VList l ->
    (m_transform (I n (MMap (PCall f))) c w = (Ok r, w') <->
     exists answers, each_called P f c l w answers w' /\ r = VList answers).
  Proof.
    intros n f c w l r w' L. cbn [interp modif_of m_transform transform_of].
    unfold map_transform. rewrite L. split.
    - intros H. apply bind_ok in H. destruct H as (rs & w1 & H & E). injection E as <- <-.
      exists rs. split; [|reflexivity]. eapply map_loop_inv. exact H.
    - intros (rs & H & ->). unfold bind. rewrite (map_loop_called P _ _ _ _ _ _ _ H). reflexivity.
  Qed.

  Theorem C67_filter : forall n f c w l r w', c_val c = VList l ->
    (m_transform (I n (MFilter (PCall f))) c w = (Ok r, w') <->
     exists answers, each_called P f c l w answers w' /\ r = VList (kept l answers)).
  Proof.
    intros n f c w l r w' L. cbn [interp modif_of m_transform transform_of].
    unfold filter_transform. rewrite L. split.
    - intros H. apply bind_ok in H. destruct H as (rs & w1 & H & E). injection E as <- <-.
      apply filter_loop_inv in H. destruct H as (answers & H & ->). eauto.
    - intros (rs & H & ->). unfold bind. rewrite (filter_loop_called P _ _ _ _ _ _ _ H). reflexivity.
  Qed.

  Theorem C67_not_a_list : forall n p c w, (forall l, c_val c <> VList l) ->
    m_transform (I n (MMap p)) c w = (Ok (c_val c), w) /\
    m_transform (I n (MFilter p)) c w = (Ok (c_val c), w).
  Proof.
    intros n p c w N. cbn [interp modif_of m_transform transform_of].
    unfold map_transform, filter_transform.
    destruct (c_val c); try (split; reflexivity). destruct (N l eq_refl).
  Qed.

  (** filter with types keeps the items that pass them, as they were, in their order. *)
  Theorem C67_filter_types : forall n ts c w l (good : value -> Prop), c_val c = VList l ->
    (forall v, In v l -> (good v /\ passes P n ts (nval c v) w w) \/
                         (~ good v /\ is_refused P n ts (nval c v) w w)) ->
    exists l', m_transform (I n (MFilter (PTypes ts))) c w = (Ok (VList l'), w) /\
      (forall v, In v l' <-> In v l /\ good v) /\
      exists marks, length marks = length l /\ l' = map fst (filter snd (combine l marks)).
  Proof.
    intros n ts c w l good L H. cbn [interp modif_of m_transform transform_of].
    unfold filter_transform. rewrite L.
    destruct (filter_loop_types P n ts c w good l H) as (l' & E & X). exists l'.
    split; [|exact X]. unfold bind. rewrite E. reflexivity.
  Qed.

  (** Exception: an answer that is merely true, such as 1, does not keep an item. *)
  Theorem C67_filter_truthy_refuted : forall n f c w l z,
    c_val c = VList l -> (forall v h, p_call P f c [v] h = (Ok (VInt z), h)) ->
    exists w', m_transform (I n (MFilter (PCall f))) c w = (Ok (VList []), w').
  Proof.
    intros n f c w l z L A.
    assert (X : forall l w, exists rs w', each_called P f c l w rs w' /\ kept l rs = []).
    { clear -A. induction l as [|v l IH]; intros w.
      - exists [], w. split; [constructor|reflexivity].
      - set (w1 := set_heap (w_heap w) (add_log (EvCall KField f) w)).
        destruct (IH w1) as (rs & w' & E & K). exists (VInt z :: rs), w'. split.
        + econstructor; [|exact E]. exists (w_heap w). split; [apply A|reflexivity].
        + cbn. exact K. }
    destruct (X l w) as (rs & w' & E & K). exists w'.
    apply (C67_filter n f c w l _ w' L). exists rs. split; [exact E|]. rewrite K. reflexivity.
  Qed.

  (** at gives the item of a list at an index, counted from the end when negative, and
      raises IndexError beyond either end; None stays None. *)
  Theorem C67_at : forall n c w,
    (forall p, c_val c = VNone -> m_transform (I n (MAt p)) c w = (Ok VNone, w)) /\
    (forall before x after, c_val c = VList (before ++ x :: after) ->
       m_transform (I n (MAt (PVal (VInt (Z.of_nat (length before)))))) c w = (Ok x, w) /\
       m_transform (I n (MAt (PVal (VInt (- Z.of_nat (S (length after))))))) c w = (Ok x, w)) /\
    (forall l z, c_val c = VList l -> (z < - Z.of_nat (length l) \/ Z.of_nat (length l) <= z)%Z ->
       m_transform (I n (MAt (PVal (VInt z)))) c w = (Err EIndexError, w)).
  Proof.
    intros n c w. cbn [interp modif_of m_transform transform_of]. unfold at_transform.
    split; [intros p ->; reflexivity|]. split.
    - intros before x after ->. unfold bind, resolve, ret, zlen. rewrite app_length. cbn [length].
      assert (N : nth_error (before ++ x :: after) (length before) = Some x).
      { rewrite nth_error_app2, Nat.sub_diag by lia. reflexivity. }
      split.
      + destruct (Z.of_nat (length before) <? 0)%Z eqn:E; [apply Z.ltb_lt in E; lia|].
        rewrite Nat2Z.id, N.
        replace ((- Z.of_nat (length before + S (length after)) <=? Z.of_nat (length before))%Z)
          with true by (symmetry; apply Z.leb_le; lia).
        replace ((Z.of_nat (length before) <? Z.of_nat (length before + S (length after)))%Z)
          with true by (symmetry; apply Z.ltb_lt; lia). reflexivity.
      + destruct (- Z.of_nat (S (length after)) <? 0)%Z eqn:E; [|apply Z.ltb_ge in E; lia].
        replace (Z.to_nat (- Z.of_nat (S (length after)) + Z.of_nat (length before + S (length after))))
          with (length before) by lia. rewrite N.
        replace ((- Z.of_nat (length before + S (length after)) <=? - Z.of_nat (S (length after)))%Z)
          with true by (symmetry; apply Z.leb_le; lia).
        replace ((- Z.of_nat (S (length after)) <? Z.of_nat (length before + S (length after)))%Z)
          with true by (symmetry; apply Z.ltb_lt; lia). reflexivity.
    - intros l z -> H. unfold bind, resolve, ret, zlen.
      destruct (nth_error l _) as [x|]; [|reflexivity].
      destruct ((- Z.of_nat (length l) <=? z) && (z <? Z.of_nat (length l)))%Z eqn:E; [|reflexivity].
      apply andb_prop in E. destruct E as [E1 E2]. apply Z.leb_le in E1. apply Z.ltb_lt in E2. lia.
  Qed.

  (** fmt changes the output only: None stays None, and everything else is what the
      function answers. *)
  Theorem C67_fmt : forall n f c w,
    (c_val c = VNone -> m_tojson (I n (MFmt (PCall f))) c w = (Ok VNone, w)) /\
    (c_val c <> VNone -> forall out w', called P KField f c [c_val c] w out w' ->
       m_tojson (I n (MFmt (PCall f))) c w = (out, w')) /\
    m_transform (I n (MFmt (PCall f))) c w = (Ok (c_val c), w) /\
    m_serialize (I n (MFmt (PCall f))) c w = (Ok (c_val c), w).
  Proof.
    intros n f c w. cbn [interp modif_of m_tojson tojson_of]. unfold fmt_tojson.
    split; [intros ->; reflexivity|]. split; [|split; reflexivity].
    intros N out w' C. apply call_called in C.
    assert (is_none (c_val c) = false) as -> by (destruct (c_val c); congruence || reflexivity).
    exact C.
  Qed.

  (** ** C68 *)

  (** canc is checked on new objects, canu on objects that are not new. *)
  Theorem C68_when : forall n (new : bool) p c w o, c_owner c = VObj o ->
    o_new (h_obj (w_heap w) o) <> new ->
    m_validate (I n (MCanWrite (Some new) p)) c w = (Ok tt, w).
  Proof.
    intros n new p c w o O N. cbn [interp modif_of m_validate validate_of].
    unfold canw_validate, the_obj. rewrite O. unfold bind at 1, ret at 1. unfold bind, getW, wobj.
    destruct (o_new (h_obj (w_heap w) o)), new; try reflexivity; congruence.
  Qed.

  (** Then the operation is permitted exactly when there is an operator and the types
      pass. *)
  Theorem C68_write : forall n (new : bool) ts c w o, c_owner c = VObj o ->
    o_new (h_obj (w_heap w) o) = new ->
    let m := I n (MCanWrite (Some new) (PTypes ts)) in
    (c_operator c = VNone -> m_validate m c w = (invalid c "operator not present", w)) /\
    (c_operator c <> VNone -> forall w',
       (passes P n ts c w w' -> m_validate m c w = (Ok tt, w')) /\
       (is_refused P n ts c w w' ->
          m_validate m c w = (invalid c "operation is not permitted", w'))).
  Proof.
    intros n new ts c w o O N m. subst m. cbn [interp modif_of m_validate validate_of].
    unfold canw_validate, the_obj. rewrite O. unfold bind, getW, wobj, ret. rewrite N, eqb_reflx.
    split.
    - intros ->. reflexivity.
    - intros NO w'.
      assert (is_none (c_operator c) = false) as -> by (destruct (c_operator c); congruence || reflexivity).
      split; intros H.
      + rewrite (checked_passes P _ _ _ _ _ _ _ _ H). reflexivity.
      + rewrite (checked_refused P _ _ _ _ _ _ _ _ H). reflexivity.
  Qed.

  (** canr: the value is output exactly when there is an operator and the types pass. *)
  Theorem C68_read : forall n ts c w,
    let m := I n (MCanRead (PTypes ts)) in
    (c_operator c = VNone -> m_tojson m c w = (Ok VNone, w)) /\
    (c_operator c <> VNone -> forall w',
       (passes P n ts c w w' -> m_tojson m c w = (Ok (c_val c), w')) /\
       (is_refused P n ts c w w' -> m_tojson m c w = (Ok VNone, w'))).
  Proof.
    intros n ts c w m. subst m. cbn [interp modif_of m_tojson tojson_of]. unfold canr_tojson.
    split.
    - intros ->. reflexivity.
    - intros NO w'.
      assert (is_none (c_operator c) = false) as -> by (destruct (c_operator c); congruence || reflexivity).
      split; intros H.
      + rewrite (checked_passes P _ _ _ _ _ _ _ _ H). reflexivity.
      + rewrite (checked_refused P _ _ _ _ _ _ _ _ H). reflexivity.
  Qed.

  (** The usual check, types.getop.isthis: the operator is the object that is validated, or
      one of its class with an equal key. *)
  Theorem C68_owner_only : forall n c w o, c_owner c = VObj o ->
    (forall x, c_operator c = VObj x -> same_object P w x o ->
       passes P (S n) [MGetop; MIsthis] c w w) /\
    ((forall x, c_operator c = VObj x -> ~ same_object P w x o) ->
       is_refused P (S n) [MGetop; MIsthis] c w w).
  Proof.
    intros n c w o O.
    assert (T : t_transform (I n) [MGetop; MIsthis] c w = (Ok (c_operator c), w)) by reflexivity.
    assert (V : t_validate (I n) [MGetop; MIsthis] (nval c (c_operator c)) w =
      match isthis_validate P (nval c (c_operator c)) w with
      | (Ok _, w') => (Ok tt, w')
      | (Err (EValidation e), w') =>
          raise_collected (receive [] e) w'
      | (Err e, w') => (Err e, w')
      end).
    { unfold t_validate, chain_validate. cbn [map].
      change (nvs [I n MGetop; I n MIsthis]) with [I n MGetop; I n MIsthis].
      unfold bind. cbn [chain_validate_loop interp modif_of m_validate validate_of].
      unfold ret at 1.
      destruct (isthis_validate P (nval c (c_operator c)) w) as [[u|e] w'] eqn:E; [reflexivity|].
      destruct e; try reflexivity. destruct (all_on _); reflexivity. }
    split.
    - intros x X SO. exists (c_operator c), w. split; [exact T|]. rewrite V.
      unfold isthis_validate. cbn [nval c_val c_owner]. rewrite X, O.
      unfold bind, getW, wclass, wobj.
      assert (B : (Nat.eqb x o || (String.eqb (o_class (h_obj (w_heap w) x)) (o_class (h_obj (w_heap w) o))
         && eqv (p_oeq P) (w_heap w) (id_of (p_ct P) (w_heap w) x) (id_of (p_ct P) (w_heap w) o))) = true).
      { destruct SO as [->|[E1 E2]]; [rewrite Nat.eqb_refl; reflexivity|].
        rewrite E1, String.eqb_refl, E2. apply orb_true_r. }
      rewrite B. reflexivity.
    - intros NS.
      assert (R : exists msg, isthis_validate P (nval c (c_operator c)) w =
                    (Err (EValidation [(skp (c_fkr c), msg)]), w)).
      { unfold isthis_validate. cbn [nval c_val c_owner].
        destruct (c_operator c) as [| | | | | | | | | |x|] eqn:X; rewrite ?O; try (eexists; reflexivity).
        unfold bind, getW, wclass, wobj.
        assert (B : (Nat.eqb x o || (String.eqb (o_class (h_obj (w_heap w) x)) (o_class (h_obj (w_heap w) o))
           && eqv (p_oeq P) (w_heap w) (id_of (p_ct P) (w_heap w) x) (id_of (p_ct P) (w_heap w) o))) = false).
        { destruct (_ || _) eqn:B; [|reflexivity]. exfalso. apply (NS x eq_refl).
          apply orb_prop in B. destruct B as [B|B]; [left; apply Nat.eqb_eq; exact B|].
          right. apply andb_prop in B. destruct B as [B1 B2]. apply String.eqb_eq in B1. auto. }
        rewrite B. eexists. reflexivity. }
      destruct R as (msg & R). exists (c_operator c), w, [(skp (c_fkr c), msg)].
      split; [exact T|]. rewrite V, R. reflexivity.
  Qed.

  (** isobjof passes exactly the objects of the class. *)
  Theorem C68_isobjof : forall n cls c w,
    (forall x, c_val c = VObj x -> p_isa P (o_class (h_obj (w_heap w) x)) cls = true ->
       m_validate (I n (MIsobjof cls)) c w = (Ok tt, w)) /\
    ((forall x, c_val c = VObj x -> p_isa P (o_class (h_obj (w_heap w) x)) cls = false) ->
       exists msg, m_validate (I n (MIsobjof cls)) c w = (invalid c msg, w)).
  Proof.
    intros n cls c w. cbn [interp modif_of m_validate validate_of]. unfold isobjof_validate. split.
    - intros x -> E. unfold bind, getW, wclass, wobj. rewrite E. reflexivity.
    - intros H. destruct (c_val c); try (eexists; reflexivity).
      unfold bind, getW, wclass, wobj. rewrite (H o eq_refl). eexists. reflexivity.
  Qed.

  (** Exceptions: a checker that is a function makes every read and write by an operator
      raise AttributeError; and two objects that have no keys yet count as the same. *)
  Theorem C68_callable_refuted : forall n f (new : bool) c w o, c_operator c <> VNone ->
    c_owner c = VObj o -> o_new (h_obj (w_heap w) o) = new ->
    m_validate (I n (MCanWrite (Some new) (PCall f))) c w = (Err EAttributeError, w) /\
    m_tojson (I n (MCanRead (PCall f))) c w = (Err EAttributeError, w).
  Proof.
    intros n f new c w o N O NW. cbn [interp modif_of m_validate validate_of m_tojson tojson_of].
    unfold canw_validate, canr_tojson, the_obj. rewrite O.
    unfold bind, ret, getW, wobj. rewrite NW, eqb_reflx.
    assert (is_none (c_operator c) = false) as -> by (destruct (c_operator c); congruence || reflexivity).
    split; reflexivity.
  Qed.

  Theorem C68_no_key_refuted : forall n c w o x, c_owner c = VObj o -> c_operator c = VObj x ->
    x <> o -> o_class (h_obj (w_heap w) x) = o_class (h_obj (w_heap w) o) ->
    id_of (p_ct P) (w_heap w) x = VNone -> id_of (p_ct P) (w_heap w) o = VNone ->
    passes P (S n) [MGetop; MIsthis] c w w.
  Proof.
    intros n c w o x O X N C I1 I2. apply (proj1 (C68_owner_only n c w o O) x X).
    right. split; [exact C|]. rewrite I1, I2. reflexivity.
  Qed.

  (** ** C69 *)

  (** opby on a new object stores the key of the operator, or of what the transformer makes
      of it, for every field that asks for it, and changes nothing else. *)
  Theorem C69_opby_new : forall o op who w d, (2 <= p_lim P)%nat -> op <> VNone ->
    o_new (h_obj (w_heap w) o) = true -> d = cdef_of (p_ct P) (w_heap w) o ->
    (forall f, In f (cd_fields d) -> asop_of f <> None ->
       assigned P o op f (who f) /\ unset_reference P (w_heap w) o f) ->
    ForallOrdPairs (fun f g => asop_of f <> None -> asop_of g <> None -> fl_ref g <> fl_ref f)
      (cd_fields d) ->
    exists w', opby P o op w = (Ok tt, w') /\
      o_operator (h_obj (w_heap w') o) = op /\
      (forall f, In f (cd_fields d) -> asop_of f <> None ->
         attr (w_heap w') o (fl_ref f) = Some (id_of (p_ct P) (w_heap w) (who f))) /\
      (forall k, (forall f, In f (cd_fields d) -> asop_of f <> None -> fl_ref f <> k) ->
         attr (w_heap w') o k = attr (w_heap w) o k) /\
      (forall x, x <> o -> h_obj (w_heap w') x = h_obj (w_heap w) x) /\
      o_new (h_obj (w_heap w') o) = true.
  Proof.
    intros o op who w d L NO NW -> H D. unfold opby.
    match goal with |- context [updm o ?G] => set (F := G) end.
    unfold bind at 1, liftH at 1, updm at 1, modify at 1.
    set (w1 := set_heap (upd o F (w_heap w)) w).
    assert (is_none op = false) as -> by (destruct op; congruence || reflexivity).
    assert (B : h_obj (w_heap w1) o = F (h_obj (w_heap w) o)) by apply upd_self.
    assert (BO : forall x, x <> o -> h_obj (w_heap w1) x = h_obj (w_heap w) x)
      by (intros x X; apply upd_other; exact X).
    unfold bind at 1, getW at 1. unfold wobj at 1. rewrite B. unfold F at 1. cbn [o_new]. rewrite NW.
    unfold bind at 1, getW at 1. unfold wcdef at 1.
    assert (C : forall x, cdef_of (p_ct P) (w_heap w1) x = cdef_of (p_ct P) (w_heap w) x).
    { intros x. unfold cdef_of. destruct (Nat.eq_dec x o) as [->|X].
      - rewrite B. reflexivity.
      - rewrite (BO x X). reflexivity. }
    rewrite C.
    assert (A : forall x k, attr (w_heap w1) x k = attr (w_heap w) x k).
    { intros x k. unfold attr. destruct (Nat.eq_dec x o) as [->|X].
      - rewrite B. reflexivity.
      - rewrite (BO x X). reflexivity. }
    assert (ID : forall x, id_of (p_ct P) (w_heap w1) x = id_of (p_ct P) (w_heap w) x).
    { intros x. unfold id_of. rewrite C. destruct (primary_field _); [|reflexivity].
      rewrite A. reflexivity. }
    destruct (assign_all P o op who (cd_fields (cdef_of (p_ct P) (w_heap w) o)) w1 L) as (w2 & R & K).
    { intros f F1 F2. destruct (H f F1 F2) as [AS [U1 U2 U3 U4 U5 U6 U7]]. split; [exact AS|].
      constructor; auto.
      - unfold ofield. rewrite C. exact U1.
      - rewrite A. exact U4.
      - rewrite B. exact U5.
      - unfold ofield. rewrite C. exact U6.
      - rewrite A. exact U7. }
    { exact D. }
    exists w2. split; [exact R|]. destruct K as [K1 K2 K3 K4 K5].
    split; [rewrite K5, B; reflexivity|]. split; [intros f F1 F2; rewrite (K1 f F1 F2), ID; reflexivity|].
    split; [intros k N; rewrite (K2 k N), A; reflexivity|].
    split; [intros x X; rewrite (K3 x X); apply BO; exact X|].
    rewrite K4, B. exact NW.
  Qed.

  (** On an object that is not new, and without an operator, only the operator is noted. *)
  Theorem C69_opby_other : forall o op w,
    op = VNone \/ o_new (h_obj (w_heap w) o) = false ->
    exists w', opby P o op w = (Ok tt, w') /\ o_operator (h_obj (w_heap w') o) = op /\
      (forall x k, attr (w_heap w') x k = attr (w_heap w) x k) /\
      (forall x, x <> o -> h_obj (w_heap w') x = h_obj (w_heap w) x).
  Proof.
    intros o op w H. unfold opby.
    match goal with |- context [updm o ?G] => set (F := G) end.
    unfold bind at 1, liftH at 1, updm at 1, modify at 1.
    set (w1 := set_heap (upd o F (w_heap w)) w).
    assert (B : h_obj (w_heap w1) o = F (h_obj (w_heap w) o)) by apply upd_self.
    assert (BO : forall x, x <> o -> h_obj (w_heap w1) x = h_obj (w_heap w) x)
      by (intros x X; apply upd_other; exact X).
    exists w1. split; [|split; [rewrite B; reflexivity|split; [|exact BO]]].
    - destruct (is_none op) eqn:E; [reflexivity|].
      unfold bind at 1, getW at 1. unfold wobj at 1. rewrite B. unfold F at 1. cbn [o_new].
      destruct H as [->|H]; [discriminate E|]. rewrite H. reflexivity.
    - intros x k. unfold attr. destruct (Nat.eq_dec x o) as [->|X].
      + rewrite B. reflexivity.
      + rewrite (BO x X). reflexivity.
  Qed.

  (** Validation fails at such a field exactly when the object is new, or the field was
      modified, and no key is stored. *)
  Theorem C69_validate : forall n t c w o f ks, c_holder c = VObj o ->
    c_kr c = ks ++ [KStr (fl_name f)] -> ofield (p_ct P) (w_heap w) o (fl_name f) = Some f ->
    ofield (p_ct P) (w_heap w) o (fl_ref f) = None ->
    forall k, attr (w_heap w) o (fl_ref f) = Some k ->
    let due := o_new (h_obj (w_heap w) o) = true \/ In (fl_name f) (o_mfields (h_obj (w_heap w) o)) in
    (due -> k = VNone ->
       m_validate (I n (MAsop t)) c w = (invalid c "no operator being assigned", w)) /\
    (~ due \/ k <> VNone -> m_validate (I n (MAsop t)) c w = (Ok tt, w)).
  Proof.
    intros n t c w o f ks HO KR F RN k K due. cbn [interp modif_of m_validate validate_of].
    unfold asop_validate. rewrite HO, KR.
    unfold last_of. rewrite rev_app_distr. cbn [rev app].
    assert (DU : o_new (h_obj (w_heap w) o) || key_in (KStr (fl_name f)) (o_mfields (h_obj (w_heap w) o)) = true
                 <-> due).
    { unfold due. rewrite orb_true_iff. unfold key_in. rewrite ObjTrack.sinb_In. reflexivity. }
    unfold ofield in F.
    unfold bind, lift, cdef_v, bind, the_obj, ret, getW, named, wobj, wcdef. cbn beta iota.
    destruct (o_new (h_obj (w_heap w) o) || key_in (KStr (fl_name f)) (o_mfields (h_obj (w_heap w) o))) eqn:E.
    - assert (HD : due) by (apply DU; reflexivity).
      cbn [str_of_karg]. rewrite F. unfold ret. cbn beta iota. unfold getattr, liftH, ObjModel.getattr. rewrite RN, K.
      assert (SH : set_heap (w_heap w) w = w) by (destruct w; reflexivity). rewrite SH.
      split.
      + intros _ ->. reflexivity.
      + intros [X|X]; [destruct (X HD)|]. destruct k; congruence || reflexivity.
    - split; [intros X; apply DU in X; discriminate X|reflexivity].
  Qed.

  (** Exception: an operator that is not an object, such as its key, is noted and then
      raises AttributeError if some field asks for it. *)
  Theorem C69_operator_refuted : forall o s w f rest,
    o_new (h_obj (w_heap w) o) = true ->
    cd_fields (cdef_of (p_ct P) (w_heap w) o) = f :: rest -> asop_of f = Some None ->
    exists w', opby P o (VStr s) w = (Err EAttributeError, w') /\
      o_operator (h_obj (w_heap w') o) = VStr s.
  Proof.
    intros o s w f rest NW D A. unfold opby.
    match goal with |- context [updm o ?G] => set (F := G) end.
    unfold bind at 1, liftH at 1, updm at 1, modify at 1.
    set (w1 := set_heap (upd o F (w_heap w)) w).
    assert (B : h_obj (w_heap w1) o = F (h_obj (w_heap w) o)) by apply upd_self.
    exists w1. split; [|rewrite B; reflexivity].
    cbn [is_none]. unfold bind at 1, getW at 1. unfold wobj at 1. rewrite B. unfold F at 1. cbn [o_new].
    rewrite NW. unfold bind at 1, getW at 1. unfold wcdef at 1.
    assert (C : cdef_of (p_ct P) (w_heap w1) o = cdef_of (p_ct P) (w_heap w) o).
    { unfold cdef_of. rewrite B. reflexivity. }
    rewrite C, D. cbn [for_st]. unfold bind at 1. rewrite A. reflexivity.
  Qed.

  (** ** C70 *)

  (** The callbacks on save leave the value alone.  onsave is called always; onwrite when
      the object is new or the field was modified; onupdate when a previous value is
      recorded, with that and the new value. *)
  Theorem C70_onsave : forall n f c w out w', called P KSave f c [c_val c] w out w' ->
    m_serialize (I n (MOnsave f)) c w =
      (match out with Ok _ => Ok (c_val c) | Err e => Err e end, w').
  Proof.
    intros n f c w out w' C. apply call_called in C.
    cbn [interp modif_of m_serialize serialize_of]. unfold onsave_serialize, bind. rewrite C.
    destruct out; reflexivity.
  Qed.

  Theorem C70_onwrite : forall n f c w o ks k, c_parent c = VObj o -> c_kp c = ks ++ [KStr k] ->
    let due := o_new (h_obj (w_heap w) o) = true \/ In k (o_mfields (h_obj (w_heap w) o)) in
    (~ due -> m_serialize (I n (MOnwrite f)) c w = (Ok (c_val c), w)) /\
    (due -> forall out w', called P KSave f c [c_val c] w out w' ->
       m_serialize (I n (MOnwrite f)) c w =
         (match out with Ok _ => Ok (c_val c) | Err e => Err e end, w')).
  Proof.
    intros n f c w o ks k PA KP due. cbn [interp modif_of m_serialize serialize_of].
    unfold onwrite_serialize, the_obj. rewrite KP, PA.
    unfold last_of. rewrite rev_app_distr. cbn [rev app].
    unfold bind, lift, ret, getW, wobj. cbn beta iota.
    assert (DU : o_new (h_obj (w_heap w) o) || key_in (KStr k) (o_mfields (h_obj (w_heap w) o)) = true
                 <-> due).
    { unfold due. rewrite orb_true_iff. unfold key_in. rewrite ObjTrack.sinb_In. reflexivity. }
    destruct (o_new (h_obj (w_heap w) o) || key_in (KStr k) (o_mfields (h_obj (w_heap w) o))).
    - split; [intros X; destruct X; apply DU; reflexivity|].
      intros _ out w' C. apply call_called in C. rewrite C. destruct out; reflexivity.
    - split; [reflexivity|]. intros X. apply DU in X. discriminate X.
  Qed.

  Theorem C70_onupdate : forall n f c w o ks k, c_parent c = VObj o -> c_kp c = ks ++ [KStr k] ->
    (sget k (o_prev (h_obj (w_heap w) o)) = None ->
       m_serialize (I n (MOnupdate f)) c w = (Ok (c_val c), w)) /\
    (forall p, sget k (o_prev (h_obj (w_heap w) o)) = Some p ->
     forall out w', called P KSave f c [p; c_val c] w out w' ->
       m_serialize (I n (MOnupdate f)) c w =
         (match out with Ok _ => Ok (c_val c) | Err e => Err e end, w')).
  Proof.
    intros n f c w o ks k PA KP. cbn [interp modif_of m_serialize serialize_of].
    unfold onupdate_serialize, the_obj. rewrite KP, PA.
    unfold last_of. rewrite rev_app_distr. cbn [rev app].
    unfold bind, lift, ret, getW, prev_of, wobj. cbn beta iota. split.
    - intros ->. reflexivity.
    - intros p -> out w' C. apply call_called in C. rewrite C. destruct out; reflexivity.
  Qed.
End Props.

(** ** The hypotheses are met *)

(** a note whose author is the operator, and one whose author is what callable 5 makes of
    it (the user 1) *)
Definition nt_call (f : cbid) (c : ctx) (args : list value) : st heap value :=
  match f with 5%nat => ret (VObj 1%nat) | _ => ex_call f c args end.
Definition nt_class : cdef := mkc "Note"
  [ f_id; mkf "title" "title_id" [tstr];
    mkf "author" "author_id" [MInstance "User"; MLinkto; MAsop None];
    mkf "editor" "editor_id" [MInstance "User"; MLinkto; MAsop (Some 5%nat)] ].
Definition nt_ct (c : string) : option cdef := if String.eqb c "Note" then Some nt_class else ex_ct c.
Definition nt_prog : program :=
  {| p_ct := nt_ct; p_oeq := ex_oeq; p_getter := ex_getter; p_setter := ex_setter;
     p_str := ex_str; p_arith := fun _ _ _ => Err ETypeError; p_lim := 50;
     p_isa := String.eqb; p_enums := ex_enums; p_call := nt_call;
     p_guards := no_guards; p_hooks := no_hooks; p_write := fun _ => ret tt; p_delete := fun _ => ret tt |}.
Definition nt_heap : heap :=
  {| h_obj := fun o => match o with
       | 10%nat => ex_obj "Note" 50 [("author_id", "author"); ("editor_id", "editor")] true
       | _ => h_obj (ex_heap true) o end;
     h_next := 11%nat; h_graph := h_graph (ex_heap true) |}.
Definition nt_who (f : field) : oid := if String.eqb (fl_name f) "author" then 0%nat else 1%nat.

Example C69_holds :
  exists w', opby nt_prog 10%nat (VObj 0%nat) (mkw nt_heap) = (Ok tt, w') /\
    attr (w_heap w') 10%nat "author_id" = Some (VInt 1) /\ attr (w_heap w') 10%nat "editor_id" = Some (VInt 2) /\
    attr (w_heap w') 10%nat "title" = Some VNone.
Proof.
  destruct (C69_opby_new nt_prog 10%nat (VObj 0%nat) nt_who (mkw nt_heap) nt_class) as (w' & R & _ & K & O & _).
  - vm_compute. repeat constructor.
  - discriminate.
  - reflexivity.
  - reflexivity.
  - intros f H A. cbn in H.
    destruct H as [<-|[<-|[<-|[<-|[]]]]]; try (destruct (A eq_refl)).
    + split; [left; split; reflexivity|]. constructor; reflexivity.
    + split; [right; exists 5%nat; split; [reflexivity|intros c h; reflexivity]|]. constructor; reflexivity.
  - repeat constructor; intros A B; first [destruct (A eq_refl)|destruct (B eq_refl)|discriminate].
  - exists w'. split; [exact R|]. split; [|split].
    + apply (K (mkf "author" "author_id" [MInstance "User"; MLinkto; MAsop None])); [cbn; auto|discriminate].
    + apply (K (mkf "editor" "editor_id" [MInstance "User"; MLinkto; MAsop (Some 5%nat)])); [cbn; auto|discriminate].
    + rewrite O; [reflexivity|]. intros f H A. cbn in H.
      destruct H as [<-|[<-|[<-|[<-|[]]]]]; discriminate.
Qed.

(** Object 0 as owner, holding a previous value under "x" and modified there; with an
    operator. *)
Definition cx (v op : value) : ctx :=
  {| c_root := VObj 0%nat; c_owner := VObj 0%nat; c_parent := VObj 0%nat; c_holder := VObj 10%nat;
     c_val := v; c_original := VNone; c_cfg := cfg0;
     c_kr := [KStr "author"]; c_fkr := [KStr "x"]; c_ko := [KStr "x"]; c_kp := [KStr "x"]; c_kh := [KStr "x"];
     c_fdef := fdef_of [tint]; c_tag := None; c_operator := op; c_idchain := []; c_passin := VNone |}.
Definition cw : world :=
  mkw (upd 0%nat (fun b => {| o_class := o_class b; o_attr := o_attr b; o_new := false; o_modified := true;
      o_mfields := ["x"]; o_prev := [("x", VInt 3)]; o_lkeys := o_lkeys b; o_raw := o_raw b;
      o_unlinked := o_unlinked b; o_operator := o_operator b |}) nt_heap).
(** the state after one call *)
Definition cw1 (k : evkind) (f : cbid) : world := set_heap (w_heap cw) (add_log (EvCall k f) cw).

Lemma cw_called k f c args v : nt_call f c args = ret v -> called nt_prog k f c args cw (Ok v) (cw1 k f).
Proof. intros E. exists (w_heap cw). split; [cbn; rewrite E; reflexivity|reflexivity]. Qed.

(** a number passes [int] and a text does not *)
Lemma cw_passes z op : passes nt_prog 1%nat [tint] (cx (VInt z) op) cw cw.
Proof. exists (VInt z), cw. split; reflexivity. Qed.
Lemma cw_refused s op : is_refused nt_prog 1%nat [tint] (cx (VStr s) op) cw cw.
Proof. exists (VStr s), cw. eexists. split; reflexivity. Qed.

Example C66_holds : forall n,
  (* a validator that says no *)
  m_validate (interp nt_prog (S n) (MValidate (PCall 2%nat) None)) (cx (VInt 1) VNone) cw
    = (invalid (cx (VInt 1) VNone) "invalid value", cw1 KValidate 2%nat) /\
  m_validate (interp nt_prog (S n) (MValidate (PCall 3%nat) (Some "bad"))) (cx (VInt 1) VNone) cw
    = (invalid (cx (VInt 1) VNone) "bad", cw1 KValidate 3%nat) /\
  m_validate (interp nt_prog 2%nat (MValidate (PTypes [tint]) None)) (cx (VStr "a") VNone) cw
    = (invalid (cx (VStr "a") VNone) "invalid value", cw) /\
  m_validate (interp nt_prog 2%nat (MOneIsValid [PTypes [tstr]; PTypes [tint]])) (cx (VInt 1) VNone) cw
    = (Ok tt, cw) /\
  m_validate (interp nt_prog (S n) (MCompare 3%nat)) (cx (VInt 1) VNone) cw
    = (invalid (cx (VInt 1) VNone) "no", cw1 KValidate 3%nat).
Proof.
  intros n. repeat apply conj.
  - eapply (proj2 (C66_validate nt_prog n 2%nat None (cx (VInt 1) VNone) cw)); [discriminate| |].
    + apply (cw_called KValidate 2%nat _ _ (VBool false)). reflexivity.
    + apply vd_false. reflexivity.
  - eapply (proj2 (C66_validate nt_prog n 3%nat (Some "bad") (cx (VInt 1) VNone) cw)); [discriminate| |].
    + apply (cw_called KValidate 3%nat _ _ (VStr "no")). reflexivity.
    + apply vd_text_own. reflexivity.
  - apply (proj2 (C66_validate_types nt_prog 1%nat [tint] None (cx (VStr "a") VNone) cw cw)). apply cw_refused.
  - apply C66_oneisvalid.
    + intros ts [E|[E|[]]]; injection E as <-; [right|left; apply cw_passes].
      exists (VInt 1), cw. eexists. split; reflexivity.
    + right. left. exists [tint]. split; [reflexivity|apply cw_passes].
  - destruct (proj2 (C66_compare nt_prog n 3%nat (cx (VInt 1) VNone) cw 0%nat [] "x" eq_refl eq_refl)
              (VInt 3) eq_refl (Ok (VStr "no")) (cw1 KValidate 3%nat)) as (_ & _ & T & _).
    + apply cw_called. reflexivity.
    + apply T. reflexivity.
Qed.

Example C67_holds : forall n,
  (exists w', m_transform (interp nt_prog (S n) (MMap (PCall 4%nat)))
     (cx (VList [VInt 1; VStr "a"]) VNone) cw = (Ok (VList [VInt 7; VInt 7]), w')) /\
  (exists w', m_transform (interp nt_prog (S n) (MFilter (PCall 4%nat)))
     (cx (VList [VInt 1; VStr "a"]) VNone) cw = (Ok (VList []), w')) /\
  (exists l', m_transform (interp nt_prog 2%nat (MFilter (PTypes [tint])))
     (cx (VList [VInt 1; VStr "a"]) VNone) cw = (Ok (VList l'), cw) /\ In (VInt 1) l' /\ ~ In (VStr "a") l') /\
  m_transform (interp nt_prog (S n) (MAt (PVal (VInt (-1))))) (cx (VList [VInt 1; VStr "a"]) VNone) cw
    = (Ok (VStr "a"), cw) /\
  m_transform (interp nt_prog (S n) (MDefault (PVal (VInt 5)))) (cx VNone VNone) cw = (Ok (VInt 5), cw) /\
  m_transform (interp nt_prog (S n) (MTransform (PCall 4%nat))) (cx (VInt 1) VNone) cw
    = (Ok (VInt 7), cw1 KField 4%nat) /\
  m_tojson (interp nt_prog (S n) (MFmt (PCall 4%nat))) (cx (VInt 1) VNone) cw
    = (Ok (VInt 7), cw1 KField 4%nat).
Proof.
  intros n. repeat apply conj.
  - eexists. eapply C67_map; [reflexivity|]. exists [VInt 7; VInt 7]. split; [|reflexivity].
    econstructor; [eexists; split; reflexivity|]. econstructor; [eexists; split; reflexivity|]. constructor.
  - apply (C67_filter_truthy_refuted nt_prog n 4%nat _ cw [VInt 1; VStr "a"] 7); reflexivity.
  - destruct (C67_filter_types nt_prog 1%nat [tint] (cx (VList [VInt 1; VStr "a"]) VNone) cw _
                (fun v => v = VInt 1) eq_refl) as (l' & E & H & _).
    + intros v [<-|[<-|[]]].
      * left. split; [reflexivity|]. exists (VInt 1), cw. split; reflexivity.
      * right. split; [discriminate|]. exists (VStr "a"), cw. eexists. split; reflexivity.
    + exists l'. split; [exact E|]. split; [apply H; cbn; auto|].
      intros X. apply H in X. destruct X as [_ X]. discriminate X.
  - apply (proj2 (proj1 (proj2 (C67_at nt_prog n (cx (VList [VInt 1; VStr "a"]) VNone) cw))
             [VInt 1] (VStr "a") [] eq_refl)).
  - apply C67_default; reflexivity.
  - apply C67_transform; [discriminate|]. apply cw_called. reflexivity.
  - apply C67_fmt; [discriminate|]. apply cw_called. reflexivity.
Qed.

(** Object 0 is not new: the users 0 and 1 have keys 1 and 2, so only 0 may update it; a
    note has yet another class. *)
Example C68_holds :
  m_validate (interp nt_prog 3%nat (MCanWrite (Some false) (PTypes [MGetop; MIsthis]))) (cx (VInt 1) (VObj 0%nat)) cw
    = (Ok tt, cw) /\
  m_validate (interp nt_prog 3%nat (MCanWrite (Some false) (PTypes [MGetop; MIsthis]))) (cx (VInt 1) (VObj 1%nat)) cw
    = (invalid (cx (VInt 1) (VObj 1%nat)) "operation is not permitted", cw) /\
  m_validate (interp nt_prog 3%nat (MCanWrite (Some false) (PTypes [MGetop; MIsthis]))) (cx (VInt 1) VNone) cw
    = (invalid (cx (VInt 1) VNone) "operator not present", cw) /\
  m_tojson (interp nt_prog 3%nat (MCanRead (PTypes [MGetop; MIsthis]))) (cx (VInt 1) (VObj 0%nat)) cw
    = (Ok (VInt 1), cw) /\
  m_tojson (interp nt_prog 3%nat (MCanRead (PTypes [MGetop; MIsthis]))) (cx (VInt 1) (VObj 1%nat)) cw
    = (Ok VNone, cw).
Proof.
  assert (A : passes nt_prog 2%nat [MGetop; MIsthis] (cx (VInt 1) (VObj 0%nat)) cw cw).
  { apply (proj1 (C68_owner_only nt_prog 1%nat (cx (VInt 1) (VObj 0%nat)) cw 0%nat eq_refl) 0%nat eq_refl).
    left. reflexivity. }
  assert (B : is_refused nt_prog 2%nat [MGetop; MIsthis] (cx (VInt 1) (VObj 1%nat)) cw cw).
  { apply (proj2 (C68_owner_only nt_prog 1%nat (cx (VInt 1) (VObj 1%nat)) cw 0%nat eq_refl)).
    intros x E [->|[_ H]]; [discriminate E|]. injection E as <-. vm_compute in H. discriminate H. }
  repeat apply conj.
  - refine (proj1 (proj2 (C68_write nt_prog 2%nat false _ _ cw 0%nat _ _) _ cw) A);
      solve [reflexivity|discriminate].
  - refine (proj2 (proj2 (C68_write nt_prog 2%nat false _ _ cw 0%nat _ _) _ cw) B);
      solve [reflexivity|discriminate].
  - refine (proj1 (C68_write nt_prog 2%nat false _ _ cw 0%nat _ _) _); reflexivity.
  - refine (proj1 (proj2 (C68_read nt_prog 2%nat _ _ cw) _ cw) A); discriminate.
  - refine (proj2 (proj2 (C68_read nt_prog 2%nat _ _ cw) _ cw) B); discriminate.
Qed.

(** The note 10 is new and has no author. *)
Example C69_validate_holds : forall n,
  m_validate (interp nt_prog (S n) (MAsop None)) (cx VNone VNone) cw
    = (invalid (cx VNone VNone) "no operator being assigned", cw).
Proof.
  intros n.
  refine (proj1 (C69_validate nt_prog n None (cx VNone VNone) cw 10%nat
    (mkf "author" "author_id" [MInstance "User"; MLinkto; MAsop None]) [] _ _ _ _ VNone _) _ _);
    try reflexivity. left. reflexivity.
Qed.

Example C70_holds : forall n,
  m_serialize (interp nt_prog (S n) (MOnwrite 4%nat)) (cx (VInt 1) VNone) cw = (Ok (VInt 1), cw1 KSave 4%nat) /\
  m_serialize (interp nt_prog (S n) (MOnupdate 4%nat)) (cx (VInt 1) VNone) cw = (Ok (VInt 1), cw1 KSave 4%nat) /\
  m_serialize (interp nt_prog (S n) (MOnsave 4%nat)) (cx (VInt 1) VNone) cw = (Ok (VInt 1), cw1 KSave 4%nat).
Proof.
  intros n. repeat apply conj.
  - refine (proj2 (C70_onwrite nt_prog n 4%nat (cx (VInt 1) VNone) cw 0%nat [] "x" eq_refl eq_refl) _
              (Ok (VInt 7)) _ _); [right; left; reflexivity|]. apply cw_called. reflexivity.
  - refine (proj2 (C70_onupdate nt_prog n 4%nat (cx (VInt 1) VNone) cw 0%nat [] "x" eq_refl eq_refl)
              (VInt 3) eq_refl (Ok (VInt 7)) _ _). apply cw_called. reflexivity.
  - refine (C70_onsave nt_prog n 4%nat (cx (VInt 1) VNone) cw (Ok (VInt 7)) _ _). apply cw_called. reflexivity.
Qed.

Print Assumptions C66_validate.
Print Assumptions C66_validate_types.
Print Assumptions C66_oneisvalid.
Print Assumptions C66_oneisvalid_callable_refuted.
Print Assumptions C66_compare.
Print Assumptions C67_default.
Print Assumptions C67_transform.
Print Assumptions C67_map.
Print Assumptions C67_filter.
Print Assumptions C67_not_a_list.
Print Assumptions C67_filter_types.
Print Assumptions C67_filter_truthy_refuted.
Print Assumptions C67_at.
Print Assumptions C67_fmt.
Print Assumptions C68_when.
Print Assumptions C68_write.
Print Assumptions C68_read.
Print Assumptions C68_owner_only.
Print Assumptions C68_isobjof.
Print Assumptions C68_callable_refuted.
Print Assumptions C68_no_key_refuted.
Print Assumptions C69_opby_new.
Print Assumptions C69_opby_other.
Print Assumptions C69_validate.
Print Assumptions C69_operator_refuted.
Print Assumptions C70_onsave.
Print Assumptions C70_onwrite.
Print Assumptions C70_onupdate.
