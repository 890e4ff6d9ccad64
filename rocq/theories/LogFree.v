(** LogFree.v -- no computation of the library looks at the log of observable events, which is
    a device of the model: the same call, after other events, gives the same result and does
    the same.  Lemmas for C91. *)
From Verif Require Import Base Mon PyList PyDict OListModel ODictModel KeypathModel PyStr
  Values OGraphModel MGraphModel ChainModel TypesModel ObjModel IoModel IoBase LeafSound.
From Verif Require LeafModel.
Open Scope list_scope.

(** The world after the events [l] and then those of [w] *)
Definition after (l : list event) (w : world) : world :=
  {| w_heap := w_heap w; w_ext := w_ext w; w_mg := w_mg w; w_log := l ++ w_log w |}.
Definition lf {A} (m : st world A) : Prop := forall l w, m (after l w) = (fst (m w), after l (snd (m w))).

Lemma lf_ret {A} (a : A) : lf (ret a).
Proof. intros l w. reflexivity. Qed.
Lemma lf_throw {A} e : lf (throw (A := A) e).
Proof. intros l w. reflexivity. Qed.
Lemma lf_lift {A} (r : res A) : lf (lift r).
Proof. intros l w. reflexivity. Qed.
Lemma lf_getW {A} (q : world -> A) : (forall l w, q (after l w) = q w) -> lf (getW q).
Proof. intros H l w. unfold getW. rewrite H. reflexivity. Qed.
Lemma lf_modW F : (forall l w, F (after l w) = after l (F w)) -> lf (modW F).
Proof. intros H l w. unfold modW. rewrite H. reflexivity. Qed.
Lemma lf_liftH {A} (m : st heap A) : lf (liftH m).
Proof. intros l w. unfold liftH. cbn [after w_heap]. destruct (m (w_heap w)) as [r h]. reflexivity. Qed.
Lemma lf_ext {A} (m m' : st world A) : (forall w, m w = m' w) -> lf m' -> lf m.
Proof. intros E H l w. rewrite !E. apply H. Qed.
Lemma lf_try {A B} (m : st world A) (k : res A -> st world B) :
  lf m -> (forall r, lf (k r)) -> lf (fun w => k (fst (m w)) (snd (m w))).
Proof. intros Hm Hk l w. cbv beta. rewrite Hm. cbn [fst snd]. apply Hk. Qed.
Lemma lf_get {A B} (q : world -> A) (k : A -> st world B) : (forall l w, q (after l w) = q w) -> (forall a, lf (k a)) -> lf (fun w => k (q w) w).
Proof. intros Q H l w. cbv beta. rewrite Q. apply H. Qed.
Lemma lf_bind {A B} (m : st world A) (k : A -> st world B) : lf m -> (forall a, lf (k a)) -> lf (bind m k).
Proof.
  intros Hm Hk l w. unfold bind. rewrite Hm. destruct (m w) as [[a | e] w1]; cbn [fst snd]; [apply Hk | reflexivity].
Qed.
Lemma lf_for {A} (l : list A) (f : A -> st world unit) : (forall x, lf (f x)) -> lf (for_st l f).
Proof. intros H. induction l as [| x l IH]; cbn [for_st]; [apply lf_ret |]. apply lf_bind; [apply H | intros _; apply IH]. Qed.
Lemma lf_fold {A B} (f : B -> A -> st world B) (l : list A) : (forall b x, In x l -> lf (f b x)) -> forall b, lf (fold_st f l b).
Proof.
  induction l as [| x l IH]; intros H b; cbn [fold_st]; [apply lf_ret |].
  apply lf_bind; [apply H; left; reflexivity | intros b'; apply IH; intros; apply H; right; assumption].
Qed.
Lemma lf_on_validation {A} (m : st world A) k : lf m -> (forall e, lf (k e)) -> lf (on_validation m k).
Proof.
  intros Hm Hk l w. unfold on_validation. rewrite Hm. destruct (m w) as [[a | []] w1]; cbn [fst snd]; try reflexivity. apply Hk.
Qed.
Lemma lf_on_any {A} (m : st world A) k : lf m -> lf k -> lf (on_any m k).
Proof.
  intros Hm Hk l w. unfold on_any. rewrite Hm. destruct (m w) as [[a | e] w1]; cbn [fst snd]; try reflexivity. apply Hk.
Qed.
Lemma lf_mgraph {A} (m : st world A) : lf m -> lf (with_new_mgraph m).
Proof.
  intros H l w. unfold with_new_mgraph. change (set_mg [] (after l w)) with (after l (set_mg [] w)). rewrite H.
  destruct (m (set_mg [] w)) as [r w1]. reflexivity.
Qed.
Lemma lf_collect {X} all (pre : X -> st world (option (st world unit))) l :
  (forall x, In x l -> lf (pre x)) ->
  (forall x m w w', In x l -> pre x w = (Ok (Some m), w') -> lf m) ->
  forall msgs, lf (collect all pre l msgs).
Proof.
  induction l as [| x l IH]; intros H K msgs; cbn [collect]; [apply lf_ret |].
  assert (IH' : forall msgs, lf (collect all pre l msgs)).
  { apply IH; [intros y Hy; apply H; right; exact Hy |]. intros y m w w' Hy. apply (K y). right. exact Hy. }
  intros lg w. unfold bind. rewrite (H x (or_introl eq_refl)).
  destruct (pre x w) as [[[m |] | e] w'] eqn:Ep; cbn [fst snd]; [| apply IH' | reflexivity].
  rewrite (K x m w w' (or_introl eq_refl) Ep). destruct (m w') as [[u | []] w2]; cbn [fst snd]; try reflexivity; [apply IH' |].
  destruct all; [apply IH' | reflexivity].
Qed.
Lemma lf_raise msgs : lf (raise_collected msgs).
Proof. destruct msgs; [apply lf_ret | apply lf_throw]. Qed.

Section Chain.
  Context {V C : Type} (cval : C -> V) (nval : C -> V -> C) (all_fields : C -> bool).
  Notation modif := (modifier V C world).
  Implicit Types vs : list modif.
  Lemma lf_validate_loop vs c : (forall v, In v vs -> forall c, lf (m_validate v c)) -> forall msgs, lf (chain_validate_loop all_fields vs c msgs).
  Proof.
    intros H. induction vs as [| v vs IH]; intros msgs; cbn [chain_validate_loop]; [apply lf_ret |].
    assert (IH' : forall msgs, lf (chain_validate_loop all_fields vs c msgs)) by (apply IH; intros x Hx; apply H; right; exact Hx).
    intros l w. rewrite (H v (or_introl eq_refl)). destruct (m_validate v c w) as [[a | []] w1]; cbn [fst snd]; try reflexivity; [apply IH' |].
    destruct (all_fields c); [apply IH' | reflexivity].
  Qed.
  Lemma lf_chain_validate vs c : (forall v, In v vs -> forall c, lf (m_validate v c)) -> lf (chain_validate all_fields vs c).
  Proof.
    intros H. unfold chain_validate. apply lf_bind; [| intros; apply lf_raise]. apply lf_validate_loop. intros v Hv. apply H, nvs_in, Hv.
  Qed.
  Lemma lf_chain_transform vs c : (forall v, In v vs -> forall c, lf (m_validate v c)) ->
    (forall v, In v vs -> forall c, lf (m_transform v c)) -> lf (chain_transform cval nval vs c).
  Proof.
    intros H K. unfold chain_transform. apply lf_bind; [| intros v1]; apply lf_fold; intros b v Hv.
    - unfold vt. apply lf_bind; [apply K, tvs_in, Hv | intros a]. apply lf_bind; [apply H, tvs_in, Hv | intros; apply lf_ret].
    - apply K, nvs_in, Hv.
  Qed.
  Lemma lf_chain_tojson vs c : (forall v, In v vs -> forall c, lf (m_tojson v c)) -> lf (chain_tojson cval nval vs c).
  Proof. intros H. unfold chain_tojson. apply lf_fold. intros b v Hv. apply H, Hv. Qed.
End Chain.

Section Leaf.
  Import LeafModel.
  Context {P : Type} (oeq : oid -> oid -> bool) (other_str : value -> string)
          (farith : arith -> value -> value -> res value) (resolve : P -> st world value) (vexc : string -> exn).
  Hypothesis H : forall p, lf (resolve p).
  Ltac go :=
    repeat (cbn zeta;
      match goal with
      | |- lf (ret _) => apply lf_ret
      | |- lf (throw _) => apply lf_throw
      | |- lf (fail _ _) => apply lf_throw
      | |- lf (bind _ _) => apply lf_bind; [| intros]
      | |- lf (resolve _) => apply H
      | |- lf (lift _) => apply lf_lift
      | |- lf (match ?x with _ => _ end) => destruct x
      end).
  Lemma lf_leaf_validate l v : lf (leaf_validate oeq resolve vexc l v).
  Proof.
    destruct l; cbn [leaf_validate];
      unfold v_min, v_max, v_range, v_gt, v_lt, v_positive, v_negative, v_nonpositive, v_nonnegative, v_even, v_odd,
        v_length, v_minlength, v_maxlength, v_oneof, v_eq, v_neq, v_hasprefix, v_hassuffix, v_isprefixof, v_issuffixof,
        v_chars, v_type, v_before, v_after, const_check, bound_check; go.
  Qed.
  Lemma lf_leaf_transform l v : lf (leaf_transform other_str farith resolve vexc l v).
  Proof.
    destruct l; cbn [leaf_transform];
      unfold t_lowerbond, t_upperbond, t_arith, t_truncate, t_padstart, t_padend, t_append, t_prepend, t_insertat,
        t_split, t_join, t_replace, t_type; go.
  Qed.
  Lemma lf_leaf_tojson l v : lf (@leaf_tojson world P l v).
  Proof. destruct l; cbn [leaf_tojson]; go. Qed.
End Leaf.

Section Io.
  Context (P : program).
  Lemma l_call k f c args : lf (call P k f c args).
  Proof.
    unfold call. apply lf_bind; [| intros; apply lf_liftH]. apply lf_modW. intros l w. unfold add_log, after. cbn. rewrite app_assoc. reflexivity.
  Qed.
  Ltac go :=
    repeat (cbn zeta;
      match goal with
      | |- lf (ret _) => apply lf_ret
      | |- lf (raise_vexc _ _) => apply lf_throw
      | |- lf (throw _) => apply lf_throw
      | |- lf (bind _ _) => apply lf_bind; [| intros]
      | |- lf (on_validation _ _) => apply lf_on_validation; [| intros]
      | |- lf (on_any _ _) => apply lf_on_any
      | |- lf (with_new_mgraph _) => apply lf_mgraph
      | |- lf (for_st _ _) => apply lf_for; intros
      | |- lf (fold_st _ _ _) => apply lf_fold; intros
      | |- lf (lift _) => apply lf_lift
      | |- lf (liftH _) => apply lf_liftH
      | |- lf (getattr _ _ _) => apply lf_liftH
      | |- lf (setattr _ _ _ _) => apply lf_liftH
      | |- lf (call _ _ _ _ _) => apply l_call
      | |- lf (raise_collected _) => apply lf_raise
      | |- lf (getW _) => apply lf_getW; intros; reflexivity
      | |- lf (modW _) => apply lf_modW; intros; reflexivity
      | |- lf (match ?x with _ => _ end) => destruct x
      | H : _ |- lf _ => apply H
      end).

  Lemma l_getattr_v v n : lf (getattr_v P v n).
  Proof. unfold getattr_v. go. Qed.
  Lemma l_the_obj v : lf (the_obj v).
  Proof. unfold the_obj. go. Qed.
  Lemma l_cdef_v v : lf (cdef_v P v).
  Proof. unfold cdef_v. go. apply l_the_obj. Qed.
  Lemma l_class_named c : lf (class_named P c).
  Proof. unfold class_named. go. Qed.
  Lemma l_inst_cls c : lf (inst_cls c).
  Proof. unfold inst_cls. go. Qed.
  Lemma l_named d n : lf (named d n).
  Proof. unfold named. go. Qed.
  Lemma l_ekey c k : lf (ekey P c k).
  Proof. unfold ekey. go. apply l_cdef_v. Qed.
  Lemma l_mg_has v : lf (mg_has P v).
  Proof. unfold mg_has. go. apply l_the_obj. Qed.
  Lemma l_mg_get v : lf (mg_get P v).
  Proof. unfold mg_get. go. apply l_the_obj. Qed.
  Lemma l_mg_put o : lf (mg_put P o).
  Proof. apply lf_modW; intros; reflexivity. Qed.
  Lemma l_mg_putp v o : lf (mg_putp P v o).
  Proof. apply lf_modW; intros; reflexivity. Qed.
  Lemma l_mg_getp c v : lf (mg_getp P c v).
  Proof. apply lf_getW; intros; reflexivity. Qed.
  Lemma l_members e : lf (members P e).
  Proof. unfold members. go. Qed.
  Lemma l_items c : lf (items_of c).
  Proof. unfold items_of. go. Qed.
  Lemma l_write_parent c v : lf (write_parent P c v).
  Proof. unfold write_parent. go. Qed.
  Lemma l_graph_put o : lf (graph_put P o).
  Proof.
    apply lf_modW. intros l w. cbv beta zeta.
    change (cname_of (after l w)) with (cname_of w). change (pk_of P (after l w)) with (pk_of P w). change (w_heap (after l w)) with (w_heap w).
    destruct (g_put _ _ _ _); reflexivity.
  Qed.

  Ltac known := first [ apply l_the_obj | apply l_cdef_v | apply l_class_named | apply l_inst_cls | apply l_named | apply l_ekey
    | apply l_mg_has | apply l_mg_get | apply l_mg_put | apply l_mg_putp | apply l_mg_getp
    | apply l_members | apply l_items | apply l_getattr_v | apply l_write_parent | apply l_graph_put ].
  Ltac all := repeat (go; try known).

  Section Rec.
    Context (rec : mdf -> modifier value ctx world).
    Hypothesis rec_v : forall m c, lf (m_validate (rec m) c).
    Hypothesis rec_t : forall m c, lf (m_transform (rec m) c).

    Lemma in_map_rec ts v : In v (map rec ts) -> exists m, v = rec m.
    Proof. intros H. apply in_map_iff in H. destruct H as (m & <- & _). exists m. reflexivity. Qed.
    Lemma l_t_validate ts c : lf (t_validate rec ts c).
    Proof. apply lf_chain_validate. intros v Hv c'. apply in_map_rec in Hv. destruct Hv as [m ->]. apply rec_v. Qed.
    Lemma l_t_transform ts c : lf (t_transform rec ts c).
    Proof.
      apply lf_chain_transform; intros v Hv c'; apply in_map_rec in Hv; destruct Hv as [m ->];
        [apply rec_v | apply rec_t].
    Qed.
    Lemma l_resolve c p : lf (resolve P rec c p).
    Proof. unfold resolve. all. apply l_t_transform. Qed.
    Lemma l_checked {A} ts c (good bad : st world A) : lf good -> lf bad -> lf (checked rec ts c good bad).
    Proof. intros H K. unfold checked. all; first [apply l_t_transform | apply l_t_validate]. Qed.

    Ltac sub := first [ apply l_t_validate | apply l_t_transform | apply l_resolve | apply l_checked ].
    Ltac alls := repeat (all; try sub).

    Lemma l_required c : lf (required_validate P c).
    Proof.
      unfold required_validate. alls.
      match goal with |- lf (fun w => match getattr P ?o ?n w with _ => _ end) =>
        pose (j := fun r : res value => match r with
          | Err EAttributeError => raise_vexc c "value required"%string
          | Err e => throw e
          | Ok v => if is_none v then raise_vexc c "value required"%string else ret tt end);
        apply lf_ext with (fun s => j (fst (getattr P o n s)) (snd (getattr P o n s)));
        [ intros s; unfold j; destruct (getattr P o n s) as [[v | []] s1]; cbn [fst snd]; try reflexivity; destruct (is_none v); reflexivity |];
        apply (lf_try _ j); [apply lf_liftH |]
      end.
      intros [v | e]; unfold j; all.
    Qed.
    Lemma l_referred c k : lf (referred P c k).
    Proof.
      unfold referred. pose (j := (fun r => match r with
        | Err EAttributeError => throw EValueError | Err e => throw e | Ok v => ret v end) : res value -> st world value).
      apply lf_ext with (fun s => j (fst (getattr_v P (c_owner c) k s)) (snd (getattr_v P (c_owner c) k s))).
      { intros s. unfold j. destruct (getattr_v P (c_owner c) k s) as [[v | []] s1]; reflexivity. }
      apply (lf_try _ j); [apply l_getattr_v |].
      intros [v | e]; unfold j; all.
    Qed.
    Lemma l_presentwith k c : lf (presentwith_validate P k c).
    Proof. unfold presentwith_validate. alls. apply l_referred. Qed.
    Lemma l_presentwithout ks c : lf (presentwithout_validate P ks c).
    Proof.
      unfold presentwithout_validate. destruct (is_none (c_val c)); [| alls].
      induction ks as [| k ks IH]; cbn [presentwithout_loop]; alls. apply l_referred.
    Qed.
    Lemma l_oneisvalid ps c : lf (oneisvalid_loop rec ps c).
    Proof. induction ps as [| [] ps IH]; cbn [oneisvalid_loop]; alls. Qed.
    Lemma l_filter p c l : lf (filter_loop P rec p c l).
    Proof. induction l as [| v l IH]; cbn [filter_loop]; alls. Qed.
    Lemma l_map p c l : lf (map_loop P rec p c l).
    Proof. induction l as [| v l IH]; cbn [map_loop]; alls. Qed.
    Lemma l_union_transform us c : lf (union_transform_loop rec us c).
    Proof. induction us as [| u us IH]; cbn [union_transform_loop]; alls. Qed.
    Lemma l_union_validate us c : lf (union_validate_loop rec us c).
    Proof. induction us as [| u us IH]; cbn [union_validate_loop]; alls. Qed.
    Lemma l_union_out use us c : (forall ts c, lf (use ts c)) -> lf (union_out_loop rec use us c).
    Proof. intros H. induction us as [| u us IH]; cbn [union_out_loop]; alls. Qed.

    Lemma l_col_validate d c : lf (col_validate P rec d c).
    Proof.
      unfold col_validate. alls; (apply lf_collect; [intros; alls |]);
        intros x m w w' _ H; unfold bind, items_of in H; destruct (item_types (c_fdef c)); inversion H; alls.
    Qed.
    Lemma l_local_key_op o f b k : lf (local_key_op P o f b k).
    Proof. unfold local_key_op. alls. Qed.
    Lemma l_link_key_op o f b k : lf (link_key_op o f b k).
    Proof. apply lf_modW. intros l w. reflexivity. Qed.
    Lemma l_special c v : lf (special_handle P c v).
    Proof. unfold special_handle. destruct (fstore_eqb _ _); alls; first [apply l_local_key_op | apply l_link_key_op]. Qed.
    Lemma l_col_item use c v ts acc kv : (forall ts c, lf (use ts c)) -> lf (col_item P use c v ts acc kv).
    Proof. intros H. unfold col_item. alls. Qed.
    Lemma l_col_out use d c : (forall ts c, lf (use ts c)) -> lf (col_out P use d c).
    Proof. intros H. unfold col_out. alls; apply l_col_item, H. Qed.
    Lemma l_col_transform d c : lf (col_transform P rec d c).
    Proof. unfold col_transform. alls; first [apply l_special | apply l_col_item; intros; apply l_t_transform]. Qed.

    Lemma l_field_check c o b l f : lf (field_check P rec c o b l f).
    Proof. unfold field_check. alls. Qed.
    Lemma l_field_check_in c o b l f w m w' : field_check P rec c o b l f w = (Ok (Some m), w') -> lf m.
    Proof.
      unfold field_check. intros H. apply bind_ok in H. destruct H as (cls & w1 & _ & H).
      apply bind_ok in H. destruct H as (v & w2 & _ & H). revert H.
      destruct (_ && _ && _)%bool; intros H; inversion H. alls.
    Qed.
    Lemma l_inst_validate c : lf (inst_validate P rec c).
    Proof.
      unfold inst_validate. alls; (apply lf_collect; [intros; apply l_field_check | intros ? ? ? ? _ H; apply l_field_check_in in H; exact H]).
    Qed.
    Lemma l_fill_default f o c : lf (fill_default P rec f o c).
    Proof. unfold fill_default. alls. Qed.
    Lemma l_init_field o f : lf (init_field P o f).
    Proof. unfold init_field. alls; apply lf_liftH. Qed.
    Lemma l_set_with tr o kw b : (forall c, lf (tr c)) -> lf (set_with tr o kw b).
    Proof. intros H. unfold set_with. alls. Qed.
    Lemma l_create tr cls kw : (forall c, lf (tr c)) -> lf (create P tr cls kw).
    Proof.
      intros H. unfold create. alls; try apply l_init_field; try (apply l_set_with; exact H).
      intros l w. reflexivity.
    Qed.
    Lemma l_new_default cls : lf (new_default P rec cls).
    Proof. unfold new_default. alls. apply l_create. intros. apply rec_t. Qed.
    Lemma l_find_dest c cls d m : lf (find_dest P rec c cls d m).
    Proof. unfold find_dest. alls; apply l_new_default. Qed.
    Lemma l_absent c m o b f acc : lf (absent_field P rec c m o b f acc).
    Proof. unfold absent_field. alls; apply l_fill_default. Qed.
    Lemma l_may_write o f v : lf (may_write P o f v).
    Proof. unfold may_write. alls. Qed.
    Lemma l_fill_field c m o b acc f : lf (fill_field P rec c m o b acc f).
    Proof. unfold fill_field. alls; first [apply l_fill_default | apply l_may_write | apply l_absent]. Qed.
    Lemma l_strictness c d ks : lf (strictness_check c d ks).
    Proof. unfold strictness_check. alls. Qed.
    Lemma l_inst_transform c : lf (inst_transform P rec c).
    Proof.
      unfold inst_transform. alls; first [apply l_find_dest | apply l_strictness | apply l_fill_field].
    Qed.

    Lemma l_validate_of m c : lf (validate_of P rec m c).
    Proof.
      destruct m; cbn [validate_of]; alls;
        unfold present_validate, validate_validate, compare_validate, enum_validate, union_validate, canw_validate,
          isthis_validate, isobjof_validate, asop_validate;
        try (alls; first [ apply l_inst_validate | apply l_col_validate | apply l_union_validate | apply l_required
           | apply l_presentwith | apply l_presentwithout | apply l_oneisvalid ]; fail); alls.
      apply (lf_get (leaf_oeq P) (fun q => LeafModel.leaf_validate q (resolve P rec c) (vexc c) l (c_val c))); [reflexivity |].
      intros q. apply lf_leaf_validate. intros; apply l_resolve.
    Qed.
    Lemma l_transform_of m c : lf (transform_of P rec m c).
    Proof.
      destruct m; cbn [transform_of]; try (apply lf_ret);
        unfold default_transform, transform_transform, filter_transform, map_transform, at_transform, enum_transform, union_transform.
      - apply lf_leaf_transform; intros; apply l_resolve.
      - apply l_inst_transform.
      - apply l_col_transform.
      - apply l_col_transform.
      - alls; apply l_union_transform.
      - alls.
      - alls.
      - alls.
      - alls; apply l_filter.
      - alls; apply l_map.
      - alls.
    Qed.

    Section Json.
      Hypothesis rec_j : forall m c, lf (m_tojson (rec m) c).
      Lemma l_t_tojson ts c : lf (t_tojson rec ts c).
      Proof.
        apply lf_chain_tojson. intros v Hv c'. apply in_map_rec in Hv. destruct Hv as [m ->]. apply rec_j.
      Qed.
      Lemma l_json_field c o b acc f : lf (json_field P rec c o b acc f).
      Proof. unfold json_field. alls; apply l_t_tojson. Qed.
      Lemma l_tojson_of m c : lf (tojson_of P rec m c).
      Proof.
        destruct m; cbn [tojson_of]; try (apply lf_ret).
        - apply lf_leaf_tojson.
        - unfold inst_tojson. alls; apply l_json_field.
        - apply l_col_out, l_t_tojson.
        - apply l_col_out, l_t_tojson.
        - unfold union_out. alls; apply l_union_out, l_t_tojson.
        - unfold enum_tojson. alls.
        - unfold fmt_tojson. alls.
        - unfold canr_tojson. alls.
      Qed.
    End Json.

  End Rec.

  Lemma l_interp n : forall m c,
    lf (m_validate (interp P n m) c) /\ lf (m_transform (interp P n m) c) /\ lf (m_tojson (interp P n m) c).
  Proof.
    induction n as [| n IH]; intros m c; cbn [interp modif_of m_validate m_transform m_tojson].
    - split; [| split]; apply lf_throw.
    - assert (V : forall m c, lf (m_validate (interp P n m) c)) by (intros; apply IH).
      assert (T : forall m c, lf (m_transform (interp P n m) c)) by (intros; apply IH).
      assert (J : forall m c, lf (m_tojson (interp P n m) c)) by (intros; apply IH).
      split; [apply l_validate_of; assumption | split; [apply l_transform_of; assumption | apply l_tojson_of; assumption]].
  Qed.
End Io.
