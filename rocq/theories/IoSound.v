(** IoSound.v -- every operation of every modifier, in the logic of Sound.v: whatever
    preorder the elementary steps respect is respected by validate, transform, tojson and
    serialize, and none raises an empty validation error if no callable does. *)
From Verif Require Import Base Mon PyList PyDict OListModel ODictModel KeypathModel PyStr
  Values OGraphModel MGraphModel ChainModel TypesModel ObjModel IoModel IoBase Sound ObjSound LeafSound.
From Verif Require LeafModel.
Open Scope list_scope.

Section Manner.
Context {spk : manner}.

Lemma loud_vexc c msg : loud (vexc c msg).
Proof. loudly. Qed.

Lemma loud_last {A} (l : list A) : louder (last_of l).
Proof. unfold last_of. loudness. Qed.
Lemma loud_first {A} (l : list A) : louder (first_of l).
Proof. unfold first_of. loudness. Qed.

Section Io.
  Context (P : program) (R : world -> world -> Prop).
  Notation run_in := (run (p_ct P) (p_oeq P) (p_getter P) (p_setter P) (LeafModel.py_str (p_str P)) (p_lim P)).

  (** What the elementary steps have to respect. *)
  Record steps : Prop := {
    e_refl : forall w, R w w;
    e_trans : forall a b c, R a b -> R b c -> R a c;
    e_mg : forall m w, R w (set_mg m w);
    e_ext : forall o F w, (forall x, x_picks (F x) = x_picks x) -> R w (set_ext o F w);
    e_alloc : forall cls w, R w (snd (alloc cls w));
    e_run : forall t, sound R (liftH (run_in t));
    e_init : forall o a b v, sound R (liftH (updm o (fun x => set_lkeys (sset a b (o_lkeys x)) (set_attr a v x))));
    e_graph : forall g w, R w (set_heap (with_graph g (w_heap w)) w);
    e_getter : forall h o n, louder (p_getter P h o n);
    e_arith : forall op a b, louder (p_arith P op a b)
  }.
  Context (E : steps).
  Hypothesis call_ok : forall k f c args, k = KField \/ k = KValidate -> sound R (call P k f c args).

  Notation sound := (sound R).
  Notation refl := (e_refl E).
  Notation trans := (e_trans E).

  Lemma i_getW {A} (q : world -> A) : sound (getW q).
  Proof. intros w. split; [apply refl | apply louder_ok]. Qed.
  Lemma i_getattr o n : sound (getattr P o n).
  Proof.
    intros w. unfold getattr, liftH, ObjModel.getattr. destruct w as [h x m l]. cbn [w_heap w_ext w_mg w_log].
    destruct (ofield (p_ct P) h o n) as [f |]; [destruct (is_calc f) |]; cbn [set_heap w_ext w_mg w_log fst snd];
      (split; [apply refl |]); [apply (e_getter E) | |]; loudness.
  Qed.
  Lemma i_vid v : sound (liftH (vid (p_ct P) v)).
  Proof. intros w. unfold liftH, vid. destruct v; destruct w; cbn; (split; [apply refl |]); loudness. Qed.
  Lemma i_setattr o n v : sound (setattr P o n v).
  Proof. apply (e_run E). Qed.
  Lemma i_on_validation {A} (m : st world A) k : sound m -> (forall e, sound (k e)) -> sound (on_validation m k).
  Proof.
    intros Hm Hk. unfold on_validation.
    pose (j := fun r : res A => match r with Ok a => ret a | Err (EValidation e) => k e | Err e => throw e end).
    apply s_ext with (fun s => j (fst (m s)) (snd (m s))).
    { intros s. unfold j. destruct (m s) as [[a | []] s1]; reflexivity. }
    apply (s_try R trans m j Hm). intros [a | e] L; unfold j; [apply s_ret; exact refl |].
    pose proof (L _ eq_refl) as Le. destruct e; try (apply s_throw; [exact refl | exact Le]). apply Hk.
  Qed.
  Lemma i_on_any {A} (m : st world A) k : sound m -> sound k -> sound (on_any m k).
  Proof.
    intros Hm Hk. unfold on_any. pose (j := fun r : res A => match r with Ok a => ret a | Err _ => k end).
    apply s_ext with (fun s => j (fst (m s)) (snd (m s))).
    { intros s. unfold j. destruct (m s) as [[a | e] s1]; reflexivity. }
    apply (s_try R trans m j Hm). intros [a | e] L; unfold j; [apply s_ret; exact refl | exact Hk].
  Qed.
  Lemma i_mgraph {A} (m : st world A) : sound m -> sound (with_new_mgraph m).
  Proof.
    intros H w. unfold with_new_mgraph. destruct (H (set_mg [] w)) as [H1 H2]. destruct (m (set_mg [] w)) as [r w'].
    cbn [fst snd] in *. split; [| exact H2]. eapply trans; [apply (e_mg E) |]. eapply trans; [exact H1 | apply (e_mg E)].
  Qed.
  Lemma i_mg_step F : sound (modW (fun w => set_mg (F w) w)).
  Proof. intros w. split; [apply (e_mg E) | apply louder_ok]. Qed.
  Lemma i_collect {X} all (pre : X -> st world (option (st world unit))) l :
    (forall x, In x l -> sound (pre x)) ->
    (forall x m w w', In x l -> pre x w = (Ok (Some m), w') -> sound m) ->
    forall msgs, sound (collect all pre l msgs).
  Proof.
    induction l as [| x l IH]; intros H K msgs; cbn [collect]; [apply s_ret; exact refl |].
    assert (IH' : forall msgs, sound (collect all pre l msgs)).
    { apply IH; [intros y Hy; apply H; right; exact Hy |]. intros y m w w' Hy. apply (K y). right. exact Hy. }
    intros w. unfold bind. destruct (H x (or_introl eq_refl) w) as [H1 H2].
    destruct (pre x w) as [[[m |] | e] w'] eqn:Ep; cbn [fst snd] in *.
    - pose proof (K x m w w' (or_introl eq_refl) Ep) as Hm. destruct (Hm w') as [M1 M2].
      destruct (m w') as [[u | e] w2]; cbn [fst snd] in *.
      + destruct (IH' msgs w2). split; [eapply trans; [exact H1 | eapply trans; eassumption] | assumption].
      + assert (T : R w w2) by (eapply trans; eassumption). pose proof (M2 _ eq_refl) as L.
        destruct e; try (split; [exact T | apply louder_err, L]).
        destruct all; [| split; [exact T | apply louder_err, L]].
        destruct (IH' (receive msgs msgs0) w2). split; [eapply trans; eassumption | assumption].
    - destruct (IH' msgs w'). split; [eapply trans; eassumption | assumption].
    - split; [exact H1 | apply louder_err, (H2 _ eq_refl)].
  Qed.

  Ltac prep := first [ apply i_getW | apply i_getattr | apply i_setattr | apply i_vid | apply (e_run E)
                     | apply i_mg_step | apply (raise_collected_ok R refl) ].
  Ltac go :=
    repeat (cbn zeta;
      match goal with
      | |- sound (ret _) => apply s_ret; exact refl
      | |- sound (raise_vexc _ _) => apply s_throw; [exact refl | apply loud_vexc]
      | |- sound (throw _) => apply s_throw; [exact refl | try (loudly)]
      | |- sound (bind _ _) => apply s_bind; [exact refl | exact trans | | intros]
      | |- sound (on_validation _ _) => apply i_on_validation; [| intros]
      | |- sound (on_any _ _) => apply i_on_any
      | |- sound (with_new_mgraph _) => apply i_mgraph
      | |- sound (for_st _ _) => apply s_for; [exact refl | exact trans | intros]
      | |- sound (fold_st _ _ _) => apply s_fold; [exact refl | exact trans | intros]
      | |- sound (lift _) => apply s_lift; [exact refl | try first [apply loud_last | apply loud_first]; loudness]
      | |- sound (call _ _ _ _ _) => apply call_ok; auto; fail
      | |- sound (match ?x with _ => _ end) => destruct x
      | |- sound _ => prep
      | H : _ |- sound _ => apply H
      end).

  Lemma i_getattr_v v n : sound (getattr_v P v n).
  Proof. unfold getattr_v. go. Qed.
  Lemma i_the_obj v : sound (the_obj v).
  Proof. unfold the_obj. go. Qed.
  Lemma i_cdef_v v : sound (cdef_v P v).
  Proof. unfold cdef_v. go. apply i_the_obj. Qed.
  Lemma i_class_named c : sound (class_named P c).
  Proof. unfold class_named. go. Qed.
  Lemma i_inst_cls c : sound (inst_cls c).
  Proof. unfold inst_cls. go. Qed.
  Lemma i_named d n : sound (named d n).
  Proof. unfold named. go. Qed.
  Lemma i_ekey c k : sound (ekey P c k).
  Proof. unfold ekey. go. apply i_cdef_v. Qed.
  Lemma i_mg_has v : sound (mg_has P v).
  Proof. unfold mg_has. go. apply i_the_obj. Qed.
  Lemma i_mg_get v : sound (mg_get P v).
  Proof. unfold mg_get. go. apply i_the_obj. Qed.
  Lemma i_mg_put o : sound (mg_put P o).
  Proof. apply i_mg_step. Qed.
  Lemma i_mg_putp v o : sound (mg_putp P v o).
  Proof. apply i_mg_step. Qed.
  Lemma i_mg_getp c v : sound (mg_getp P c v).
  Proof. apply i_getW. Qed.
  Lemma i_members e : sound (members P e).
  Proof. unfold members. go. Qed.
  Lemma i_items c : sound (items_of c).
  Proof. unfold items_of. go. Qed.
  Lemma i_write_parent c v : sound (write_parent P c v).
  Proof. unfold write_parent. go. Qed.
  Lemma i_graph_put o : sound (graph_put P o).
  Proof.
    intros w. unfold graph_put, modW. cbn [fst snd]. split; [| apply louder_ok].
    destruct (g_put _ _ _ _); [apply (e_graph E) | apply refl].
  Qed.

  Ltac known := first [ apply i_the_obj | apply i_cdef_v | apply i_class_named | apply i_inst_cls | apply i_named | apply i_ekey
    | apply i_mg_has | apply i_mg_get | apply i_mg_put | apply i_mg_putp | apply i_mg_getp
    | apply i_members | apply i_items | apply i_getattr_v | apply i_write_parent | apply i_graph_put ].
  Ltac all := repeat (go; try known).

  Section Rec.
    Context (rec : mdf -> modifier value ctx world).
    Hypothesis rec_v : forall m c, sound (m_validate (rec m) c).
    Hypothesis rec_t : forall m c, sound (m_transform (rec m) c).

    Lemma in_map_rec ts v : In v (map rec ts) -> exists m, v = rec m.
    Proof. intros H. apply in_map_iff in H. destruct H as (m & <- & _). exists m. reflexivity. Qed.
    Lemma i_t_validate ts c : sound (t_validate rec ts c).
    Proof. apply chain_validate_ok; [exact refl | exact trans |]. intros v Hv c'. apply in_map_rec in Hv. destruct Hv as [m ->]. apply rec_v. Qed.
    Lemma i_t_transform ts c : sound (t_transform rec ts c).
    Proof.
      apply chain_transform_ok; [exact refl | exact trans | |]; intros v Hv c'; apply in_map_rec in Hv; destruct Hv as [m ->];
        [apply rec_v | apply rec_t].
    Qed.
    Lemma i_resolve c p : sound (resolve P rec c p).
    Proof. unfold resolve. all. apply i_t_transform. Qed.
    Lemma i_checked {A} ts c (good bad : st world A) : sound good -> sound bad -> sound (checked rec ts c good bad).
    Proof. intros H K. unfold checked. all; first [apply i_t_transform | apply i_t_validate]. Qed.

    Ltac sub := first [ apply i_t_validate | apply i_t_transform | apply i_resolve | apply i_checked ].
    Ltac alls := repeat (all; try sub).

    Lemma i_required c : sound (required_validate P c).
    Proof.
      unfold required_validate. alls.
      match goal with |- sound (fun w => match getattr P ?o ?n w with _ => _ end) =>
        pose (j := fun r : res value => match r with
          | Err EAttributeError => raise_vexc c "value required"%string
          | Err e => throw e
          | Ok v => if is_none v then raise_vexc c "value required"%string else ret tt end);
        apply s_ext with (fun s => j (fst (getattr P o n s)) (snd (getattr P o n s)));
        [ intros s; unfold j; destruct (getattr P o n s) as [[v | []] s1]; cbn [fst snd]; try reflexivity; destruct (is_none v); reflexivity |];
        apply (s_try R trans _ j); [apply i_getattr |]
      end.
      intros [v | e] L; unfold j; [all |]. pose proof (L _ eq_refl) as Le.
      destruct e; try (apply s_throw; [exact refl | exact Le]). all.
    Qed.
    Lemma i_referred c k : sound (referred P c k).
    Proof.
      unfold referred. pose (j := (fun r => match r with
        | Err EAttributeError => throw EValueError | Err e => throw e | Ok v => ret v end) : res value -> st world value).
      apply s_ext with (fun s => j (fst (getattr_v P (c_owner c) k s)) (snd (getattr_v P (c_owner c) k s))).
      { intros s. unfold j. destruct (getattr_v P (c_owner c) k s) as [[v | []] s1]; reflexivity. }
      apply (s_try R trans _ j); [apply i_getattr_v |].
      intros [v | e] L; unfold j; [all |]. pose proof (L _ eq_refl) as Le.
      destruct e; try (apply s_throw; [exact refl | exact Le]). all.
    Qed.
    Lemma i_presentwith k c : sound (presentwith_validate P k c).
    Proof. unfold presentwith_validate. alls. apply i_referred. Qed.
    Lemma i_presentwithout ks c : sound (presentwithout_validate P ks c).
    Proof.
      unfold presentwithout_validate. destruct (is_none (c_val c)); [| alls].
      induction ks as [| k ks IH]; cbn [presentwithout_loop]; alls. apply i_referred.
    Qed.
    Lemma i_oneisvalid ps c : sound (oneisvalid_loop rec ps c).
    Proof. induction ps as [| [] ps IH]; cbn [oneisvalid_loop]; alls. Qed.
    Lemma i_filter p c l : sound (filter_loop P rec p c l).
    Proof. induction l as [| v l IH]; cbn [filter_loop]; alls. Qed.
    Lemma i_map p c l : sound (map_loop P rec p c l).
    Proof. induction l as [| v l IH]; cbn [map_loop]; alls. Qed.
    Lemma i_union_transform us c : sound (union_transform_loop rec us c).
    Proof. induction us as [| u us IH]; cbn [union_transform_loop]; alls. Qed.
    Lemma i_union_validate us c : sound (union_validate_loop rec us c).
    Proof. induction us as [| u us IH]; cbn [union_validate_loop]; alls. Qed.
    Lemma i_union_out use us c : (forall ts c, sound (use ts c)) -> sound (union_out_loop rec use us c).
    Proof. intros H. induction us as [| u us IH]; cbn [union_out_loop]; alls. Qed.

    Lemma i_col_validate d c : sound (col_validate P rec d c).
    Proof.
      unfold col_validate. alls; (apply i_collect; [intros; alls |]);
        intros x m w w' _ H; unfold bind, items_of in H; destruct (item_types (c_fdef c)); inversion H; alls.
    Qed.
    Lemma i_local_key_op o f b k : sound (local_key_op P o f b k).
    Proof. unfold local_key_op. alls. Qed.
    Lemma i_link_key_op o f b k : sound (link_key_op o f b k).
    Proof. unfold link_key_op. intros w. split; [| apply louder_ok]. apply (e_ext E). intros x. destruct b; reflexivity. Qed.
    Lemma i_special c v : sound (special_handle P c v).
    Proof. unfold special_handle. destruct (fstore_eqb _ _); alls; first [apply i_local_key_op | apply i_link_key_op]. Qed.
    Lemma i_col_item use c v ts acc kv : (forall ts c, sound (use ts c)) -> sound (col_item P use c v ts acc kv).
    Proof. intros H. unfold col_item. alls. Qed.
    Lemma i_col_out use d c : (forall ts c, sound (use ts c)) -> sound (col_out P use d c).
    Proof. intros H. unfold col_out. alls; apply i_col_item, H. Qed.
    Lemma i_col_transform d c : sound (col_transform P rec d c).
    Proof. unfold col_transform. alls; first [apply i_special | apply i_col_item; intros; apply i_t_transform]. Qed.

    Lemma i_field_check c o b l f : sound (field_check P rec c o b l f).
    Proof. unfold field_check. alls. Qed.
    Lemma i_field_check_in c o b l f w m w' : field_check P rec c o b l f w = (Ok (Some m), w') -> sound m.
    Proof.
      unfold field_check. intros H. apply bind_ok in H. destruct H as (cls & w1 & _ & H).
      apply bind_ok in H. destruct H as (v & w2 & _ & H). revert H.
      destruct (_ && _ && _)%bool; intros H; inversion H. alls.
    Qed.
    Lemma i_inst_validate c : sound (inst_validate P rec c).
    Proof.
      unfold inst_validate. alls; (apply i_collect; [intros; apply i_field_check | intros ? ? ? ? _ H; apply i_field_check_in in H; exact H]).
    Qed.
    Lemma i_fill_default f o c : sound (fill_default P rec f o c).
    Proof. unfold fill_default. alls. Qed.
    Lemma i_init_field o f : sound (init_field P o f).
    Proof. unfold init_field. alls; apply (e_init E). Qed.
    Lemma i_set_with tr o kw b : (forall c, sound (tr c)) -> sound (set_with tr o kw b).
    Proof. intros H. unfold set_with. alls. Qed.
    Lemma i_create tr cls kw : (forall c, sound (tr c)) -> sound (create P tr cls kw).
    Proof.
      intros H. unfold create. alls; try apply i_init_field; try (apply i_set_with; exact H).
      intros w. pose proof (e_alloc E cls w) as A. destruct (alloc cls w) as [o w']. split; [exact A | apply louder_ok].
    Qed.
    Lemma i_new_default cls : sound (new_default P rec cls).
    Proof. unfold new_default. alls. apply i_create. intros. apply rec_t. Qed.
    Lemma i_find_dest c cls d m : sound (find_dest P rec c cls d m).
    Proof. unfold find_dest. alls; apply i_new_default. Qed.
    Lemma i_absent c m o b f acc : sound (absent_field P rec c m o b f acc).
    Proof. unfold absent_field. alls; apply i_fill_default. Qed.
    Lemma i_may_write o f v : sound (may_write P o f v).
    Proof. unfold may_write. alls. Qed.
    Lemma i_fill_field c m o b acc f : sound (fill_field P rec c m o b acc f).
    Proof. unfold fill_field. alls; first [apply i_fill_default | apply i_may_write | apply i_absent]. Qed.
    Lemma i_strictness c d ks : sound (strictness_check c d ks).
    Proof. unfold strictness_check. alls. Qed.
    Lemma i_inst_transform c : sound (inst_transform P rec c).
    Proof.
      unfold inst_transform. alls; first [apply i_find_dest | apply i_strictness | apply i_fill_field].
    Qed.

    Lemma i_validate_of m c : sound (validate_of P rec m c).
    Proof.
      destruct m; cbn [validate_of]; alls;
        unfold present_validate, validate_validate, compare_validate, enum_validate, union_validate, canw_validate,
          isthis_validate, isobjof_validate, asop_validate;
        try (alls; first [ apply i_inst_validate | apply i_col_validate | apply i_union_validate | apply i_required
           | apply i_presentwith | apply i_presentwithout | apply i_oneisvalid ]; fail); alls.
      apply (s_get R (leaf_oeq P) (fun q => LeafModel.leaf_validate q (resolve P rec c) (vexc c) l (c_val c))).
      intros q. apply leaf_validate_ok; [exact refl | exact trans | intros; apply loud_vexc | intros; apply i_resolve].
    Qed.
    Lemma i_transform_of m c : sound (transform_of P rec m c).
    Proof.
      destruct m; cbn [transform_of]; try (apply s_ret; exact refl);
        unfold default_transform, transform_transform, filter_transform, map_transform, at_transform, enum_transform, union_transform.
      - apply leaf_transform_ok; [exact refl | exact trans | apply (e_arith E) | intros; apply loud_vexc | intros; apply i_resolve].
      - apply i_inst_transform.
      - apply i_col_transform.
      - apply i_col_transform.
      - alls; apply i_union_transform.
      - alls.
      - alls.
      - alls.
      - alls; apply i_filter.
      - alls; apply i_map.
      - alls.
    Qed.

    Section Json.
      Hypothesis rec_j : forall m c, sound (m_tojson (rec m) c).
      Lemma i_t_tojson ts c : sound (t_tojson rec ts c).
      Proof.
        apply chain_tojson_ok; [exact refl | exact trans |]. intros v Hv c'. apply in_map_rec in Hv. destruct Hv as [m ->]. apply rec_j.
      Qed.
      Lemma i_json_field c o b acc f : sound (json_field P rec c o b acc f).
      Proof. unfold json_field. alls; apply i_t_tojson. Qed.
      Lemma i_tojson_of m c : sound (tojson_of P rec m c).
      Proof.
        destruct m; cbn [tojson_of]; try (apply s_ret; exact refl).
        - apply leaf_tojson_ok; exact refl.
        - unfold inst_tojson. alls; apply i_json_field.
        - apply i_col_out, i_t_tojson.
        - apply i_col_out, i_t_tojson.
        - unfold union_out. alls; apply i_union_out, i_t_tojson.
        - unfold enum_tojson. alls.
        - unfold fmt_tojson. alls.
        - unfold canr_tojson. alls.
      Qed.
    End Json.

    Section Save.
      Hypothesis call_save : forall f c args, sound (call P KSave f c args).
      Hypothesis rec_s : forall m c, sound (m_serialize (rec m) c).
      Lemma i_t_serialize ts c : sound (t_serialize P rec ts c).
      Proof.
        apply chain_serialize_ok; [exact refl | exact trans | | | intros; apply i_write_parent];
          intros v Hv c'; apply in_map_rec in Hv; destruct Hv as [m ->]; [apply rec_v | apply rec_s].
      Qed.
      Lemma i_save_field c o b f : sound (save_field P rec c o b f).
      Proof. unfold save_field. alls; apply i_t_serialize. Qed.
      Lemma i_serialize_of m c : sound (serialize_of P rec m c).
      Proof.
        destruct m; cbn [serialize_of]; unfold setonsave_serialize, onsave_serialize, onwrite_serialize, onupdate_serialize, union_out;
          try (alls; try (apply call_save); fail).
        - unfold inst_serialize. alls; apply i_save_field.
        - apply i_col_out, i_t_serialize.
        - apply i_col_out, i_t_serialize.
        - alls; apply i_union_out, i_t_serialize.
      Qed.
    End Save.
  End Rec.

  Lemma interp_ok n : speak <> Ending -> forall m c,
    sound (m_validate (interp P n m) c) /\ sound (m_transform (interp P n m) c) /\ sound (m_tojson (interp P n m) c).
  Proof.
    intros noend. induction n as [| n IH]; intros m c; cbn [interp modif_of m_validate m_transform m_tojson].
    - assert (L : loud ERecursion) by (split; [intros _; discriminate | intros X; contradiction (noend X)]).
      split; [| split]; (apply s_throw; [exact refl | exact L]).
    - assert (V : forall m c, sound (m_validate (interp P n m) c)) by (intros; apply IH).
      assert (T : forall m c, sound (m_transform (interp P n m) c)) by (intros; apply IH).
      assert (J : forall m c, sound (m_tojson (interp P n m) c)) by (intros; apply IH).
      split; [apply i_validate_of; assumption | split; [apply i_transform_of; assumption | apply i_tojson_of; assumption]].
  Qed.
  Lemma interp_save_ok n : speak <> Ending -> (forall f c args, sound (call P KSave f c args)) -> forall m c, sound (m_serialize (interp P n m) c).
  Proof.
    intros noend K. induction n as [| n IH]; intros m c; cbn [interp modif_of m_serialize].
    - apply s_throw; [exact refl | split; [intros _; discriminate | intros X; contradiction (noend X)]].
    - apply i_serialize_of; try assumption; intros; apply (interp_ok n noend).
  Qed.
End Io.
End Manner.
