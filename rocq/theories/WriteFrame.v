(** WriteFrame.v -- assigning to attributes and changing collections leaves every other
    data attribute alone. *)
From Verif Require Import Base Mon PyList PyDict OListModel ODictModel KeypathModel Values OGraphModel TypesModel ObjModel ObjSpec ObjTrack
  IoModel IoBase Sound ObjSound TameSpec Keep WriteSpec.
From Verif Require LeafModel.
Open Scope list_scope.

Section Frame.
  Context (P : program) (x : oid) (k : string) (A : option value -> Prop) (cls : string) (fresh : bool).
  Hypothesis ON : own_name P k.
  Hypothesis CS : considerate P x k.
  Hypothesis CN : fresh = true -> newborn P x.
  Instance frame_mode : manner := Silent.
  Notation ct := (p_ct P).
  Notation oeq := (p_oeq P).
  Notation getter := (p_getter P).
  Notation setter := (p_setter P).
  Notation pystr := (LeafModel.py_str (p_str P)).

  Record held (h : heap) : Prop := {
    he_attr : A (attr h x k);
    he_class : o_class (h_obj h x) = cls;
    he_keys : forall lab, sget lab (o_lkeys (h_obj h x)) <> Some k;
    he_label : sget k (o_lkeys (h_obj h x)) = None;
    he_next : (x < h_next h)%nat;
    he_new : fresh = true -> o_new (h_obj h x) = true /\ o_modified (h_obj h x) = false
  }.
  Notation keeps := (Keep.keeps held).

  Lemma silent_any {T} (r : res T) : louder r.
  Proof. intros e _. split; discriminate. Qed.
  Lemma f_pure {T} (m : st heap T) : (forall h, snd (m h) = h) -> keeps m.
  Proof. intros E h H. rewrite E. split; [exact H | apply silent_any]. Qed.
  Lemma f_gets {T} (q : heap -> T) : keeps (gets q).
  Proof. apply f_pure. reflexivity. Qed.
  Lemma f_getW {T U} (q : heap -> T) (m : T -> st heap U) : (forall h, held h -> keeps (m (q h))) -> keeps (bind (gets q) m).
  Proof. intros H h Hh. apply (H h Hh h Hh). Qed.
  Lemma held_leaves h h' : leaves x k h h' -> (fresh = true -> stays_new x h h') -> held h -> held h'.
  Proof.
    intros (L1 & L2 & L3 & L4) L5 [H1 H2 H3 H4 H5 H6]. constructor; [rewrite L1 | rewrite L2 | rewrite L3 | rewrite L3 | apply L4 |]; try assumption.
    intros E. destruct (H6 E). apply L5; assumption.
  Qed.
  Definition tidy (F : obj -> obj) (b : obj) : Prop :=
    o_class (F b) = o_class b /\ o_lkeys (F b) = o_lkeys b /\ o_attr (F b) k = o_attr b k /\
    (o_new b = true -> o_modified b = false -> o_new (F b) = true /\ o_modified (F b) = false).
  Lemma held_upd o F h : held h -> (o = x -> forall b, tidy F b) -> held (upd o F h).
  Proof.
    intros H E. apply held_leaves with h; [| | exact H].
    - unfold leaves, attr, upd. cbn [h_obj h_next].
      destruct (Nat.eqb_spec x o) as [<- | N]; [| repeat split; auto].
      destruct (E eq_refl (h_obj h x)) as (E1 & E2 & E3 & E4). repeat split; auto.
    - intros _. unfold stays_new, upd. cbn [h_obj]. destruct (Nat.eqb_spec x o) as [<- | N]; [| auto]. apply (E eq_refl (h_obj h x)).
  Qed.
  Lemma f_updm o F : (o = x -> forall b, tidy F b) -> keeps (updm o F).
  Proof. intros E h H. split; [apply held_upd; assumption | apply silent_any]. Qed.
  Ltac tidies := unfold tidy; cbn; repeat apply conj; try reflexivity; try (intros; split; assumption).
  Lemma f_attr o n v : (o = x -> n <> k) -> keeps (updm o (set_attr n v)).
  Proof. intros N. apply f_updm. intros E b. tidies. destruct (String.eqb_spec k n) as [X | X]; [symmetry in X; contradiction (N E X) | reflexivity]. Qed.
  Lemma f_put o a p c : (o = x -> a <> k) -> keeps (modify (put_at o a p c)).
  Proof.
    intros N h H. split; [| apply silent_any]. cbn. unfold put_at. destruct (attr h o a); [| exact H].
    apply held_upd; [exact H |]. intros E b. tidies. destruct (String.eqb_spec k a) as [X | X]; [symmetry in X; contradiction (N E X) | reflexivity].
  Qed.
  Lemma f_getattr o n : keeps (ObjModel.getattr ct getter o n).
  Proof. apply f_pure. intros h. unfold ObjModel.getattr. destruct (ofield ct h o n) as [f |]; [destruct (is_calc f) |]; reflexivity. Qed.
  Lemma f_vid v : keeps (vid ct v).
  Proof. apply f_pure. intros h. destruct v; reflexivity. Qed.
  Lemma f_len o a p : keeps (len_at o a p).
  Proof. apply f_pure. intros h. unfold len_at. destruct (attr_at h o a p) as [[] |]; reflexivity. Qed.
  Lemma f_setter o n v : keeps (setter o n v).
  Proof. intros h H. split; [apply held_leaves with h; [apply (cs_setter _ _ _ CS) | intros E; apply (nb_setter _ _ (CN E)) | exact H] | apply silent_any]. Qed.

  Ltac kp := intros ?E ?b; unfold tidy; cbn; repeat match goal with |- context [if ?c then _ else _] => destruct c eqn:? end; cbn; repeat apply conj; try reflexivity;
    intros; split; try assumption; try reflexivity; try discriminate; try congruence;
    match goal with H : _ = true, N : o_new _ = true |- _ => rewrite N in H; discriminate H end.
  Ltac go :=
    repeat (cbn zeta;
      match goal with
      | |- keeps (ret _) => apply k_ret
      | |- keeps (throw _) => apply k_throw; split; discriminate
      | |- keeps (bind _ _) => apply k_bind; [| intros]
      | |- keeps (gets _) => apply f_gets
      | |- keeps (ObjModel.getattr _ _ _ _) => apply f_getattr
      | |- keeps (vid _ _) => apply f_vid
      | |- keeps (len_at _ _ _) => apply f_len
      | |- keeps (setter _ _ _) => apply f_setter
      | |- keeps (updm _ (set_attr _ _)) => apply f_attr
      | |- keeps (updm _ _) => apply f_updm; try (kp; fail)
      | |- keeps (for_st _ _) => apply k_for; intros
      | |- keeps (lift _) => apply k_lift, silent_any
      | |- keeps (match ?y with _ => _ end) => destruct y eqn:?
      end).

  Ltac at_h := match goal with H : held ?h |- _ => revert h H; match goal with |- forall h, held h -> held (snd (?m h)) /\ _ => change (keeps m) end end; go.

  Lemma f_add_unlinked o n v : keeps (add_unlinked oeq o n v).
  Proof. intros h H. split; [apply (held_upd o); [exact H | kp] | apply silent_any]. Qed.
  Lemma f_del_unlinked o n v : keeps (del_unlinked oeq o n v).
  Proof. intros h H. split; [apply (held_upd o); [exact H | kp] | apply silent_any]. Qed.
  Lemma f_mark o n : keeps (mark o n).
  Proof. unfold mark. go. Qed.
  Lemma f_remember o n v : keeps (remember o n v).
  Proof. unfold remember. go. Qed.
  Lemma f_mark_local o n : keeps (mark_local o n).
  Proof. unfold mark_local. go. Qed.
  Lemma f_record o f : keeps (record_previous ct getter o f).
  Proof. unfold record_previous. go; apply f_remember. Qed.
  Lemma f_will o lab : keeps (olist_will ct getter o lab).
  Proof. unfold olist_will. go. apply f_record. Qed.
  Lemma f_dwill o lab : keeps (odict_will ct getter o lab).
  Proof. unfold odict_will. go. apply f_record. Qed.
  Lemma f_first val l : keeps (first_with_id ct oeq val l).
  Proof. induction l; cbn [first_with_id]; go; assumption. Qed.
  Lemma f_keys l : keeps (keys_of ct l).
  Proof. induction l; cbn [keys_of]; go; assumption. Qed.
  Lemma f_store_keys o n l : (o = x -> n <> k) -> keeps (store_keys o n l).
  Proof. intros N. unfold store_keys. apply f_updm. intros E b. tidies. destruct (String.eqb_spec k n) as [X | X]; [symmetry in X; contradiction (N E X) | reflexivity]. Qed.
  Lemma f_store o f v : (o = x -> is_local f = true -> fl_ref f <> k) -> keeps (store_local ct o f v).
  Proof. intros N. unfold store_local. go; try apply f_keys; try apply f_store_keys; auto. Qed.
  Lemma f_pick ids cur : keeps (pick_by_ids ct oeq ids cur).
  Proof. induction ids; cbn [pick_by_ids]; go; [apply f_first | assumption]. Qed.
  Lemma f_graphs o v : keeps (link_graphs ct pystr o v).
  Proof.
    unfold link_graphs. destruct v; go. intros h H. destruct (link_graph _ _ _ _ _) as [r g]. cbn [fst snd].
    split; [| apply silent_any]. destruct H. constructor; assumption.
  Qed.

  (** the other side of a relation *)
  Definition a_field (f : field) : Prop := exists c d, ct c = Some d /\ In f (cd_fields d).
  Lemma other_side c f g : a_field f -> foreign_field ct c f = Some g -> fl_name g <> k /\ (is_local g = true -> fl_ref g <> k).
  Proof.
    intros (c0 & d0 & E0 & I0) H. pose proof (on_objects _ _ ON c c0 d0 f g E0 I0 H) as N0.
    assert (X : exists fc d, ct fc = Some d /\ In g (cd_fields d)).
    { unfold foreign_field in H. destruct (f_fstore (fl_fdef f)); try discriminate H;
        (destruct (foreign_class f) as [fc |]; [| discriminate H]); (destruct (ct fc) as [d |] eqn:Ed; [| discriminate H]).
      - unfold rfield_by_key in H. apply find_some in H. destruct H as [H1 H2]. exists fc, d. auto.
      - destruct (f_foreign_key (fl_fdef f)); [| discriminate H]. unfold rfield_by_name in H. apply find_some in H. destruct H as [H1 H2].
        exists fc, d. auto. }
    destruct X as (fc & d & E & I). split; [exact N0 | intros _; apply (on_keys _ _ ON fc d g E I)].
  Qed.
  Lemma own_ref h f n o : ofield ct h o n = Some f -> fl_name f = n /\ (is_local f = true -> fl_ref f <> k) /\ a_field f.
  Proof.
    unfold ofield, cdef_of. destruct (ct (o_class (h_obj h o))) as [d |] eqn:E; [| discriminate].
    unfold field_named. intros H. apply find_some in H. destruct H as [H1 H2]. apply in_rev in H1. apply String.eqb_eq in H2.
    split; [symmetry; exact H2 | split; [intros _; apply (on_keys _ _ ON _ d f E H1) | exists (o_class (h_obj h o)), d; auto]].
  Qed.

  Definition off (t : task) : Prop :=
    match t with TSet o n _ | TOp o n _ _ _ | TDOp o n _ _ _ => o = x -> n <> k | TUnlink _ f _ | TLink _ f _ => a_field f end.

  Section Rec.
    Context (rec : task -> st heap unit).
    Hypothesis rec_ok : forall t, off t -> keeps (rec t).

    Lemma f_add o a p lab i v : (o = x -> a <> k) -> keeps (olist_add ct rec o a p lab i v).
    Proof.
      intros N. unfold olist_add. apply f_getW. intros h H. destruct (local_field_of h o lab); [apply f_mark_local |].
      apply f_getW. intros h1 H1. destruct (ofield ct h1 o lab) as [f |] eqn:Ef.
      - destruct (own_ref _ _ _ _ Ef) as (En & Er & Ea). go; try apply f_mark; apply rec_ok; cbn; auto.
      - go; try apply f_mark; apply rec_ok; cbn; auto.
    Qed.
    Lemma f_del o a p lab v : (o = x -> a <> k) -> keeps (olist_del ct oeq getter rec o a p lab v).
    Proof.
      intros N. unfold olist_del. apply f_getW. intros h H. destruct (local_field_of h o lab) as [fn |] eqn:El.
      - assert (Nf : o = x -> fn <> k) by (intros -> ->; apply (he_keys _ H lab El)).
        go; try apply f_mark_local; try apply f_first; apply rec_ok; cbn; exact Nf.
      - apply f_getW. intros h1 H1. destruct (ofield ct h1 o lab) as [f |] eqn:Ef.
        + destruct (own_ref _ _ _ _ Ef) as (En & Er & Ea). go; try apply f_mark; apply rec_ok; cbn; auto.
        + go; apply f_mark.
    Qed.
    Lemma f_event o a p lab e : (o = x -> a <> k) -> keeps (list_event ct oeq getter rec o a p lab e).
    Proof. intros N. unfold list_event, olist_sor. go; [apply f_add, N | apply f_del, N | apply f_mark]. Qed.
    Lemma f_devent o a p lab e : (o = x -> a <> k) -> keeps (dict_event rec o a p lab e).
    Proof. intros N. unfold dict_event. go; try apply f_mark; apply rec_ok; exact N. Qed.
    Lemma f_do_list o a p lab op : (o = x -> a <> k) -> keeps (do_list ct oeq getter rec o a p lab op).
    Proof.
      intros N h H. unfold do_list. destruct (attr_at h o a p) as [[] |]; try (split; [exact H | apply silent_any]).
      destruct (sinb a _).
      - destruct (plain_step _ _ _) as [r l']. at_h. apply f_put, N.
      - destruct (owned_step _ _ _) as [[r l'] es]. at_h; [apply f_will | apply f_put, N | apply f_event, N].
    Qed.
    Lemma f_do_dict o a p lab op : (o = x -> a <> k) -> keeps (do_dict ct getter rec o a p lab op).
    Proof.
      intros N h H. unfold do_dict. destruct (attr_at h o a p) as [[] |]; try (split; [exact H | apply silent_any]).
      destruct (owned_dstep _ _ _ _) as [[r l'] es]. at_h; [apply f_dwill | apply f_put, N | apply f_devent, N].
    Qed.
    Lemma f_unlink_item o g v : fl_name g <> k -> (is_local g = true -> fl_ref g <> k) -> keeps (unlink_item ct oeq getter rec o g v).
    Proof.
      intros N Nr. unfold unlink_item, item_attr. go; try apply f_add_unlinked; try (apply rec_ok; cbn; auto); auto.
      intros E b. tidies. destruct (String.eqb_spec k (fl_ref g)) as [X | X]; [symmetry in X; contradiction (Nr eq_refl X) | reflexivity].
    Qed.
    Lemma f_unlink o f v : a_field f -> keeps (unlink ct oeq getter rec o f v).
    Proof.
      intros Hf. unfold unlink. apply f_getW. intros h H. destruct (foreign_field ct _ f) as [g |] eqn:Eg.
      - destruct (other_side _ _ _ Hf Eg). go; [apply f_add_unlinked | apply f_unlink_item; assumption].
      - go. apply f_add_unlinked.
    Qed.
    Lemma f_link_item o g v : fl_name g <> k -> keeps (link_item ct oeq getter rec o g v).
    Proof. intros N. unfold link_item, item_attr. go; try apply f_del_unlinked; apply rec_ok; cbn; auto. Qed.
    Lemma f_link o f v : a_field f -> keeps (link ct oeq getter pystr rec o f v).
    Proof.
      intros Hf. unfold link. apply f_getW. intros h H. destruct (foreign_field ct _ f) as [g |] eqn:Eg.
      - destruct (other_side _ _ _ Hf Eg). go; [apply f_del_unlinked | apply f_link_item; assumption | apply f_graphs].
      - go. apply f_del_unlinked.
    Qed.
    Lemma f_set_local_key o n m v : (o = x -> n <> k) -> (o = x -> m <> k) -> keeps (set_local_key ct oeq getter rec o n m v).
    Proof.
      intros N M. unfold set_local_key. go; try apply f_mark; try apply f_pick; try (apply f_store_keys, N); try (apply rec_ok; exact M); exact N.
    Qed.
    Lemma f_set_plain o n v : (o = x -> n <> k) -> keeps (set_plain o n v).
    Proof.
      intros N. unfold set_plain. apply f_updm. intros E b. tidies.
      destruct (String.eqb_spec k n) as [X | X]; [symmetry in X; contradiction (N E X) | reflexivity].
    Qed.
    Lemma f_set_field o f v : a_field f -> (o = x -> fl_name f <> k) -> (o = x -> is_local f = true -> fl_ref f <> k) ->
      keeps (set_field ct oeq getter setter rec o f v).
    Proof.
      intros Hf N Nr. unfold set_field. go; try apply f_mark; try apply f_remember; try (apply f_store; exact Nr); try (apply rec_ok; exact Hf); exact N.
    Qed.
    Lemma f_set_attribute o n v : (o = x -> n <> k) -> keeps (set_attribute ct oeq getter setter rec o n v).
    Proof.
      intros N. unfold set_attribute. apply f_getW. intros h H. apply f_getW. intros h1 H1.
      assert (Re : keeps (match ofield ct h1 o n with None => set_plain o n v | Some f => set_field ct oeq getter setter rec o f v end)).
      { destruct (ofield ct h1 o n) as [f |] eqn:Ef; [| apply f_set_plain, N].
        destruct (own_ref _ _ _ _ Ef) as (En & Er & Ea). apply f_set_field; [exact Ea | rewrite En; exact N | auto]. }
      cbv zeta. revert Re. generalize (match ofield ct h1 o n with None => set_plain o n v | Some f => set_field ct oeq getter setter rec o f v end). intros rest Re.
      destruct (local_field_of h o n) as [fn |] eqn:El; [| exact Re].
      go; [| exact Re]. apply f_set_local_key; [exact N |]. intros -> ->. apply (he_keys _ H n El).
    Qed.
    Lemma f_body t : off t -> keeps (body ct oeq getter setter pystr rec t).
    Proof.
      intros O. destruct t; cbn [body off] in *;
        [apply f_set_attribute, O | apply f_unlink, O | apply f_link, O | apply f_do_list, O | apply f_do_dict, O].
    Qed.

    (** assigning to the protected field itself *)
    Lemma f_set_held f v : A (Some v) -> fl_name f = k -> plain_field f = true ->
      (exists d, ct cls = Some d /\ field_named k d = Some f) -> keeps (set_attribute ct oeq getter setter rec x k v).
    Proof.
      intros Av En Pf (d & Ed & Hf). unfold set_attribute. apply f_getW. intros h H. apply f_getW. intros h1 H1.
      assert (Ef : ofield ct h1 x k = Some f) by (unfold ofield, cdef_of; rewrite (he_class _ H1), Ed; exact Hf).
      rewrite Ef. cbv zeta. unfold local_field_of. rewrite (he_label _ H).
      unfold plain_field in Pf. apply andb_prop in Pf. destruct Pf as [P1 P2]. apply Bool.negb_true_iff in P1, P2.
      assert (U : keeps (updm x (set_attr k v))).
      { intros h0 H0. split; [| apply silent_any]. destruct H0 as [B1 B2 B3 B4 B5 B6]. cbn [updm modify snd].
        constructor; unfold attr, upd; cbn [h_obj h_next]; try rewrite Nat.eqb_refl; try assumption.
        cbn. rewrite String.eqb_refl. exact Av. }
      unfold set_field. rewrite P1, P2, En. revert U. generalize (updm x (set_attr k v)). intros put U.
      go; try apply f_mark; try apply f_remember; exact U.
    Qed.
  End Rec.

  Lemma run_off n : forall t, off t -> keeps (run ct oeq getter setter pystr n t).
  Proof. induction n as [| n IH]; intros t O; cbn [run]; [apply k_throw; split; discriminate | apply f_body; assumption]. Qed.
  Lemma run_held n f v : A (Some v) -> fl_name f = k -> plain_field f = true ->
    (exists d, ct cls = Some d /\ field_named k d = Some f) -> keeps (run ct oeq getter setter pystr n (TSet x k v)).
  Proof. intros. destruct n as [| n]; cbn [run body]; [apply k_throw; split; discriminate | apply f_set_held with f; try assumption; apply run_off]. Qed.
End Frame.

(** Enough for [own_name]: the fields of that name hold no objects. *)
Lemma own_data (P : program) (k : string) :
  (forall cls d g, p_ct P cls = Some d -> In g (cd_fields d) -> fl_name g = k -> foreign_class g = None) ->
  (forall cls d g, p_ct P cls = Some d -> In g (cd_fields d) -> fl_ref g <> k) -> own_name P k.
Proof.
  intros H K. split; [| exact K]. intros c cls d f g _ _ E En. unfold foreign_field in E.
  destruct (f_fstore (fl_fdef f)); try discriminate E;
    (destruct (foreign_class f) as [fc |]; [| discriminate E]); (destruct (p_ct P fc) as [d1 |] eqn:Ed; [| discriminate E]).
  - unfold rfield_by_key in E. apply find_some in E. destruct E as [E1 E2]. rewrite (H _ _ _ Ed E1 En) in E2. discriminate E2.
  - destruct (f_foreign_key (fl_fdef f)); [| discriminate E]. unfold rfield_by_name in E. apply find_some in E. destruct E as [E1 E2].
    rewrite (H _ _ _ Ed E1 En) in E2. discriminate E2.
Qed.
