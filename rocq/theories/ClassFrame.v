(** ClassFrame.v -- assigning to attributes and changing collections changes the class of no
    object, and no table of stored keys. *)
From Verif Require Import Base Mon PyList PyDict OListModel ODictModel KeypathModel Values OGraphModel TypesModel ObjModel ObjSpec ObjTrack
  IoModel IoBase Sound ObjSound Keep.
From Verif Require LeafModel.
Open Scope list_scope.

Section Frame.
  Context (P : program) (x : oid) (cls : string) (lk : list (string * string)).
  Hypothesis SC : forall o n v h, o_class (h_obj (snd (p_setter P o n v h)) x) = o_class (h_obj h x) /\
    o_lkeys (h_obj (snd (p_setter P o n v h)) x) = o_lkeys (h_obj h x).
  #[local] Instance class_mode : manner := Silent.
  Notation ct := (p_ct P).
  Notation oeq := (p_oeq P).
  Notation getter := (p_getter P).
  Notation setter := (p_setter P).
  Notation pystr := (LeafModel.py_str (p_str P)).
  Definition classed (h : heap) : Prop := o_class (h_obj h x) = cls /\ o_lkeys (h_obj h x) = lk.
  Definition steady (F : obj -> obj) : Prop := forall b, o_class (F b) = o_class b /\ o_lkeys (F b) = o_lkeys b.
  Notation keeps := (Keep.keeps classed).

  Lemma c_any {T} (r : res T) : louder r.
  Proof. intros e _. split; discriminate. Qed.
  Lemma c_pure {T} (m : st heap T) : (forall h, snd (m h) = h) -> keeps m.
  Proof. intros E h H. rewrite E. split; [exact H | apply c_any]. Qed.
  Lemma c_gets {T} (q : heap -> T) : keeps (gets q).
  Proof. apply c_pure. reflexivity. Qed.
  Lemma classed_upd o F h : classed h -> steady F -> classed (upd o F h).
  Proof.
    intros H E. unfold classed, upd. cbn. destruct (Nat.eqb x o) eqn:Q; [| exact H]. apply Nat.eqb_eq in Q. subst o.
    destruct (E (h_obj h x)) as [-> ->]. exact H.
  Qed.
  Lemma c_updm o F : steady F -> keeps (updm o F).
  Proof. intros E h H. split; [apply classed_upd; assumption | apply c_any]. Qed.
  Lemma c_put o a p c : keeps (modify (put_at o a p c)).
  Proof.
    intros h H. split; [| apply c_any]. cbn. unfold put_at. destruct (attr h o a); [| exact H]. apply classed_upd; [exact H | split; reflexivity].
  Qed.
  Lemma c_getattr o n : keeps (ObjModel.getattr ct getter o n).
  Proof. apply c_pure. intros h. unfold ObjModel.getattr. destruct (ofield ct h o n) as [f |]; [destruct (is_calc f) |]; reflexivity. Qed.
  Lemma c_vid v : keeps (vid ct v).
  Proof. apply c_pure. intros h. destruct v; reflexivity. Qed.
  Lemma c_len o a p : keeps (len_at o a p).
  Proof. apply c_pure. intros h. unfold len_at. destruct (attr_at h o a p) as [[] |]; reflexivity. Qed.
  Lemma c_setter o n v : keeps (setter o n v).
  Proof. intros h H. split; [unfold classed; destruct (SC o n v h) as [-> ->]; exact H | apply c_any]. Qed.
  Ltac cl := intros ?b; cbn; repeat match goal with |- context [if ?c then _ else _] => destruct c end; split; reflexivity.
  Ltac go :=
    repeat (cbn zeta;
      match goal with
      | |- keeps (ret _) => apply k_ret
      | |- keeps (throw _) => apply k_throw; split; discriminate
      | |- keeps (bind _ _) => apply k_bind; [| intros]
      | |- keeps (gets _) => apply c_gets
      | |- keeps (ObjModel.getattr _ _ _ _) => apply c_getattr
      | |- keeps (vid _ _) => apply c_vid
      | |- keeps (len_at _ _ _) => apply c_len
      | |- keeps (setter _ _ _) => apply c_setter
      | |- keeps (updm _ _) => apply c_updm; cl
      | |- keeps (modify (put_at _ _ _ _)) => apply c_put
      | |- keeps (for_st _ _) => apply k_for; intros
      | |- keeps (lift _) => apply k_lift, c_any
      | |- keeps (match ?y with _ => _ end) => destruct y
      end).
  Ltac at_h := match goal with H : classed ?h |- _ => revert h H; match goal with |- forall h, classed h -> classed (snd (?m h)) /\ _ => change (keeps m) end end; go.

  Lemma c_add_unlinked o n v : keeps (add_unlinked oeq o n v).
  Proof. intros h H. split; [apply (classed_upd o); [exact H | cl] | apply c_any]. Qed.
  Lemma c_del_unlinked o n v : keeps (del_unlinked oeq o n v).
  Proof. intros h H. split; [apply (classed_upd o); [exact H | cl] | apply c_any]. Qed.
  Lemma c_mark o n : keeps (mark o n).
  Proof. unfold mark. go. Qed.
  Lemma c_remember o n v : keeps (remember o n v).
  Proof. unfold remember. go. Qed.
  Lemma c_mark_local o n : keeps (mark_local o n).
  Proof. unfold mark_local. go. Qed.
  Lemma c_record o f : keeps (record_previous ct getter o f).
  Proof. unfold record_previous. go; apply c_remember. Qed.
  Lemma c_will o lab : keeps (olist_will ct getter o lab).
  Proof. unfold olist_will. go. apply c_record. Qed.
  Lemma c_dwill o lab : keeps (odict_will ct getter o lab).
  Proof. unfold odict_will. go. apply c_record. Qed.
  Lemma c_first val l : keeps (first_with_id ct oeq val l).
  Proof. induction l; cbn [first_with_id]; go; assumption. Qed.
  Lemma c_keys l : keeps (keys_of ct l).
  Proof. induction l; cbn [keys_of]; go; assumption. Qed.
  Lemma c_store_keys o n l : keeps (store_keys o n l).
  Proof. unfold store_keys. go. Qed.
  Lemma c_store o f v : keeps (store_local ct o f v).
  Proof. unfold store_local. go; try apply c_keys; try apply c_store_keys. Qed.
  Lemma c_pick ids cur : keeps (pick_by_ids ct oeq ids cur).
  Proof. induction ids; cbn [pick_by_ids]; go; [apply c_first | assumption]. Qed.
  Lemma c_graphs o v : keeps (link_graphs ct pystr o v).
  Proof.
    unfold link_graphs. destruct v; go. intros h H. destruct (link_graph _ _ _ _ _) as [r g]. cbn [fst snd].
    split; [exact H | apply c_any].
  Qed.

  Section Rec.
    Context (rec : task -> st heap unit).
    Hypothesis rec_ok : forall t, keeps (rec t).
    Lemma c_add o a p lab i v : keeps (olist_add ct rec o a p lab i v).
    Proof. unfold olist_add. go; try apply c_mark_local; try apply c_mark; apply rec_ok. Qed.
    Lemma c_del o a p lab v : keeps (olist_del ct oeq getter rec o a p lab v).
    Proof. unfold olist_del. go; try apply c_mark_local; try apply c_first; try apply c_mark; apply rec_ok. Qed.
    Lemma c_event o a p lab e : keeps (list_event ct oeq getter rec o a p lab e).
    Proof. unfold list_event, olist_sor. go; [apply c_add | apply c_del | apply c_mark]. Qed.
    Lemma c_devent o a p lab e : keeps (dict_event rec o a p lab e).
    Proof. unfold dict_event. go; try apply c_mark; apply rec_ok. Qed.
    Lemma c_do_list o a p lab op : keeps (do_list ct oeq getter rec o a p lab op).
    Proof.
      intros h H. unfold do_list. destruct (attr_at h o a p) as [[] |]; try (split; [exact H | apply c_any]).
      destruct (sinb a _).
      - destruct (plain_step _ _ _) as [r l']. at_h.
      - destruct (owned_step _ _ _) as [[r l'] es]. at_h; [apply c_will | apply c_event].
    Qed.
    Lemma c_do_dict o a p lab op : keeps (do_dict ct getter rec o a p lab op).
    Proof.
      intros h H. unfold do_dict. destruct (attr_at h o a p) as [[] |]; try (split; [exact H | apply c_any]).
      destruct (owned_dstep _ _ _ _) as [[r l'] es]. at_h; [apply c_dwill | apply c_devent].
    Qed.
    Lemma c_unlink_item o g v : keeps (unlink_item ct oeq getter rec o g v).
    Proof. unfold unlink_item, item_attr. go; try apply c_add_unlinked; apply rec_ok. Qed.
    Lemma c_unlink o f v : keeps (unlink ct oeq getter rec o f v).
    Proof. unfold unlink. go; try apply c_add_unlinked; apply c_unlink_item. Qed.
    Lemma c_link_item o g v : keeps (link_item ct oeq getter rec o g v).
    Proof. unfold link_item, item_attr. go; try apply c_del_unlinked; apply rec_ok. Qed.
    Lemma c_link o f v : keeps (link ct oeq getter pystr rec o f v).
    Proof. unfold link. go; first [apply c_del_unlinked | apply c_link_item | apply c_graphs]. Qed.
    Lemma c_set_local_key o n m v : keeps (set_local_key ct oeq getter rec o n m v).
    Proof. unfold set_local_key. go; try apply c_mark; try apply c_pick; try apply c_store_keys; apply rec_ok. Qed.
    Lemma c_set_plain o n v : keeps (set_plain o n v).
    Proof. unfold set_plain. go. Qed.
    Lemma c_set_field o f v : keeps (set_field ct oeq getter setter rec o f v).
    Proof. unfold set_field. go; try apply c_mark; try apply c_remember; try apply c_store; apply rec_ok. Qed.
    Lemma c_set_attribute o n v : keeps (set_attribute ct oeq getter setter rec o n v).
    Proof. unfold set_attribute. go; try apply c_set_local_key; try apply c_set_field; apply c_set_plain. Qed.
    Lemma c_body t : keeps (body ct oeq getter setter pystr rec t).
    Proof. destruct t; cbn [body]; [apply c_set_attribute | apply c_unlink | apply c_link | apply c_do_list | apply c_do_dict]. Qed.
  End Rec.
  Lemma run_class n : forall t, keeps (run ct oeq getter setter pystr n t).
  Proof. induction n as [| n IH]; intros t; cbn [run]; [apply k_throw; split; discriminate | apply c_body; assumption]. Qed.
End Frame.
