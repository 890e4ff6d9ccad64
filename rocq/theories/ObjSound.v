(** ObjSound.v -- attribute assignment and collection methods keep the class, the stored
    key names, the newness and the operator of every object, and raise no empty
    validation error. *)
From Verif Require Import Base Mon PyList PyDict OListModel ODictModel KeypathModel Values OGraphModel TypesModel ObjModel Sound.
Open Scope list_scope.
Open Scope nat_scope.

Section Manner.
Context {spk : manner}.

Lemma loud_get {A} i (l : list A) : louder (py_get i l).
Proof. unfold py_get. loudness. Qed.
Lemma loud_set {A} i x (l : list A) : louder (py_set i x l).
Proof. unfold py_set. loudness. Qed.
Lemma loud_del {A} i (l : list A) : louder (py_del i l).
Proof. unfold py_del. loudness. Qed.
Lemma loud_rbind {A B} (m : res A) (k : A -> res B) : louder m -> (forall a, louder (k a)) -> louder (rbind m k).
Proof. intros H K. destruct m as [a | e]; cbn; [apply K | apply louder_err, (H e eq_refl)]. Qed.
Lemma loud_pop {A} i (l : list A) : louder (py_pop i l).
Proof.
  unfold py_pop. apply loud_rbind; [apply loud_get |]. intros x.
  apply loud_rbind; [apply loud_del |]. intros y. apply louder_ok.
Qed.
Lemma loud_remove {A} (eqb : A -> A -> bool) x (l : list A) : louder (py_remove eqb x l).
Proof.
  induction l as [| y l IH]; cbn [py_remove]; [loudness |].
  destruct (eqb y x); [loudness |]. apply loud_rbind; [exact IH |]. intros. apply louder_ok.
Qed.
Lemma loud_getslice {A} s (l : list A) : louder (py_getslice s l).
Proof. unfold py_getslice. loudness. Qed.
Lemma loud_setslice {A} s vs (l : list A) : louder (py_setslice s vs l).
Proof. unfold py_setslice. loudness. Qed.
Lemma loud_delslice {A} s (l : list A) : louder (py_delslice s l).
Proof. unfold py_delslice. loudness. Qed.
Lemma loud_items {A} (l : list A) it : louder (iter_items l it).
Proof. unfold iter_items. loudness. Qed.
Lemma loud_len {A} (l : list A) it : louder (iter_len l it).
Proof. unfold iter_len. loudness. Qed.

Lemma loud_keep {A} (l : list A) r : louder r -> louder (fst (keep l r)).
Proof. intros H. destruct r as [x | e]; cbn; [apply louder_ok | apply louder_err, (H e eq_refl)]. Qed.

Lemma loud_plain {A} (eqb : A -> A -> bool) op l : louder (fst (plain_step eqb op l)).
Proof.
  destruct op; cbn [plain_step fst]; loudness;
    try (apply loud_keep; first [apply loud_remove | apply loud_set | apply loud_del | apply loud_delslice
      | apply loud_rbind; [apply loud_items | intros; loudness] ]).
  - pose proof (loud_pop i l) as H. destruct (py_pop i l) as [[x l'] | e]; cbn; loudness. apply (H e eq_refl).
  - apply loud_keep. destruct (Z.eqb (slice_step s) 0); [loudness |].
    apply loud_rbind; [apply loud_items | intros; apply loud_setslice].
Qed.

Lemma loud_owned {A} (eqb : A -> A -> bool) op l : louder (fst (fst (owned_step eqb op l))).
Proof.
  destruct op; cbn [owned_step];
    unfold o_append, o_extend, o_insert, o_remove, o_sort, o_clear, o_pop, o_reverse, o_iadd, o_imul, o_setint,
      o_setslice, o_delint, o_delslice; cbn zeta;
    repeat match goal with
    | |- context [iter_len l ?it] => pose proof (loud_len l it); destruct (iter_len l it)
    | |- context [iter_items l ?it] => pose proof (loud_items l it); destruct (iter_items l it)
    | |- context [py_remove eqb ?x l] => pose proof (loud_remove eqb x l); destruct (py_remove eqb x l)
    | |- context [py_pop ?i l] => pose proof (loud_pop i l); destruct (py_pop i l) as [[] |]
    | |- context [py_set ?i ?x l] => pose proof (loud_set i x l); destruct (py_set i x l)
    | |- context [py_getslice ?s l] => pose proof (loud_getslice s l); destruct (py_getslice s l)
    | |- context [py_delslice ?s l] => pose proof (loud_delslice s l); destruct (py_delslice s l)
    | |- context [py_del ?i l] => pose proof (loud_del i l); destruct (py_del i l)
    | |- context [rbind (Ok ?a) _] => cbn [rbind]
    | |- context [rbind (Err ?a) _] => cbn [rbind]
    | |- context [py_setslice ?s ?a l] => pose proof (loud_setslice s a l); destruct (py_setslice s a l)
    | |- context [if (?n <=? 0)%Z then _ else _] => destruct (n <=? 0)%Z
    | |- context [if (?n =? 1)%Z then _ else _] => destruct (n =? 1)%Z
    end; cbn [fst]; loudness;
    match goal with H : louder (Err ?e) |- ?e <> _ => apply (H e eq_refl); assumption | H : louder (Err ?e) |- loud ?e => exact (H e eq_refl) end.
Qed.

Lemma loud_downed {K V} (keqb : K -> K -> bool) (none : V) op d : louder (fst (fst (owned_dstep keqb none op d))).
Proof.
  destruct op; cbn [owned_dstep];
    unfold od_clear, od_pop, od_popitem, od_setdefault, od_update, od_setitem, od_delitem, od_ior; cbn [fst]; cbn zeta; loudness;
    repeat match goal with
    | |- context [match ?x with _ => _ end] => destruct x
    end; cbn [fst]; loudness.
Qed.

Lemma loud_g_get c p o g : louder (g_get c p o g).
Proof. unfold g_get. loudness. Qed.
Lemma loud_g_put c p o g : louder (g_put c p o g).
Proof. unfold g_put. loudness. Qed.
Lemma loud_merge c p os : forall g, louder (merge_loop c p os g).
Proof.
  induction os as [| o os IH]; intros g; cbn [merge_loop]; [apply louder_ok |].
  apply loud_rbind.
  - unfold g_has. apply loud_rbind; [apply loud_g_get |]. intros [r g']. apply louder_ok.
  - intros [h g1]. destruct (negb h).
    + apply loud_rbind; [apply loud_g_put | intros; apply IH].
    + apply loud_rbind; [apply loud_g_get |]. intros [[o' |] g2]; [| loudness].
      destruct (Nat.eqb o' o); [| loudness]. apply loud_rbind; [apply loud_g_put | intros; apply IH].
Qed.
Lemma loud_merged c p i j s : louder (fst (merged_graph c p i j s)).
Proof.
  unfold merged_graph. destruct (Nat.eqb i j); [apply louder_ok |].
  match goal with |- context [merge_loop c p ?l ?g] => pose proof (loud_merge c p l g) as M; destruct (merge_loop c p l g) as [x | e] end.
  - apply louder_ok.
  - apply louder_err, (M e eq_refl).
Qed.

Record keeps (b b' : obj) : Prop := {
  k_class : o_class b' = o_class b; k_lkeys : o_lkeys b' = o_lkeys b;
  k_new : o_new b' = o_new b; k_operator : o_operator b' = o_operator b
}.
Lemma keeps_refl b : keeps b b.
Proof. constructor; reflexivity. Qed.
Lemma keeps_trans a b c : keeps a b -> keeps b c -> keeps a c.
Proof. intros [] []. constructor; congruence. Qed.

(** What no operation on attributes changes. *)
Record settled (h h' : heap) : Prop := {
  st_next : h_next h' = h_next h;
  st_obj : forall o, keeps (h_obj h o) (h_obj h' o)
}.
Lemma settled_refl h : settled h h.
Proof. constructor; [reflexivity | intros; apply keeps_refl]. Qed.
Lemma settled_trans a b c : settled a b -> settled b c -> settled a c.
Proof. intros [] []. constructor; [congruence | intros o; eapply keeps_trans; eauto]. Qed.

Section Run.
  Context (ct : string -> option cdef)
          (oeq : heap -> Values.oid -> Values.oid -> bool)
          (getter : heap -> Values.oid -> string -> res value)
          (setter : Values.oid -> string -> value -> st heap unit)
          (pystr : value -> string).
  Context (R : heap -> heap -> Prop).
  Hypothesis refl : forall s, R s s.
  Hypothesis trans : forall a b c, R a b -> R b c -> R a c.
  Hypothesis upd_ok : forall o F h, (forall b, keeps b (F b)) -> R h (upd o F h).
  Hypothesis graph_ok : forall g h, R h (with_graph g h).
  Hypothesis getter_ok : forall h o n, louder (getter h o n).
  Hypothesis setter_ok : forall o n v, sound R (setter o n v).
  Notation sound := (sound R).

  Lemma h_gets {A} (q : heap -> A) : sound (gets q).
  Proof. intros h. split; [apply refl | apply louder_ok]. Qed.
  Lemma h_updm o F : (forall b, keeps b (F b)) -> sound (updm o F).
  Proof. intros H h. split; [apply upd_ok, H | apply louder_ok]. Qed.
  Lemma h_put o a p c : sound (modify (put_at o a p c)).
  Proof.
    intros h. split; [| apply louder_ok]. cbn. unfold put_at. destruct (attr h o a); [| apply refl].
    apply upd_ok. intros b. constructor; reflexivity.
  Qed.
  Lemma h_getattr o n : sound (getattr ct getter o n).
  Proof.
    intros h. unfold getattr. destruct (ofield ct h o n) as [f |]; [destruct (is_calc f) |];
      (split; [apply refl |]); cbn [fst]; [apply getter_ok | |]; loudness.
  Qed.
  Lemma h_vid v : sound (vid ct v).
  Proof. intros h. unfold vid. destruct v; (split; [apply refl |]); cbn [fst]; loudness. Qed.
  Lemma h_len o a p : sound (len_at o a p).
  Proof. intros h. unfold len_at. destruct (attr_at h o a p) as [[] |]; (split; [apply refl |]); cbn [fst]; loudness. Qed.

  Ltac kp := intros ?b; cbn; repeat match goal with |- context [if ?c then _ else _] => destruct c end; constructor; reflexivity.
  Ltac go :=
    repeat (cbn zeta;
      match goal with
      | |- sound (ret _) => apply s_ret; exact refl
      | |- sound (throw _) => apply s_throw; [exact refl | try (loudly)]
      | |- sound (bind _ _) => apply s_bind; [exact refl | exact trans | | intros]
      | |- sound (gets _) => apply h_gets
      | |- sound (getattr _ _ _ _) => apply h_getattr
      | |- sound (vid _ _) => apply h_vid
      | |- sound (len_at _ _ _) => apply h_len
      | |- sound (setter _ _ _) => apply setter_ok
      | |- sound (modify (put_at _ _ _ _)) => apply h_put
      | |- sound (updm _ _) => apply h_updm; try kp
      | |- sound (for_st _ _) => apply s_for; [exact refl | exact trans | intros]
      | |- sound (lift _) => apply s_lift; [exact refl | loudness]
      | |- sound (match ?x with _ => _ end) => destruct x
      | H : _ |- sound _ => apply H
      end).

  Lemma h_add_unlinked o n x : sound (add_unlinked oeq o n x).
  Proof. intros h. split; [apply (upd_ok o); kp | apply louder_ok]. Qed.
  Lemma h_del_unlinked o n x : sound (del_unlinked oeq o n x).
  Proof. intros h. split; [apply (upd_ok o); kp | apply louder_ok]. Qed.
  Lemma h_mark o k : sound (mark o k).
  Proof. unfold mark. go. Qed.
  Lemma h_remember o k v : sound (remember o k v).
  Proof. unfold remember. go. Qed.
  Lemma h_mark_local o k : sound (mark_local o k).
  Proof. unfold mark_local. go. Qed.
  Lemma h_record o f : sound (record_previous ct getter o f).
  Proof.
    unfold record_previous. go; try apply h_remember; unfold copy_for; loudness.
  Qed.
  Lemma h_will o lab : sound (olist_will ct getter o lab).
  Proof. unfold olist_will. go. apply h_record. Qed.
  Lemma h_dwill o lab : sound (odict_will ct getter o lab).
  Proof. unfold odict_will. go. apply h_record. Qed.
  Lemma h_first val l : sound (first_with_id ct oeq val l).
  Proof. induction l; cbn [first_with_id]; go. Qed.
  Lemma h_keys l : sound (keys_of ct l).
  Proof. induction l; cbn [keys_of]; go. Qed.
  Lemma h_store_keys o k l : sound (store_keys o k l).
  Proof. unfold store_keys. go. Qed.
  Lemma h_store o f v : sound (store_local ct o f v).
  Proof. unfold store_local. go; try apply h_keys; apply h_store_keys. Qed.
  Lemma h_pick ids cur : sound (pick_by_ids ct oeq ids cur).
  Proof. induction ids; cbn [pick_by_ids]; go. apply h_first. Qed.
  Lemma h_graphs o x : sound (link_graphs ct pystr o x).
  Proof.
    unfold link_graphs. destruct x; try (apply s_throw; [exact refl | loudly]).
    intros h. destruct (link_graph _ _ _ _ _) as [r g] eqn:E. cbn [fst snd]. split; [apply graph_ok |].
    unfold link_graph in E. revert E.
    match goal with |- context [merged_graph ?c ?p ?i ?j ?s] => pose proof (loud_merged c p i j s) as M;
      destruct (merged_graph c p i j s) as [[k | e] s2] end;
      intros E; inversion E; subst; [apply louder_ok |]. apply louder_err, (M e eq_refl).
  Qed.

  Section Rec.
    Context (rec : task -> st heap unit).
    Hypothesis rec_ok : forall t, sound (rec t).

    Lemma h_add o a p lab i x : sound (olist_add ct rec o a p lab i x).
    Proof. unfold olist_add. go; try apply h_mark_local; apply h_mark. Qed.
    Lemma h_del o a p lab x : sound (olist_del ct oeq getter rec o a p lab x).
    Proof. unfold olist_del. go; try apply h_mark_local; try apply h_mark; apply h_first. Qed.
    Lemma h_event o a p lab e : sound (list_event ct oeq getter rec o a p lab e).
    Proof. unfold list_event, olist_sor. go; try apply h_add; try apply h_del; apply h_mark. Qed.
    Lemma h_devent o a p lab e : sound (dict_event rec o a p lab e).
    Proof. unfold dict_event. go; apply h_mark. Qed.
    Lemma h_do_list o a p lab op : sound (do_list ct oeq getter rec o a p lab op).
    Proof.
      unfold do_list. pose (k := (fun h => match attr_at h o a p with
        | Some (VList l) => if sinb a (o_raw (h_obj h o)) then
              let '(r, l') := plain_step (eqv oeq h) op l in
              (modify (put_at o a p (VList l')) >> match r with Ok _ => ret tt | Err e => throw e end)
            else let '(r, l', es) := owned_step (eqv oeq h) op l in
              ((if existsb is_will es then olist_will ct getter o lab else ret tt) >>
               modify (put_at o a p (VList l')) >>
               match r with Ok _ => for_st es (list_event ct oeq getter rec o a p lab) | Err e => throw e end)
        | _ => throw EAttributeError end) : heap -> st heap unit).
      apply s_ext with (fun h => k h h).
      { intros h. unfold k. destruct (attr_at h o a p) as [[] |]; try reflexivity. destruct (sinb a _).
        - destruct (plain_step _ _ _). reflexivity.
        - destruct (owned_step _ _ _) as [[] ]. reflexivity. }
      apply (s_self R k). unfold k; clear k.
      intros h. destruct (attr_at h o a p) as [[] |]; try (apply s_throw; [exact refl | loudly]).
      destruct (sinb a _).
      - pose proof (loud_plain (eqv oeq h) op l) as L. destruct (plain_step (eqv oeq h) op l) as [r l']. cbn [fst] in L.
        go. exact (L e eq_refl).
      - pose proof (loud_owned (eqv oeq h) op l) as L. destruct (owned_step (eqv oeq h) op l) as [[r l'] es]. cbn [fst] in L.
        go; [apply h_will | apply h_event | exact (L e eq_refl)].
    Qed.
    Lemma h_do_dict o a p lab op : sound (do_dict ct getter rec o a p lab op).
    Proof.
      unfold do_dict. pose (k := (fun h => match attr_at h o a p with
        | Some (VDict d) => let '(r, d', es) := owned_dstep String.eqb VNone op d in
              ((if existsb is_dwill es then odict_will ct getter o lab else ret tt) >>
               modify (put_at o a p (VDict d')) >>
               match r with Ok _ => for_st es (dict_event rec o a p lab) | Err e => throw e end)
        | _ => throw EAttributeError end) : heap -> st heap unit).
      apply s_ext with (fun h => k h h).
      { intros h. unfold k. destruct (attr_at h o a p) as [[] |]; try reflexivity. destruct (owned_dstep _ _ _ _) as [[] ]. reflexivity. }
      apply (s_self R k). unfold k; clear k.
      intros h. destruct (attr_at h o a p) as [[] |]; try (apply s_throw; [exact refl | loudly]).
      pose proof (loud_downed String.eqb VNone op d) as L. destruct (owned_dstep String.eqb VNone op d) as [[r l'] es]. cbn [fst] in L.
      go; [apply h_dwill | apply h_devent | exact (L e eq_refl)].
    Qed.
    Lemma h_unlink_item o g x : sound (unlink_item ct oeq getter rec o g x).
    Proof. unfold unlink_item, item_attr. go; apply h_add_unlinked. Qed.
    Lemma h_unlink o f v : sound (unlink ct oeq getter rec o f v).
    Proof. unfold unlink. go; first [apply h_add_unlinked | apply h_unlink_item]. Qed.
    Lemma h_link_item o g x : sound (link_item ct oeq getter rec o g x).
    Proof. unfold link_item, item_attr. go; apply h_del_unlinked. Qed.
    Lemma h_link o f v : sound (link ct oeq getter pystr rec o f v).
    Proof. unfold link. go; first [apply h_del_unlinked | apply h_link_item | apply h_graphs]. Qed.
    Lemma h_set_local_key o n m v : sound (set_local_key ct oeq getter rec o n m v).
    Proof. unfold set_local_key. go; first [apply h_store_keys | apply h_pick | apply h_mark]. Qed.
    Lemma h_set_plain o n v : sound (set_plain o n v).
    Proof. unfold set_plain. go. Qed.
    Lemma h_set_field o f v : sound (set_field ct oeq getter setter rec o f v).
    Proof. unfold set_field. go; first [apply h_mark | apply h_remember | apply h_store]. Qed.
    Lemma h_set_attribute o n v : sound (set_attribute ct oeq getter setter rec o n v).
    Proof. unfold set_attribute. go; first [apply h_set_plain | apply h_set_field | apply h_set_local_key]. Qed.
    Lemma h_body t : sound (body ct oeq getter setter pystr rec t).
    Proof.
      destruct t; cbn [body];
        [apply h_set_attribute | apply h_unlink | apply h_link | apply h_do_list | apply h_do_dict].
    Qed.
  End Rec.

  Lemma run_sound n : speak <> Ending -> forall t, sound (run ct oeq getter setter pystr n t).
  Proof.
    intros noend. induction n as [| n IH]; intros t; cbn [run]; [apply s_throw; [exact refl | split; [intros _; discriminate | intros X; contradiction (noend X)]] |].
    apply h_body, IH.
  Qed.
End Run.

(** Every operation on attributes, with setters that do the same. *)
Lemma run_settled ct oeq getter setter pystr n t : speak <> Ending ->
  (forall h o k, louder (getter h o k)) -> (forall o k v, sound settled (setter o k v)) ->
  sound settled (run ct oeq getter setter pystr n t).
Proof.
  intros Hn Hg Hs. apply run_sound; [apply settled_refl | apply settled_trans | | | exact Hg | exact Hs | exact Hn].
  - intros o F h K. constructor; [reflexivity |]. intros x. cbn. destruct (Nat.eqb x o) eqn:E; [| apply keeps_refl].
    apply Nat.eqb_eq in E. subst. apply K.
  - intros g h. constructor; [reflexivity | intros; apply keeps_refl].
Qed.
End Manner.
