(** Mute.v -- the logic of Sound.v and the walk through attribute assignment of ObjSound.v,
    for another demand: no validation error is raised at all. *)
From Verif Require Import Base Mon PyList PyDict OListModel ODictModel KeypathModel Values OGraphModel TypesModel ObjModel.
From Verif Require Import ObjSound.
Open Scope list_scope.
Open Scope nat_scope.

Definition mute (e : exn) : Prop := match e with EValidation _ => False | _ => True end.
Definition muted {A} (r : res A) : Prop := forall e, r = Err e -> mute e.

Lemma muted_ok {A} (a : A) : muted (Ok a).
Proof. intros e H. discriminate H. Qed.
Lemma muted_err {A} e : mute e -> @muted A (Err e).
Proof. intros L e' H. inversion H; subst. exact L. Qed.

Section Sound.
  Context {S : Type} (R : S -> S -> Prop).
  Definition sound {A} (m : st S A) : Prop := forall s, R s (snd (m s)) /\ muted (fst (m s)).

  Hypothesis refl : forall s, R s s.
  Hypothesis trans : forall a b c, R a b -> R b c -> R a c.

  Lemma s_ret {A} (a : A) : sound (ret a).
  Proof. intros s. split; [apply refl | apply muted_ok]. Qed.
  Lemma s_throw {A} e : mute e -> sound (@throw S A e).
  Proof. intros L s. split; [apply refl | apply muted_err, L]. Qed.
  Lemma s_lift {A} (r : res A) : muted r -> sound (@lift S A r).
  Proof. intros L s. split; [apply refl | exact L]. Qed.
  Lemma s_ext {A} (m m' : st S A) : (forall s, m s = m' s) -> sound m' -> sound m.
  Proof. intros E H s. rewrite E. apply H. Qed.
  Lemma s_get {A B} (q : S -> A) (k : A -> st S B) : (forall a, sound (k a)) -> sound (fun s => k (q s) s).
  Proof. intros H s. apply H. Qed.
  Lemma s_self {B} (k : S -> st S B) : (forall a, sound (k a)) -> sound (fun s => k s s).
  Proof. intros H s. apply H. Qed.
  Lemma s_try {A B} (m : st S A) (k : res A -> st S B) :
    sound m -> (forall r, muted r -> sound (k r)) -> sound (fun s => k (fst (m s)) (snd (m s))).
  Proof.
    intros Hm Hk s. destruct (Hm s) as [R1 L1]. destruct (Hk _ L1 (snd (m s))) as [R2 L2].
    split; [exact (trans _ _ _ R1 R2) | exact L2].
  Qed.
  Lemma s_bind {A B} (m : st S A) (k : A -> st S B) : sound m -> (forall a, sound (k a)) -> sound (bind m k).
  Proof.
    intros Hm Hk. apply s_ext with (fun s => (match fst (m s) with Ok a => k a | Err e => throw e end) (snd (m s))).
    - intros s. unfold bind. destruct (m s) as [[a | e] s1]; reflexivity.
    - apply (s_try m (fun r => match r with Ok a => k a | Err e => throw e end)); [exact Hm |].
      intros [a | e] L; [apply Hk | apply s_throw, (L e eq_refl)].
  Qed.
  Lemma s_for {A} (l : list A) (f : A -> st S unit) : (forall x, In x l -> sound (f x)) -> sound (for_st l f).
  Proof.
    induction l as [| x l IH]; intros H; cbn [for_st]; [apply s_ret |].
    apply s_bind; [apply H; left; reflexivity |]. intros _. apply IH. intros y Hy. apply H. right. exact Hy.
  Qed.
  Lemma s_fold {A B} (f : B -> A -> st S B) (l : list A) :
    (forall b x, In x l -> sound (f b x)) -> forall b, sound (fold_st f l b).
  Proof.
    induction l as [| x l IH]; intros H b; cbn [fold_st]; [apply s_ret |].
    apply s_bind; [apply H; left; reflexivity |]. intros b'. apply IH. intros b0 y Hy. apply H. right. exact Hy.
  Qed.
End Sound.


Ltac mutely := exact Logic.I.
Ltac muteness :=
  repeat match goal with
         | |- muted (Ok _) => apply muted_ok
         | |- muted (Err _) => apply muted_err
         | |- mute _ => mutely
         | |- muted (match ?x with _ => _ end) => destruct x
         | |- muted (if ?x then _ else _) => destruct x
         end.

Lemma mute_get {A} i (l : list A) : muted (py_get i l).
Proof. unfold py_get. muteness. Qed.
Lemma mute_set {A} i x (l : list A) : muted (py_set i x l).
Proof. unfold py_set. muteness. Qed.
Lemma mute_del {A} i (l : list A) : muted (py_del i l).
Proof. unfold py_del. muteness. Qed.
Lemma mute_rbind {A B} (m : res A) (k : A -> res B) : muted m -> (forall a, muted (k a)) -> muted (rbind m k).
Proof. intros H K. destruct m as [a | e]; cbn; [apply K | apply muted_err, (H e eq_refl)]. Qed.
Lemma mute_pop {A} i (l : list A) : muted (py_pop i l).
Proof.
  unfold py_pop. apply mute_rbind; [apply mute_get |]. intros x.
  apply mute_rbind; [apply mute_del |]. intros y. apply muted_ok.
Qed.
Lemma mute_remove {A} (eqb : A -> A -> bool) x (l : list A) : muted (py_remove eqb x l).
Proof.
  induction l as [| y l IH]; cbn [py_remove]; [muteness |].
  destruct (eqb y x); [muteness |]. apply mute_rbind; [exact IH |]. intros. apply muted_ok.
Qed.
Lemma mute_getslice {A} s (l : list A) : muted (py_getslice s l).
Proof. unfold py_getslice. muteness. Qed.
Lemma mute_setslice {A} s vs (l : list A) : muted (py_setslice s vs l).
Proof. unfold py_setslice. muteness. Qed.
Lemma mute_delslice {A} s (l : list A) : muted (py_delslice s l).
Proof. unfold py_delslice. muteness. Qed.
Lemma mute_items {A} (l : list A) it : muted (iter_items l it).
Proof. unfold iter_items. muteness. Qed.
Lemma mute_len {A} (l : list A) it : muted (iter_len l it).
Proof. unfold iter_len. muteness. Qed.

Lemma mute_keep {A} (l : list A) r : muted r -> muted (fst (keep l r)).
Proof. intros H. destruct r as [x | e]; cbn; [apply muted_ok | apply muted_err, (H e eq_refl)]. Qed.

Lemma mute_plain {A} (eqb : A -> A -> bool) op l : muted (fst (plain_step eqb op l)).
Proof.
  destruct op; cbn [plain_step fst]; muteness;
    try (apply mute_keep; first [apply mute_remove | apply mute_set | apply mute_del | apply mute_delslice
      | apply mute_rbind; [apply mute_items | intros; muteness] ]).
  - pose proof (mute_pop i l) as H. destruct (py_pop i l) as [[x l'] | e]; cbn; muteness. apply (H e eq_refl).
  - apply mute_keep. destruct (Z.eqb (slice_step s) 0); [muteness |].
    apply mute_rbind; [apply mute_items | intros; apply mute_setslice].
Qed.

Lemma mute_owned {A} (eqb : A -> A -> bool) op l : muted (fst (fst (owned_step eqb op l))).
Proof.
  destruct op; cbn [owned_step];
    unfold o_append, o_extend, o_insert, o_remove, o_sort, o_clear, o_pop, o_reverse, o_iadd, o_imul, o_setint,
      o_setslice, o_delint, o_delslice; cbn zeta;
    repeat match goal with
    | |- context [iter_len l ?it] => pose proof (mute_len l it); destruct (iter_len l it)
    | |- context [iter_items l ?it] => pose proof (mute_items l it); destruct (iter_items l it)
    | |- context [py_remove eqb ?x l] => pose proof (mute_remove eqb x l); destruct (py_remove eqb x l)
    | |- context [py_pop ?i l] => pose proof (mute_pop i l); destruct (py_pop i l) as [[] |]
    | |- context [py_set ?i ?x l] => pose proof (mute_set i x l); destruct (py_set i x l)
    | |- context [py_getslice ?s l] => pose proof (mute_getslice s l); destruct (py_getslice s l)
    | |- context [py_delslice ?s l] => pose proof (mute_delslice s l); destruct (py_delslice s l)
    | |- context [py_del ?i l] => pose proof (mute_del i l); destruct (py_del i l)
    | |- context [rbind (Ok ?a) _] => cbn [rbind]
    | |- context [rbind (Err ?a) _] => cbn [rbind]
    | |- context [py_setslice ?s ?a l] => pose proof (mute_setslice s a l); destruct (py_setslice s a l)
    | |- context [if (?n <=? 0)%Z then _ else _] => destruct (n <=? 0)%Z
    | |- context [if (?n =? 1)%Z then _ else _] => destruct (n =? 1)%Z
    end; cbn [fst]; muteness;
    match goal with H : muted (Err ?e) |- mute ?e => exact (H e eq_refl) end.
Qed.

Lemma mute_downed {K V} (keqb : K -> K -> bool) (none : V) op d : muted (fst (fst (owned_dstep keqb none op d))).
Proof.
  destruct op; cbn [owned_dstep];
    unfold od_clear, od_pop, od_popitem, od_setdefault, od_update, od_setitem, od_delitem, od_ior; cbn [fst]; cbn zeta; muteness;
    repeat match goal with
    | |- context [match ?x with _ => _ end] => destruct x
    end; cbn [fst]; muteness.
Qed.

Lemma mute_g_get c p o g : muted (g_get c p o g).
Proof. unfold g_get. muteness. Qed.
Lemma mute_g_put c p o g : muted (g_put c p o g).
Proof. unfold g_put. muteness. Qed.
Lemma mute_merge c p os : forall g, muted (merge_loop c p os g).
Proof.
  induction os as [| o os IH]; intros g; cbn [merge_loop]; [apply muted_ok |].
  apply mute_rbind.
  - unfold g_has. apply mute_rbind; [apply mute_g_get |]. intros [r g']. apply muted_ok.
  - intros [h g1]. destruct (negb h).
    + apply mute_rbind; [apply mute_g_put | intros; apply IH].
    + apply mute_rbind; [apply mute_g_get |]. intros [[o' |] g2]; [| muteness].
      destruct (Nat.eqb o' o); [| muteness]. apply mute_rbind; [apply mute_g_put | intros; apply IH].
Qed.
Lemma mute_merged c p i j s : muted (fst (merged_graph c p i j s)).
Proof.
  unfold merged_graph. destruct (Nat.eqb i j); [apply muted_ok |].
  match goal with |- context [merge_loop c p ?l ?g] => pose proof (mute_merge c p l g) as M; destruct (merge_loop c p l g) as [x | e] end.
  - apply muted_ok.
  - apply muted_err, (M e eq_refl).
Qed.

Section Run.
  Context (ct : string -> option cdef)
          (oeq : heap -> Values.oid -> Values.oid -> bool)
          (getter : heap -> Values.oid -> string -> res value)
          (setter : Values.oid -> string -> value -> st heap unit)
          (pystr : value -> string).
  Context (R : heap -> heap -> Prop).
  Hypothesis refl : forall s, R s s.
  Hypothesis trans : forall a b c, R a b -> R b c -> R a c.
  Hypothesis upd_ok : forall o F h, (forall b, keeps b (F b)) -> R h (upd o F h).
  Hypothesis graph_ok : forall g h, R h (with_graph g h).
  Hypothesis getter_ok : forall h o n, muted (getter h o n).
  Hypothesis setter_ok : forall o n v, sound R (setter o n v).
  Notation sound := (sound R).

  Lemma h_gets {A} (q : heap -> A) : sound (gets q).
  Proof. intros h. split; [apply refl | apply muted_ok]. Qed.
  Lemma h_updm o F : (forall b, keeps b (F b)) -> sound (updm o F).
  Proof. intros H h. split; [apply upd_ok, H | apply muted_ok]. Qed.
  Lemma h_put o a p c : sound (modify (put_at o a p c)).
  Proof.
    intros h. split; [| apply muted_ok]. cbn. unfold put_at. destruct (attr h o a); [| apply refl].
    apply upd_ok. intros b. constructor; reflexivity.
  Qed.
  Lemma h_getattr o n : sound (getattr ct getter o n).
  Proof.
    intros h. unfold getattr. destruct (ofield ct h o n) as [f |]; [destruct (is_calc f) |];
      (split; [apply refl |]); cbn [fst]; [apply getter_ok | |]; muteness.
  Qed.
  Lemma h_vid v : sound (vid ct v).
  Proof. intros h. unfold vid. destruct v; (split; [apply refl |]); cbn [fst]; muteness. Qed.
  Lemma h_len o a p : sound (len_at o a p).
  Proof. intros h. unfold len_at. destruct (attr_at h o a p) as [[] |]; (split; [apply refl |]); cbn [fst]; muteness. Qed.

  Ltac kp := intros ?b; cbn; repeat match goal with |- context [if ?c then _ else _] => destruct c end; constructor; reflexivity.
  Ltac go :=
    repeat (cbn zeta;
      match goal with
      | |- sound (ret _) => apply s_ret; exact refl
      | |- sound (throw _) => apply s_throw; [exact refl | try (mutely)]
      | |- sound (bind _ _) => apply s_bind; [exact refl | exact trans | | intros]
      | |- sound (gets _) => apply h_gets
      | |- sound (getattr _ _ _ _) => apply h_getattr
      | |- sound (vid _ _) => apply h_vid
      | |- sound (len_at _ _ _) => apply h_len
      | |- sound (setter _ _ _) => apply setter_ok
      | |- sound (modify (put_at _ _ _ _)) => apply h_put
      | |- sound (updm _ _) => apply h_updm; try kp
      | |- sound (for_st _ _) => apply s_for; [exact refl | exact trans | intros]
      | |- sound (lift _) => apply s_lift; [exact refl | muteness]
      | |- sound (match ?x with _ => _ end) => destruct x
      | H : _ |- sound _ => apply H
      end).

  Lemma h_add_unlinked o n x : sound (add_unlinked oeq o n x).
  Proof. intros h. split; [apply (upd_ok o); kp | apply muted_ok]. Qed.
  Lemma h_del_unlinked o n x : sound (del_unlinked oeq o n x).
  Proof. intros h. split; [apply (upd_ok o); kp | apply muted_ok]. Qed.
  Lemma h_mark o k : sound (mark o k).
  Proof. unfold mark. go. Qed.
  Lemma h_remember o k v : sound (remember o k v).
  Proof. unfold remember. go. Qed.
  Lemma h_mark_local o k : sound (mark_local o k).
  Proof. unfold mark_local. go. Qed.
  Lemma h_record o f : sound (record_previous ct getter o f).
  Proof.
    unfold record_previous. go; try apply h_remember; unfold copy_for; muteness.
  Qed.
  Lemma h_will o lab : sound (olist_will ct getter o lab).
  Proof. unfold olist_will. go. apply h_record. Qed.
  Lemma h_dwill o lab : sound (odict_will ct getter o lab).
  Proof. unfold odict_will. go. apply h_record. Qed.
  Lemma h_first val l : sound (first_with_id ct oeq val l).
  Proof. induction l; cbn [first_with_id]; go. Qed.
  Lemma h_keys l : sound (keys_of ct l).
  Proof. induction l; cbn [keys_of]; go. Qed.
  Lemma h_store_keys o k l : sound (store_keys o k l).
  Proof. unfold store_keys. go. Qed.
  Lemma h_store o f v : sound (store_local ct o f v).
  Proof. unfold store_local. go; try apply h_keys; apply h_store_keys. Qed.
  Lemma h_pick ids cur : sound (pick_by_ids ct oeq ids cur).
  Proof. induction ids; cbn [pick_by_ids]; go. apply h_first. Qed.
  Lemma h_graphs o x : sound (link_graphs ct pystr o x).
  Proof.
    unfold link_graphs. destruct x; try (apply s_throw; [exact refl | mutely]).
    intros h. destruct (link_graph _ _ _ _ _) as [r g] eqn:E. cbn [fst snd]. split; [apply graph_ok |].
    unfold link_graph in E. revert E.
    match goal with |- context [merged_graph ?c ?p ?i ?j ?s] => pose proof (mute_merged c p i j s) as M;
      destruct (merged_graph c p i j s) as [[k | e] s2] end;
      intros E; inversion E; subst; [apply muted_ok |]. apply muted_err, (M e eq_refl).
  Qed.

  Section Rec.
    Context (rec : task -> st heap unit).
    Hypothesis rec_ok : forall t, sound (rec t).

    Lemma h_add o a p lab i x : sound (olist_add ct rec o a p lab i x).
    Proof. unfold olist_add. go; try apply h_mark_local; apply h_mark. Qed.
    Lemma h_del o a p lab x : sound (olist_del ct oeq getter rec o a p lab x).
    Proof. unfold olist_del. go; try apply h_mark_local; try apply h_mark; apply h_first. Qed.
    Lemma h_event o a p lab e : sound (list_event ct oeq getter rec o a p lab e).
    Proof. unfold list_event, olist_sor. go; try apply h_add; try apply h_del; apply h_mark. Qed.
    Lemma h_devent o a p lab e : sound (dict_event rec o a p lab e).
    Proof. unfold dict_event. go; apply h_mark. Qed.
    Lemma h_do_list o a p lab op : sound (do_list ct oeq getter rec o a p lab op).
    Proof.
      unfold do_list. pose (k := (fun h => match attr_at h o a p with
        | Some (VList l) => if sinb a (o_raw (h_obj h o)) then
              let '(r, l') := plain_step (eqv oeq h) op l in
              (modify (put_at o a p (VList l')) >> match r with Ok _ => ret tt | Err e => throw e end)
            else let '(r, l', es) := owned_step (eqv oeq h) op l in
              ((if existsb is_will es then olist_will ct getter o lab else ret tt) >>
               modify (put_at o a p (VList l')) >>
               match r with Ok _ => for_st es (list_event ct oeq getter rec o a p lab) | Err e => throw e end)
        | _ => throw EAttributeError end) : heap -> st heap unit).
      apply s_ext with (fun h => k h h).
      { intros h. unfold k. destruct (attr_at h o a p) as [[] |]; try reflexivity. destruct (sinb a _).
        - destruct (plain_step _ _ _). reflexivity.
        - destruct (owned_step _ _ _) as [[] ]. reflexivity. }
      apply (s_self R k). unfold k; clear k.
      intros h. destruct (attr_at h o a p) as [[] |]; try (apply s_throw; [exact refl | mutely]).
      destruct (sinb a _).
      - pose proof (mute_plain (eqv oeq h) op l) as L. destruct (plain_step (eqv oeq h) op l) as [r l']. cbn [fst] in L.
        go. exact (L e eq_refl).
      - pose proof (mute_owned (eqv oeq h) op l) as L. destruct (owned_step (eqv oeq h) op l) as [[r l'] es]. cbn [fst] in L.
        go; [apply h_will | apply h_event | exact (L e eq_refl)].
    Qed.
    Lemma h_do_dict o a p lab op : sound (do_dict ct getter rec o a p lab op).
    Proof.
      unfold do_dict. pose (k := (fun h => match attr_at h o a p with
        | Some (VDict d) => let '(r, d', es) := owned_dstep String.eqb VNone op d in
              ((if existsb is_dwill es then odict_will ct getter o lab else ret tt) >>
               modify (put_at o a p (VDict d')) >>
               match r with Ok _ => for_st es (dict_event rec o a p lab) | Err e => throw e end)
        | _ => throw EAttributeError end) : heap -> st heap unit).
      apply s_ext with (fun h => k h h).
      { intros h. unfold k. destruct (attr_at h o a p) as [[] |]; try reflexivity. destruct (owned_dstep _ _ _ _) as [[] ]. reflexivity. }
      apply (s_self R k). unfold k; clear k.
      intros h. destruct (attr_at h o a p) as [[] |]; try (apply s_throw; [exact refl | mutely]).
      pose proof (mute_downed String.eqb VNone op d) as L. destruct (owned_dstep String.eqb VNone op d) as [[r l'] es]. cbn [fst] in L.
      go; [apply h_dwill | apply h_devent | exact (L e eq_refl)].
    Qed.
    Lemma h_unlink_item o g x : sound (unlink_item ct oeq getter rec o g x).
    Proof. unfold unlink_item, item_attr. go; apply h_add_unlinked. Qed.
    Lemma h_unlink o f v : sound (unlink ct oeq getter rec o f v).
    Proof. unfold unlink. go; first [apply h_add_unlinked | apply h_unlink_item]. Qed.
    Lemma h_link_item o g x : sound (link_item ct oeq getter rec o g x).
    Proof. unfold link_item, item_attr. go; apply h_del_unlinked. Qed.
    Lemma h_link o f v : sound (link ct oeq getter pystr rec o f v).
    Proof. unfold link. go; first [apply h_del_unlinked | apply h_link_item | apply h_graphs]. Qed.
    Lemma h_set_local_key o n m v : sound (set_local_key ct oeq getter rec o n m v).
    Proof. unfold set_local_key. go; first [apply h_store_keys | apply h_pick | apply h_mark]. Qed.
    Lemma h_set_plain o n v : sound (set_plain o n v).
    Proof. unfold set_plain. go. Qed.
    Lemma h_set_field o f v : sound (set_field ct oeq getter setter rec o f v).
    Proof. unfold set_field. go; first [apply h_mark | apply h_remember | apply h_store]. Qed.
    Lemma h_set_attribute o n v : sound (set_attribute ct oeq getter setter rec o n v).
    Proof. unfold set_attribute. go; first [apply h_set_plain | apply h_set_field | apply h_set_local_key]. Qed.
    Lemma h_body t : sound (body ct oeq getter setter pystr rec t).
    Proof.
      destruct t; cbn [body];
        [apply h_set_attribute | apply h_unlink | apply h_link | apply h_do_list | apply h_do_dict].
    Qed.
  End Rec.

  Lemma run_muted_any n : forall t, sound (run ct oeq getter setter pystr n t).
  Proof.
    induction n as [| n IH]; intros t; cbn [run]; [apply s_throw; [exact refl | exact Logic.I] |].
    apply h_body, IH.
  Qed.
End Run.

(** Every operation on attributes, with setters that do the same. *)
Lemma run_muted ct oeq getter setter pystr n t :
  (forall h o k, muted (getter h o k)) -> (forall o k v, sound settled (setter o k v)) ->
  sound settled (run ct oeq getter setter pystr n t).
Proof.
  intros Hg Hs. apply run_muted_any; [apply settled_refl | apply settled_trans | | | exact Hg | exact Hs].
  - intros o F h K. constructor; [reflexivity |]. intros x. cbn. destruct (Nat.eqb x o) eqn:E; [| apply keeps_refl].
    apply Nat.eqb_eq in E. subst. apply K.
  - intros g h. constructor; [reflexivity | intros; apply keeps_refl].
Qed.
