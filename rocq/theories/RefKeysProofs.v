(** RefKeysProofs.v -- lemmas for C81. *)
From Verif Require Import Base Mon PyList PyDict StrDict KeypathModel KeypathSpec KeypathProofs OListModel Values ChainModel
  TypesModel ObjModel ObjSpec ObjTrack IoModel IoBase UpdateSpec UpdateProofs StrictSpec StrictProofs KpSetSpec KpSetProofs RefKeysSpec.
From Coq Require QArith_base.
From Verif Require LeafModel.
Open Scope string_scope.
Open Scope list_scope.

(** ** Quiet marks *)
Lemma quiet_transform P n m c w : quiet_mark m -> m_transform (interp P (S n) m) c w = (Ok (c_val c), w).
Proof. intros H. destruct m; try contradiction H; reflexivity. Qed.
Lemma quiet_fold P n l c v w : Forall quiet_mark l ->
  fold_st (fun val m => m_transform m (nval c val)) (map (interp P (S n)) l) v w = (Ok v, w).
Proof.
  intros H. revert w; induction H as [| m l Hm _ IH]; intros w; [reflexivity |].
  cbn [map fold_st]. erewrite bind_eq; [apply IH |]. rewrite quiet_transform by exact Hm. reflexivity.
Qed.
Lemma quiet_chain P n a it b c w : Forall quiet_mark a -> Forall quiet_mark b ->
  t_transform (interp P (S n)) (a ++ MListOf it :: b) c w = col_transform P (interp P n) false c w.
Proof.
  intros Ha Hb. rewrite unmarked_transform.
  2:{ rewrite Forall_forall in Ha, Hb.
      split; intros H; apply in_app_or in H; destruct H as [H | [H | H]]; try discriminate H;
        first [apply Ha in H | apply Hb in H]; contradiction H. }
  unfold bind at 1. cbn [ret]. rewrite map_app, fold_st_app.
  erewrite bind_eq by (apply quiet_fold; exact Ha).
  cbn [map fold_st]. unfold bind.
  change (m_transform (interp P (S n) (MListOf it)) (nval c (c_val c)) w)
    with (col_transform P (interp P n) false (nval c (c_val c)) w). rewrite nval_val.
  destruct (col_transform P (interp P n) false c w) as [[v | x] w1]; [| reflexivity].
  apply quiet_fold, Hb.
Qed.

(** ** [set] with one key that belongs to one field *)
Section One.
  Context (P : program) (n : nat) (o : oid) (d : cdef) (f : field) (v : value).
  Context (If : In f (cd_fields d)).
  Context (Al : forall g, In g (cd_fields d) -> g <> f ->
    fl_name g <> fl_name f /\ fl_json g <> fl_name f /\ fl_ref g <> fl_name f /\ fl_cref g <> fl_name f).
  Context (Nd : NoDup (cd_fields d)).
  Notation m := [(fl_name f, v)].

  Lemma has_other k : k <> fl_name f -> smem k m = false /\ get_or_none k m = VNone.
  Proof.
    intros H. unfold get_or_none, smem, dmem, sget. cbn. apply String.eqb_neq in H. rewrite H. auto.
  Qed.
  Definition refs_after (acc : list string) (g : field) : list string :=
    if is_ref (fl_fdef g) then if is_list_field g && match f_collection_null (fl_fdef g) with NNonnull => true | _ => false end then acc ++ [fl_name g] else acc else acc.
  Lemma other_field c acc g w : g_fill (c_cfg c) = false -> In g (cd_fields d) -> g <> f ->
    fill_field P (interp P n) c m o false acc g w = (Ok (refs_after acc g), w).
  Proof.
    intros Gf Ig Ng. destruct (Al g Ig Ng) as (A1 & A2 & A3 & A4). unfold fill_field, has_field_value.
    rewrite (proj1 (has_other _ A1)), (proj1 (has_other _ A2)). cbn [orb].
    unfold absent_field, refs_after. rewrite (proj2 (has_other _ A3)), (proj2 (has_other _ A4)), Gf.
    destruct (is_ref (fl_fdef g)); [| reflexivity]. destruct (is_local g); reflexivity.
  Qed.

  Definition list_refs (refs : list string) : Prop :=
    forall k, In k refs -> exists g, In g (cd_fields d) /\ fl_name g = k /\ is_ref (fl_fdef g) = true /\ is_list_field g = true /\ f_collection_null (fl_fdef g) = NNonnull.
  Lemma refs_after_list acc g : In g (cd_fields d) -> list_refs acc -> list_refs (refs_after acc g).
  Proof.
    intros Ig Ha. unfold refs_after. destruct (is_ref (fl_fdef g)) eqn:R; [| exact Ha].
    destruct (is_list_field g) eqn:L; [| exact Ha]. destruct (f_collection_null (fl_fdef g)) eqn:C; try exact Ha.
    intros k Hk. apply in_app_iff in Hk. destruct Hk as [Hk | [<- | []]]; [exact (Ha k Hk) |]. exists g. auto 6.
  Qed.
  Lemma others_fold c fs acc w : g_fill (c_cfg c) = false -> incl fs (cd_fields d) -> ~ In f fs -> list_refs acc ->
    exists refs, fold_st (fill_field P (interp P n) c m o false) fs acc w = (Ok refs, w) /\ list_refs refs.
  Proof.
    intros Gf. revert acc. induction fs as [| g fs IH]; intros acc Ii Nf Ha; [exists acc; auto |].
    cbn [fold_st]. rewrite (bind_eq _ _ _ _ _ (other_field c acc g w Gf (Ii g (or_introl eq_refl)) (fun E => Nf (or_introl E)))).
    apply IH; [intros x Hx; apply Ii; right; exact Hx | intros X; apply Nf; right; exact X |].
    apply refs_after_list; [apply Ii; left; reflexivity | exact Ha].
  Qed.
  Lemma refs_fold refs w : wcdef P w o = d -> lists_there P w o -> list_refs refs ->
    for_st refs (fun k => do* cur <- IoModel.getattr P o k; if is_none cur then setattr P o k (VList []) else ret tt) w = (Ok tt, w).
  Proof.
    intros Hd L. induction refs as [| k refs IH]; intros Hr; [reflexivity |]. cbn [for_st].
    destruct (Hr k (or_introl eq_refl)) as (g & Ig & Ek & R & Lg & C). rewrite <- Hd in Ig.
    destruct (L g Ig R Lg C) as (Ca & Fn & x & Ax & Nx). subst k.
    assert (G : IoModel.getattr P o (fl_name g) w = (Ok x, w)).
    { unfold IoModel.getattr, liftH, ObjModel.getattr, ofield. unfold wcdef in Fn. rewrite Fn, Ca. unfold attr_of in Ax. rewrite Ax. destruct w; reflexivity. }
    assert (E : (do* cur <- IoModel.getattr P o (fl_name g); if is_none cur then setattr P o (fl_name g) (VList []) else ret tt) w = (Ok tt, w)).
    { rewrite (bind_eq _ _ _ x _ G). destruct x; try reflexivity. contradiction. }
    rewrite (bind_eq _ _ _ tt _ E). apply IH. intros k Hk. apply Hr. right. exact Hk.
  Qed.

  Lemma set_one w : p_ct P (wclass w o) = Some d ->
    exists g, let c := set_ctx o m false w in
      (forall w2, (forall acc, fill_field P (interp P n) c m o false acc f (set_mg g w) = (Ok acc, w2)) ->
         wcdef P w2 o = d -> lists_there P w2 o ->
         set_fields P (S n) o m false w = (Ok tt, set_mg (w_mg w) w2)) /\
      (forall e w2, (forall acc, fill_field P (interp P n) c m o false acc f (set_mg g w) = (Err e, w2)) ->
         set_fields P (S n) o m false w = (Err e, set_mg (w_mg w) w2)).
  Proof.
    intros D. destruct (noted_mg P d m o (set_mg [] w)) as (g & Eg). exists g. cbv zeta.
    assert (Ew : noted P d m o (set_mg [] w) = set_mg g w) by (rewrite Eg; reflexivity). clear Eg.
    assert (Hd : wcdef P (set_mg g w) o = d) by (unfold wcdef, cdef_of; cbn; unfold wclass, wobj in D; rewrite D; reflexivity).
    destruct (in_split f (cd_fields d) If) as (pre & post & Es).
    assert (Np : ~ In f pre /\ ~ In f post).
    { rewrite Es in Nd. apply NoDup_remove_2 in Nd. split; intros X; apply Nd; apply in_or_app; auto. }
    assert (Ip : incl pre (cd_fields d) /\ incl post (cd_fields d)).
    { rewrite Es. split; intros x Hx; apply in_or_app; [left | right; right]; exact Hx. }
    set (c := set_ctx o m false w). assert (Gf : g_fill (c_cfg c) = false) by reflexivity.
    destruct (others_fold c pre [] (set_mg g w) Gf (proj1 Ip) (proj1 Np) (fun k H => match H with end)) as (refs1 & E1 & L1).
    assert (S0 : (if is_strict c d then strictness_check c d (map fst m) else ret tt) (set_mg g w) = (Ok tt, set_mg g w)).
    { destruct (is_strict c d); [| reflexivity]. unfold strictness_check.
      rewrite (proj2 (find_none d (map fst m))); [reflexivity |]. constructor; [| constructor].
      exists f. split; [exact If | auto]. }
    split.
    - intros w2 Hf Hd2 L2. rewrite (set_fields_eq P n o d m false w D), Ew. fold c. unfold fill.
      rewrite (bind_eq (getW (fun w => wcdef P w o)) _ (set_mg g w) d (set_mg g w)) by (unfold getW; rewrite Hd; reflexivity).
      rewrite (bind_eq _ _ _ tt _ S0).
      destruct (others_fold c post refs1 w2 Gf (proj2 Ip) (proj2 Np) L1) as (refs2 & E2 & LL).
      assert (E3 : fold_st (fill_field P (interp P n) c m o false) (cd_fields d) [] (set_mg g w) = (Ok refs2, w2)).
      { rewrite Es, fold_st_app. rewrite (bind_eq _ _ _ _ _ E1). cbn [fold_st]. rewrite (bind_eq _ _ _ _ _ (Hf refs1)). exact E2. }
      rewrite (bind_eq _ _ _ _ _ E3). rewrite (bind_eq _ _ _ tt _ (refs_fold refs2 w2 Hd2 L2 LL)). reflexivity.
    - intros e w2 Hf. rewrite (set_fields_eq P n o d m false w D), Ew. fold c. unfold fill.
      rewrite (bind_eq (getW (fun w => wcdef P w o)) _ (set_mg g w) d (set_mg g w)) by (unfold getW; rewrite Hd; reflexivity).
      rewrite (bind_eq _ _ _ tt _ S0).
      assert (E3 : fold_st (fill_field P (interp P n) c m o false) (cd_fields d) [] (set_mg g w) = (Err e, w2)).
      { rewrite Es, fold_st_app. rewrite (bind_eq _ _ _ _ _ E1). cbn [fold_st]. apply bind_eq_err, Hf. }
      rewrite (bind_eq_err _ _ _ _ _ E3). reflexivity.
  Qed.
End One.

(** ** One command on the stored keys *)
Lemma key_eq q a b : is_key a -> is_key b -> veq q a b = true <-> a = b.
Proof.
  intros Ha Hb. destruct a; try contradiction Ha; destruct b; try contradiction Hb; cbn; try (split; [discriminate |]; discriminate).
  - unfold QArith_base.Qeq_bool, QArith_base.inject_Z. cbn. rewrite !Z.mul_1_r. split; [intros H; apply Zeq_bool_eq in H; subst; reflexivity |].
    intros H. inversion H; subst. apply Zeq_is_eq_bool. reflexivity.
  - rewrite String.eqb_eq. split; [intros ->; reflexivity | intros H; inversion H; reflexivity].
Qed.
Lemma remove_key q k a b : is_key k -> Forall is_key a -> ~ In k a -> py_remove (veq q) k (a ++ k :: b) = Ok (a ++ b).
Proof.
  intros Hk Ha. induction Ha as [| x a Hx Ha IH]; intros N; cbn.
  - rewrite (proj2 (key_eq q k k Hk Hk) eq_refl). reflexivity.
  - destruct (veq q x k) eqn:E; [apply key_eq in E; [| assumption..]; exfalso; apply N; left; exact E |].
    rewrite IH by (intros X; apply N; right; exact X). reflexivity.
Qed.
Lemma remove_absent q k a : is_key k -> Forall is_key a -> ~ In k a -> py_remove (veq q) k a = Err EValueError.
Proof.
  intros Hk Ha. induction Ha as [| x a Hx Ha IH]; intros N; cbn; [reflexivity |].
  destruct (veq q x k) eqn:E; [apply key_eq in E; [| assumption..]; exfalso; apply N; left; exact E |].
  rewrite IH by (intros X; apply N; right; exact X). reflexivity.
Qed.

(** Nothing but the attribute [k] of [o] and its record of changes is another. *)
Record keys_only (o : oid) (k : string) (h h' : heap) : Prop := {
  ko_other : forall x, x <> o -> h_obj h' x = h_obj h x;
  ko_attr : forall n, n <> k -> attr h' o n = attr h o n;
  ko_class : o_class (h_obj h' o) = o_class (h_obj h o);
  ko_new : o_new (h_obj h' o) = o_new (h_obj h o);
  ko_lkeys : o_lkeys (h_obj h' o) = o_lkeys (h_obj h o)
}.
Lemma ko_refl o k h : keys_only o k h h.
Proof. constructor; reflexivity. Qed.
Lemma ko_trans o k h1 h2 h3 : keys_only o k h1 h2 -> keys_only o k h2 h3 -> keys_only o k h1 h3.
Proof.
  intros [A B C D E] [A' B' C' D' E']. constructor; try congruence.
  - intros x Hx. rewrite A' by exact Hx. apply A, Hx.
  - intros n Hn. rewrite B' by exact Hn. apply B, Hn.
Qed.
Lemma ko_upd o k F h : (forall b n, n <> k -> o_attr (F b) n = o_attr b n) -> (forall b, o_class (F b) = o_class b) ->
  (forall b, o_new (F b) = o_new b) -> (forall b, o_lkeys (F b) = o_lkeys b) -> keys_only o k h (upd o F h).
Proof.
  intros A B C D. constructor.
  - intros x Hx. apply upd_other, Hx.
  - intros n Hn. unfold attr. rewrite upd_same. apply A, Hn.
  - rewrite upd_same. apply B.
  - rewrite upd_same. apply C.
  - rewrite upd_same. apply D.
Qed.

Section Step.
  Context (P : program) (o : oid) (d : cdef) (f : field) (h0 : heap).
  Notation k := (fl_ref f).
  Notation rn := (run (p_ct P) (p_oeq P) (p_getter P) (p_setter P) (LeafModel.py_str (p_str P))).
  (** The state between two commands *)
  Record ready (h : heap) : Prop := {
    rd_only : keys_only o k h0 h;
    rd_cdef : p_ct P (o_class (h_obj h o)) = Some d;
    rd_named : field_named (fl_name f) d = Some f;
    rd_ref : field_named k d = None;
    rd_init : initial_keypath k = k;
    rd_kind : is_calc f = false /\ is_local f = true /\ f_ftype (fl_fdef f) = Some FTList;
    rd_table : sget k (o_lkeys (h_obj h o)) = Some (fl_name f);
    rd_name : sget (fl_name f) (o_lkeys (h_obj h o)) = None;
    rd_ne : k <> fl_name f;
    rd_empty : attr h o (fl_name f) = Some (VList [])
  }.
  Lemma ready_next h h' : ready h -> keys_only o k h h' -> ready h'.
  Proof.
    intros [A B C D E F G H N I] K. pose proof K as [K1 K2 K3 K4 K5]. constructor; try assumption.
    - exact (ko_trans _ _ _ _ _ A K).
    - rewrite K3. exact B.
    - rewrite K5. exact G.
    - rewrite K5. exact H.
    - rewrite K2 by (intros X; apply N; symmetry; exact X). exact I.
  Qed.
  Definition owned (h : heap) : Prop := sinb k (o_raw (h_obj h o)) = false.
  Definition noticed (h : heap) : Prop := o_new (h_obj h o) = false -> In (fl_name f) (o_mfields (h_obj h o)).

  Lemma ofield_in h n : p_ct P (o_class (h_obj h o)) = Some d -> ofield (p_ct P) h o n = field_named n d.
  Proof. intros H. unfold ofield, cdef_of. rewrite H. reflexivity. Qed.

  Definition put_keys (ks : list value) (h : heap) : heap := upd o (set_attr k (VList ks)) h.
  Lemma put_only ks h : keys_only o k h (put_keys ks h).
  Proof.
    apply ko_upd; try reflexivity. intros b n Hn. cbn. apply String.eqb_neq in Hn.
    rewrite ?(String.eqb_sym k n), ?Hn. reflexivity.
  Qed.
  Lemma put_attr ks h : attr (put_keys ks h) o k = Some (VList ks).
  Proof. unfold attr, put_keys. rewrite upd_same. cbn. rewrite String.eqb_refl. reflexivity. Qed.
  Lemma mark_local_only h : keys_only o k h (upd o (fun b => if negb (o_new b) && negb (sinb (fl_name f) (o_mfields b))
                     then set_mfields (sadd (fl_name f) (o_mfields b)) (set_modified true b) else b) h).
  Proof. apply ko_upd; intros b; destruct (negb (o_new b) && _); reflexivity. Qed.
  Lemma mark_local_in h : noticed (upd o (fun b => if negb (o_new b) && negb (sinb (fl_name f) (o_mfields b))
                     then set_mfields (sadd (fl_name f) (o_mfields b)) (set_modified true b) else b) h).
  Proof.
    unfold noticed. rewrite upd_same. destruct (o_new (h_obj h o)) eqn:N; cbn [negb andb].
    - rewrite N. discriminate.
    - destruct (sinb (fl_name f) (o_mfields (h_obj h o))) eqn:S; cbn [negb]; intros _.
      + apply sinb_In, S.
      + cbn. apply in_sadd. left. reflexivity.
  Qed.

  Lemma append_key n h ks x : ready h -> attr h o k = Some (VList ks) ->
    exists h', rn (S n) (TOp o k [] k (LAppend x)) h = (Ok tt, h') /\ keys_only o k h h' /\
      attr h' o k = Some (VList (ks ++ [x])) /\ o_raw (h_obj h' o) = o_raw (h_obj h o) /\ (owned h -> noticed h') /\ (noticed h -> noticed h').
  Proof.
    intros R A. cbn [run body]. unfold do_list, attr_at. rewrite A. cbn [vget].
    destruct (sinb k (o_raw (h_obj h o))) eqn:Raw.
    - cbn [plain_step]. exists (put_keys (ks ++ [x]) h). unfold bind, modify, put_at. rewrite A. cbn [vput ret].
      split; [reflexivity |]. split; [apply put_only |]. split; [apply put_attr |].
      split; [unfold put_keys; rewrite upd_same; reflexivity |].
      split; [unfold owned; rewrite Raw; discriminate |].
      unfold noticed, put_keys. rewrite upd_same. cbn. auto.
    - cbn [owned_step o_append existsb is_will fst orb].
      assert (W : olist_will (p_ct P) (p_getter P) o k h = (Ok tt, h)).
      { unfold olist_will. rewrite (rd_init h R).
        rewrite (bind_eq (gets (fun h => ofield (p_ct P) h o k)) _ h None h); [reflexivity |].
        unfold gets. rewrite (ofield_in h k (rd_cdef h R)), (rd_ref h R). reflexivity. }
      rewrite (bind_eq _ _ h tt h W).
      assert (M : modify (put_at o k [] (VList (ks ++ [x]))) h = (Ok tt, put_keys (ks ++ [x]) h)).
      { unfold modify, put_at. rewrite A. reflexivity. }
      rewrite (bind_eq _ _ h tt _ M). cbn [for_st list_event fst].
      rewrite (bind_eq (ret tt) _ _ tt _ eq_refl). unfold olist_add.
      set (h1 := put_keys (ks ++ [x]) h).
      assert (T : sget k (o_lkeys (h_obj h1 o)) = Some (fl_name f)).
      { unfold h1. rewrite (ko_lkeys _ _ _ _ (put_only (ks ++ [x]) h)). apply (rd_table h R). }
      unfold bind at 1 2. unfold gets at 1, local_field_of. rewrite T. unfold mark_local, updm, modify. cbn [ret].
      eexists. split; [reflexivity |]. split; [exact (ko_trans _ _ _ _ _ (put_only _ h) (mark_local_only h1)) |].
      split; [unfold attr; rewrite upd_same; rewrite <- (put_attr (ks ++ [x]) h); fold h1; unfold attr; destruct (negb (o_new (h_obj h1 o)) && _); reflexivity |].
      split; [rewrite upd_same; transitivity (o_raw (h_obj h1 o)); [destruct (negb (o_new (h_obj h1 o)) && _); reflexivity | unfold h1, put_keys; rewrite upd_same; reflexivity] |].
      split; intros _; apply mark_local_in.
  Qed.

  Lemma remove_key_op n h a b x : ready h -> attr h o k = Some (VList (a ++ x :: b)) -> is_key x -> Forall is_key a -> ~ In x a ->
    exists h', rn (S n) (TOp o k [] k (LRemove x)) h = (Ok tt, h') /\ keys_only o k h h' /\
      attr h' o k = Some (VList (a ++ b)) /\ o_raw (h_obj h' o) = o_raw (h_obj h o) /\ (owned h -> noticed h') /\ (noticed h -> noticed h').
  Proof.
    intros R A Kx Ka N. cbn [run body]. unfold do_list, attr_at. rewrite A. cbn [vget].
    destruct (sinb k (o_raw (h_obj h o))) eqn:Raw.
    - cbn [plain_step]. unfold eqv. rewrite (remove_key (p_oeq P h) x a b Kx Ka N). cbn [keep].
      exists (put_keys (a ++ b) h). unfold bind, modify, put_at. rewrite A. cbn [vput ret].
      split; [reflexivity |]. split; [apply put_only |]. split; [apply put_attr |].
      split; [unfold put_keys; rewrite upd_same; reflexivity |].
      split; [unfold owned; rewrite Raw; discriminate |].
      unfold noticed, put_keys. rewrite upd_same. cbn. auto.
    - cbn [owned_step o_remove]. unfold eqv at 1. unfold o_remove. rewrite (remove_key (p_oeq P h) x a b Kx Ka N).
      cbn [existsb is_will fst orb].
      assert (W : olist_will (p_ct P) (p_getter P) o k h = (Ok tt, h)).
      { unfold olist_will. rewrite (rd_init h R).
        rewrite (bind_eq (gets (fun h => ofield (p_ct P) h o k)) _ h None h); [reflexivity |].
        unfold gets. rewrite (ofield_in h k (rd_cdef h R)), (rd_ref h R). reflexivity. }
      rewrite (bind_eq _ _ h tt h W).
      assert (M : modify (put_at o k [] (VList (a ++ b))) h = (Ok tt, put_keys (a ++ b) h)).
      { unfold modify, put_at. rewrite A. reflexivity. }
      rewrite (bind_eq _ _ h tt _ M). cbn [for_st list_event fst].
      rewrite (bind_eq (ret tt) _ _ tt _ eq_refl).
      set (h1 := put_keys (a ++ b) h).
      set (h2 := upd o (fun b => if negb (o_new b) && negb (sinb (fl_name f) (o_mfields b))
                     then set_mfields (sadd (fl_name f) (o_mfields b)) (set_modified true b) else b) h1).
      assert (K2 : keys_only o k h h2) by exact (ko_trans _ _ _ _ _ (put_only _ h) (mark_local_only h1)).
      assert (R2 : ready h2) by exact (ready_next h h2 R K2).
      assert (A2 : attr h2 o k = Some (VList (a ++ b))).
      { unfold h2, attr; rewrite upd_same; rewrite <- (put_attr (a ++ b) h); fold h1; unfold attr; destruct (negb (o_new (h_obj h1 o)) && _); reflexivity. }
      assert (E : olist_del (p_ct P) (p_oeq P) (p_getter P) (rn n) o k [] k x h1 = (Ok tt, h2)).
      { unfold olist_del.
        assert (T : sget k (o_lkeys (h_obj h1 o)) = Some (fl_name f)).
        { unfold h1. rewrite (ko_lkeys _ _ _ _ (put_only (a ++ b) h)). apply (rd_table h R). }
        rewrite (bind_eq (gets (fun h => local_field_of h o k)) _ h1 (Some (fl_name f)) h1) by (unfold gets, local_field_of; rewrite T; reflexivity).
        rewrite (bind_eq (mark_local o (fl_name f)) _ h1 tt h2 eq_refl).
        rewrite (bind_eq (ObjModel.getattr (p_ct P) (p_getter P) o (fl_name f)) _ h2 (VList []) h2).
        2:{ unfold ObjModel.getattr. rewrite (ofield_in h2 _ (rd_cdef h2 R2)), (rd_named h2 R2), (proj1 (rd_kind h2 R2)), (rd_empty h2 R2). reflexivity. }
        rewrite (bind_eq (len_at o k []) _ h2 (zlen (a ++ b)) h2).
        2:{ unfold len_at, attr_at. rewrite A2. reflexivity. }
        destruct (Z.eqb (zlen (@nil value)) (zlen (a ++ b))); reflexivity. }
      rewrite (bind_eq _ _ h1 tt h2 E).
      exists h2. split; [reflexivity |]. split; [exact K2 |]. split; [exact A2 |].
      split; [unfold h2; rewrite upd_same; transitivity (o_raw (h_obj h1 o)); [destruct (negb (o_new (h_obj h1 o)) && _); reflexivity | unfold h1, put_keys; rewrite upd_same; reflexivity] |].
      split; intros _; apply mark_local_in.
  Qed.

  Lemma remove_absent_op n h ks x : ready h -> attr h o k = Some (VList ks) -> is_key x -> Forall is_key ks -> ~ In x ks ->
    exists h', rn (S n) (TOp o k [] k (LRemove x)) h = (Err EValueError, h') /\ keys_only o k h h' /\
      attr h' o k = Some (VList ks).
  Proof.
    intros R A Kx Ka N. cbn [run body]. unfold do_list, attr_at. rewrite A. cbn [vget].
    destruct (sinb k (o_raw (h_obj h o))) eqn:Raw.
    - cbn [plain_step]. unfold eqv. rewrite (remove_absent (p_oeq P h) x ks Kx Ka N). cbn [keep].
      exists (put_keys ks h). unfold bind, modify, put_at. rewrite A. cbn [vput ret].
      split; [reflexivity |]. split; [apply put_only | apply put_attr].
    - cbn [owned_step o_remove]. unfold eqv at 1. unfold o_remove. rewrite (remove_absent (p_oeq P h) x ks Kx Ka N).
      cbn [existsb is_will fst orb].
      assert (W : olist_will (p_ct P) (p_getter P) o k h = (Ok tt, h)).
      { unfold olist_will. rewrite (rd_init h R).
        rewrite (bind_eq (gets (fun h => ofield (p_ct P) h o k)) _ h None h); [reflexivity |].
        unfold gets. rewrite (ofield_in h k (rd_cdef h R)), (rd_ref h R). reflexivity. }
      rewrite (bind_eq _ _ h tt h W).
      assert (M : modify (put_at o k [] (VList ks)) h = (Ok tt, put_keys ks h)).
      { unfold modify, put_at. rewrite A. reflexivity. }
      rewrite (bind_eq _ _ h tt _ M).
      exists (put_keys ks h). split; [reflexivity |]. split; [apply put_only | apply put_attr].
  Qed.

  Lemma set_same n h : ready h -> rn (S n) (TSet o (fl_name f) (VList [])) h = (Ok tt, h).
  Proof.
    intros R. cbn [run body]. unfold set_attribute.
    rewrite (bind_eq (gets (fun h => local_field_of h o (fl_name f))) _ h None h) by (unfold gets, local_field_of; rewrite (rd_name h R); reflexivity).
    rewrite (bind_eq (gets (fun h => ofield (p_ct P) h o (fl_name f))) _ h (Some f) h)
      by (unfold gets; rewrite (ofield_in h _ (rd_cdef h R)), (rd_named h R); reflexivity).
    unfold set_field. rewrite (proj1 (rd_kind h R)).
    rewrite (bind_eq (gets (fun h => attr h o (fl_name f))) _ h (Some (VList [])) h) by (unfold gets; rewrite (rd_empty h R); reflexivity).
    rewrite (bind_eq (gets _) _ h true h) by reflexivity. reflexivity.
  Qed.
  Lemma first_keys n h : ready h -> attr h o k = Some VNone ->
    exists h', rn (S (S n)) (TSet o k (VList [])) h = (Ok tt, h') /\ keys_only o k h h' /\
      attr h' o k = Some (VList []) /\ noticed h'.
  Proof.
    intros R A. cbn [run]. cbn [body]. unfold set_attribute.
    rewrite (bind_eq (gets (fun h => local_field_of h o k)) _ h (Some (fl_name f)) h) by (unfold gets, local_field_of; rewrite (rd_table h R); reflexivity).
    rewrite (bind_eq (gets (fun h => ofield (p_ct P) h o k)) _ h None h)
      by (unfold gets; rewrite (ofield_in h _ (rd_cdef h R)), (rd_ref h R); reflexivity).
    rewrite (bind_eq (ObjModel.getattr (p_ct P) (p_getter P) o k) _ h VNone h).
    2:{ unfold ObjModel.getattr. rewrite (ofield_in h _ (rd_cdef h R)), (rd_ref h R), A. reflexivity. }
    rewrite (bind_eq (gets _) _ h false h) by reflexivity.
    set (h1 := upd o (fun b => set_raw (filter (fun n => negb (String.eqb n k)) (o_raw b)) (set_attr k (VList []) b)) h).
    assert (K1 : keys_only o k h h1).
    { apply ko_upd; try reflexivity. intros b m Hm. cbn. apply String.eqb_neq in Hm.
      rewrite ?(String.eqb_sym k m), ?Hm. reflexivity. }
    pose proof (ready_next h h1 R K1) as R1.
    set (h2 := upd o (fun b => if o_new b then b else set_mfields (sadd (fl_name f) (o_mfields b)) (set_modified true b)) h1).
    assert (K2 : keys_only o k h1 h2) by (apply ko_upd; intros b; destruct (o_new b) eqn:Nb; cbn; rewrite ?Nb; reflexivity).
    assert (E : set_local_key (p_ct P) (p_oeq P) (p_getter P) (rn (S n)) o k (fl_name f) (VList []) h = (Ok tt, h2)).
    { unfold set_local_key.
      rewrite (bind_eq (gets (fun h => ofield (p_ct P) h o (fl_name f))) _ h (Some f) h)
        by (unfold gets; rewrite (ofield_in h _ (rd_cdef h R)), (rd_named h R); reflexivity).
      rewrite (proj2 (proj2 (rd_kind h R))).
      match goal with |- bind ?m _ h = _ => assert (E1 : m h = (Ok tt, h1)) end.
      { rewrite (bind_eq (store_keys o k []) _ h tt h1 eq_refl).
        rewrite (bind_eq (ObjModel.getattr (p_ct P) (p_getter P) o (fl_name f)) _ h1 (VList []) h1).
        2:{ unfold ObjModel.getattr. rewrite (ofield_in h1 _ (rd_cdef h1 R1)), (rd_named h1 R1), (proj1 (rd_kind h1 R1)), (rd_empty h1 R1). reflexivity. }
        cbn [pick_by_ids]. rewrite (bind_eq (ret []) _ h1 [] h1 eq_refl). apply set_same, R1. }
      rewrite (bind_eq _ _ h tt h1 E1). reflexivity. }
    rewrite (bind_eq _ _ h tt h2 E). unfold set_plain, updm, modify.
    set (h3 := upd o _ h2). exists h3. split; [reflexivity |].
    assert (K3 : keys_only o k h2 h3).
    { apply ko_upd; try reflexivity. intros b m Hm. cbn. apply String.eqb_neq in Hm.
      rewrite ?(String.eqb_sym k m), ?Hm. reflexivity. }
    split; [exact (ko_trans _ _ _ _ _ K1 (ko_trans _ _ _ _ _ K2 K3)) |]. split.
    - unfold attr, h3. rewrite upd_same. cbn. rewrite String.eqb_refl. reflexivity.
    - unfold noticed, h3. rewrite upd_same. cbn [set_raw set_attr o_new o_mfields]. unfold h2. rewrite upd_same.
      destruct (o_new (h_obj h1 o)) eqn:N; [rewrite N; discriminate |]. intros _. cbn. apply in_sadd. left. reflexivity.
  Qed.

  (** *** On the world *)
  Lemma op_start (add : bool) x w : ready (w_heap w) -> forall cur, attr (w_heap w) o k = Some cur ->
    local_key_op P o (fl_name f) add x w =
    (if add then
        (if is_none cur then setattr P o k (VList []) else ret tt) >>
        liftH (rn (p_lim P) (TOp o k [] k (LAppend x)))
      else if is_none cur then ret tt
      else liftH (rn (p_lim P) (TOp o k [] k (LRemove x)))) w.
  Proof.
    intros R cur A. unfold local_key_op.
    assert (D : wcdef P w o = d) by (unfold wcdef, cdef_of; rewrite (rd_cdef _ R); reflexivity).
    rewrite (bind_eq (getW (fun w => wcdef P w o)) _ w d w) by (unfold getW; rewrite D; reflexivity).
    rewrite (bind_eq (named d (fl_name f)) _ w f w) by (unfold named; rewrite (rd_named _ R); reflexivity).
    rewrite (bind_eq (IoModel.getattr P o k) _ w cur w).
    2:{ unfold IoModel.getattr, liftH, ObjModel.getattr. rewrite (ofield_in (w_heap w) _ (rd_cdef _ R)), (rd_ref _ R), A. destruct w; reflexivity. }
    reflexivity.
  Qed.
  Lemma lift_run {T} (m : st heap T) w r h' : m (w_heap w) = (r, h') -> liftH m w = (r, set_heap h' w).
  Proof. intros E. unfold liftH. rewrite E. reflexivity. Qed.

  (** The commands that a list of stored keys obeys *)
  Definition apply_one (x : command) : st world unit := local_key_op P o (fl_name f) (match x with Link _ => true | Unlink _ => false end) (key_of x).
  Context (Lim : (3 <= p_lim P)%nat).
  Lemma lim_S : exists n, p_lim P = S (S n).
  Proof. destruct (p_lim P) as [| [| n]]; [lia | lia | exists n; reflexivity]. Qed.

  Definition changed (w w' : world) : Prop := exists h', w' = set_heap h' w /\ keys_only o k (w_heap w) h'.
  Lemma changed_refl w : changed w w.
  Proof. exists (w_heap w). split; [destruct w; reflexivity | apply ko_refl]. Qed.
  Lemma changed_trans w1 w2 w3 : changed w1 w2 -> changed w2 w3 -> changed w1 w3.
  Proof. intros (h & -> & A) (h' & -> & B). exists h'. split; [reflexivity |]. exact (ko_trans _ _ _ _ _ A B). Qed.

  Lemma one_link w ks x : ready (w_heap w) -> attr (w_heap w) o k = Some (VList ks) ->
    exists w', apply_one (Link x) w = (Ok tt, w') /\ changed w w' /\ attr (w_heap w') o k = Some (VList (ks ++ [x])) /\
      (owned (w_heap w) -> owned (w_heap w') /\ noticed (w_heap w')) /\ (noticed (w_heap w) -> noticed (w_heap w')).
  Proof.
    intros R A. destruct lim_S as (n & Ln). change (apply_one (Link x) w) with (local_key_op P o (fl_name f) true x w). rewrite (op_start true x w R _ A). cbn [is_none].
    rewrite (bind_eq (ret tt) _ w tt w eq_refl). rewrite Ln.
    destruct (append_key (S n) (w_heap w) ks x R A) as (h' & E & K & A' & Rw & N1 & N2).
    exists (set_heap h' w). split; [exact (lift_run _ w _ _ E) |]. split; [exists h'; auto |]. split; [exact A' |].
    split; [intros O; split; [unfold owned; cbn; rewrite Rw; exact O | exact (N1 O)] | exact N2].
  Qed.
  Lemma one_first w x : ready (w_heap w) -> attr (w_heap w) o k = Some VNone ->
    exists w', apply_one (Link x) w = (Ok tt, w') /\ changed w w' /\ attr (w_heap w') o k = Some (VList [x]) /\ noticed (w_heap w').
  Proof.
    intros R A. destruct lim_S as (n & Ln). change (apply_one (Link x) w) with (local_key_op P o (fl_name f) true x w). rewrite (op_start true x w R _ A). cbn [is_none].
    unfold setattr. rewrite Ln. destruct (first_keys n (w_heap w) R A) as (h1 & E1 & K1 & A1 & N1).
    rewrite (bind_eq _ _ w tt _ (lift_run _ w _ _ E1)).
    destruct (append_key (S n) h1 [] x (ready_next _ _ R K1) A1) as (h' & E & K & A' & _ & _ & N2).
    exists (set_heap h' (set_heap h1 w)). split; [exact (lift_run _ (set_heap h1 w) _ _ E) |].
    split; [exists h'; split; [reflexivity | exact (ko_trans _ _ _ _ _ K1 K)] |]. split; [exact A' | exact (N2 N1)].
  Qed.
  Lemma one_unlink w a b x : ready (w_heap w) -> attr (w_heap w) o k = Some (VList (a ++ x :: b)) -> is_key x -> Forall is_key a -> ~ In x a ->
    exists w', apply_one (Unlink x) w = (Ok tt, w') /\ changed w w' /\ attr (w_heap w') o k = Some (VList (a ++ b)) /\
      (owned (w_heap w) -> owned (w_heap w') /\ noticed (w_heap w')) /\ (noticed (w_heap w) -> noticed (w_heap w')).
  Proof.
    intros R A Kx Ka N. destruct lim_S as (n & Ln). change (apply_one (Unlink x) w) with (local_key_op P o (fl_name f) false x w). rewrite (op_start false x w R _ A). cbn [is_none]. rewrite Ln.
    destruct (remove_key_op (S n) (w_heap w) a b x R A Kx Ka N) as (h' & E & K & A' & Rw & N1 & N2).
    exists (set_heap h' w). split; [exact (lift_run _ w _ _ E) |]. split; [exists h'; auto |]. split; [exact A' |].
    split; [intros O; split; [unfold owned; cbn; rewrite Rw; exact O | exact (N1 O)] | exact N2].
  Qed.
  Lemma one_unlink_none w x : ready (w_heap w) -> attr (w_heap w) o k = Some VNone -> apply_one (Unlink x) w = (Ok tt, w).
  Proof. intros R A. change (apply_one (Unlink x) w) with (local_key_op P o (fl_name f) false x w). rewrite (op_start false x w R _ A). reflexivity. Qed.
  Lemma one_absent w ks x : ready (w_heap w) -> attr (w_heap w) o k = Some (VList ks) -> is_key x -> Forall is_key ks -> ~ In x ks ->
    exists w', apply_one (Unlink x) w = (Err EValueError, w') /\ changed w w' /\ attr (w_heap w') o k = Some (VList ks).
  Proof.
    intros R A Kx Ka N. destruct lim_S as (n & Ln). change (apply_one (Unlink x) w) with (local_key_op P o (fl_name f) false x w). rewrite (op_start false x w R _ A). cbn [is_none]. rewrite Ln.
    destruct (remove_absent_op (S n) (w_heap w) ks x R A Kx Ka N) as (h' & E & K & A').
    exists (set_heap h' w). split; [exact (lift_run _ w _ _ E) |]. split; [exists h'; auto | exact A'].
  Qed.

  Lemma all_obeyed xs : forall ks ks' w, obeys xs ks ks' -> Forall is_key (map key_of xs) -> Forall is_key ks ->
    ready (w_heap w) -> attr (w_heap w) o k = Some (VList ks) ->
    exists w', for_st xs apply_one w = (Ok tt, w') /\ changed w w' /\ attr (w_heap w') o k = Some (VList ks') /\ Forall is_key ks' /\
      (xs <> [] -> owned (w_heap w) -> noticed (w_heap w')) /\ (noticed (w_heap w) -> noticed (w_heap w')).
  Proof.
    induction xs as [| x xs IH]; intros ks ks' w Ob Kx Kk R A.
    - inversion Ob; subst. exists w. split; [reflexivity |]. split; [apply changed_refl |]. split; [exact A |]. split; [exact Kk |].
      split; [intros X; contradiction X; reflexivity | auto].
    - inversion Kx as [| ? ? K1 K2]; subst. cbn [for_st].
      inversion Ob as [| y r l l' Ob1 | y r a b l' Na Ob1]; subst.
      + destruct (one_link w ks y R A) as (w1 & E1 & C1 & A1 & O1 & N1). rewrite (bind_eq _ _ _ _ _ E1).
        destruct (C1) as (h1 & -> & Ko). assert (Kk' : Forall is_key (ks ++ [y])) by (apply Forall_app; split; [exact Kk | constructor; [exact K1 | constructor]]).
        destruct (IH _ ks' (set_heap h1 w) Ob1 K2 Kk' (ready_next _ _ R Ko) A1) as (w' & E & C & A' & Kf & N2 & N3).
        exists w'. split; [exact E |]. split; [exact (changed_trans _ _ _ C1 C) |]. split; [exact A' |]. split; [exact Kf |].
        split; [intros _ O; apply N3, (proj2 (O1 O)) | intros N; apply N3, N1, N].
      + apply Forall_app in Kk. destruct Kk as [Ka Kb]. inversion Kb as [| ? ? Ky Kb']; subst.
        destruct (one_unlink w a b y R A K1 Ka Na) as (w1 & E1 & C1 & A1 & O1 & N1). rewrite (bind_eq _ _ _ _ _ E1).
        destruct (C1) as (h1 & -> & Ko). assert (Kk' : Forall is_key (a ++ b)) by (apply Forall_app; split; assumption).
        destruct (IH _ ks' (set_heap h1 w) Ob1 K2 Kk' (ready_next _ _ R Ko) A1) as (w' & E & C & A' & Kf & N2 & N3).
        exists w'. split; [exact E |]. split; [exact (changed_trans _ _ _ C1 C) |]. split; [exact A' |]. split; [exact Kf |].
        split; [intros _ O; apply N3, (proj2 (O1 O)) | intros N; apply N3, N1, N].
  Qed.
End Step.

(** ** The field *)
Section Field.
  Context (P : program) (o : oid) (d : cdef) (f : field) (w : world).
  Context (U : unloaded P w o d f).

  Lemma un_named : field_named (fl_name f) d = Some f.
  Proof.
    unfold field_named. destruct (find _ (rev (cd_fields d))) as [g |] eqn:E.
    - apply find_some in E. destruct E as [Ig E]. apply in_rev in Ig. apply String.eqb_eq in E.
      destruct (un_alone _ _ _ _ _ U g Ig) as [-> | (A & _)]; [reflexivity |]. congruence.
    - pose proof (List.find_none _ _ E f) as X. exfalso. cbn in X. rewrite String.eqb_refl in X.
      discriminate X. apply in_rev. rewrite rev_involutive. exact (un_field _ _ _ _ _ U).
  Qed.
  Lemma alone_ne g : In g (cd_fields d) -> g <> f ->
    fl_name g <> fl_name f /\ fl_json g <> fl_name f /\ fl_ref g <> fl_name f /\ fl_cref g <> fl_name f.
  Proof. intros Ig N. destruct (un_alone _ _ _ _ _ U g Ig) as [E | X]; [contradiction | exact X]. Qed.

  (** The commands as they reach the list *)
  Definition op_of (x : command) : st world unit :=
    (if fstore_eqb (f_fstore (fl_fdef f)) LocalKey then local_key_op P else link_key_op)
      o (fl_name f) (match x with Link _ => true | Unlink _ => false end) (key_of x).
  Definition takes_commands : Prop := is_local f = true \/ (f_fstore (fl_fdef f) = ForeignKey /\ f_join_table (fl_fdef f) = Some true).

  Lemma commands_fold c xs acc : c_fdef c = fl_fdef f -> c_owner c = VObj o -> (exists l, c_ko c = l ++ [KStr (fl_name f)]) -> takes_commands ->
    forall n i w1 r w2, for_st xs op_of w1 = (r, w2) ->
    fold_st (fun acc kv => if special false c (snd kv) then special_handle P c (snd kv) >> ret acc
                else do* ts <- items_of c; col_item P (t_transform (interp P n)) c (c_val c) ts acc kv) (enum_list i (map json_of xs)) acc w1
    = (match r with Ok _ => Ok acc | Err e => Err e end, w2).
  Proof.
    intros Hd Ho (l & Hk) T n.
    assert (Sp : forall x, special false c (json_of x) = true).
    { intros x. unfold special. rewrite Hd. cbn [negb andb].
      destruct T as [L | [F J]].
      - unfold is_local in L. rewrite L. rewrite orb_true_r. destruct x; reflexivity.
      - rewrite F, J. destruct x; reflexivity. }
    assert (Sh : forall x w1, special_handle P c (json_of x) w1 = op_of x w1).
    { intros x w1. unfold special_handle. rewrite Hk, Ho, Hd.
      rewrite (bind_eq (lift (last_of (l ++ [KStr (fl_name f)]))) _ w1 (KStr (fl_name f)) w1).
      2:{ unfold lift, last_of. rewrite rev_app_distr. reflexivity. }
      rewrite (bind_eq (the_obj (VObj o)) _ w1 o w1 eq_refl). unfold op_of.
      destruct (fstore_eqb (f_fstore (fl_fdef f)) LocalKey), x; reflexivity. }
    induction xs as [| x xs IH]; intros i w1 r w2 E; cbn [map enum_list fold_st for_st snd] in *.
    - inversion E; subst. reflexivity.
    - rewrite Sp. unfold bind at 1 2. rewrite Sh. unfold bind at 1 in E. destruct (op_of x w1) as [[[] | e] w3].
      + cbn [ret]. apply IH, E.
      + inversion E; subst. reflexivity.
  Qed.

  Lemma field_filled n g xs r w2 : takes_commands ->
    for_st xs op_of (set_mg g w) = (r, w2) ->
    (r = Ok tt -> setattr P o (fl_name f) (VList []) w2 = (Ok tt, w2)) ->
    forall acc, fill_field P (interp P (S n)) (set_ctx o [(fl_name f, VList (map json_of xs))] false w) [(fl_name f, VList (map json_of xs))] o false acc f (set_mg g w)
    = (match r with Ok _ => Ok acc | Err e => Err e end, w2).
  Proof.
    intros T E S acc. set (m := [(fl_name f, VList (map json_of xs))]). set (c := set_ctx o m false w).
    assert (V : get_field_value f m = VList (map json_of xs) /\ has_field_value f m = true).
    { unfold get_field_value, has_field_value, get_or_none, smem, dmem, sget, m. cbn.
      rewrite String.eqb_refl. destruct (String.eqb (fl_json f) (fl_name f)); auto. }
    unfold fill_field. rewrite (proj2 V), (proj1 V).
    rewrite (bind_eq (may_write P o f _) _ (set_mg g w) true (set_mg g w)) by (unfold may_write; rewrite (un_write _ _ _ _ _ U); reflexivity).
    unfold bind at 1.
    assert (D : wcdef P (set_mg g w) o = d).
    { unfold wcdef, cdef_of. pose proof (un_class _ _ _ _ _ U) as X. unfold wclass, wobj in X. cbn [w_heap set_mg]. rewrite X. reflexivity. }
    rewrite (bind_eq (ekey P c (fl_name f)) _ (set_mg g w) (cd_outkey d (fl_name f)) (set_mg g w)).
    2:{ unfold ekey, cdef_v. cbn [c_owner c set_ctx rootctx]. unfold bind, the_obj, getW, ret. rewrite D. reflexivity. }
    rewrite (bind_eq (getW (fun w => wclass w o)) _ (set_mg g w) (wclass w o) (set_mg g w) eq_refl).
    destruct (un_types _ _ _ _ _ U) as (a & it & b & Et & Ha & Hb). rewrite Et.
    set (c1 := nextvo c (VList (map json_of xs)) (fl_name f) _ (fl_fdef f) _ (VObj o)).
    assert (C : t_transform (interp P (Datatypes.S n)) (a ++ MListOf it :: b) c1 (set_mg g w) = (match r with Ok _ => Ok (VList []) | Err e => Err e end, w2)).
    { rewrite (quiet_chain P n a it b c1 (set_mg g w) Ha Hb). unfold col_transform. change (c_val c1) with (VList (map json_of xs)). cbn [col_items].
      apply (commands_fold c1 xs (VList []) eq_refl eq_refl (ex_intro _ [] eq_refl) T n 0 (set_mg g w) r w2 E). }
    destruct r as [[] | e].
    - rewrite (bind_eq _ _ _ _ _ C). destruct (is_calc f); [reflexivity |]. rewrite (S eq_refl). reflexivity.
    - rewrite (bind_eq_err _ _ _ _ _ C). reflexivity.
  Qed.
End Field.

Lemma initial_plain k : plain k -> initial_keypath k = k.
Proof.
  intros D. change (initial_keypath (join "." [k]) = k). unfold initial_keypath.
  rewrite (split_join_plain is_dot "."%char [k] eq_refl); [reflexivity | discriminate |].
  constructor; [| constructor]. apply no_sep_no_dot, plain_no_sep, D.
Qed.

Section Start.
  Context (P : program) (o : oid) (d : cdef) (f : field) (w : world).
  Context (U : unloaded P w o d f) (K : keeps_keys w o d f).

  Lemma start_ready : ready P o d f (w_heap w) (w_heap w).
  Proof.
    constructor.
    - apply ko_refl.
    - exact (un_class _ _ _ _ _ U).
    - exact (un_named P o d f w U).
    - destruct (field_named (fl_ref f) d) as [g |] eqn:E; [| reflexivity]. unfold field_named in E. apply find_some in E.
      destruct E as [Ig E]. apply in_rev in Ig. apply String.eqb_eq in E. exfalso. exact (proj2 (kk_name _ _ _ _ K) g Ig (eq_sym E)).
    - apply initial_plain, (proj1 (kk_name _ _ _ _ K)).
    - pose proof (kk_local _ _ _ _ K) as L. repeat apply conj; [| exact L |].
      + unfold is_calc, is_local in *. destruct (f_fstore (fl_fdef f)); try discriminate L; reflexivity.
      + pose proof (proj2 (un_list _ _ _ _ _ U)) as X. unfold is_list_field in X. destruct (f_ftype (fl_fdef f)) as [[] |]; try discriminate X; reflexivity.
    - exact (kk_table _ _ _ _ K).
    - exact (un_table _ _ _ _ _ U).
    - intros E. exact (proj2 (kk_name _ _ _ _ K) f (un_field _ _ _ _ _ U) (eq_sym E)).
    - exact (un_empty _ _ _ _ _ U).
  Qed.
  Lemma ready_lists w2 : ready P o d f (w_heap w) (w_heap w2) -> lists_there P w2 o.
  Proof.
    intros R g Ig Rg Lg Cg. assert (D : wcdef P w2 o = d) by (unfold wcdef, cdef_of; rewrite (rd_cdef _ _ _ _ _ _ R); reflexivity).
    assert (D0 : wcdef P w o = d) by (unfold wcdef, cdef_of; pose proof (un_class _ _ _ _ _ U) as X; unfold wclass, wobj in X; rewrite X; reflexivity).
    rewrite D in *. pose proof (un_others _ _ _ _ _ U g) as X. rewrite D0 in X.
    destruct (X Ig Rg Lg Cg) as (A & B & v & C & E). split; [exact A |]. split; [exact B |]. exists v. split; [| exact E].
    unfold attr_of in *. rewrite (ko_attr _ _ _ _ (rd_only _ _ _ _ _ _ R)); [exact C |].
    exact (proj2 (kk_name _ _ _ _ K) g Ig).
  Qed.

  Lemma set_commands n xs : (3 <= p_lim P)%nat -> exists g,
    ready P o d f (w_heap w) (w_heap (set_mg g w)) /\
    forall r w3, for_st xs (apply_one P o f) (set_mg g w) = (r, w3) -> changed o f (set_mg g w) w3 ->
    jset P (S (S n)) o [(fl_name f, VList (map json_of xs))] w = (r, set_mg (w_mg w) w3).
  Proof.
    intros Lim. rewrite (jset_one P (S (S n)) o (fl_name f) _ w (un_plain _ _ _ _ _ U)).
    destruct (set_one P (S n) o d f (VList (map json_of xs)) (un_field _ _ _ _ _ U) (alone_ne P o d f w U) (un_once _ _ _ _ _ U) w (un_class _ _ _ _ _ U)) as (g & HOk & HErr).
    exists g. split; [exact start_ready |]. intros r w3 E (h' & -> & Ko).
    pose proof (ready_next P o d f (w_heap w) _ _ start_ready Ko) as R.
    assert (E' : for_st xs (op_of P o f) (set_mg g w) = (r, set_heap h' (set_mg g w))).
    { rewrite <- E. unfold op_of, apply_one. pose proof (kk_local _ _ _ _ K) as L. unfold is_local in L. rewrite L. reflexivity. }
    pose proof (field_filled P o d f w U n g xs r _ (or_introl (kk_local _ _ _ _ K)) E') as F.
    assert (F' : forall acc, fill_field P (interp P (S n)) (set_ctx o [(fl_name f, VList (map json_of xs))] false w) [(fl_name f, VList (map json_of xs))] o false acc f (set_mg g w)
       = (match r with Ok _ => Ok acc | Err e => Err e end, set_heap h' (set_mg g w))).
    { apply F. intros _. unfold setattr. destruct (p_lim P) as [| l]; [lia |].
      rewrite (lift_run _ (set_heap h' (set_mg g w)) _ _ (set_same P o d f (w_heap w) l h' R)). reflexivity. }
    destruct r as [[] | e].
    - rewrite (HOk _ F'); [reflexivity | |].
      + unfold wcdef, cdef_of. cbn [w_heap set_heap]. rewrite (rd_cdef _ _ _ _ _ _ R). reflexivity.
      + exact (ready_lists (set_heap h' (set_mg g w)) R).
    - rewrite (HErr _ _ F'). reflexivity.
  Qed.
End Start.

(** ** References over a join table *)
Section Joined.
  Context (P : program) (o : oid) (d : cdef) (f : field) (w : world).
  Context (U : unloaded P w o d f) (Fs : f_fstore (fl_fdef f) = ForeignKey) (Jt : f_join_table (fl_fdef f) = Some true).
  Notation rn := (run (p_ct P) (p_oeq P) (p_getter P) (p_setter P) (LeafModel.py_str (p_str P))).
  Lemma set_empty n : rn (S n) (TSet o (fl_name f) (VList [])) (w_heap w) = (Ok tt, w_heap w).
  Proof.
    assert (C : is_calc f = false) by (unfold is_calc; rewrite Fs; reflexivity).
    cbn [run body]. unfold set_attribute.
    rewrite (bind_eq (gets (fun h => local_field_of h o (fl_name f))) _ (w_heap w) None (w_heap w))
      by (unfold gets, local_field_of; pose proof (un_table _ _ _ _ _ U) as X; unfold wobj in X; rewrite X; reflexivity).
    rewrite (bind_eq (gets (fun h => ofield (p_ct P) h o (fl_name f))) _ (w_heap w) (Some f) (w_heap w))
      by (unfold gets; rewrite (ofield_in P o d (w_heap w) _ (un_class _ _ _ _ _ U)), (un_named P o d f w U); reflexivity).
    unfold set_field. rewrite C. pose proof (un_empty _ _ _ _ _ U) as E. unfold attr_of in E.
    rewrite (bind_eq (gets (fun h => attr h o (fl_name f))) _ (w_heap w) (Some (VList [])) (w_heap w)) by (unfold gets; rewrite E; reflexivity).
    rewrite (bind_eq (gets _) _ (w_heap w) true (w_heap w)) by reflexivity. reflexivity.
  Qed.

  (** What is noted for a field *)
  Notation noted_keys := (keys_under (fl_name f)).
  Lemma noted_put t k : noted_keys (sset (fl_name f) (match sget (fl_name f) t with Some l => l ++ [k] | None => [k] end) t) = noted_keys t ++ [k].
  Proof. unfold keys_under. rewrite sget_sset_same. destruct (sget (fl_name f) t); reflexivity. Qed.
  Lemma put_elsewhere (t : list (string * list value)) l n : n <> fl_name f -> sget n (sset (fl_name f) l t) = sget n t.
  Proof. intros H. apply sget_sset_other. exact H. Qed.

  Record noted_more (xs : list command) (w1 w2 : world) : Prop := {
    nm_heap : w_heap w2 = w_heap w1;
    nm_mg : w_mg w2 = w_mg w1;
    nm_log : w_log w2 = w_log w1;
    nm_other : forall x, x <> o -> w_ext w2 x = w_ext w1 x;
    nm_picks : x_picks (w_ext w2 o) = x_picks (w_ext w1 o);
    nm_link : noted_keys (x_link (w_ext w2 o)) = noted_keys (x_link (w_ext w1 o)) ++ links xs;
    nm_unlink : noted_keys (x_unlink (w_ext w2 o)) = noted_keys (x_unlink (w_ext w1 o)) ++ unlinks xs;
    nm_fields : forall n, n <> fl_name f -> sget n (x_link (w_ext w2 o)) = sget n (x_link (w_ext w1 o)) /\
                                           sget n (x_unlink (w_ext w2 o)) = sget n (x_unlink (w_ext w1 o))
  }.
  Lemma join_fold xs : forall w1, exists w2, for_st xs (op_of P o f) w1 = (Ok tt, w2) /\ noted_more xs w1 w2.
  Proof.
    induction xs as [| x xs IH]; intros w1.
    - exists w1. split; [reflexivity |]. constructor; try reflexivity; cbn; rewrite ?app_nil_r; auto.
    - cbn [for_st].
      assert (E : exists w3, op_of P o f x w1 = (Ok tt, w3) /\ noted_more [x] w1 w3).
      { unfold op_of. rewrite Fs. cbn [fstore_eqb]. unfold link_key_op, modW. eexists. split; [reflexivity |].
        constructor; try reflexivity.
        - intros y Hy. cbn. apply Nat.eqb_neq in Hy. rewrite Hy. reflexivity.
        - cbn. rewrite Nat.eqb_refl. destruct x; reflexivity.
        - cbn. rewrite Nat.eqb_refl. destruct x; cbn; [apply noted_put | rewrite app_nil_r; reflexivity].
        - cbn. rewrite Nat.eqb_refl. destruct x; cbn; [rewrite app_nil_r; reflexivity | apply noted_put].
        - intros n Hn. cbn. rewrite Nat.eqb_refl. destruct x; cbn; rewrite ?put_elsewhere by exact Hn; auto. }
      destruct E as (w3 & E & [A1 A2 A3 A4 A5 A6 A7 A8]). rewrite (bind_eq _ _ _ _ _ E).
      destruct (IH w3) as (w2 & E2 & [B1 B2 B3 B4 B5 B6 B7 B8]). exists w2. split; [exact E2 |].
      constructor; try congruence.
      + intros y Hy. rewrite B4 by exact Hy. apply A4, Hy.
      + rewrite B6, A6, <- app_assoc. cbn. rewrite app_nil_r. reflexivity.
      + rewrite B7, A7, <- app_assoc. cbn. rewrite app_nil_r. reflexivity.
      + intros n Hn. destruct (A8 n Hn), (B8 n Hn). split; congruence.
  Qed.

  Lemma set_joined n xs : (1 <= p_lim P)%nat ->
    exists w2, jset P (S (S n)) o [(fl_name f, VList (map json_of xs))] w = (Ok tt, w2) /\ noted_more xs w w2.
  Proof.
    intros Lim. rewrite (jset_one P (S (S n)) o (fl_name f) _ w (un_plain _ _ _ _ _ U)).
    destruct (set_one P (S n) o d f (VList (map json_of xs)) (un_field _ _ _ _ _ U) (alone_ne P o d f w U) (un_once _ _ _ _ _ U) w (un_class _ _ _ _ _ U)) as (g & HOk & _).
    destruct (join_fold xs (set_mg g w)) as (w2 & E & N).
    pose proof (nm_heap _ _ _ N) as Hh. cbn [w_heap set_mg] in Hh.
    assert (F : forall acc, fill_field P (interp P (S n)) (set_ctx o [(fl_name f, VList (map json_of xs))] false w) [(fl_name f, VList (map json_of xs))] o false acc f (set_mg g w)
       = (Ok acc, w2)).
    { apply (field_filled P o d f w U n g xs (Ok tt) w2 (or_intror (conj Fs Jt)) E). intros _. unfold setattr.
      destruct (p_lim P) as [| l]; [lia |]. unfold liftH. rewrite Hh, set_empty. rewrite <- Hh. destruct w2; reflexivity. }
    exists (set_mg (w_mg w) w2). split.
    - apply HOk; [exact F | |].
      + unfold wcdef, cdef_of. rewrite Hh. pose proof (un_class _ _ _ _ _ U) as X. unfold wclass, wobj in X. rewrite X. reflexivity.
      + intros x Ix Rx Lx Cx. unfold wcdef, attr_of in *. rewrite Hh in *. exact (un_others _ _ _ _ _ U x Ix Rx Lx Cx).
    - destruct N as [A1 A2 A3 A4 A5 A6 A7 A8]. constructor; try assumption. reflexivity.
  Qed.
End Joined.
