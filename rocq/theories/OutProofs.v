(** OutProofs.v -- output of graphs of objects: a logic for the value that a run gives,
    and what tojson does. *)
From Verif Require Import Base Mon PyList PyDict StrDict KeypathModel Values OGraphModel MGraphModel ChainModel
  TypesModel TypesSpec TypesProofs ObjModel IoModel IoBase Sound ObjSound LeafSound TameSpec Keep TameProofs GraphSpec GraphProofs OutSpec.
From Verif Require LeafModel.
Open Scope list_scope.

Section Manner.
Context {spk : manner}.

Section Yields.
  Context (J : world -> Prop).
  (** [m] keeps [J], fails only in the allowed ways, and what it gives satisfies [R]. *)
  Definition yields {A} (R : A -> Prop) (m : st world A) : Prop :=
    forall w, J w -> (J (snd (m w)) /\ louder (fst (m w))) /\ forall a, fst (m w) = Ok a -> R a.

  Lemma y_keeps {A} (m : st world A) : keeps J m -> yields (fun _ => True) m.
  Proof. intros H w Hw. split; [apply H, Hw | trivial]. Qed.
  Lemma y_and {A} (R : A -> Prop) (m : st world A) : keeps J m -> (forall w a w', J w -> m w = (Ok a, w') -> R a) -> yields R m.
  Proof. intros H K w Hw. split; [apply H, Hw |]. intros a Ha. destruct (m w) as [r w'] eqn:E. apply (K w a w' Hw). cbn in Ha. rewrite E, Ha. reflexivity. Qed.
  Lemma y_back {A} (R : A -> Prop) (m : st world A) : yields R m -> keeps J m.
  Proof. intros H w Hw. apply (H w Hw). Qed.
  Lemma y_weak {A} (R R' : A -> Prop) (m : st world A) : (forall a, R a -> R' a) -> yields R m -> yields R' m.
  Proof. intros W H w Hw. destruct (H w Hw) as [H1 H2]. split; [exact H1 | intros a Ha; apply W, H2, Ha]. Qed.
  Lemma y_ret {A} (R : A -> Prop) (a : A) : R a -> yields R (ret a).
  Proof. intros H. apply y_and; [apply k_ret |]. intros w b w' _ E. inversion E; subst. exact H. Qed.
  Lemma y_throw {A} (R : A -> Prop) e : loud e -> yields R (throw (A := A) e).
  Proof. intros L. apply y_and; [apply k_throw, L |]. intros w a w' _ X. discriminate X. Qed.
  Lemma y_bind {A B} (R : A -> Prop) (R' : B -> Prop) (m : st world A) k :
    yields R m -> (forall a, R a -> yields R' (k a)) -> yields R' (bind m k).
  Proof.
    intros Hm Hk w Hw. unfold bind. destruct (Hm w Hw) as [[H1 H2] H3]. destruct (m w) as [[a | e] w']; cbn [fst snd] in *.
    - apply (Hk a (H3 a eq_refl) w' H1).
    - split; [split; [exact H1 | apply louder_err, (H2 e eq_refl)] | discriminate].
  Qed.
  Lemma y_pre {A B} (R : B -> Prop) (m : st world A) k : keeps J m -> (forall a, yields R (k a)) -> yields R (bind m k).
  Proof. intros Hm Hk. apply y_bind with (fun _ => True); [apply y_keeps, Hm | intros a _; apply Hk]. Qed.
  Lemma y_getW {A B} (R : B -> Prop) (q : world -> A) k : (forall w, J w -> yields R (k (q w))) -> yields R (bind (getW q) k).
  Proof. intros H w Hw. apply (H w Hw w Hw). Qed.
  Lemma y_fold {A B} (R : list A -> B -> Prop) (g : B -> A -> st world B) : forall l b,
    (forall pre a post b, l = pre ++ a :: post -> R (a :: post) b -> yields (R post) (g b a)) -> R l b -> yields (R []) (fold_st g l b).
  Proof.
    induction l as [| a l IH]; intros b H Hb; cbn [fold_st]; [apply y_ret, Hb |].
    apply y_bind with (R l); [apply (H [] a l b eq_refl Hb) |]. intros b' Hb'. apply IH; [| exact Hb'].
    intros pre x post b0 -> Hr. apply (H (a :: pre) x post b0 eq_refl Hr).
  Qed.
  Lemma y_fold_map {A X B} (R : list A -> B -> Prop) (f : A -> X) (g : B -> X -> st world B) : forall l b,
    (forall pre a post b, l = pre ++ a :: post -> R (a :: post) b -> yields (R post) (g b (f a))) -> R l b -> yields (R []) (fold_st g (map f l) b).
  Proof.
    induction l as [| a l IH]; intros b H Hb; cbn [fold_st map]; [apply y_ret, Hb |].
    apply y_bind with (R l); [apply (H [] a l b eq_refl Hb) |]. intros b' Hb'. apply IH; [| exact Hb'].
    intros pre y post b0 -> Hr. apply (H (a :: pre) y post b0 eq_refl Hr).
  Qed.
  Lemma y_on_validation {A} (R : A -> Prop) (m : st world A) k : yields R m -> (forall e, yields R (k e)) -> yields R (on_validation m k).
  Proof.
    intros Hm Hk w Hw. unfold on_validation. destruct (Hm w Hw) as [[H1 H2] H3]. destruct (m w) as [[a | e] w']; cbn [fst snd] in *.
    - split; [split; [exact H1 | apply louder_ok] | intros b Hb; inversion Hb; subst; apply H3; reflexivity].
    - assert (X : forall e', e = e' -> loud e' -> (J (snd (@Err A e', w')) /\ louder (fst (@Err A e', w'))) /\ forall a, fst (@Err A e', w') = Ok a -> R a)
        by (intros e' _ L; split; [split; [exact H1 | apply louder_err, L] | discriminate]).
      destruct e; try (apply X; [reflexivity | apply (H2 _ eq_refl)]). apply (Hk msgs w' H1).
  Qed.
End Yields.

(** ** A fixed heap *)
Section Heap.
  Context (P : program) (h : heap) (x : oid -> ext) (D : nat).
  Hypothesis C : calm P.
  Hypothesis TC : tame_classes D P.
  Hypothesis getter_ok : forall h o n, louder (p_getter P h o n).
  Hypothesis arith_ok : forall op a b, louder (p_arith P op a b).
  Hypothesis call_ok : forall f c args h, louder (fst (p_call P f c args h)).
  Hypothesis finite : speak = Ending -> finite_graph P h.
  Definition same (w : world) : Prop := w_heap w = h /\ w_ext w = x.
  Notation yields := (yields same).

  Lemma same_call k f c args : keeps same (call P k f c args).
  Proof. intros w [H1 H2]. rewrite (call_eq P k f c args w C). cbn [fst snd]. split; [split; assumption | apply call_ok]. Qed.

  Let Ib (k : nat) (w : world) : Prop := same w /\ (speak = Ending -> (total (unseen P w) (fun _ => 1%nat) (seq 0 (h_next h)) <= k)%nat).
  Definition vdepth (d : nat) : nat := vfuel D (h_next h) d.
  Lemma mode_dec : speak = Ending \/ speak <> Ending.
  Proof. destruct speak; auto; right; discriminate. Qed.
  Lemma same_validate n d m c ts : tame d m -> c_fdef c = fdef_of ts -> (forall y, In y ts -> tame d y) -> enough (vdepth d) n ->
    keeps same (m_validate (interp P n m) c).
  Proof.
    intros Hm Hc Ht En.
    assert (K : keeps (Ib (h_next h)) (m_validate (interp P n m) c)).
    { apply (heap_validate P h D TC getter_ok arith_ok Ib) with (d := d) (ts := ts); try assumption.
      - intros k w [[H _] _] o0. rewrite H. reflexivity.
      - intros k k' w L [H1 H2]. split; [exact H1 | intros E; specialize (H2 E); lia].
      - intros j k f c0 args _ w [H1 H2]. destruct (same_call k f c0 args w H1) as [S L]. split; [| exact L]. split; [exact S |].
        intros E. specialize (H2 E). rewrite (call_eq P k f c0 args w C). cbn [snd]. exact H2.
      - intros k o w [H1 H2] Hh. destruct mode_dec as [E | E].
        + specialize (H2 E). assert (U : unseen P w o = true) by (unfold unseen; rewrite Hh; reflexivity).
          destruct (p_ct P (wclass w o)) as [cd |] eqn:Ed.
          * assert (Ho : In o (seq 0 (h_next h))).
            { apply in_seq. split; [lia |]. apply (finite E). unfold wclass, wobj in Ed. rewrite (proj1 H1) in Ed. rewrite Ed. discriminate. }
            pose proof (total_drop (unseen P w) (unseen P (marked P o w)) (fun _ => 1%nat) (seq 0 (h_next h)) o
              (unseen_marked P o w) Ho U (unseen_self P o w)) as L. cbn beta in L.
            exists (k - 1)%nat. split; [lia |]. split; [left; lia |]. split; [exact H1 |]. intros _. fold (marked P o w). lia.
          * exists k. split; [lia |]. split; [auto |]. split; [exact H1 |]. intros _. fold (marked P o w).
            pose proof (total_le (unseen P w) (unseen P (marked P o w)) (fun _ => 1%nat) (seq 0 (h_next h)) (unseen_marked P o w)). lia.
        + exists k. split; [lia |]. split; [auto |]. split; [exact H1 | intros X; contradiction (E X)]. }
    intros w Hw. destruct (K w) as [[K1 _] K2]; [| split; assumption].
    split; [exact Hw |]. intros _. rewrite <- (seq_length (h_next h) 0) at 2. apply total_count.
  Qed.

  Lemma same_flat n d m c : flat d m -> enough d n -> keeps same (m_tojson (interp P n m) c).
  Proof.
    intros F E. apply (flat_ok P same (fun _ => True)) with (d := d); try assumption.
    - intros. apply same_call.
    - split; [exact F | trivial].
  Qed.

  (** ** The output of objects, lists, dicts and unions *)
  Context (R : value -> Prop).
  Hypothesis R_none : R VNone.
  Hypothesis R_dict : forall m, (forall k v, In (k, v) m -> R v) -> R (VDict m).
  Hypothesis R_list : forall l, (forall v, In v l -> R v) -> R (VList l).

  Section Rec.
    Context (rec : mdf -> modifier value ctx world).
    (** what json_field shows at [o] *)
    Definition shown (c : ctx) (o : oid) (d : cdef) (f : field) : bool :=
      negb (is_ref (fl_fdef f) && (is_way_back P c (o_class (h_obj h o)) f || sinb (cd_name d) (c_idchain c))) &&
      negb (match f_read_rule (fl_fdef f) with NoRead => negb (g_ignore_writeonly (c_cfg c)) | _ => false end) &&
      negb (fstore_eqb (f_fstore (fl_fdef f)) Temp) && picked (x o) (fl_name f).
    Definition child (c : ctx) (o : oid) (d : cdef) (f : field) (v : value) (e : string) : ctx :=
      if is_inst_field f then nexto c v (fl_name f) e (fl_fdef f) (fld_tag (o_class (h_obj h o)) f) (Some (cd_name d))
      else nextv c v (fl_name f) e (fl_fdef f) (fld_tag (o_class (h_obj h o)) f) (Some (cd_name d)).

    Lemma y_getattr (R' : value -> Prop) o n : (forall v, reads P h o n v -> R' v) -> yields R' (getattr P o n).
    Proof.
      intros H. apply y_and; [apply k_getattr, getter_ok |]. intros w a w' [Hw _] E. apply H. unfold reads. rewrite <- Hw.
      unfold getattr, liftH in E. destruct (ObjModel.getattr (p_ct P) (p_getter P) o n (w_heap w)) as [r h']. inversion E; subst. reflexivity.
    Qed.

    Definition entries (acc : list (string * value)) : Prop := forall k v, In (k, v) acc -> R v.
    Lemma entries_sset k v acc : R v -> entries acc -> entries (sset k v acc).
    Proof.
      intros Hv H k' v' Hin. induction acc as [| [k0 v0] acc IH]; cbn in Hin.
      - destruct Hin as [E | []]. inversion E; subst. exact Hv.
      - unfold sset in *. cbn [dset] in Hin. destruct (String.eqb k k0).
        + destruct Hin as [E | Hin]; [inversion E; subst; exact Hv | apply (H k' v'); right; exact Hin].
        + destruct Hin as [E | Hin]; [inversion E; subst; apply (H k' v'); left; reflexivity |].
          apply IH; [intros a b Hab; apply (H a b); right; exact Hab | exact Hin].
    Qed.

    Lemma y_json_field c o d out_null acc f :
      p_ct P (o_class (h_obj h o)) = Some d ->
      (forall k, is_local f = true -> picked (x o) (fl_name f) = true -> reads P h o (fl_ref f) k -> R k) ->
      (forall v e, shown c o d f = true -> reads P h o (fl_name f) v -> yields R (t_tojson rec (fl_types f) (child c o d f v e))) ->
      entries acc -> yields entries (json_field P rec c o out_null acc f).
    Proof.
      intros Hd Hk Hv Ha. unfold json_field.
      apply y_getW. intros w Hw. unfold wclass, wobj. rewrite (proj1 Hw). clear w Hw.
      apply y_getW. intros w Hw. unfold wcdef, cdef_of. rewrite (proj1 Hw), Hd. clear w Hw.
      apply y_getW. intros w Hw. rewrite (proj2 Hw). clear w Hw.
      apply y_bind with (fun v => reads P h o (fl_name f) v); [apply y_getattr; auto |]. intros fv Hfv. cbv zeta.
      assert (K : picked (x o) (fl_name f) = true \/ is_local f = false -> yields entries
         (if is_local f then do* k <- getattr P o (fl_ref f); ret (if out_null || negb (is_none k) then sset (fl_cref f) k acc else acc) else ret acc)).
      { intros Hp. destruct (is_local f) eqn:El; [| apply y_ret, Ha].
        apply y_bind with R; [apply y_getattr; intros v; apply Hk; [reflexivity | destruct Hp as [Hp | Hp]; [exact Hp | discriminate Hp]] |].
        intros k Rk. apply y_ret. destruct (out_null || negb (is_none k)); [apply entries_sset; assumption | exact Ha]. }
      destruct (is_local f && negb (picked (x o) (fl_name f))) eqn:Elp; [apply y_ret, Ha |].
      assert (Hp : picked (x o) (fl_name f) = true \/ is_local f = false).
      { destruct (is_local f); [left | right; reflexivity]. destruct (picked (x o) (fl_name f)); [reflexivity | discriminate Elp]. }
      apply y_bind with entries; [apply K, Hp |]. intros acc1 Ha1.
      unfold shown in Hv.
      destruct (is_ref (fl_fdef f) && (is_way_back P c (o_class (h_obj h o)) f || sinb (cd_name d) (c_idchain c))); [apply y_ret, Ha1 |].
      destruct (match f_read_rule (fl_fdef f) with NoRead => negb (g_ignore_writeonly (c_cfg c)) | _ => false end); [apply y_ret, Ha1 |].
      destruct (fstore_eqb (f_fstore (fl_fdef f)) Temp); [apply y_ret, Ha1 |].
      destruct (picked (x o) (fl_name f)); cbn [negb]; [| apply y_ret, Ha1].
      apply y_pre; [apply k_ekey | intros e]. apply y_bind with R; [apply (Hv fv e eq_refl Hfv) |].
      intros v Rv. apply y_ret. destruct (out_null || negb (is_none v)); [apply entries_sset; assumption | exact Ha1].
    Qed.

    Lemma y_inst_tojson c :
      (forall o d f, c_val c = VObj o -> p_ct P (o_class (h_obj h o)) = Some d -> In f (cd_fields d) ->
        (forall k, is_local f = true -> picked (x o) (fl_name f) = true -> reads P h o (fl_ref f) k -> R k) /\
        (forall v e, shown c o d f = true -> reads P h o (fl_name f) v -> yields R (t_tojson rec (fl_types f) (child c o d f v e)))) ->
      yields R (inst_tojson P rec c).
    Proof.
      intros H. unfold inst_tojson. destruct (c_val c) as [| | | | | | | | | | o |] eqn:Ev; try (cbn [the_obj]; apply y_throw; loudly).
      { apply y_ret, R_none. }
      cbn [the_obj]. unfold bind at 1. unfold ret at 1. cbv beta iota.
      apply y_getW. intros w Hw. unfold wcdef, cdef_of. rewrite (proj1 Hw). clear w Hw. cbv zeta.
      destruct (p_ct P (o_class (h_obj h o))) as [d |] eqn:Ed.
      - apply y_bind with entries.
        + apply (y_fold same (fun _ => entries)); [| intros k v []]. intros pre f post acc Ef Ha.
          assert (In f (cd_fields d)) as Hf by (rewrite Ef; apply in_elt).
          destruct (H o d f eq_refl Ed Hf) as [H1 H2]. apply y_json_field with d; assumption.
        + intros m Hm. apply y_ret, R_dict, Hm.
      - cbn [cd_fields cdef0 fold_st]. apply y_bind with entries; [apply y_ret; intros k v [] | intros m Hm; apply y_ret, R_dict, Hm].
    Qed.

    Lemma y_col_out use b c :
      (forall v, c_val c = v -> R v) ->
      (forall ts kv its, item_types (c_fdef c) = Some ts -> col_items b (c_val c) = Some its -> In kv its ->
         yields R (use ts (colval c (snd kv) (fst kv) (fdef_of ts) (c_val c)))) ->
      yields R (col_out P use b c).
    Proof.
      intros Hv Hu. unfold col_out.
      assert (X : yields R (match col_items b (c_val c) with
        | None => ret (c_val c)
        | Some its => fold_st (fun acc kv => do* ts <- items_of c; col_item P use c (c_val c) ts acc kv) its (empty_col b) end)).
      { destruct (col_items b (c_val c)) as [its |] eqn:Ei; [| apply y_ret, Hv; reflexivity].
        apply y_weak with (R := fun a => (match a with VList l => (forall v, In v l -> R v) | VDict m => entries m | _ => False end)).
        { intros a Ha. destruct a; try contradiction; [apply R_list | apply R_dict]; exact Ha. }
        apply (y_fold same (fun _ a => match a with VList l => (forall v, In v l -> R v) | VDict m => entries m | _ => False end)).
        - intros pre kv post acc Ep Ha. unfold items_of. destruct (item_types (c_fdef c)) as [ts |] eqn:Et; [| apply y_throw; loudly].
          unfold bind at 1, ret at 1. unfold col_item.
          assert (Hin : In kv its) by (rewrite Ep; apply in_elt).
          apply y_bind with R; [apply (Hu ts kv its); auto |]. intros v Rv.
          apply y_pre; [apply k_cdef_v | intros _]. apply y_ret. unfold append_value.
          destruct acc; try contradiction.
          + intros u Hu'. apply in_app_iff in Hu'. destruct Hu' as [Hu' | [<- | []]]; [apply Ha, Hu' | exact Rv].
          + destruct (fst kv); [apply entries_sset; assumption | exact Ha].
        - destruct b; cbn; [intros k v [] | intros v []]. }
      destruct (c_val c); try exact X.
    Qed.
    Lemma y_union_out use c :
      (forall ts, In ts (f_union (c_fdef c)) -> keeps same (t_validate rec ts (alterfdef c (fdef_of ts))) /\ yields R (use ts (alterfdef c (fdef_of ts)))) ->
      yields R (union_out rec use c).
    Proof.
      intros H. unfold union_out.
      assert (X : yields R (union_out_loop rec use (f_union (c_fdef c)) c)).
      { revert H. generalize (f_union (c_fdef c)). intros us. induction us as [| ts us IH]; intros H; cbn [union_out_loop].
        - apply y_ret, R_none.
        - cbv zeta. destruct (H ts (or_introl eq_refl)) as [H1 H2]. apply y_on_validation.
          + apply y_pre; [exact H1 | intros _; exact H2].
          + intros _. apply IH. intros t Ht. apply H. right. exact Ht. }
      destruct (c_val c); try exact X. apply y_ret, R_none.
    Qed.
  End Rec.
End Heap.
End Manner.
