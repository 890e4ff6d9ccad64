(** StrictProofs.v -- lemmas for C28, and for the first step of construction (C30). *)
From Verif Require Import Base Mon PyDict StrDict KeypathModel Values OGraphModel ChainModel TypesModel ObjModel ObjSpec ObjTrack IoModel IoBase UpdateSpec UpdateProofs StrictSpec.
From Verif Require LeafModel.
Open Scope list_scope.

Lemma allowed_names d k : sinb k (available_names d) = true <-> allowed d k.
Proof.
  rewrite sinb_In. unfold available_names, allowed. rewrite !in_app_iff, !in_map_iff.
  assert (L : forall f, In f (local_fields d) <-> In f (cd_fields d) /\ is_local f = true /\ (is_inst_field f = true \/ is_list_field f = true)).
  { intros f. unfold local_fields. rewrite filter_In, andb_true_iff. unfold is_local, is_inst_field, is_list_field.
    split; intros (A & B & C); (split; [exact A |]); (split; [exact B |]).
    - destruct (f_ftype (fl_fdef f)) as [[] |]; try discriminate C; auto.
    - destruct (f_ftype (fl_fdef f)) as [[] |]; try reflexivity; destruct C; discriminate. }
  split.
  - intros [(f & <- & F) | [(f & <- & F) | [(f & <- & F) | (f & <- & F)]]]; exists f; try (apply L in F; destruct F as (F & A & B)); auto 7.
  - intros (f & F & [-> | [-> | (A & B & [-> | ->])]]).
    + left. eauto.
    + right. left. eauto.
    + right. right. left. exists f. split; [reflexivity | apply L; auto].
    + right. right. right. exists f. split; [reflexivity | apply L; auto].
Qed.

Lemma find_first d keys k : find (fun k => negb (sinb k (available_names d))) keys = Some k <-> first_unknown d keys k.
Proof.
  induction keys as [| k0 keys IH]; cbn [find].
  - split; [discriminate |]. intros (pre & post & E & _). destruct pre; discriminate E.
  - destruct (sinb k0 (available_names d)) eqn:S; cbn [negb].
    + rewrite IH. split.
      * intros (pre & post & -> & A & N). exists (k0 :: pre), post. split; [reflexivity |]. split; [| exact N].
        constructor; [apply allowed_names, S | exact A].
      * intros (pre & post & E & A & N). destruct pre as [| x pre]; cbn in E; injection E as -> ->.
        -- exfalso. apply N, allowed_names, S.
        -- exists pre, post. inversion A; subst. auto.
    + split.
      * intros H. injection H as ->. exists [], keys. split; [reflexivity |]. split; [constructor |].
        intros A. apply allowed_names in A. congruence.
      * intros (pre & post & E & A & N). destruct pre as [| x pre]; cbn in E; injection E as -> ->; [reflexivity |].
        inversion A as [| ? ? A0 _]; subst. apply allowed_names in A0. congruence.
Qed.
Lemma find_none d keys : find (fun k => negb (sinb k (available_names d))) keys = None <-> Forall (allowed d) keys.
Proof.
  induction keys as [| k0 keys IH]; cbn [find].
  - split; [constructor | reflexivity].
  - destruct (sinb k0 (available_names d)) eqn:S; cbn [negb].
    + rewrite IH. split; intros H; [constructor; [apply allowed_names, S | exact H] | inversion H; assumption].
    + split; [discriminate |]. intros H. inversion H as [| ? ? A _]; subst. apply allowed_names in A. congruence.
Qed.

Lemma concat_one k : concat_keypath [KStr ""; KStr k] = k.
Proof. unfold concat_keypath. cbn. destruct k; reflexivity. Qed.

Lemma strict_iff c d : is_strict c d = true <-> refuses c d.
Proof.
  unfold is_strict, refuses. destruct (f_strictness (c_fdef c)); split; intros H; auto; try discriminate H;
    destruct H as [H | [H H']]; try discriminate H; try discriminate H'; auto.
Qed.

(** ** The input without what is not allowed *)
Lemma oa_get d m m' k : only_allowed d m m' -> allowed d k -> sget k m' = sget k m.
Proof.
  induction 1 as [| k0 v m m' A H IH | k0 v m m' A H IH]; intros K; [reflexivity | |].
  - cbn. destruct (String.eqb k k0); [reflexivity | apply IH, K].
  - cbn. destruct (String.eqb_spec k k0); [subst; contradiction | apply IH, K].
Qed.
Lemma oa_mem d m m' k : only_allowed d m m' -> allowed d k -> smem k m' = smem k m.
Proof. intros H K. unfold smem, dmem. fold (@sget value). rewrite (oa_get d m m' k H K). reflexivity. Qed.

Section Ignore.
  Context (P : program) (n : nat).
  Notation rec := (interp P n).

  Lemma fill_field_ignores d c m m' o soft f acc :
    only_allowed d m m' -> local_refs_typed d -> In f (cd_fields d) ->
    fill_field P rec (nval c (VDict m')) m' o soft acc f = fill_field P rec (nval c (VDict m)) m o soft acc f.
  Proof.
    intros O T F.
    assert (A1 : allowed d (fl_name f)) by (exists f; auto).
    assert (A2 : allowed d (fl_json f)) by (exists f; auto).
    unfold fill_field, has_field_value, get_field_value, get_or_none.
    rewrite !(oa_mem d m m' _ O A1), !(oa_mem d m m' _ O A2), !(oa_get d m m' _ O A1), !(oa_get d m m' _ O A2).
    destruct (smem (fl_json f) m || smem (fl_name f) m); [reflexivity |].
    unfold absent_field, get_or_none. destruct (is_ref (fl_fdef f)); [| reflexivity].
    destruct (is_local f) eqn:L; [| reflexivity].
    assert (A3 : allowed d (fl_ref f)) by (exists f; auto 7).
    assert (A4 : allowed d (fl_cref f)) by (exists f; auto 7).
    rewrite !(oa_get d m m' _ O A3), !(oa_get d m m' _ O A4). reflexivity.
  Qed.

  (** the marks after the input's primary key has been noted *)
  Definition noted (d : cdef) (m : list (string * value)) (o : oid) (w : world) : world :=
    match primary_field d with
    | Some pf => if is_none (get_or_none (fl_name pf) m) then w
                 else snd (mg_putp P (get_or_none (fl_name pf) m) o w)
    | None => w
    end.
  Lemma noted_mg d m o w : exists g, noted d m o w = set_mg g w.
  Proof.
    assert (Z : exists g, w = set_mg g w) by (exists (w_mg w); destruct w; reflexivity).
    unfold noted. destruct (primary_field d); [| exact Z]. destruct (is_none _); [exact Z |]. eexists. reflexivity.
  Qed.

  (** what the transform of a dict does once the object is known *)
  Definition fill (c : ctx) (d : cdef) (m : list (string * value)) (o : oid) (soft : bool) : st world value :=
    do* od <- getW (fun w => wcdef P w o);
    (if is_strict c d then strictness_check c od (map fst m) else ret tt) >>
    do* refs <- fold_st (fill_field P rec c m o soft) (cd_fields od) [];
    for_st refs (fun n => do* cur <- getattr P o n; if is_none cur then setattr P o n (VList []) else ret tt) >>
    ret (VObj o).

  Lemma transform_dict c cls d m w : c_val c = VDict m -> f_inst (c_fdef c) = Some cls -> p_ct P cls = Some d ->
    inst_transform P rec c w = (do* (o, soft) <- find_dest P rec c cls d m; fill c d m o soft) w.
  Proof.
    intros Hv Hi Hd. unfold inst_transform, inst_cls, class_named. rewrite Hv, Hi.
    rewrite (bind_eq _ _ w cls w eq_refl). rewrite Hd. rewrite (bind_eq _ _ w d w eq_refl). reflexivity.
  Qed.
  Lemma find_dest_orig c cls d m o w : c_original c = VObj o ->
    find_dest P rec c cls d m w = (Ok (o, false), noted d m o w).
  Proof.
    intros Ho. unfold find_dest. rewrite Ho. unfold the_obj. rewrite (bind_eq _ _ w o w eq_refl).
    unfold noted. destruct (primary_field d) as [pf |]; [| reflexivity].
    destruct (is_none (get_or_none (fl_name pf) m)); reflexivity.
  Qed.
  Lemma transform_orig c cls d m o w :
    c_val c = VDict m -> c_original c = VObj o -> f_inst (c_fdef c) = Some cls -> p_ct P cls = Some d ->
    inst_transform P rec c w = fill c d m o false (noted d m o w).
  Proof.
    intros Hv Ho Hi Hd. rewrite (transform_dict c cls d m w Hv Hi Hd).
    rewrite (bind_eq _ _ w _ _ (find_dest_orig c cls d m o w Ho)). reflexivity.
  Qed.

  Lemma noted_class d m o w x : wclass (noted d m o w) x = wclass w x.
  Proof. destruct (noted_mg d m o w) as (g & ->). reflexivity. Qed.
  Lemma noted_cdef d m o w x : wcdef P (noted d m o w) x = wcdef P w x.
  Proof. destruct (noted_mg d m o w) as (g & ->). reflexivity. Qed.

  Lemma fill_ignores d c m m' o soft w :
    wcdef P w o = d -> ~ refuses c d -> only_allowed d m m' -> local_refs_typed d ->
    fill (nval c (VDict m')) d m' o soft w = fill (nval c (VDict m)) d m o soft w.
  Proof.
    intros Hd Hs O T.
    assert (Sx : forall x, is_strict (nval c x) d = false).
    { intros x. destruct (is_strict (nval c x) d) eqn:S; [| reflexivity]. exfalso. apply Hs. apply strict_iff. exact S. }
    unfold fill. rewrite !(bind_eq (getW (fun w => wcdef P w o)) _ w (wcdef P w o) w eq_refl). rewrite !Sx, Hd.
    rewrite !(bind_eq _ _ w tt w eq_refl). unfold bind at 1 3.
    rewrite (fold_st_ext (fill_field P rec (nval c (VDict m')) m' o soft) (fill_field P rec (nval c (VDict m)) m o soft)); [reflexivity |].
    intros acc f w0 F. rewrite (fill_field_ignores d c m m' o soft f acc O T F). reflexivity.
  Qed.

  Lemma primary_allowed d pf : primary_field d = Some pf -> allowed d (fl_name pf).
  Proof. intros H. apply find_some in H. exists pf. split; [apply in_rev, H | auto]. Qed.
  Lemma noted_ignores d m m' o w : only_allowed d m m' -> noted d m' o w = noted d m o w.
  Proof.
    intros O. unfold noted. destruct (primary_field d) as [pf |] eqn:E; [| reflexivity].
    unfold get_or_none. rewrite (oa_get d m m' _ O (primary_allowed d pf E)). reflexivity.
  Qed.

  Lemma fill_refuses c d m o soft k w :
    wcdef P w o = d -> refuses c d -> first_unknown d (map fst m) k ->
    fill c d m o soft w = (Err (EValidation [(concat_keypath [KStr (skp (c_kr c)); KStr k], "key is not allowed"%string)]), w).
  Proof.
    intros Hd Hs Hk. unfold fill. rewrite (bind_eq (getW (fun w => wcdef P w o)) _ w (wcdef P w o) w eq_refl), Hd.
    rewrite (proj2 (strict_iff c d) Hs). unfold strictness_check. rewrite (proj2 (find_first d _ k) Hk).
    reflexivity.
  Qed.
  Lemma fill_any_mark c s d m o soft w :
    wcdef P w o = d -> Forall (allowed d) (map fst m) ->
    fill (marked_as s c) d m o soft w = fill c d m o soft w.
  Proof.
    intros Hd Hk. unfold fill. rewrite !(bind_eq (getW (fun w => wcdef P w o)) _ w (wcdef P w o) w eq_refl), Hd.
    assert (N : forall c', strictness_check c' d (map fst m) = ret tt).
    { intros c'. unfold strictness_check. rewrite (proj2 (find_none d _) Hk). reflexivity. }
    rewrite !N. destruct (is_strict (marked_as s c) d), (is_strict c d); reflexivity.
  Qed.
End Ignore.

(** ** set *)
Definition set_ctx (o : oid) (kwargs : list (string * value)) (fill : bool) (w : world) : ctx :=
  rootctx (fdef_of [MInstance (wclass w o)]) (o_operator (wobj w o)) o
    {| g_all := Some false; g_ignore_writeonly := false; g_reverse := false; g_fill := fill; g_output_null := None |}
    (VDict kwargs).

Lemma rootctx_dict d op o cfg m : c_val (rootctx d op o cfg (VDict m)) = VDict m.
Proof. reflexivity. Qed.

Lemma set_fields_eq P n o d kwargs fl w : p_ct P (wclass w o) = Some d ->
  set_fields P (S n) o kwargs fl w =
  match fill P n (set_ctx o kwargs fl w) d kwargs o false (noted P d kwargs o (set_mg [] w)) with
  | (Ok _, w') => (Ok tt, set_mg (w_mg w) w')
  | (Err e, w') => (Err e, set_mg (w_mg w) w')
  end.
Proof.
  intros Hd. unfold set_fields. rewrite (bind_eq (getW (fun w => wclass w o)) _ w (wclass w o) w eq_refl).
  unfold set_with. rewrite (bind_eq (getW (fun w => wclass w o)) _ w (wclass w o) w eq_refl), (bind_eq (getW (fun w => o_operator (wobj w o))) _ w (o_operator (wobj w o)) w eq_refl).
  unfold bind at 1, with_new_mgraph, self_mod. cbn [interp modif_of m_transform transform_of].
  fold (set_ctx o kwargs fl w).
  rewrite (transform_orig P n (set_ctx o kwargs fl w) (wclass w o) d kwargs o (set_mg [] w));
    [| reflexivity | reflexivity | reflexivity | exact Hd].
  destruct (fill P n _ d kwargs o false _) as [[v | e] w']; reflexivity.
Qed.
