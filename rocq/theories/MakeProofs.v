(** MakeProofs.v -- construction gives each data field its value. *)
From Verif Require Import Base Mon PyList PyDict StrDict OListModel ODictModel KeypathModel KeypathSpec KeypathProofs Values OGraphModel MGraphModel
  MGraphProofs ChainModel TypesModel TypesSpec TypesProofs ObjModel ObjSpec ObjTrack IoModel IoBase Sound ObjSound LeafSound TameSpec Keep TameProofs
  OutProofs KpSetProofs WriteSpec WriteFrame WriteProofs UpdateSpec UpdateProofs InitProofs MakeSpec.
From Verif Require LeafModel.
Open Scope list_scope.

Lemma veq_none q v : veq q v VNone = true -> v = VNone.
Proof.
  destruct v; cbn; intros H; try discriminate H; try reflexivity;
    match type of H with context [match ?q with _ => _ end] => destruct q end; discriminate H.
Qed.

Ltac step H a w G := apply bind_ok in H; destruct H as (a & w & G & H).

Section Make.
  Context (P : program) (D : nat) (cls : string) (d : cdef) (f : field) (kw : list (string * value)) (x : oid).
  Notation k := (fl_name f).
  Hypothesis TC : tame_classes D P.
  Hypothesis LC : late_classes D P.
  Hypothesis ON : own_name P k.
  Hypothesis CS : considerate P x k.
  Hypothesis CN : newborn P x.
  Hypothesis Fp : plain_field f = true.
  Hypothesis Ed : p_ct P cls = Some d.
  Hypothesis Hf : In f (cd_fields d).
  Hypothesis ND : NoDup (map fl_name (cd_fields d)).
  Definition R (c : string) : Prop := key_given d kw -> c <> cls.
  Hypothesis LR : only_holds R D P.
  Hypothesis Lim : (1 <= p_lim P)%nat.
  Existing Instance frame_mode.
  Notation A v := (fun a : option value => a = Some v).
  Notation held v := (held x k (A v) cls true).
  Notation pr v := (prot x k (A v) cls true R true).

  Lemma uniq g : In g (cd_fields d) -> fl_name g = k -> g = f.
  Proof.
    intros Hg E. pose proof (field_named_in d f ND Hf) as F. pose proof (field_named_in d g ND Hg) as G. rewrite E in G. congruence.
  Qed.
  Lemma Fd : exists d, p_ct P cls = Some d /\ In f (cd_fields d) /\ forall g, In g (cd_fields d) -> fl_name g = k -> g = f.
  Proof. exists d. split; [exact Ed | split; [exact Hf | exact uniq]]. Qed.
  Lemma cn : true = true -> newborn P x.
  Proof. intros _. exact CN. Qed.
  Lemma no_write v : false = true -> forall u, yields (prot x k (A v) cls true R false) (fun ok => ok = true -> forall n c w y w',
    c_val c = u -> t_transform (interp P n) (fl_types f) c w = (Ok y, w') -> A v (Some y)) (may_write P x f u).
  Proof. discriminate. Qed.
  Lemma pieces : is_ref (fl_fdef f) = false /\ is_calc f = false.
  Proof. unfold plain_field in Fp. apply andb_prop in Fp. destruct Fp as [P1 P2]. apply Bool.negb_true_iff in P1, P2. auto. Qed.

  (** assigning to the field, which is None *)
  Lemma set_self y w r w' : setattr P x k y w = (r, w') -> pr VNone w -> r = Ok tt /\ pr y w'.
  Proof.
    intros E [H M]. unfold setattr, liftH in E. destruct (p_lim P) as [| n]; [lia |]. cbn [run body] in E.
    destruct H as [H1 H2 H3 H4 H5 H6]. destruct (H6 eq_refl) as [N1 N2].
    assert (Eo : ofield (p_ct P) (w_heap w) x k = Some f) by (unfold ofield, cdef_of; rewrite H2, Ed; apply field_named_in; assumption).
    unfold set_attribute in E. unfold bind at 1, gets at 1 in E. unfold bind at 1, gets at 1 in E. unfold local_field_of in E. rewrite H4, Eo in E.
    unfold set_field in E. destruct pieces as [Pr Pc]. rewrite Pr, Pc in E. unfold bind at 1, gets at 1 in E. unfold bind at 1, gets at 1 in E.
    rewrite H1 in E. unfold eqv in E. destruct (veq _ y VNone) eqn:Ev.
    - apply veq_none in Ev. subst y. cbn in E. inversion E; subst. split; [reflexivity |]. split; [constructor; assumption | exact M].
    - unfold bind at 1, gets at 1 in E. rewrite N1 in E. unfold bind at 1, ret at 1, updm, modify in E. inversion E; subst. split; [reflexivity |].
      split; [| exact M]. constructor; unfold attr, upd; cbn [set_heap w_heap h_obj h_next]; rewrite ?Nat.eqb_refl; try assumption.
      cbn. rewrite String.eqb_refl. reflexivity.
  Qed.

  Section Rec.
    Context (n : nat).
    Notation rec := (interp P n).
    Lemma trans v b d0 m c : fit R d0 m c -> cok x false b c -> Keep.keeps (prot x k (A v) cls true R b) (m_transform (rec m) c).
    Proof. apply (w_transform P x k (A v) cls true false R f D ON CS cn eq_refl Fp Fd TC LC LR (no_write v)). Qed.

    (** another field of the new object *)
    Lemma other_field v c m soft acc g : In g (cd_fields d) -> fl_name g <> k -> g_fill (c_cfg c) = true -> ~ In k acc ->
      yields (pr v) (fun acc' => ~ In k acc') (fill_field P rec c m x soft acc g).
    Proof.
      intros I N C Hacc.
      assert (Cf : cfok false true c) by (intros X; discriminate X).
      pose proof (fun b d0 m c => trans v b d0 m c) as IH.
      assert (Fl : Keep.keeps (pr v) (fill_default P rec g x c)).
      { eapply (w_fill_default P x k (A v) cls true false R D ON CS cn TC LC LR n IH); try eassumption. auto. }
      unfold fill_field. destruct (has_field_value g m).
      - cbv zeta. apply y_pre; [eapply w_may_write | intros ok]. apply y_pre; [| intros; apply y_ret, Hacc].
        destruct ok.
        + apply k_bind; [apply k_ekey | intros e]. apply k_bind; [apply k_getW | intros c1].
          apply k_bind; [eapply (w_field P x k (A v) cls true false R D CS cn TC LC LR n IH); eassumption |].
          intros y. destruct (is_calc g); [apply k_ret | apply w_setattr; auto using cn].
        + match goal with |- Keep.keeps _ (if ?q then _ else _) => destruct q end; [exact Fl | apply k_ret].
      - unfold absent_field. cbv zeta. destruct (is_ref (fl_fdef g)).
        + apply y_pre.
          * destruct (is_local g); [| apply k_ret]. pose proof (on_keys _ _ ON _ _ _ Ed I) as Nr.
            apply k_bind; [destruct (get_or_none (fl_ref g) m); try apply k_ret; apply w_setattr; auto using cn | intros _].
            destruct (get_or_none (fl_cref g) m); try apply k_ret; apply w_setattr; auto using cn.
          * intros _. apply y_ret. match goal with |- context [if ?q then _ else _] => destruct q end; [| exact Hacc].
            intros X. apply in_app_iff in X. destruct X as [X | [X | []]]; auto.
        + apply y_pre; [| intros; apply y_ret, Hacc].
          match goal with |- Keep.keeps _ (if ?q then _ else _) => destruct q end; [exact Fl | apply k_ret].
    Qed.

    Lemma given_value g m v : input_of g m = Some v -> has_field_value g m = true /\ get_field_value g m = v.
    Proof.
      unfold input_of, has_field_value, get_field_value, get_or_none, smem, dmem. change (dget String.eqb) with (@sget value).
      destruct (sget (fl_json g) m) as [u |]; destruct (sget (fl_name g) m) as [t |]; cbn [orb];
        try (destruct u); intros H; try discriminate H; inversion H; split; reflexivity.
    Qed.
    Lemma not_given g m : input_of g m = None -> has_field_value g m = false.
    Proof.
      unfold input_of, has_field_value, smem, dmem. change (dget String.eqb) with (@sget value).
      destruct (sget (fl_json g) m) as [u |]; destruct (sget (fl_name g) m); cbn [orb]; try (destruct u); congruence.
    Qed.
    Lemma kept {T} I (m : st world T) w r w' : Keep.keeps I m -> m w = (r, w') -> I w -> I w'.
    Proof. intros K E H. destruct (K w H) as [X _]. rewrite E in X. exact X. Qed.

    (** the default goes into the field *)
    Lemma self_default c w r w' : c_original c = VObj x -> g_fill (c_cfg c) = true ->
      fill_default P rec f x c w = (Ok r, w') -> pr VNone w -> exists y, default_of P x f y /\ pr y w'.
    Proof.
      intros Co Cg E H. unfold fill_default in E. unfold default_of.
      assert (K : forall y w1, setattr P x k y w1 = (Ok r, w') -> pr VNone w1 -> pr y w') by (intros y w1 X H1; apply (set_self _ _ _ _ X H1)).
      destruct (fl_default f); try (eexists; split; [reflexivity | apply (K _ _ E H)]).
      step E ek w0 G. assert (H1 : pr VNone w0) by (revert G H; apply kept, k_ekey).
      step E cl w1 G0. inversion G0; subst. clear G0. step E y w2 G1. exists y. split.
      - exists n. eexists. exists w1, w2. split; [| split; [| split; [| split; [| exact G1]]]]; [reflexivity | exact Co | reflexivity | reflexivity].
      - apply (K _ _ E). revert G1 H1. apply kept. destruct (LC _ _ _ Ed Hf) as [L1 L2].
        apply (w_t_transform P x k (A VNone) cls true false R CS cn n (trans VNone)) with (d := D); [ | reflexivity |].
        + split; [exact L1 | intros m Hm; split; [apply (TC _ _ _ _ Ed Hf Hm) | split; [apply L2, Hm | apply (LR _ _ _ _ Ed Hf Hm)]]].
        + split; [intros X; discriminate X | intros _; discriminate].
    Qed.

    (** what may_write says of a new object's field *)
    Lemma may_take v w r w' : may_write P x f v w = (Ok r, w') -> pr VNone w -> w' = w /\ (if r : bool then takes f v else ~ takes f v).
    Proof.
      intros E [H M]. unfold may_write in E. unfold takes. destruct (f_write_rule (fl_fdef f)).
      - inversion E; subst. auto.
      - inversion E; subst. auto.
      - inv_ok E. inversion E; subst. clear E. unfold getattr, liftH, ObjModel.getattr in G.
        pose proof H as [H1 H2 H3 H4 H5 H6].
        assert (Eo : ofield (p_ct P) (w_heap w) x k = Some f) by (unfold ofield, cdef_of; rewrite H2, Ed; apply field_named_in; assumption).
        rewrite Eo in G. destruct pieces as [_ Pc]. rewrite Pc in G. rewrite H1 in G. inversion G; subst. split; [destruct w; reflexivity | exact Logic.I].
      - inversion E; subst. destruct v; split; try reflexivity; cbn; congruence.
    Qed.

    (** the field itself *)
    Lemma self_field c m acc w acc' w' : c_original c = VObj x -> g_fill (c_cfg c) = true ->
      fill_field P rec c m x false acc f w = (Ok acc', w') -> pr VNone w -> acc' = acc /\ exists y, expected P x f m y /\ pr y w'.
    Proof.
      intros Co Cg E H. unfold fill_field in E. unfold expected. destruct pieces as [Pr Pc]. destruct (input_of f m) as [v |] eqn:Ei.
      - destruct (given_value _ _ _ Ei) as [E1 E2]. rewrite E1, E2 in E. cbv zeta in E. rewrite Cg, Pc in E. cbn [negb andb] in E.
        step E ok w0 G. destruct (may_take _ _ _ _ G H) as [-> T]. step E u w1 G0. inversion E; subst. split; [reflexivity |]. destruct ok.
        + step G0 ek w1 G1. assert (H1 : pr VNone w1) by (revert G1 H; apply kept, k_ekey). step G0 cl w2 G2. inversion G2; subst. clear G2. step G0 y w3 G3.
          exists y. split; [left; split; [exact T |] |].
          * exists n. eexists. exists w2, w3. split; [| split; [| split; [| split; [| exact G3]]]]; reflexivity.
          * apply (set_self _ _ _ _ G0). revert G3 H1. apply kept.
            eapply (w_field P x k (A VNone) cls true false R D CS cn TC LC LR n (trans VNone)); try eassumption. intros X; discriminate X.
        + destruct (self_default _ _ _ _ Co Cg G0 H) as (y & Hy & Hw). exists y. split; [right; split; assumption | exact Hw].
      - rewrite (not_given _ _ Ei) in E. unfold absent_field in E. cbv zeta in E. rewrite Pr, Cg, Pc in E. cbn [negb andb] in E.
        inv_ok E. inversion E; subst. split; [reflexivity |]. apply (self_default _ _ _ _ Co Cg G H).
    Qed.

    Lemma other_fields v c m soft : g_fill (c_cfg c) = true -> forall l acc, (forall g, In g l -> In g (cd_fields d) /\ fl_name g <> k) -> ~ In k acc ->
      yields (pr v) (fun acc' => ~ In k acc') (fold_st (fill_field P rec c m x soft) l acc).
    Proof.
      intros Cg l acc Hl Ha. apply (y_fold (pr v) (fun _ acc' => ~ In k acc')); [| exact Ha].
      intros pre g post b El Hb. destruct (Hl g) as [Hg N]; [rewrite El; apply in_or_app; right; left; reflexivity |].
      apply other_field; assumption.
    Qed.
    Lemma yield {T} I Q (m : st world T) w a w' : yields I Q m -> m w = (Ok a, w') -> I w -> I w' /\ Q a.
    Proof. intros K E H. destruct (K w H) as [[X _] Y]. rewrite E in X, Y. split; [exact X | apply Y; reflexivity]. Qed.

    (** all of them *)
    Lemma all_fields c m w acc' w' : c_original c = VObj x -> g_fill (c_cfg c) = true ->
      fold_st (fill_field P rec c m x false) (cd_fields d) [] w = (Ok acc', w') -> pr VNone w -> ~ In k acc' /\ exists y, expected P x f m y /\ pr y w'.
    Proof.
      intros Co Cg E H. destruct (in_split _ _ Hf) as (l1 & l2 & El). rewrite El, fold_st_app in E.
      assert (Hl : forall g, In g l1 \/ In g l2 -> In g (cd_fields d) /\ fl_name g <> k).
      { intros g Hg. split; [rewrite El; apply in_or_app; destruct Hg; [left | right; right]; assumption |]. intros X.
        pose proof ND as N. rewrite El, map_app in N. cbn [map] in N. apply NoDup_remove_2 in N. apply N. rewrite <- X. apply in_or_app.
        destruct Hg as [Hg | Hg]; [left | right]; apply in_map, Hg. }
      inv_ok E. destruct (yield _ _ _ _ _ _ (other_fields VNone c m false Cg l1 [] (fun g X => Hl g (or_introl X)) (fun X => X)) G H) as [H1 Ha].
      cbn [fold_st] in E. inv_ok E. destruct (self_field _ _ _ _ _ _ Co Cg G0 H1) as [-> (y & Hy & H2)].
      destruct (yield _ _ _ _ _ _ (other_fields y c m false Cg l2 a (fun g X => Hl g (or_intror X)) Ha) E H2) as [H3 Hb].
      split; [exact Hb | exists y; split; assumption].
    Qed.

    (** the mark of the new object is under its own class *)
    Lemma mark_self v pv w : (R cls -> False) -> pr v w -> pr v (snd (mg_putp P pv x w)).
    Proof.
      intros N [H M]. unfold mg_putp, modW. cbn [snd]. split; [exact H |]. intros _ c p Rc. cbn [set_mg w_mg].
      unfold m_putp, m_getp, m_table. rewrite sget_sset. unfold cname_of. rewrite (he_class _ _ _ _ _ _ H).
      destruct (String.eqb_spec c cls) as [-> | Nc]; [contradiction | apply (M eq_refl c p Rc)].
    Qed.
  End Rec.

  Lemma transform_self n c w r w' : c_val c = VDict kw -> c_original c = VObj x -> g_fill (c_cfg c) = true -> f_inst (c_fdef c) = Some cls ->
    m_transform (interp P n (MInstance cls)) c w = (Ok r, w') -> pr VNone w -> exists y, expected P x f kw y /\ pr y w'.
  Proof.
    destruct n as [| n]; [intros _ _ _ _ E; discriminate E |]. intros Cv Co Cg Ci E H. cbn [interp modif_of m_transform transform_of] in E.
    unfold inst_transform in E. rewrite Cv in E. unfold inst_cls in E. rewrite Ci in E.
    step E cl w0 G. injection G as <- <-. step E d0 w0 G. unfold class_named in G. rewrite Ed in G. injection G as <- <-. step E os w0 G. destruct os as [o soft].
    assert (X : o = x /\ soft = false /\ pr VNone w0).
    { unfold find_dest in G. cbv zeta in G. rewrite Co in G. cbn [the_obj] in G. step G o1 w1 G0. injection G0 as <- <-. step G u w1 G0. injection G as <- <- <-.
      split; [reflexivity | split; [reflexivity |]].
      match type of G0 with (if is_none ?e then _ else _) _ = _ => destruct (is_none e) eqn:En; [injection G0 as _ <-; exact H |]; pose proof (mark_self VNone e w) as K end.
      rewrite G0 in K. cbn [snd] in K. apply K; [| exact H]. intros Rc. apply Rc; [| reflexivity].
      unfold key_given. destruct (primary_field d) as [pf |]; [| discriminate En]. unfold get_or_none in En. exists pf.
      destruct (sget (fl_name pf) kw) as [v |]; [| discriminate En]. exists v. split; [reflexivity | split; [reflexivity | intros ->; discriminate En]]. }
    destruct X as (-> & -> & H0). step E od w1 G0. injection G0 as <- <-. step E u w1 G0.
    assert (Ew : w1 = w0).
    { destruct (is_strict c d); [| injection G0 as _ <-; reflexivity]. unfold strictness_check in G0. destruct (find _ _); [discriminate G0 | injection G0 as _ <-; reflexivity]. }
    rewrite Ew in E. clear Ew G0. step E refs w2 G1. unfold wcdef, cdef_of in G1. rewrite (he_class _ _ _ _ _ _ (proj1 H0)), Ed in G1.
    destruct (all_fields n _ _ _ _ _ Co Cg G1 H0) as [Na (y & Hy & H2)]. exists y. split; [exact Hy |].
    step E u1 w3 G2. injection E as _ <-. revert G2 H2. apply kept. apply k_for. intros s Hs.
    apply k_bind; [apply w_getattr | intros cur]. destruct (is_none cur); [| apply k_ret]. apply w_setattr; auto using cn. intros _ ->. contradiction.
  Qed.
End Make.

(** construction *)
Lemma construct_held P D cls d f kw n w x w' :
  tame_classes D P -> late_classes D P -> own_name P (fl_name f) -> considerate P (h_next (w_heap w)) (fl_name f) -> newborn P (h_next (w_heap w)) ->
  p_ct P cls = Some d -> proper_names d -> (2 <= p_lim P)%nat -> In f (cd_fields d) -> plain_field f = true ->
  only_holds (fun c => key_given d kw -> c <> cls) D P -> Forall (fun kv => plain (fst kv)) kw ->
  construct P n cls kw w = (Ok x, w') ->
  x = h_next (w_heap w) /\ w_mg w' = w_mg w /\
  exists y, expected P x f kw y /\ prot x (fl_name f) (fun a => a = Some y) cls true (fun c => key_given d kw -> c <> cls) false w'.
Proof.
  intros TC LC ON CS CN Ed Pn Lim Hf Fp LR Pl E. unfold construct in E.
  assert (Es : single_key_args kw = kw /\ compound_key_args kw = []).
  { clear - Pl. unfold single_key_args, compound_key_args. induction Pl as [| kv l K _ [I1 I2]]; [auto |].
    apply plain_no_sep, has_sep_spec in K. cbn [filter]. rewrite K. cbn [negb]. rewrite I1, I2. auto. }
  destruct Es as [Es1 Es2]. rewrite Es1, Es2 in E. step E o w1 G. cbn [keypath_set for_st] in E. step E u w2 G0. injection G0 as _ <-. step E u1 w3 G1. injection E as <- <-.
  unfold create in G. step G d1 w4 G2. unfold class_named in G2. rewrite Ed in G2. injection G2 as <- <-.
  destruct (cd_abstract d); [discriminate G |]. step G x1 w4 G2. pose proof (alloc_ok cls w) as Al. destruct (alloc cls w) as [x2 wa].
  injection G2 as <- <-. destruct Al as (Ex & A1 & A2 & A3 & A4 & A5 & A6 & A7). subst x2. set (x := h_next (w_heap w)) in *.
  destruct (init_fields_ok P cls d x Lim Ed Pn (cd_fields d) [] wa eq_refl) as (h1 & I1 & I2 & I3).
  { unfold wobj. rewrite A1. apply fresh_blank. }
  rewrite (bind_eq _ _ _ _ _ I1) in G. step G u2 w5 G2. injection G as <- <-.
  assert (Pc : is_calc f = false) by (unfold plain_field in Fp; apply andb_prop in Fp; destruct Fp as [P1 P2]; apply Bool.negb_true_iff in P1, P2; assumption).
  assert (Pr : is_ref (fl_fdef f) = false) by (unfold plain_field in Fp; apply andb_prop in Fp; destruct Fp as [P1 P2]; apply Bool.negb_true_iff in P1, P2; assumption).
  assert (H0 : prot x (fl_name f) (fun a => a = Some VNone) cls true (fun c => key_given d kw -> c <> cls) true (set_mg [] (set_heap h1 wa))).
  { split; [| intros _ c p _; discriminate]. cbn [set_mg set_heap w_heap]. destruct Pn as [Nd Rf]. constructor.
    - unfold attr. apply (bl_fields _ _ _ I3 f Hf Pc).
    - apply (bl_class _ _ _ I3).
    - intros lab X. destruct (bl_lkeys _ _ _ I3 _ _ X) as (g & Hg & Lg & _ & Eg).
      pose proof (field_named_in d f Nd Hf) as F1. pose proof (field_named_in d g Nd Hg) as F2. rewrite <- Eg in F2.
      assert (f = g) by congruence. subst g. rewrite (local_is_ref f Lg) in Pr. discriminate Pr.
    - destruct (sget (fl_name f) (o_lkeys (h_obj h1 x))) as [l |] eqn:X; [| reflexivity].
      destruct (bl_lkeys _ _ _ I3 _ _ X) as (g & Hg & Lg & Eg & _). exfalso. apply (Rf g f Hg Hf Lg). symmetry. exact Eg.
    - destruct I2 as (_ & N & _). rewrite N, A3. lia.
    - intros _. split; [apply (bl_new _ _ _ I3) | apply (bl_modified _ _ _ I3)]. }
  unfold set_with in G2. step G2 cl w6 G3. injection G3 as <- <-. step G2 op w6 G3. injection G3 as <- <-. step G2 r w6 G3. injection G2 as _ <-.
  unfold with_new_mgraph in G3. match type of G3 with (let '(_, _) := ?e in _) = _ => destruct e as [r1 w7] eqn:Et end. injection G3 as -> <-.
  unfold wclass, wobj in Et. cbn [w_heap set_heap] in Et. rewrite (bl_class _ _ _ I3) in Et.
  destruct (transform_self P D cls d f kw x TC LC ON CS CN Fp Ed Hf (pn_names _ Pn) LR ltac:(lia) n) with (5 := Et) (6 := H0) as (y & Hy & H1); try reflexivity.
  assert (H2 : prot x (fl_name f) (fun a => a = Some y) cls true (fun c => key_given d kw -> c <> cls) false w3).
  { match type of G1 with graph_put P x ?w0 = _ => destruct (w_graph_put P x (fl_name f) (fun a => a = Some y) cls true (fun c => key_given d kw -> c <> cls) false x w0) as [X _] end.
    - split; [exact (proj1 H1) | discriminate].
    - rewrite G1 in X. exact X. }
  split; [reflexivity | split; [| exists y; split; assumption]].
  transitivity (w_mg wa); [| exact A4].
  unfold graph_put, modW in G1. injection G1 as _ <-. cbv zeta. match goal with |- context [g_put ?a ?b ?c ?d] => destruct (g_put a b c d) end; reflexivity.
Qed.
Lemma construct_field P D cls d f kw n w x w' :
  tame_classes D P -> late_classes D P -> own_name P (fl_name f) -> considerate P (h_next (w_heap w)) (fl_name f) -> newborn P (h_next (w_heap w)) ->
  p_ct P cls = Some d -> proper_names d -> (2 <= p_lim P)%nat -> In f (cd_fields d) -> plain_field f = true ->
  only_holds (fun c => key_given d kw -> c <> cls) D P -> Forall (fun kv => plain (fst kv)) kw ->
  construct P n cls kw w = (Ok x, w') ->
  x = h_next (w_heap w) /\ o_class (h_obj (w_heap w') x) = cls /\ o_new (h_obj (w_heap w') x) = true /\ o_modified (h_obj (w_heap w') x) = false /\
  exists y, attr (w_heap w') x (fl_name f) = Some y /\ expected P x f kw y.
Proof.
  intros TC LC ON CS CN Ed Pn Lim Hf Fp LR Pl E.
  destruct (construct_held P D cls d f kw n w x w' TC LC ON CS CN Ed Pn Lim Hf Fp LR Pl E) as (Ex & _ & y & Hy & [[B1 B2 B3 B4 B5 B6] _]).
  destruct (B6 eq_refl) as [B7 B8].
  split; [exact Ex | split; [exact B2 | split; [exact B7 | split; [exact B8 |]]]]. exists y. split; [exact B1 | exact Hy].
Qed.
