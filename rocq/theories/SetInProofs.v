(** SetInProofs.v -- what [set] leaves in a data field, whether it answers or raises. *)
From Coq Require Import Lia.
From Verif Require Import Base Mon PyList PyDict StrDict OListModel ODictModel KeypathModel KeypathSpec KeypathProofs Values OGraphModel MGraphModel
  MGraphProofs ChainModel TypesModel TypesSpec TypesProofs ObjModel ObjSpec ObjTrack IoModel IoBase Sound ObjSound LeafSound TameSpec Keep TameProofs
  OutProofs KpSetProofs WriteSpec WriteFrame WriteProofs UpdateSpec UpdateProofs InitProofs MakeSpec MakeProofs SetInSpec.
From Verif Require LeafModel CalcSpec CalcProofs.
Open Scope list_scope.

Lemma bind_any {S T U} (m : st S T) (q : T -> st S U) s r s' : bind m q s = (r, s') ->
  exists r1 s1, m s = (r1, s1) /\ match r1 with Ok a => q a s1 = (r, s') | Err e => r = Err e /\ s' = s1 end.
Proof.
  unfold bind. destruct (m s) as [[a | e] s1]; intros H.
  - exists (Ok a), s1. auto.
  - injection H as <- <-. exists (Err e), s1. auto.
Qed.

Section SetIn.
  Context (P : program) (D : nat) (cls : string) (d : cdef) (f : field) (kw : list (string * value)) (x : oid).
  Notation k := (fl_name f).
  Hypothesis TC : tame_classes D P.
  Hypothesis LC : late_classes D P.
  Hypothesis ON : own_name P k.
  Hypothesis CS : considerate P x k.
  Hypothesis Fp : plain_field f = true.
  Hypothesis Ed : p_ct P cls = Some d.
  Hypothesis Hf : In f (cd_fields d).
  Hypothesis ND : NoDup (map fl_name (cd_fields d)).
  Notation R := (fun c : string => key_given d kw -> c <> cls).
  Hypothesis LR : only_holds R D P.
  Hypothesis Lim : (1 <= p_lim P)%nat.
  Existing Instance frame_mode.
  Notation A v := (fun a : option value => a = Some v).
  Notation pr v := (prot x k (A v) cls false R true).

  Lemma Fd1 : exists d, p_ct P cls = Some d /\ In f (cd_fields d) /\ forall g, In g (cd_fields d) -> fl_name g = k -> g = f.
  Proof. exact (Fd P cls d f Ed Hf ND). Qed.
  Lemma cn1 : false = true -> newborn P x.
  Proof. discriminate. Qed.
  Lemma no_write1 B : false = true -> forall u, yields (prot x k B cls false R false) (fun ok => ok = true -> forall n c w y w',
    c_val c = u -> t_transform (interp P n) (fl_types f) c w = (Ok y, w') -> B (Some y)) (may_write P x f u).
  Proof. discriminate. Qed.

  Lemma field_here v w : pr v w -> ofield (p_ct P) (w_heap w) x k = Some f.
  Proof. intros [H _]. unfold ofield, cdef_of. rewrite (he_class _ _ _ _ _ _ H), Ed. apply field_named_in; assumption. Qed.

  Lemma set_self1 cur y w r w' : setattr P x k y w = (r, w') -> pr cur w -> r = Ok tt /\ exists z, pr z w' /\ becomes P cur y z.
  Proof.
    intros E H. destruct (pieces f Fp) as [Pr Pc]. pose proof (field_here _ _ H) as Eo.
    assert (Hd : CalcSpec.data_field P (w_heap w) x k).
    { destruct H as [H _]. constructor.
      - exists f. auto.
      - rewrite (he_attr _ _ _ _ _ _ H). discriminate.
      - apply (he_label _ _ _ _ _ _ H). }
    assert (Hw : prot x k (fun _ => True) cls false R true w') by (
      assert (H0 : prot x k (fun _ => True) cls false R true w) by (destruct H as [[H1 H2 H3 H4 H5 H6] M]; split; [constructor; auto | exact M]);
      destruct (w_setheld P x k (fun _ => True) cls false R f eq_refl Fp Fd1 true y Logic.I w H0) as [X _];
      rewrite E in X; exact X).
    unfold setattr, liftH in E. destruct (p_lim P) as [| n]; [lia |].
    match type of E with context [run _ _ _ _ ?ps _ _] => destruct (CalcProofs.data_set P ps n (w_heap w) x k y Hd) as [h' [E1 As]] end.
    rewrite E1 in E. injection E as <- <-. split; [reflexivity |].
    assert (Up : forall z, attr h' x k = Some z -> pr z (set_heap h' w)).
    { intros z Ez. destruct Hw as [[H1 H2 H3 H4 H5 H6] M]. split; [constructor; auto | exact M]. }
    destruct H as [H _]. pose proof (he_attr _ _ _ _ _ _ H) as Ea. cbv beta in Ea.
    destruct (eqv (p_oeq P) (w_heap w) y cur) eqn:Eq.
    - exists cur. assert (Hh : CalcSpec.holds P (w_heap w) x k y) by (exists cur; auto).
      split; [apply Up; rewrite (CalcSpec.ad_same _ _ _ _ _ _ As Hh); exact Ea | right; split; [reflexivity | exists (w_heap w); exact Eq]].
    - exists y. assert (Hh : ~ CalcSpec.holds P (w_heap w) x k y) by (intros [c [X1 X2]]; congruence).
      split; [apply Up, (CalcSpec.ad_value _ _ _ _ _ _ As Hh) | left; reflexivity].
  Qed.

  Section Rec.
    Context (n : nat).
    Notation rec := (interp P n).
    Lemma trans1 v b d0 m c : fit R d0 m c -> cok x false b c -> Keep.keeps (prot x k (A v) cls false R b) (m_transform (rec m) c).
    Proof. apply (w_transform P x k (A v) cls false false R f D ON CS cn1 eq_refl Fp Fd1 TC LC LR (no_write1 (A v))). Qed.

    (** another field of the object *)
    Lemma other_field1 v c m soft acc g : In g (cd_fields d) -> fl_name g <> k -> ~ In k acc ->
      yields (pr v) (fun acc' => ~ In k acc') (fill_field P rec c m x soft acc g).
    Proof.
      intros I N Hacc.
      assert (Cf : cfok false true c) by (intros X; discriminate X).
      pose proof (fun b d0 m c => trans1 v b d0 m c) as IH.
      assert (Fl : Keep.keeps (pr v) (fill_default P rec g x c)).
      { eapply (w_fill_default P x k (A v) cls false false R D ON CS cn1 TC LC LR n IH); try eassumption. auto. }
      unfold fill_field. destruct (has_field_value g m).
      - cbv zeta. apply y_pre; [eapply w_may_write | intros ok]. apply y_pre; [| intros; apply y_ret, Hacc].
        destruct ok.
        + apply k_bind; [apply k_ekey | intros e]. apply k_bind; [apply k_getW | intros c1].
          apply k_bind; [eapply (w_field P x k (A v) cls false false R D CS cn1 TC LC LR n IH); eassumption |].
          intros y. destruct (is_calc g); [apply k_ret | apply w_setattr; auto using cn1].
        + match goal with |- Keep.keeps _ (if ?q then _ else _) => destruct q end; [exact Fl | apply k_ret].
      - unfold absent_field. cbv zeta. destruct (is_ref (fl_fdef g)).
        + apply y_pre.
          * destruct (is_local g); [| apply k_ret]. pose proof (on_keys _ _ ON _ _ _ Ed I) as Nr.
            apply k_bind; [destruct (get_or_none (fl_ref g) m); try apply k_ret; apply w_setattr; auto using cn1 | intros _].
            destruct (get_or_none (fl_cref g) m); try apply k_ret; apply w_setattr; auto using cn1.
          * intros _. apply y_ret. match goal with |- context [if ?q then _ else _] => destruct q end; [| exact Hacc].
            intros X. apply in_app_iff in X. destruct X as [X | [X | []]]; auto.
        + apply y_pre; [| intros; apply y_ret, Hacc].
          match goal with |- Keep.keeps _ (if ?q then _ else _) => destruct q end; [exact Fl | apply k_ret].
    Qed.

    Lemma may_take1 cur v w r w' : may_write P x f v w = (r, w') -> pr cur w ->
      w' = w /\ exists b : bool, r = Ok b /\ if b then takes_now f cur v else ~ takes_now f cur v.
    Proof.
      intros E H. unfold may_write in E. unfold takes_now. destruct (f_write_rule (fl_fdef f)).
      - inversion E; subst. split; [reflexivity |]. eexists. split; [reflexivity | cbn; tauto].
      - inversion E; subst. split; [reflexivity |]. eexists. split; [reflexivity | cbn; tauto].
      - unfold bind, getattr, liftH, ObjModel.getattr in E. rewrite (field_here _ _ H) in E.
        destruct (pieces f Fp) as [_ Pc]. rewrite Pc in E. destruct H as [H _]. pose proof (he_attr _ _ _ _ _ _ H) as Ea. cbv beta in Ea.
        rewrite Ea in E. inversion E; subst. split; [destruct w; reflexivity |]. eexists. split; [reflexivity |].
        destruct cur; cbn; congruence.
      - inversion E; subst. split; [reflexivity |]. eexists. split; [reflexivity |]. destruct v; cbn; congruence.
    Qed.

    (** the field itself *)
    Lemma self_field1 cur c m soft acc w r w' : g_fill (c_cfg c) = false ->
      fill_field P rec c m x soft acc f w = (r, w') -> pr cur w ->
      exists z, pr z w' /\ match r with Ok acc' => acc' = acc /\ after_set P x f m cur z | Err _ => z = cur end.
    Proof.
      intros Cg E H. unfold fill_field in E. unfold after_set. destruct (pieces f Fp) as [Pr Pc]. destruct (input_of f m) as [v |] eqn:Ei.
      - destruct (given_value _ _ _ Ei) as [E1 E2]. rewrite E1, E2 in E. cbv zeta in E. rewrite Cg, Pc in E. cbn [negb andb] in E.
        apply bind_any in E. destruct E as (r0 & w0 & G & E).
        destruct (may_take1 _ _ _ _ _ G H) as (-> & b & -> & T). clear G. apply bind_any in E. destruct E as (r1 & w1 & G & E).
        assert (X : exists z, pr z w1 /\ match r1 with Ok _ => takes_now f cur v /\ (exists y, makes_of P x f v y /\ becomes P cur y z) \/ ~ takes_now f cur v /\ z = cur | Err _ => z = cur end).
        { destruct b.
          - apply bind_any in G. destruct G as (r2 & w2 & G2 & G). assert (H2 : pr cur w2) by (revert G2 H; apply kept, k_ekey).
            destruct r2 as [ek | e]; [| destruct G as [-> ->]; exists cur; auto].
            apply bind_any in G. destruct G as (r3 & w3 & G3 & G). injection G3 as <- <-.
            apply bind_any in G. destruct G as (r4 & w4 & G4 & G).
            assert (H4 : pr cur w4).
            { revert G4 H2. apply kept. eapply (w_field P x k (A cur) cls false false R D CS cn1 TC LC LR n (trans1 cur)); try eassumption. intros Y; discriminate Y. }
            destruct r4 as [y | e]; [| destruct G as [-> ->]; exists cur; auto].
            destruct (set_self1 cur y _ _ _ G H4) as (-> & z & Hz & Bz). exists z. split; [exact Hz |]. left. split; [exact T |].
            exists y. split; [| exact Bz]. exists n. eexists. exists w2, w4. split; [| split; [| split; [| split; [| exact G4]]]]; reflexivity.
          - injection G as <- <-. exists cur. split; [exact H | right; auto]. }
        destruct X as (z & Hz & X). destruct r1 as [u | e].
        + injection E as <- <-. exists z. auto.
        + destruct E as [-> ->]. exists z. auto.
      - rewrite (not_given _ _ Ei) in E. unfold absent_field in E. cbv zeta in E. rewrite Pr, Cg in E. cbn [andb] in E.
        unfold bind, ret in E. injection E as <- <-. exists cur. auto.
    Qed.

    Lemma other_fields1 v c m soft : forall l acc, (forall g, In g l -> In g (cd_fields d) /\ fl_name g <> k) -> ~ In k acc ->
      yields (pr v) (fun acc' => ~ In k acc') (fold_st (fill_field P rec c m x soft) l acc).
    Proof.
      intros l acc Hl Ha. apply (y_fold (pr v) (fun _ acc' => ~ In k acc')); [| exact Ha].
      intros pre g post b El Hb. destruct (Hl g) as [Hg N]; [rewrite El; apply in_or_app; right; left; reflexivity |].
      apply other_field1; assumption.
    Qed.
    Lemma yield1 {T} I Q (m : st world T) w r w' : yields I Q m -> m w = (r, w') -> I w -> I w' /\ forall a, r = Ok a -> Q a.
    Proof. intros K E H. destruct (K w H) as [[X _] Y]. rewrite E in X, Y. split; [exact X | intros a ->; apply Y; reflexivity]. Qed.

    (** all of them *)
    Definition so_far (m : list (string * value)) (cur z : value) (done : bool) : Prop :=
      after_set P x f m cur z \/ done = false /\ z = cur.
    Lemma all_fields1 cur c m soft w r w' : g_fill (c_cfg c) = false ->
      fold_st (fill_field P rec c m x soft) (cd_fields d) [] w = (r, w') -> pr cur w ->
      exists z, pr z w' /\ match r with Ok acc' => ~ In k acc' /\ after_set P x f m cur z | Err _ => so_far m cur z false end.
    Proof.
      intros Cg E H. destruct (in_split _ _ Hf) as (l1 & l2 & El). rewrite El, fold_st_app in E.
      assert (Hl : forall g, In g l1 \/ In g l2 -> In g (cd_fields d) /\ fl_name g <> k).
      { intros g Hg. split; [rewrite El; apply in_or_app; destruct Hg; [left | right; right]; assumption |]. intros X.
        pose proof ND as N. rewrite El, map_app in N. cbn [map] in N. apply NoDup_remove_2 in N. apply N. rewrite <- X. apply in_or_app.
        destruct Hg as [Hg | Hg]; [left | right]; apply in_map, Hg. }
      apply bind_any in E. destruct E as (r1 & w1 & G & E).
      destruct (yield1 _ _ _ _ _ _ (other_fields1 cur c m soft l1 [] (fun g X => Hl g (or_introl X)) (fun X => X)) G H) as [H1 Ha].
      destruct r1 as [a | e]; [| destruct E as [-> ->]; exists cur; split; [exact H1 | right; auto]].
      specialize (Ha a eq_refl). cbn [fold_st] in E. apply bind_any in E. destruct E as (r2 & w2 & G2 & E).
      destruct (self_field1 _ _ _ _ _ _ _ _ Cg G2 H1) as (z & Hz & X).
      destruct r2 as [a2 | e]; [| destruct E as [-> ->]; exists z; split; [exact Hz | right; auto]].
      destruct X as [-> X].
      destruct (yield1 _ _ _ _ _ _ (other_fields1 z c m soft l2 a (fun g Y => Hl g (or_intror Y)) Ha) E Hz) as [H3 Hb].
      exists z. split; [exact H3 |]. destruct r as [a' | e]; [split; [apply Hb; reflexivity | exact X] | left; exact X].
    Qed.

    Lemma mark_self1 v pv w : (R cls -> False) -> pr v w -> pr v (snd (mg_putp P pv x w)).
    Proof.
      intros N [H M]. unfold mg_putp, modW. cbn [snd]. split; [exact H |]. intros _ c p Rc. cbn [set_mg w_mg].
      unfold m_putp, m_getp, m_table. rewrite sget_sset. unfold cname_of. rewrite (he_class _ _ _ _ _ _ H).
      destruct (String.eqb_spec c cls) as [-> | Nc]; [contradiction | apply (M eq_refl c p Rc)].
    Qed.
  End Rec.

  Lemma transform_self1 cur n c w r w' : c_val c = VDict kw -> c_original c = VObj x -> g_fill (c_cfg c) = false -> f_inst (c_fdef c) = Some cls ->
    m_transform (interp P n (MInstance cls)) c w = (r, w') -> pr cur w ->
    exists z, pr z w' /\ match r with Ok _ => after_set P x f kw cur z | Err _ => so_far kw cur z false end.
  Proof.
    destruct n as [| n]; [intros _ _ _ _ E H; injection E as <- <-; exists cur; split; [exact H | right; auto] |].
    intros Cv Co Cg Ci E H. cbn [interp modif_of m_transform transform_of] in E.
    unfold inst_transform in E. rewrite Cv in E. unfold inst_cls in E. rewrite Ci in E.
    apply bind_any in E. destruct E as (r0 & w0 & G & E). injection G as <- <-.
    apply bind_any in E. destruct E as (r0 & w0 & G & E). unfold class_named in G. rewrite Ed in G. injection G as <- <-.
    apply bind_any in E. destruct E as (r0 & w0 & G & E).
    assert (X : r0 = Ok (x, false) /\ pr cur w0).
    { unfold find_dest in G. cbv zeta in G. rewrite Co in G. cbn [the_obj] in G.
      apply bind_any in G. destruct G as (r1 & w1 & G0 & G). injection G0 as <- <-.
      apply bind_any in G. destruct G as (r1 & w1 & G0 & G).
      match type of G0 with (if is_none ?e then _ else _) _ = _ => destruct (is_none e) eqn:En;
        [injection G0 as <- <-; injection G as <- <-; auto |]; pose proof (mark_self1 cur e w) as K end.
      rewrite G0 in K. cbn [snd] in K. unfold mg_putp, modW in G0. injection G0 as <- _. injection G as <- <-. split; [reflexivity |].
      apply K; [| exact H]. intros Rc. apply Rc; [| reflexivity].
      unfold key_given. destruct (primary_field d) as [pf |]; [| discriminate En]. unfold get_or_none in En. exists pf.
      destruct (sget (fl_name pf) kw) as [v |]; [| discriminate En]. exists v. split; [reflexivity | split; [reflexivity | intros ->; discriminate En]]. }
    destruct X as (-> & H0). apply bind_any in E. destruct E as (r1 & w1 & G0 & E). injection G0 as <- <-.
    apply bind_any in E. destruct E as (r1 & w1 & G0 & E).
    assert (Ew : w1 = w0).
    { destruct (is_strict c d); [| injection G0 as _ <-; reflexivity]. unfold strictness_check in G0. destruct (find _ _); injection G0 as _ <-; reflexivity. }
    subst w1. destruct r1 as [u | e]; [| destruct E as [-> ->]; exists cur; split; [exact H0 | right; auto]].
    apply bind_any in E. destruct E as (r2 & w2 & G1 & E). unfold wcdef, cdef_of in G1. rewrite (he_class _ _ _ _ _ _ (proj1 H0)), Ed in G1.
    destruct (all_fields1 n _ _ _ _ _ _ _ Cg G1 H0) as (z & Hz & X).
    destruct r2 as [refs | e]; [| destruct E as [-> ->]; exists z; split; [exact Hz | exact X]].
    destruct X as [Na X]. exists z.
    assert (H3 : pr z w').
    { apply bind_any in E. destruct E as (r3 & w3 & G2 & E).
      assert (H3 : pr z w3).
      { revert G2 Hz. apply kept. apply k_for. intros s Hs.
        apply k_bind; [apply w_getattr | intros cur1]. destruct (is_none cur1); [| apply k_ret]. apply w_setattr; auto using cn1. intros _ ->. contradiction. }
      destruct r3 as [u3 | e]; [injection E as _ <-; exact H3 | destruct E as [_ ->]; exact H3]. }
    split; [exact H3 |]. destruct r; [exact X | left; exact X].
  Qed.
End SetIn.

Lemma jset_field P D cls d f kw x cur n w r w' :
  tame_classes D P -> late_classes D P -> own_name P (fl_name f) -> considerate P x (fl_name f) ->
  holds_data P (w_heap w) x f -> o_class (h_obj (w_heap w) x) = cls -> p_ct P cls = Some d -> NoDup (map fl_name (cd_fields d)) ->
  In f (cd_fields d) -> (1 <= p_lim P)%nat ->
  only_holds (fun c => key_given d kw -> c <> cls) D P -> Forall (fun kv => plain (fst kv)) kw ->
  attr (w_heap w) x (fl_name f) = Some cur ->
  jset P n x kw w = (r, w') ->
  exists z, attr (w_heap w') x (fl_name f) = Some z /\
    match r with Ok _ => after_set P x f kw cur z | Err _ => after_set P x f kw cur z \/ z = cur end.
Proof.
  intros TC LC ON CS HD Ec Ed ND Hf Lim LR Pl Ha E.
  assert (Es : single_key_args kw = kw /\ compound_key_args kw = []).
  { clear - Pl. unfold single_key_args, compound_key_args. induction Pl as [| kv l K _ [I1 I2]]; [auto |].
    apply plain_no_sep, has_sep_spec in K. cbn [filter]. rewrite K. cbn [negb]. rewrite I1, I2. auto. }
  destruct Es as [Es1 Es2]. unfold jset in E. rewrite Es1, Es2 in E.
  apply bind_any in E. destruct E as (r1 & w1 & G & E).
  assert (E' : w' = w1 /\ (r = Ok tt /\ r1 = Ok tt \/ exists e, r = Err e /\ r1 = Err e)).
  { destruct r1 as [[] | e]; [injection E as <- <-; auto | destruct E as [-> ->]; eauto]. }
  clear E. destruct E' as [-> Er].
  unfold set_fields in G. apply bind_any in G. destruct G as (r2 & w2 & G2 & G). injection G2 as <- <-.
  unfold set_with in G. apply bind_any in G. destruct G as (r2 & w2 & G2 & G). injection G2 as <- <-.
  apply bind_any in G. destruct G as (r2 & w2 & G2 & G). injection G2 as <- <-.
  apply bind_any in G. destruct G as (r2 & w2 & G2 & G).
  unfold with_new_mgraph in G2. match type of G2 with (let '(_, _) := ?e in _) = _ => destruct e as [r3 w3] eqn:Et end. injection G2 as <- <-.
  assert (H0 : prot x (fl_name f) (fun a => a = Some cur) cls false (fun c => key_given d kw -> c <> cls) true (set_mg [] w)).
  { destruct HD. split; [constructor; trivial; discriminate | intros _ c p _; discriminate]. }
  unfold wclass, wobj in Et. rewrite Ec in Et.
  destruct (transform_self1 P D cls d f kw x TC LC ON CS (hd_plain _ _ _ _ HD) Ed Hf ND LR Lim cur n) with (5 := Et) (6 := H0) as (z & Hz & X); try reflexivity.
  exists z. destruct Hz as [Hz _]. pose proof (he_attr _ _ _ _ _ _ Hz) as Ez. cbv beta in Ez.
  destruct r3 as [v | e].
  - injection G as <- <-. destruct Er as [[-> _] | (e & _ & Y)]; [| discriminate Y]. split; [exact Ez | exact X].
  - destruct G as [-> ->]. destruct Er as [[_ Y] | (e0 & -> & _)]; [discriminate Y |]. split; [exact Ez |].
    destruct X as [X | [_ X]]; auto.
Qed.
