(** OnsaveProofs.v -- lemmas for C46. *)
From Verif Require Import Base Mon PyList PyDict StrDict KeypathModel Values OGraphModel MGraphModel ChainModel ChainSpec ChainProofs
  TypesModel TypesSpec TypesProofs ObjModel ObjTrack IoModel IoBase Sound ObjSound IoSound IoEffects Keep TameSpec TameProofs OutSpec OutProofs OnsaveSpec.
From Verif Require LeafModel.
Open Scope list_scope.

(** ** Chains *)
Section Chains.
  Context {V C S : Type}.
  Notation modifier := (modifier V C S).
  Lemma skip_skip {A} i j (l : list A) : skipn j (skipn i l) = skipn (j + i) l.
  Proof.
    revert l. induction i as [| i IH]; intros l; [rewrite Nat.add_0_r; reflexivity |].
    destruct l as [| a l]; [rewrite !skipn_nil; reflexivity |]. rewrite Nat.add_succ_r. cbn [skipn]. apply IH.
  Qed.
  Lemma covered (vs : list modifier) v : In v vs -> In v (tvs vs) \/ In v (nvs vs) \/ In v (pvs vs).
  Proof.
    intros H. unfold tvs, nvs, pvs.
    set (lo := levidx vs). set (hi := fpvidx vs).
    assert (A : forall n (l : list modifier), In v l -> In v (firstn n l) \/ In v (skipn n l)).
    { intros n l Hl. rewrite <- (firstn_skipn n l) in Hl. apply in_app_iff in Hl. exact Hl. }
    destruct lo as [i |]; cbn beta iota zeta.
    - destruct (A i vs H) as [X | X]; [left; exact X |]. right. destruct hi as [j |].
      + destruct (A (j - i)%nat (skipn i vs) X) as [Y | Y]; [left; exact Y | right].
        rewrite skip_skip in Y.
        destruct (Nat.le_gt_cases i j) as [L | L].
        * replace (j - i + i)%nat with j in Y by lia. exact Y.
        * replace (j - i + i)%nat with i in Y by lia.
          clear - Y L. revert j i vs Y L. induction j as [| j IH]; intros i vs Y L.
          -- cbn. rewrite <- (firstn_skipn i vs). apply in_app_iff. right. exact Y.
          -- destruct i as [| i]; [lia |]. destruct vs as [| a vs]; [exact Y |]. cbn [skipn] in *. apply (IH i); [exact Y | lia].
      + left. rewrite firstn_all2; [exact X | rewrite skipn_length; lia].
    - right. destruct hi as [j |].
      + rewrite Nat.sub_0_r. cbn [skipn]. apply (A j vs H).
      + left. rewrite Nat.sub_0_r. cbn [skipn]. rewrite firstn_all. exact H.
  Qed.
End Chains.

(** ** A successful fold, cut at one element *)
Lemma fold_cut {S A B} (g : B -> A -> st S B) pre a post b s r s' : fold_st g (pre ++ a :: post) b s = (Ok r, s') ->
  exists b1 s1 b2 s2, fold_st g pre b s = (Ok b1, s1) /\ g b1 a s1 = (Ok b2, s2) /\ fold_st g post b2 s2 = (Ok r, s').
Proof.
  revert b s. induction pre as [| x pre IH]; intros b s H; cbn [app fold_st] in *; unfold bind in *.
  - destruct (g b a s) as [[b2 | e] s2] eqn:E; [| discriminate H]. exists b, s, b2, s2. auto.
  - destruct (g b x s) as [[b2 | e] s2] eqn:E; [| discriminate H].
    destruct (IH b2 s2 H) as (b3 & s3 & b4 & s4 & H1 & H2 & H3). exists b3, s3, b4, s4. auto.
Qed.

(** ** Setters run *)
Section Runs.
  Context (P : program).
  Instance quiet_mode : manner := Silent.
  Notation sound := (sound (logged save_event)).
  Lemma w_refl : forall s, logged save_event s s.
  Proof. intros s. apply logged_refl. Qed.
  Lemma w_trans : forall a b c, logged save_event a b -> logged save_event b c -> logged save_event a c.
  Proof. intros a b c. apply logged_trans. Qed.
  Lemma all_logged {A} (m : st world A) : @Sound.sound Silent world (logged field_event) A m -> sound m.
  Proof.
    intros H w. destruct (H w) as [(l & E & F) _]. split; [| apply silent]. exists l. split; [exact E |].
    eapply Forall_impl; [| exact F]. intros [[] |  |]; cbn; auto.
  Qed.
  Lemma log_v n m c : sound (m_validate (interp P n m) c).
  Proof. apply all_logged, log_interp. Qed.
  Lemma log_s n m c : sound (m_serialize (interp P n m) c).
  Proof. apply log_serialize. Qed.
  Lemma call_saves f c args : sound (call P KSave f c args).
  Proof. apply log_call. exact Logic.I. Qed.
  Lemma call_fields k f c args : k = KField \/ k = KValidate -> sound (call P k f c args).
  Proof. intros [-> | ->]; apply log_call; exact Logic.I. Qed.
  Lemma log_wp c v : sound (write_parent P c v).
  Proof. apply i_write_parent. apply log_steps. Qed.

  Definition adds (g : cbid) (w w' : world) : Prop := exists l, w_log w' = w_log w ++ l /\ In (EvCall KSave g) l.
  Lemma adds_left g a b c : adds g a b -> logged save_event b c -> adds g a c.
  Proof. intros (l & E & I) (l' & E' & _). exists (l ++ l'). rewrite E', E, app_assoc. split; [reflexivity | apply in_app_iff; left; exact I]. Qed.
  Lemma adds_right g a b c : logged save_event a b -> adds g b c -> adds g a c.
  Proof. intros (l & E & _) (l' & E' & I). exists (l ++ l'). rewrite E', E, app_assoc. split; [reflexivity | apply in_app_iff; right; exact I]. Qed.

  Lemma setter_called n g m c w v w' : sets_with g m -> m_serialize (interp P n m) c w = (Ok v, w') -> adds g w w'.
  Proof.
    intros H E. destruct n as [| n]; [discriminate E |]. cbn [interp modif_of m_serialize] in E.
    assert (K : forall f args (k : value -> st world value), (forall a, sound (k a)) -> bind (call P KSave f c args) k w = (Ok v, w') -> adds f w w').
    { intros f args k Hk X. unfold bind at 1 in X. unfold call at 1, bind at 1, modW in X.
      pose proof (liftH_log (p_call P f c args) (add_log (EvCall KSave f) w)) as L.
      destruct (liftH (p_call P f c args) (add_log (EvCall KSave f) w)) as [[a | e] w1]; [| discriminate X]. cbn [snd] in L.
      apply adds_left with w1.
      - exists [EvCall KSave f]. split; [exact L | left; reflexivity].
      - destruct (Hk a w1) as [R _]. rewrite X in R. exact R. }
    destruct m; try contradiction; cbn [serialize_of] in E; cbn in H.
    - destruct p; try contradiction. subst. cbn [setonsave_serialize] in E. apply (K g [c_val c] ret); [intros; apply s_ret, w_refl |].
      unfold bind. destruct (call P KSave g c [c_val c] w) as [[a | e] w1]; [exact E | discriminate E].
    - subst. unfold onsave_serialize, seq in E. eapply K; [| exact E]. intros; apply s_ret, w_refl.
  Qed.

  Lemma fold_called' {A B} (g : cbid) (step : B -> A -> st world B) l a b w r w' :
    (forall b a, In a l -> sound (step b a)) -> (forall b w b' w', step b a w = (Ok b', w') -> adds g w w') -> In a l ->
    fold_st step l b w = (Ok r, w') -> adds g w w'.
  Proof.
    intros Hs Ha Hin E. apply in_split in Hin. destruct Hin as (pre & post & ->).
    destruct (fold_cut step pre a post b w r w' E) as (b1 & s1 & b2 & s2 & E1 & E2 & E3).
    pose proof (s_fold (logged save_event) w_refl w_trans step pre (fun b x I => Hs b x (in_or_app _ _ _ (or_introl I))) b w) as [R1 _]. rewrite E1 in R1.
    pose proof (s_fold (logged save_event) w_refl w_trans step post (fun b x I => Hs b x (in_or_app pre (a :: post) x (or_intror (in_cons a x post I)))) b2 s2) as [R3 _]. rewrite E3 in R3.
    apply adds_right with s1; [exact R1 |]. apply adds_left with s2; [apply (Ha _ _ _ _ E2) | exact R3].
  Qed.
  Lemma in_firstn {A} (x : A) n l : In x (firstn n l) -> In x l.
  Proof. intros H. rewrite <- (firstn_skipn n l). apply in_app_iff. left. exact H. Qed.
  Lemma in_skipn {A} (x : A) n l : In x (skipn n l) -> In x l.
  Proof. intros H. rewrite <- (firstn_skipn n l). apply in_app_iff. right. exact H. Qed.
  Lemma in_tvs (vs : list (modifier value ctx world)) x : In x (tvs vs) -> In x vs.
  Proof. unfold tvs. destruct (levidx vs); [apply in_firstn | intros []]. Qed.
  Lemma in_pvs (vs : list (modifier value ctx world)) x : In x (pvs vs) -> In x vs.
  Proof. unfold pvs. destruct (fpvidx vs); [apply in_skipn | intros []]. Qed.
  Lemma in_nvs (vs : list (modifier value ctx world)) x : In x (nvs vs) -> In x vs.
  Proof. unfold nvs. intros H. apply in_firstn, in_skipn in H. exact H. Qed.

  Lemma chain_called n g m ts c w v w' : sets_with g m -> In m ts -> t_serialize P (interp P n) ts c w = (Ok v, w') -> adds g w w'.
  Proof.
    intros H Hin E. unfold t_serialize, chain_serialize in E.
    set (vs := map (interp P n) ts) in *.
    assert (I : forall x, In x vs -> exists y, x = interp P n y).
    { intros x Hx. apply in_map_iff in Hx. destruct Hx as (y & <- & _). exists y. reflexivity. }
    set (s1 := fun (val : value) v => m_serialize v (nval c val)) in *. set (s2 := fun (val : value) v => sv nval (write_parent P) v (nval c val)) in *.
    assert (S1 : forall b x, In x vs -> sound (s1 b x)) by (intros b x Hx; destruct (I x Hx) as [y ->]; apply log_s).
    assert (S2 : forall b x, In x vs -> sound (s2 b x)).
    { intros b x Hx. destruct (I x Hx) as [y ->]. unfold s2, sv. apply s_bind; [exact w_refl | exact w_trans | apply log_s | intros v0]. unfold seq.
      apply s_bind; [exact w_refl | exact w_trans | apply log_v | intros _]. apply s_bind; [exact w_refl | exact w_trans | apply log_wp | intros _; apply s_ret, w_refl]. }
    assert (A1 : forall b w b' w', s1 b (interp P n m) w = (Ok b', w') -> adds g w w') by (intros b w0 b' w0' X; apply (setter_called n g m _ w0 b' w0' H X)).
    assert (A2 : forall b w b' w', s2 b (interp P n m) w = (Ok b', w') -> adds g w w').
    { intros b w0 b' w0' X. unfold s2, sv, bind at 1 in X.
      destruct (m_serialize (interp P n m) (nval c b) w0) as [[u | e] w1] eqn:E1; [| discriminate X].
      apply adds_left with w1; [apply (setter_called n g m _ w0 u w1 H E1) |].
      unfold seq, bind at 1 in X. pose proof (log_v n m (nval (nval c b) u) w1) as [R _]. destruct (m_validate (interp P n m) (nval (nval c b) u) w1) as [[q | e] w2]; [| discriminate X].
      unfold bind at 1 in X. pose proof (log_wp (nval c b) u w2) as [R' _]. destruct (write_parent P (nval c b) u w2) as [[q' | e] w3]; [| discriminate X].
      inversion X; subst. eapply w_trans; eassumption. }
    unfold bind at 1 in E. destruct (fold_st s1 (tvs vs) (c_val c) w) as [[v1 | e] w1] eqn:E1; [| discriminate E].
    unfold bind at 1 in E. destruct (fold_st s1 (nvs vs) v1 w1) as [[v2 | e] w2] eqn:E2; [| discriminate E].
    pose proof (s_fold (logged save_event) w_refl w_trans s1 (tvs vs) (fun b x Hx => S1 b x (in_tvs _ _ Hx)) (c_val c) w) as [R1 _]. rewrite E1 in R1.
    pose proof (s_fold (logged save_event) w_refl w_trans s1 (nvs vs) (fun b x Hx => S1 b x (in_nvs _ _ Hx)) v1 w1) as [R2 _]. rewrite E2 in R2.
    pose proof (s_fold (logged save_event) w_refl w_trans s2 (pvs vs) (fun b x Hx => S2 b x (in_pvs _ _ Hx)) v2 w2) as [R3 _]. rewrite E in R3. cbn [snd] in *.
    destruct (covered vs (interp P n m)) as [X | [X | X]]; [apply in_map, Hin | | |].
    - apply adds_left with w1; [| eapply w_trans; eassumption].
      apply (fold_called' g s1 (tvs vs) (interp P n m) (c_val c) w v1 w1); [intros b a Ha; apply S1, in_tvs, Ha | exact A1 | exact X | exact E1].
    - apply adds_right with w1; [exact R1 |]. apply adds_left with w2; [| exact R3].
      apply (fold_called' g s1 (nvs vs) (interp P n m) v1 w1 v2 w2); [intros b a Ha; apply S1, in_nvs, Ha | exact A1 | exact X | exact E2].
    - apply adds_right with w2; [eapply w_trans; eassumption |].
      apply (fold_called' g s2 (pvs vs) (interp P n m) v2 w2 v w'); [intros b a Ha; apply S2, in_pvs, Ha | exact A2 | exact X | exact E].
  Qed.

  Lemma save_field_log n c o b f : sound (save_field P (interp P n) c o b f).
  Proof. apply i_save_field; [apply log_steps | intros; apply log_v | intros; apply log_s]. Qed.
  Lemma save_field_go n c o f w b w' : save_field P (interp P n) c o true f w = (Ok b, w') -> b = true.
  Proof.
    unfold save_field. rewrite !Bool.orb_true_r. cbn [orb]. unfold bind at 1.
    destruct ((if is_local f then _ else ret false) w) as [[[|] | e] w1]; [intros H; inversion H; reflexivity | | discriminate].
    unfold seq, bind. destruct ((if is_calc f then ret tt else _) w1) as [[u | e] w2]; [| discriminate].
    unfold getW, ret. rewrite Bool.orb_true_r. intros H. inversion H; reflexivity.
  Qed.
  Lemma fold_go n c o l w b w' : fold_st (save_field P (interp P n) c o) l true w = (Ok b, w') -> b = true.
  Proof.
    revert w. induction l as [| f l IH]; intros w H; cbn [fold_st] in H; [inversion H; reflexivity |]. unfold bind in H.
    destruct (save_field P (interp P n) c o true f w) as [[b1 | e] w1] eqn:E; [| discriminate H].
    apply save_field_go in E. subst b1. apply (IH w1 H).
  Qed.

  Lemma field_called n g m c o b f w b' w' : sets_with g m -> In m (fl_types f) -> is_calc f = false -> is_local f = false ->
    b = true \/ f_force_set_on_save (fl_fdef f) = true ->
    save_field P (interp P n) c o b f w = (Ok b', w') -> adds g w w'.
  Proof.
    intros H Hm Hc Hl Hb E. unfold save_field in E. rewrite Hl, Hc in E.
    assert (is_ref (fl_fdef f) || is_inst (fl_fdef f) || b || f_force_set_on_save (fl_fdef f) = true) as G
      by (destruct Hb as [-> | ->]; rewrite ?Bool.orb_true_r; reflexivity).
    rewrite G in E. unfold bind at 1, ret at 1 in E. unfold seq, bind at 1 in E.
    unfold bind at 1 in E.
    destruct (getattr P o (fl_name f) w) as [[v | e] w1] eqn:E1; [| discriminate E].
    assert (L1 : w_log w1 = w_log w) by (pose proof (liftH_log (ObjModel.getattr (p_ct P) (p_getter P) o (fl_name f)) w) as L; unfold getattr in E1; rewrite E1 in L; exact L).
    unfold bind at 1 in E. assert (sound (ekey P c (fl_name f))) as K by (apply i_ekey, log_steps).
    destruct (K w1) as [L2 _]. destruct (ekey P c (fl_name f) w1) as [[k | e] w2]; [| discriminate E]. cbn [snd] in L2.
    unfold bind at 1, getW at 1 in E. unfold bind at 1 in E.
    match type of E with context [t_serialize P (interp P n) (fl_types f) ?cc w2] =>
      destruct (t_serialize P (interp P n) (fl_types f) cc w2) as [[x | e] w3] eqn:E3; [| discriminate E];
      pose proof (chain_called n g m (fl_types f) cc w2 x w3 H Hm E3) as A end.
    assert (sound (setattr P o (fl_name f) x)) as K2 by (apply i_setattr, log_steps).
    destruct (K2 w3) as [L4 _]. destruct (setattr P o (fl_name f) x w3) as [[u | e] w4]; [| discriminate E]. cbn [snd] in L4.
    inversion E; subst. apply adds_right with w2; [eapply w_trans; [apply logged_same, L1 | exact L2] |]. apply adds_left with w3; assumption.
  Qed.

  Lemma set_on_save_inside n o w w' : set_on_save P n o w = (Ok tt, w') ->
    exists n' c w1 b w2, n = S n' /\ w_log w1 = w_log w /\ w_heap w1 = w_heap w /\
      fold_st (save_field P (interp P n') c o) (cd_fields (wcdef P w o)) (touched (wobj w o)) w1 = (Ok b, w2) /\ w_log w' = w_log w2.
  Proof.
    intros H. unfold set_on_save in H. unfold bind at 1, getW at 1 in H. unfold bind at 1, getW at 1 in H. unfold seq, bind at 1 in H.
    unfold with_new_mgraph in H. unfold self_mod in H. destruct n as [| n]; [discriminate H |]. cbn [interp modif_of m_serialize serialize_of] in H.
    unfold inst_serialize in H. cbn [c_val root_ctx rootctx] in H.
    exists n, (root_ctx o cfg0 w). unfold bind at 1 in H. unfold mg_get in H. cbn [the_obj] in H. unfold bind at 1, ret at 1, getW at 1 in H. cbn [w_mg set_mg] in H.
    replace (m_get (cname_of (set_mg [] w)) o (pk_of P (set_mg [] w) o) []) with (@None oid) in H by (destruct (pk_of P (set_mg [] w) o); reflexivity).
    unfold bind at 1, ret at 1 in H. unfold seq, bind at 1, mg_put, modW in H. unfold bind at 1, getW at 1 in H. unfold bind at 1, getW at 1 in H. unfold bind at 1 in H.
    match type of H with context [fold_st ?g ?l ?b ?w1] => destruct (fold_st g l b w1) as [[b2 | e] w2] eqn:E; [| discriminate H]; exists w1, b2, w2 end.
    split; [reflexivity |]. split; [reflexivity |]. split; [reflexivity |]. split; [exact E |]. inversion H; reflexivity.
  Qed.

  Lemma setters_run n o d f m g w w' : set_on_save P n o w = (Ok tt, w') ->
    p_ct P (o_class (h_obj (w_heap w) o)) = Some d -> In f (cd_fields d) -> In m (fl_types f) -> sets_with g m ->
    is_calc f = false -> is_local f = false ->
    to_save (h_obj (w_heap w) o) \/ f_force_set_on_save (fl_fdef f) = true -> adds g w w'.
  Proof.
    intros H Hd Hf Hm Hg Hc Hl Ht. destruct (set_on_save_inside n o w w' H) as (n' & c & w1 & b & w2 & -> & L1 & _ & E & L2).
    unfold wcdef, cdef_of in E. rewrite Hd in E.
    apply in_split in Hf. destruct Hf as (pre & post & Ef). rewrite Ef in E.
    destruct (fold_cut _ pre f post _ w1 b w2 E) as (b1 & s1 & b2 & s2 & E1 & E2 & E3).
    pose proof (s_fold (logged save_event) w_refl w_trans (save_field P (interp P n') c o) pre (fun b x _ => save_field_log n' c o b x) (touched (wobj w o)) w1) as [R1 _]. rewrite E1 in R1.
    pose proof (s_fold (logged save_event) w_refl w_trans (save_field P (interp P n') c o) post (fun b x _ => save_field_log n' c o b x) b2 s2) as [R3 _]. rewrite E3 in R3.
    assert (A : adds g s1 s2).
    { apply (field_called n' g m c o b1 f s1 b2 s2 Hg Hm Hc Hl); [| exact E2]. destruct Ht as [Ht | Ht]; [left | right; exact Ht].
      assert (T : touched (wobj w o) = true) by (unfold touched, wobj; destruct Ht as [-> | ->]; rewrite ?Bool.orb_true_r; reflexivity).
      rewrite T in E1. apply (fold_go n' c o pre w1 b1 s1 E1). }
    destruct (adds_right g w1 s1 w2 R1 (adds_left g s1 s2 w2 A R3)) as (l & El & Il). exists l. rewrite L2, El, L1. auto.
  Qed.
End Runs.

(** ** Objects at rest are left alone *)
Section Rest.
  Context (P : program) (h : heap) (lg : list event) (K : oid -> Prop).
  Hypothesis A : at_rest P h K.
  Instance rest_mode : manner := Silent.
  Definition still (w : world) : Prop := w_heap w = h /\ w_log w = lg.
  Notation yields := (yields still).
  Definition inside (v : value) : Prop := forall x, occurs x v -> K x.

  Lemma k_liftH {X} (m : st heap X) : snd (m h) = h -> keeps still (liftH m).
  Proof.
    intros E w [H1 H2]. unfold liftH. rewrite H1. destruct (m h) as [r h']. cbn in *. subst h'. split; [split; [reflexivity | exact H2] | apply silent].
  Qed.
  Lemma k_get o n : keeps still (getattr P o n).
  Proof.
    apply k_liftH. unfold ObjModel.getattr. destruct (ofield (p_ct P) h o n) as [f |]; [destruct (is_calc f) |]; reflexivity.
  Qed.
  Lemma y_read o n : yields (fun v => reads P h o n v) (getattr P o n).
  Proof.
    apply y_and; [apply k_get |]. intros w a w' [Hw _] E. unfold reads. rewrite <- Hw.
    unfold getattr, liftH in E. destruct (ObjModel.getattr (p_ct P) (p_getter P) o n (w_heap w)) as [r h']. inversion E; subst. reflexivity.
  Qed.

  (** Setting the value that is there already changes nothing. *)
  Lemma set_same o d f v : K o -> p_ct P (o_class (h_obj h o)) = Some d -> In f (cd_fields d) -> is_calc f = false ->
    reads P h o (fl_name f) v -> veq (p_oeq P h) v v = true -> keeps still (setattr P o (fl_name f) v).
  Proof.
    intros Ko Hd Hf Hc Hr Hv. apply k_liftH. destruct (p_lim P) as [| lim]; [reflexivity |]. cbn [run body]. unfold set_attribute.
    assert (Of : ofield (p_ct P) h o (fl_name f) = Some f).
    { unfold ofield, cdef_of. rewrite Hd. apply field_named_of; [apply (rest_names P h K A o d Ko Hd) | exact Hf]. }
    unfold bind at 1, gets at 1. unfold bind at 1, gets at 1. rewrite Of.
    assert (Ra : attr h o (fl_name f) = Some v).
    { unfold reads, ObjModel.getattr in Hr. rewrite Of, Hc in Hr. cbn [fst] in Hr. destruct (attr h o (fl_name f)); [inversion Hr; reflexivity | discriminate Hr]. }
    destruct (local_field_of h o (fl_name f)) as [fn |].
    - unfold bind at 1. unfold ObjModel.getattr at 1. rewrite Of, Hc, Ra. unfold bind at 1, gets at 1. unfold eqv. rewrite Hv. reflexivity.
    - unfold set_field. rewrite Hc. unfold bind at 1, gets at 1. rewrite Ra. unfold bind at 1, gets at 1. unfold eqv. rewrite Hv. reflexivity.
  Qed.

  Lemma k_ekey_still c k : keeps still (ekey P c k).
  Proof.
    unfold ekey, cdef_v. apply k_bind; [| intros; apply k_ret]. destruct (c_owner c); cbn [the_obj];
      try (intros w Hw; split; [exact Hw | apply silent]).
  Qed.

  Lemma y_save_field n c o d f : K o -> p_ct P (o_class (h_obj h o)) = Some d -> In f (cd_fields d) ->
    (forall ts c, (forall m, In m ts -> passing m) -> c_fdef c = fdef_of ts -> inside (c_val c) ->
       yields (fun v => v = c_val c) (t_serialize P (interp P n) ts c)) ->
    yields (fun b => b = false) (save_field P (interp P n) c o false f).
  Proof.
    intros Ko Hd Hf IH. unfold save_field. rewrite (rest_forced P h K A o d f Ko Hd Hf).
    destruct (is_ref (fl_fdef f) || is_inst (fl_fdef f)) eqn:Er; cbn [orb]; [| apply y_ret; reflexivity].
    assert (Hr : is_ref (fl_fdef f) = true \/ is_inst (fl_fdef f) = true) by (apply Bool.orb_true_iff, Er).
    apply y_pre.
    { destruct (is_local f); [| apply k_ret]. apply k_bind; [apply k_get | intros v]. destruct (is_none v); [| apply k_ret].
      apply k_bind; [apply k_get | intros k; apply k_ret]. }
    intros [|]; [apply y_ret; reflexivity |].
    apply y_bind with (fun _ => True).
    - destruct (is_calc f) eqn:Ec; [apply y_ret; exact Logic.I |].
      apply y_bind with (fun v => reads P h o (fl_name f) v); [apply y_read |]. intros v Hv.
      destruct (rest_values P h K A o d f v Ko Hd Hf Hr Hv) as [Hq Hi].
      apply y_pre; [apply k_ekey_still | intros e]. apply y_getW. intros w [Hw _].
      apply y_bind with (fun x => x = v).
      + match goal with |- OutProofs.yields _ _ (t_serialize P (interp P n) _ ?cc) =>
          change v with (c_val cc) at 1; apply (IH (fl_types f) cc) end; [| reflexivity | exact Hi].
        intros m Hm. apply (rest_types P h K A o d f m Ko Hd Hf Hr Hm).
      + intros x ->. apply y_keeps. apply set_same with d; assumption.
    - intros _ _. apply y_getW. intros w [Hw _]. apply y_ret. unfold touched, wobj. rewrite Hw.
      destruct (rest_flags P h K A o Ko) as [-> ->]. reflexivity.
  Qed.

  Lemma y_inst_still n c : inside (c_val c) ->
    (forall ts c, (forall m, In m ts -> passing m) -> c_fdef c = fdef_of ts -> inside (c_val c) ->
       yields (fun v => v = c_val c) (t_serialize P (interp P n) ts c)) ->
    yields (fun v => v = c_val c) (inst_serialize P (interp P n) c).
  Proof.
    intros Hi IH. unfold inst_serialize.
    assert (Vd : forall (X : Type) (v : value) (k : option oid -> st world X), (forall o, v <> VObj o) -> forall R, yields R (bind (mg_get P v) k)).
    { intros X v k N R. unfold mg_get. destruct v; cbn [the_obj]; try (apply y_pre; [intros w Hw; split; [exact Hw | apply silent] |]; intros a w Hw; exfalso; fail);
        try (intros w Hw; split; [split; [exact Hw | apply silent] | discriminate]). contradiction (N o); reflexivity. }
    destruct (c_val c) as [| | | | | | | | | | o |] eqn:Ev; try (apply Vd; intros; discriminate).
    { apply y_ret. reflexivity. }
    assert (Ko : K o) by (apply Hi; constructor).
    apply y_pre; [unfold mg_get; cbn [the_obj]; intros w Hw; split; [exact Hw | apply silent] |]. intros [e |]; [apply y_ret; reflexivity |].
    cbn [the_obj]. unfold bind at 1, ret at 1. apply y_pre; [intros w Hw; split; [exact Hw | apply silent] | intros _].
    apply y_getW. intros w [Hw _]. unfold touched, wobj. rewrite Hw. destruct (rest_flags P h K A o Ko) as [-> ->]. cbn [orb].
    apply y_getW. intros w0 [Hw0 _]. unfold wcdef, cdef_of. rewrite Hw0.
    apply y_bind with (fun b => b = false); [| intros b _; apply y_ret; reflexivity].
    destruct (p_ct P (o_class (h_obj h o))) as [d |] eqn:Hd; [| cbn; apply y_ret; reflexivity].
    apply (y_fold still (fun _ b => b = false)); [| reflexivity]. intros pre f post b Ef ->.
    apply y_save_field with d; [exact Ko | exact Hd | rewrite Ef; apply in_elt | exact IH].
  Qed.

  Lemma passing_kind m : passing m -> kind_of m <> KPreserialize.
  Proof. intros H. inversion H; subst; try discriminate. destruct m; discriminate. Qed.
  Lemma no_pvs n ts : (forall m, In m ts -> passing m) -> pvs (map (interp P n) ts) = [].
  Proof.
    intros H. unfold pvs. assert (fpvidx (map (interp P n) ts) = None) as ->; [| reflexivity].
    unfold fpvidx. induction ts as [| m ts IH]; [reflexivity |]. cbn [map first_vidx].
    replace (kind (interp P n m)) with (kind_of m) by (destruct n; reflexivity).
    pose proof (passing_kind m (H m (or_introl eq_refl))). destruct (kind_of m); try contradiction; cbn [kind_eqb];
      rewrite IH by (intros x Hx; apply H; right; exact Hx); reflexivity.
  Qed.

  Lemma passing_items ts us : (forall m, In m ts -> passing m) -> (forall m, In m ts -> forall us, m <> MDictOf us) -> item_types (fdef_of ts) = Some us -> forall m, In m us -> passing m.
  Proof.
    intros H N E m Hm. unfold item_types in E. destruct (f_item (fdef_of ts)) as [it |] eqn:Ei; [| discriminate E].
    assert (Ti : forall z, In z it -> passing z).
    { intros z Hz. destruct (item_from ts it Ei) as [X | X].
      - pose proof (H _ X) as Y. inversion Y as [| l Hl | m0 Hm0]; subst; [apply Hl, Hz | discriminate Hm0].
      - contradiction (N _ X it). reflexivity. }
    assert (us = it \/ us = it ++ [MRequired]) as [-> | ->] by (destruct (f_item_null (fdef_of it)); inversion E; auto); [apply Ti, Hm |].
    apply in_app_iff in Hm. destruct Hm as [Hm | [<- | []]]; [apply Ti, Hm | apply pass_idle; reflexivity].
  Qed.

  Lemma rest_ok n : forall ts c, (forall m, In m ts -> passing m) -> c_fdef c = fdef_of ts -> inside (c_val c) ->
    yields (fun v => v = c_val c) (t_serialize P (interp P n) ts c).
  Proof.
    induction n as [n IH] using lt_wf_ind. intros ts c Hp Hc Hi.
    assert (M : forall m v, In m ts -> v = c_val c -> yields (fun u => u = c_val c) (m_serialize (interp P n m) (nval c v))).
    { intros m v Hm ->. destruct n as [| n]; [apply y_throw; split; discriminate |].
      cbn [interp modif_of m_serialize].
      specialize (IH n (Nat.lt_succ_diag_r n)).
      pose proof (Hp m Hm) as Pm. inversion Pm as [cls | us Hus | m0 Hid]; subst; cbn [serialize_of].
      - apply (y_inst_still n (nval c (c_val c)) Hi IH).
      - unfold col_out. cbn [c_val nval].
        assert (Hn : forall m, In m ts -> forall us, m <> MDictOf us).
        { intros m' Hm' us' ->. pose proof (Hp _ Hm') as Y. inversion Y; subst; discriminate. }
        destruct (c_val c) as [| | | | | | | | l | dd | |] eqn:Ev; try (apply y_ret; reflexivity).
        cbn [col_items].
        apply y_weak with (R := fun a => a = VList (l ++ [])); [intros a ->; rewrite app_nil_r; reflexivity |].
        assert (Gen : forall post pre i, l = pre ++ post ->
          yields (fun a => a = VList l) (fold_st (fun acc kv => do* ts0 <- items_of (nval c (VList l)); col_item P (t_serialize P (interp P n)) (nval c (VList l)) (VList l) ts0 acc kv)
             (enum_list i post) (VList pre))).
        { induction post as [| v post IHp]; intros pre i E; cbn [enum_list fold_st].
          - apply y_ret. rewrite E, app_nil_r. reflexivity.
          - apply y_bind with (fun a => a = VList (pre ++ [v])).
            + unfold items_of. replace (c_fdef (nval c (VList l))) with (fdef_of ts) by (symmetry; exact Hc).
              destruct (item_types (fdef_of ts)) as [it |] eqn:Eit; [| apply y_throw; split; discriminate].
              unfold bind at 1, ret at 1. unfold col_item. apply y_bind with (fun x => x = v).
              * match goal with |- OutProofs.yields _ _ (t_serialize P (interp P n) it ?cc) =>
                  change v with (c_val cc) at 1; apply (IH it cc) end; [apply (passing_items ts it Hp Hn Eit) | reflexivity |].
                intros x Hx. apply Hi. apply occurs_list with v; [rewrite E; apply in_elt | exact Hx].
              * intros x ->. apply y_pre; [| intros _; apply y_ret; reflexivity].
                intros w Hw. unfold cdef_v. destruct (c_owner (nval c (VList l))); cbn; (split; [exact Hw | apply silent]).
            + intros a ->. apply IHp. rewrite <- app_assoc. exact E. }
        rewrite app_nil_r. apply (Gen l [] 0%Z eq_refl).
      - destruct m; try discriminate Hid; cbn [serialize_of]; apply y_ret; reflexivity. }
    unfold t_serialize, chain_serialize. rewrite (no_pvs n ts Hp).
    assert (Fo : forall l v, (forall x, In x l -> In x (map (interp P n) ts)) -> v = c_val c ->
      yields (fun u => u = c_val c) (fold_st (fun val v => m_serialize v (nval c val)) l v)).
    { intros l v Hl Hv. apply (y_fold still (fun _ u => u = c_val c)); [| exact Hv]. intros pre x post b E Hb.
      assert (Hx : In x (map (interp P n) ts)) by (apply Hl; rewrite E; apply in_elt).
      apply in_map_iff in Hx. destruct Hx as (m & <- & Hm). apply M; assumption. }
    apply y_bind with (fun u => u = c_val c); [apply Fo; [intros x; apply in_tvs | reflexivity] |]. intros v1 H1.
    apply y_bind with (fun u => u = c_val c); [apply Fo; [intros x; apply in_nvs | exact H1] |]. intros v2 H2. apply y_ret, H2.
  Qed.

  Lemma rest_save n o w : K o -> still w -> still (snd (set_on_save P n o w)).
  Proof.
    intros Ko Hw. unfold set_on_save, bind, getW, seq, with_new_mgraph, self_mod.
    destruct n as [| n]; [exact Hw |]. cbn [interp modif_of m_serialize serialize_of].
    destruct (y_inst_still n (root_ctx o cfg0 w)) with (w := set_mg [] w) as [[Y _] _].
    - intros x Hx. cbn in Hx. inversion Hx; subst. exact Ko.
    - apply rest_ok.
    - exact Hw.
    - destruct (inst_serialize P (interp P n) (root_ctx o cfg0 w) (set_mg [] w)) as [[v | e] w1]; exact Y.
  Qed.
End Rest.
