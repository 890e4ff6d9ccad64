(** PrepProofs.v -- lemmas for C103: a save prepares every object in reach. *)
From Verif Require Import Base Mon PyList PyDict StrDict ODictSpec ODictProofs KeypathModel Values OGraphModel MGraphModel MGraphProofs ChainModel
  TypesModel TypesSpec TypesProofs ObjModel ObjSpec ObjTrack IoModel IoBase Sound ObjSound IoSound IoEffects TameSpec Keep TameProofs GraphSpec GraphProofs
  OnsaveSpec OutSpec OutProofs OnsaveProofs PrepSpec.
From Verif Require LeafModel ReachSpec ReachProofs SaveGraphSpec SaveGraphProofs.
Open Scope list_scope.

Section Prep.
  Context (P : program) (w0 : world) (root : oid) (g : cbid).
  Hypothesis CA : calm P.
  Hypothesis TD : tidy P.
  Hypothesis RD : ready P w0 root.
  Let h0 := w_heap w0.
  Notation ct := (p_ct P).
  Instance quiet : manner := Silent.
  Lemma any_loud e : loud e.
  Proof. split; intros X; discriminate X. Qed.
  Lemma any_louder {A} (r : res A) : louder r.
  Proof. intros e _. apply any_loud. Qed.

  (** ** Fields whose value may change *)
  Definition open (f : field) : bool :=
    negb (forallb idle (fl_types f)) && forallb (fun m => negb (about_parts m)) (fl_types f).
  Definition openat (x : oid) (n : string) : Prop := exists f, field_at P w0 x f /\ fl_name f = n /\ open f = true.

  Lemma same_field x f f' : field_at P w0 x f -> field_at P w0 x f' -> fl_name f = fl_name f' -> f = f'.
  Proof.
    intros (d & A & B) (d' & A' & B') E. rewrite A in A'. inversion A'; subst d'. pose proof (td_names P TD _ d A) as N.
    pose proof (field_named_of d f N B) as X. pose proof (field_named_of d f' N B') as Y. rewrite E, Y in X. inversion X. reflexivity.
  Qed.
  Lemma carrier_closed f : carrier f -> open f = false.
  Proof.
    intros C. unfold open. destruct (forallb idle (fl_types f)) eqn:E; [reflexivity |]. cbn [negb andb].
    destruct (forallb (fun m => negb (about_parts m)) (fl_types f)) eqn:E2; [| reflexivity]. exfalso.
    rewrite forallb_forall in E2. assert (X : forallb idle (fl_types f) = true); [| rewrite X in E; discriminate E].
    apply forallb_forall. intros m Hm. specialize (E2 m Hm). pose proof (C m Hm) as Pm. inversion Pm; subst; try discriminate E2. assumption.
  Qed.
  Lemma data_open f : data f -> open f = false -> carrier f.
  Proof.
    intros [d D] E m Hm. unfold open in E. destruct (forallb idle (fl_types f)) eqn:Ei.
    - rewrite forallb_forall in Ei. apply pass_idle, Ei, Hm.
    - cbn [negb andb] in E. exfalso. assert (X : forallb (fun m => negb (about_parts m)) (fl_types f) = true); [| rewrite X in E; discriminate E].
      apply forallb_forall. intros x Hx. specialize (D x Hx). destruct d; [contradiction D |]. destruct x; cbn in *; try reflexivity; contradiction D.
  Qed.
  Lemma carrier_closedat x f : field_at P w0 x f -> carrier f -> ~ openat x (fl_name f).
  Proof. intros F C (f' & F' & E & O). rewrite (same_field x f' f F' F E), (carrier_closed f C) in O. discriminate O. Qed.

  (** ** The heap during the save; [B] are the names of the fields of [root] that may be overwritten *)
  Record J (B : string -> Prop) (h : heap) : Prop := {
    j_class : forall x, o_class (h_obj h x) = o_class (h_obj h0 x) /\ o_lkeys (h_obj h x) = o_lkeys (h_obj h0 x) /\ o_new (h_obj h x) = o_new (h_obj h0 x);
    j_mod : forall x, o_modified (h_obj h0 x) = true -> o_modified (h_obj h x) = true;
    j_attr : forall x n, attr h x n = attr h0 x n \/ openat x n \/ (x = root /\ B n)
  }.
  Lemma J_weak (B B' : string -> Prop) h : (forall n, B n -> B' n) -> J B h -> J B' h.
  Proof. intros W [A1 A2 A3]. constructor; [exact A1 | exact A2 |]. intros x n. destruct (A3 x n) as [H | [H | [H H']]]; auto. Qed.

  Section Set_.
    Context (B : string -> Prop).
    Definition hk {A} (m : st heap A) : Prop := forall h, J B h -> J B (snd (m h)).
    Lemma hk_ret {A} (a : A) : hk (ret a).
    Proof. intros h H. exact H. Qed.
    Lemma hk_bind {A C} (m : st heap A) (k : A -> st heap C) : hk m -> (forall a, hk (k a)) -> hk (bind m k).
    Proof. intros H1 H2 h H. unfold bind. specialize (H1 h H). destruct (m h) as [[a | e] h']; [apply H2, H1 | exact H1]. Qed.
    Lemma hk_gets {A} (q : heap -> A) : hk (gets q).
    Proof. intros h H. exact H. Qed.
    Lemma hk_updm x (u : obj -> obj) : (forall b, o_class (u b) = o_class b /\ o_lkeys (u b) = o_lkeys b /\ o_new (u b) = o_new b /\
        (o_modified b = true -> o_modified (u b) = true) /\ forall n, o_attr (u b) n = o_attr b n) -> hk (updm x u).
    Proof.
      intros H h [A1 A2 A3]. unfold updm, modify, upd. cbn [snd h_obj]. unfold attr in *.
      constructor; cbn [h_obj].
      - intros y. destruct (Nat.eqb_spec y x) as [-> |]; [| apply A1]. destruct (H (h_obj h x)) as (C1 & C2 & C3 & _). rewrite C1, C2, C3. apply A1.
      - intros y Hy. destruct (Nat.eqb_spec y x) as [-> |]; [| apply A2, Hy]. destruct (H (h_obj h x)) as (_ & _ & _ & C4 & _). apply C4, A2, Hy.
      - intros y n. unfold attr. cbn [h_obj]. destruct (Nat.eqb_spec y x) as [-> |]; [| apply A3].
        destruct (H (h_obj h x)) as (_ & _ & _ & _ & C5). rewrite C5. apply A3.
    Qed.
    Lemma hk_mark x n : hk (mark x n).
    Proof. apply hk_updm. intros b. destruct (o_new b) eqn:E; repeat split; auto. Qed.
    Lemma hk_remember x n v : hk (remember x n v).
    Proof. apply hk_updm. intros b. destruct (smem n (o_prev b)); repeat split; auto. Qed.
    Lemma hk_getattr x n : hk (ObjModel.getattr ct (p_getter P) x n).
    Proof. intros h H. unfold ObjModel.getattr. destruct (ofield ct h x n) as [f |]; [destruct (is_calc f) |]; exact H. Qed.
    Lemma hk_write x n v : openat x n \/ (x = root /\ B n) \/ attr h0 x n = Some v -> hk (updm x (set_attr n v)).
    Proof.
      intros H h [A1 A2 A3]. unfold updm, modify, upd. cbn [snd]. constructor; cbn [h_obj].
      - intros y. destruct (Nat.eqb_spec y x) as [-> |]; apply A1.
      - intros y Hy. destruct (Nat.eqb_spec y x) as [-> |]; cbn [o_modified set_attr]; apply A2, Hy.
      - intros y m. unfold attr at 1. cbn [h_obj]. destruct (Nat.eqb_spec y x) as [-> |]; [| apply A3]. cbn [o_attr set_attr].
        destruct (String.eqb_spec m n) as [-> |]; [| apply A3]. destruct H as [H | [H | H]]; auto.
    Qed.
    Lemma ofield_at h x f : J B h -> field_at P w0 x f -> ofield ct h x (fl_name f) = Some f.
    Proof.
      intros [A1 _ _] (d & C & D). unfold ofield, cdef_of. rewrite (proj1 (A1 x)). fold h0 in C. rewrite C.
      apply field_named_of; [apply (td_names P TD _ d C) | exact D].
    Qed.
    Lemma set_ok x f v h : J B h -> field_at P w0 x f -> is_calc f = false ->
      (is_ref (fl_fdef f) = false /\ (openat x (fl_name f) \/ (x = root /\ B (fl_name f)) \/ attr h0 x (fl_name f) = Some v)) \/
      (is_ref (fl_fdef f) = true /\ attr h x (fl_name f) = Some v /\ forall h', veq (p_oeq P h') v v = true) ->
      J B (snd (run ct (p_oeq P) (p_getter P) (p_setter P) (LeafModel.py_str (p_str P)) (p_lim P) (TSet x (fl_name f) v) h)).
    Proof.
      intros Jh F C H. destruct (p_lim P) as [| lim]; [exact Jh |]. cbn [run body]. unfold set_attribute.
      unfold bind at 1, gets at 1. unfold local_field_of. destruct (j_class B h Jh x) as (_ & -> & _).
      pose proof (rd_labels P w0 root RD x f F) as L. fold h0 in L. rewrite L.
      unfold bind at 1, gets at 1. rewrite (ofield_at h x f Jh F). cbv zeta. unfold set_field. rewrite C.
      destruct H as [[Nr H] | (Yr & E & S)].
      - rewrite Nr. revert h Jh. change (hk (do* cur <- gets (fun h => attr h x (fl_name f));
          do* same <- gets (fun h => match cur with Some c => eqv (p_oeq P) h v c | None => false end);
          if same then ret tt else
          do* isnew <- gets (fun h => o_new (h_obj h x));
          (if isnew then ret tt
           else mark x (fl_name f) >>
                do* r <- gets (fun h => resettable ct h x f);
                if r then do* known <- gets (fun h => smem (fl_name f) (o_prev (h_obj h x)));
                  if known then ret tt else do* c <- ObjModel.getattr ct (p_getter P) x (fl_name f); remember x (fl_name f) c
                else ret tt) >> updm x (set_attr (fl_name f) v))).
        apply hk_bind; [apply hk_gets | intros cur]. apply hk_bind; [apply hk_gets | intros [|]; [apply hk_ret |]].
        apply hk_bind; [apply hk_gets | intros isnew]. apply hk_bind; [| intros _; apply hk_write, H].
        destruct isnew; [apply hk_ret |]. apply hk_bind; [apply hk_mark | intros _]. apply hk_bind; [apply hk_gets | intros [|]; [| apply hk_ret]].
        apply hk_bind; [apply hk_gets | intros [|]; [apply hk_ret |]]. apply hk_bind; [apply hk_getattr | intros; apply hk_remember].
      - unfold bind at 1, gets at 1. rewrite E. unfold bind at 1, gets at 1. unfold eqv. rewrite (S h). exact Jh.
    Qed.
  End Set_.

  (** ** Marks and counts *)
  Definition seen (w : world) (x : oid) : Prop := m_has (cname_of w0) x (pk_of P w0 x) (w_mg w) = true.
  Notation saves := (SaveGraphSpec.saves g).
  Definition sum_dues (l : list oid) : nat := list_sum (map (dues P w0 g) l).
  Record good (e : nat) (w w' : world) : Prop := {
    g_mono : forall x, seen w x -> seen w' x;
    g_new : exists N, NoDup N /\ (forall x, In x N -> ~ seen w x /\ seen w' x) /\
      (saves w + e + sum_dues N <= saves w')%nat /\
      forall x, seen w' x -> seen w x \/ (In x N /\ forall y, leads P w0 x y -> seen w' y)
  }.
  Lemma seen_dec w x : seen w x \/ ~ seen w x.
  Proof. unfold seen. destruct (m_has _ _ _ _); [left; reflexivity | right; discriminate]. Qed.
  Lemma good_still w w' e : w_mg w' = w_mg w -> (saves w + e <= saves w')%nat -> good e w w'.
  Proof.
    intros M L. assert (K : forall x, seen w' x <-> seen w x) by (intros x; unfold seen; rewrite M; reflexivity).
    constructor; [intros x; apply K |]. exists []. split; [constructor |]. split; [intros x [] |]. split; [cbn; lia |].
    intros x S. left. apply K, S.
  Qed.
  Lemma good_refl w : good 0 w w.
  Proof. apply good_still; [reflexivity | lia]. Qed.
  Lemma good_trans a b w w1 w2 : good a w w1 -> good b w1 w2 -> good (a + b) w w2.
  Proof.
    intros [M1 (N1 & D1 & S1 & L1 & C1)] [M2 (N2 & D2 & S2 & L2 & C2)]. constructor; [auto |]. exists (N1 ++ N2). split; [| split; [| split]].
    - clear - D1 D2 S1 S2. induction D1 as [| x l Hx D1 IH]; [exact D2 |]. cbn. constructor.
      + intros X. apply in_app_iff in X. destruct X as [X | X]; [contradiction |]. apply (proj1 (S2 x X)), (S1 x (or_introl eq_refl)).
      + apply IH. intros y Hy. apply S1. right. exact Hy.
    - intros x Hx. apply in_app_iff in Hx. destruct Hx as [Hx | Hx].
      + destruct (S1 x Hx). auto.
      + destruct (S2 x Hx). auto.
    - unfold sum_dues in *. rewrite map_app, list_sum_app. lia.
    - intros x Sx. destruct (C2 x Sx) as [Sx1 | [I2 X]]; [| right; split; [apply in_app_iff; auto | exact X]].
      destruct (C1 x Sx1) as [Sx0 | [I1 X]]; [left; exact Sx0 | right]. split; [apply in_app_iff; auto |]. intros y Hy. apply M2, X, Hy.
  Qed.
  Lemma good_le a b w w' : (b <= a)%nat -> good a w w' -> good b w w'.
  Proof. intros L [M (N & D & S & C & X)]. constructor; [exact M |]. exists N. repeat split; try assumption; try apply S; try assumption. lia. Qed.
  Lemma saves_logged w w' : logged save_event w w' -> (saves w <= saves w')%nat.
  Proof. intros (l & E & _). unfold SaveGraphSpec.saves. rewrite E, filter_app, app_length. lia. Qed.
  Lemma saves_adds w w' : adds g w w' -> (saves w + 1 <= saves w')%nat.
  Proof.
    intros (l & E & I). unfold SaveGraphSpec.saves. rewrite E, filter_app, app_length. apply Nat.add_le_mono_l.
    apply in_split in I. destruct I as (a & b & ->). rewrite filter_app, app_length. cbn [filter SaveGraphSpec.is_save]. rewrite Nat.eqb_refl. cbn. lia.
  Qed.
  Lemma pk_J B w x : J B (w_heap w) -> (forall n, B n -> forall d f, ct (o_class (h_obj h0 root)) = Some d -> primary_field d = Some f -> n <> fl_name f) ->
    pk_of P w x = pk_of P w0 x /\ cname_of w x = cname_of w0 x.
  Proof.
    intros [A1 _ A3] HB. unfold pk_of, cname_of, id_of, cdef_of. fold h0. rewrite (proj1 (A1 x)). split; [| reflexivity].
    destruct (ct (o_class (h_obj h0 x))) as [d |] eqn:E; [| reflexivity]. destruct (primary_field d) as [f |] eqn:Ef; [| reflexivity].
    assert (Fx : field_at P w0 x f) by (exists d; split; [exact E |]; unfold primary_field in Ef; apply find_some in Ef; apply in_rev, Ef).
    destruct (A3 x (fl_name f)) as [-> | [O | [-> HBn]]]; [reflexivity | |].
    - exfalso. apply (carrier_closedat x f Fx) in O; [exact O |]. intros m Hm. apply pass_idle, (proj2 (td_key P TD _ d f E Ef) m Hm).
    - exfalso. exact (HB _ HBn d f E Ef eq_refl).
  Qed.

  (** ** Contexts *)
  Definition okB (B : string -> Prop) : Prop := forall n, B n ->
    exists f m, field_at P w0 root f /\ fl_name f = n /\ is_calc f = false /\ is_ref (fl_fdef f) = false /\ In m (fl_types f) /\ idle m = false.
  Lemma okB_key B : okB B -> forall n, B n -> forall d f, ct (o_class (h_obj h0 root)) = Some d -> primary_field d = Some f -> n <> fl_name f.
  Proof.
    intros HB n Bn d f E Ef ->. destruct (HB _ Bn) as (f' & m & F & En & _ & _ & Hm & Hi).
    assert (Fx : field_at P w0 root f) by (exists d; split; [exact E |]; unfold primary_field in Ef; apply find_some in Ef; apply in_rev, Ef).
    rewrite (same_field root f' f F Fx En) in Hm. rewrite (proj2 (td_key P TD _ d f E Ef) m Hm) in Hi. discriminate Hi.
  Qed.
  Definition quiet_types (ts : types) : Prop := forall m, In m ts -> (forall cls, m <> MInstance cls) /\ m <> MPreserialize.
  (** [root]'s field [k] may be overwritten. *)
  Definition writable (B : string -> Prop) (k : karg) : Prop :=
    exists f, field_at P w0 root f /\ fl_name f = str_of_karg k /\ is_calc f = false /\ is_ref (fl_fdef f) = false /\
      (openat root (fl_name f) \/ B (fl_name f)).
  Definition strong (B : string -> Prop) (c : ctx) : Prop :=
    match c_parent c with VObj r => r = root /\ exists k l, c_kp c = k :: l /\ writable B k | _ => True end.
  Definition okc (B : string -> Prop) (ts : types) (c : ctx) : Prop := quiet_types ts \/ strong B c.
  Definition okci (B : string -> Prop) (x : oid) (c : ctx) : Prop :=
    match c_parent c with VObj r => r = root /\ ((c_kp c = [] /\ x = root) \/ exists k l, c_kp c = k :: l /\ writable B k) | _ => True end.
  Lemma writable_weak (B B' : string -> Prop) k : (forall n, B n -> B' n) -> writable B k -> writable B' k.
  Proof. intros W (f & A & E & C & R & [O | O]); exists f; repeat split; auto. Qed.
  Lemma okci_weak (B B' : string -> Prop) x c : (forall n, B n -> B' n) -> okci B x c -> okci B' x c.
  Proof.
    intros W. unfold okci. destruct (c_parent c); auto. intros [E [H | (k & l & Ek & H)]]; (split; [exact E |]); [left; exact H |].
    right. exists k, l. split; [exact Ek | apply (writable_weak B B' k W H)].
  Qed.

  (** ** Data fields *)
  Definition K (B : string -> Prop) (m : mgraph) (w : world) : Prop := J B (w_heap w) /\ w_mg w = m.
  Lemma K_call B mg k f c args : keeps (K B mg) (call P k f c args).
  Proof. intros w H. rewrite (call_eq P k f c args w CA). cbn [fst snd]. split; [exact H | apply any_louder]. Qed.
  Lemma K_liftH {A} B mg (m : st heap A) : (forall h, J B h -> J B (snd (m h))) -> keeps (K B mg) (liftH m).
  Proof.
    intros H w [H1 H2]. unfold liftH. specialize (H _ H1). destruct (m (w_heap w)) as [r h']. split; [split; [exact H | exact H2] | apply any_louder].
  Qed.
  Lemma K_getattr B mg x n : keeps (K B mg) (getattr P x n).
  Proof. apply K_liftH, hk_getattr. Qed.
  Lemma K_write B mg c v : strong B c -> keeps (K B mg) (write_parent P c v).
  Proof.
    unfold strong, write_parent. destruct (c_parent c) as [| | | | | | | | | | r |]; try (intros; apply k_ret). intros (-> & k & l & E & f & F & En & C & R & O).
    rewrite E. intros w Hw. unfold bind, lift. cbn [first_of]. rewrite <- En.
    apply (K_liftH B mg (run ct (p_oeq P) (p_getter P) (p_setter P) (LeafModel.py_str (p_str P)) (p_lim P) (TSet root (fl_name f) v))); [| exact Hw].
    intros h Jh. apply (set_ok B root f v h Jh F C). left. split; [exact R |]. destruct O as [O | O]; auto.
  Qed.
  Lemma K_validate B mg n d m c : flat d m -> keeps (K B mg) (m_validate (interp P n m) c).
  Proof.
    intros F. apply (flat_ok P (K B mg) (fun _ => True)) with (d := d); try (intros; apply any_louder).
    - intros. apply K_call.
    - split; [exact F | intros; exact Logic.I].
    - left. discriminate.
  Qed.
  Lemma K_serialize B mg n d m c : flat d m -> keeps (K B mg) (m_serialize (interp P n m) c).
  Proof.
    intros F. destruct n as [| n]; [apply k_throw, any_loud |]. pose proof (flat_part _ _ F) as N.
    destruct d as [| d]; [contradiction F |].
    destruct m; try discriminate N; cbn [interp modif_of m_serialize serialize_of]; try apply k_ret.
    - unfold setonsave_serialize. destruct p; [apply k_ret | apply K_call |].
      apply (k_t_transform (K B mg) (interp P n) (flat d)).
      + intros x c' Hx. apply K_validate with d, Hx.
      + intros x c' Hx. apply (flat_ok P (K B mg) (fun _ => True)) with (d := d); try (intros; apply any_louder); [intros; apply K_call | split; [exact Hx | intros; exact Logic.I] | left; discriminate].
      + intros x Hx. apply (F ts (or_introl eq_refl) x Hx).
    - unfold onsave_serialize. apply k_bind; [apply K_call | intros; apply k_ret].
    - unfold onwrite_serialize. apply k_bind; [apply k_lift, any_louder | intros kk]. apply k_bind; [apply k_the_obj | intros o].
      apply k_bind; [apply k_getW | intros b]. destruct b; [| apply k_ret]. apply k_bind; [apply K_call | intros; apply k_ret].
    - unfold onupdate_serialize. apply k_bind; [apply k_lift, any_louder | intros kk]. apply k_bind; [apply k_the_obj | intros o].
      apply k_bind; [apply k_getW | intros b]. destruct b; [| apply k_ret]. apply k_bind; [apply K_call | intros; apply k_ret].
  Qed.
  Lemma K_chain B mg n d ts c : (forall m, In m ts -> flat d m) -> strong B c -> keeps (K B mg) (t_serialize P (interp P n) ts c).
  Proof.
    intros F S. unfold t_serialize, chain_serialize.
    assert (In_ts : forall x, In x (map (interp P n) ts) -> exists m, x = interp P n m /\ In m ts).
    { intros x Hx. apply in_map_iff in Hx. destruct Hx as (m & <- & Hm). eauto. }
    apply k_bind; [| intros v1; apply k_bind; [| intros v2]]; apply k_fold; intros b x Hx.
    - apply in_tvs, In_ts in Hx. destruct Hx as (m & -> & Hm). apply K_serialize with d, F, Hm.
    - apply in_nvs, In_ts in Hx. destruct Hx as (m & -> & Hm). apply K_serialize with d, F, Hm.
    - apply in_pvs, In_ts in Hx. destruct Hx as (m & -> & Hm). unfold sv.
      apply k_bind; [apply K_serialize with d, F, Hm | intros u]. apply k_bind; [apply K_validate with d, F, Hm | intros _].
      apply k_bind; [apply K_write; exact S | intros; apply k_ret].
  Qed.

  Lemma strong_next B x c v n e d t : okci B x c -> (x = root -> writable B (KStr n)) -> strong B (nextv c v n e d t None).
  Proof.
    unfold okci, strong. cbn [nextv c_parent c_kp]. destruct (c_parent c); auto. intros (-> & [[Ek ->] | (k & l & Ek & W)]) H; (split; [reflexivity |]); rewrite Ek.
    - exists (KStr n), []. split; [reflexivity | apply H; reflexivity].
    - exists k, (l ++ [KStr n]). split; [reflexivity | exact W].
  Qed.

  Lemma K_field B mg n c x b f : okci B x c -> field_at P w0 x f -> is_calc f = true \/ open f = true ->
    keeps (K B mg) (save_field P (interp P n) c x b f).
  Proof.
    intros Oc F H. unfold save_field.
    destruct (is_ref (fl_fdef f) || is_inst (fl_fdef f) || b || f_force_set_on_save (fl_fdef f)); [| apply k_ret].
    apply k_bind.
    { destruct (is_local f); [| apply k_ret]. apply k_bind; [apply K_getattr | intros v].
      destruct (is_none v); [| apply k_ret]. apply k_bind; [apply K_getattr | intros; apply k_ret]. }
    intros [|]; [apply k_ret |]. apply k_bind; [| intros _; apply k_bind; [apply k_getW | intros; apply k_ret]].
    destruct (is_calc f) eqn:Ec; [apply k_ret |]. destruct H as [H | Op]; [discriminate H |].
    assert (D : is_ref (fl_fdef f) = false /\ data f).
    { pose proof F as (d & E1 & E2). destruct (td_kinds P TD _ d f E1 E2 Ec) as [C | D]; [rewrite (carrier_closed f C) in Op; discriminate Op | exact D]. }
    destruct D as [Nr [d D]].
    assert (Oa : openat x (fl_name f)) by (exists f; auto).
    apply k_bind; [apply K_getattr | intros v]. apply k_bind; [apply k_ekey | intros e]. apply k_bind; [apply k_getW | intros cls].
    apply k_bind.
    - apply K_chain with d; [exact D |]. apply (strong_next B x); [exact Oc |]. intros ->. exists f. repeat split; auto.
    - intros v'. apply K_liftH. intros h Jh. apply (set_ok B x f v' h Jh F Ec). left. auto.
  Qed.

  (** ** Objects and lists *)
  Definition meets (ts : types) (m : mdf) (v : value) (y : oid) : Prop :=
    match m with
    | MInstance _ => v = VObj y
    | MListOf _ => exists it l u, ReachSpec.items ts it /\ v = VList l /\ In u l /\ carried it u y
    | _ => False
    end.
  Lemma carried_meets ts v y : carried ts v y -> exists m, In m ts /\ meets ts m v y.
  Proof.
    intros H. inversion H; subst; (eexists; split; [eassumption |]); [reflexivity |]. exists it, l, u. auto.
  Qed.
  Definition modifier_good (n : nat) : Prop := forall B ts m c w v w', (forall x, In x ts -> passing x) -> In m ts -> c_fdef c = fdef_of ts ->
    okc B ts c -> okB B -> J B (w_heap w) -> seen w root -> m_serialize (interp P n m) c w = (Ok v, w') ->
    v = c_val c /\ J B (w_heap w') /\ good 0 w w' /\ forall y, meets ts m (c_val c) y -> seen w' y.
  Definition chain_good (n : nat) : Prop := forall B ts c w v w', (forall x, In x ts -> passing x) -> c_fdef c = fdef_of ts ->
    okc B ts c -> okB B -> J B (w_heap w) -> seen w root -> t_serialize P (interp P n) ts c w = (Ok v, w') ->
    v = c_val c /\ J B (w_heap w') /\ good 0 w w' /\ forall y, carried ts (c_val c) y -> seen w' y.

  Lemma nval_self c : nval c (c_val c) = c.
  Proof. destruct c; reflexivity. Qed.
  Lemma chain_from n : modifier_good n -> chain_good n.
  Proof.
    intros M B ts c w v w' Hp Hc Oc OB Jw Sr H. unfold t_serialize, chain_serialize in H.
    destruct (SaveGraphProofs.parts (interp P n)) with (ts := ts) as (ta & tb & tc & E & Ea & Eb & Ec).
    { intros m. destruct n; reflexivity. }
    { intros pre post Ep _. pose proof (Hp MPreserialize) as Y. rewrite Ep in Y. specialize (Y (in_elt _ _ _)). inversion Y; subst; discriminate. }
    pose proof (no_pvs P n ts Hp) as Np. rewrite Ec in Np. rewrite Ea, Eb, Ec in H. rewrite Np in H. cbn [fold_st] in H.
    assert (tc = []) as -> by (destruct tc; [reflexivity | discriminate Np]). rewrite app_nil_r in E.
    assert (X : forall us s r s', J B (w_heap s) -> seen s root -> (forall m, In m us -> In m ts) ->
      fold_st (fun (val : value) v0 => m_serialize v0 (nval c val)) (map (interp P n) us) (c_val c) s = (Ok r, s') ->
      r = c_val c /\ J B (w_heap s') /\ good 0 s s' /\ forall m, In m us -> forall y, meets ts m (c_val c) y -> seen s' y).
    { induction us as [| m us IH]; intros s r s' Js Ss Hus Hf; cbn [map fold_st] in Hf.
      - inversion Hf; subst. split; [reflexivity |]. split; [exact Js |]. split; [apply good_refl | intros m []].
      - unfold bind in Hf. destruct (m_serialize (interp P n m) (nval c (c_val c)) s) as [[u | e] s1] eqn:E1; [| discriminate Hf].
        rewrite nval_self in E1. destruct (M B ts m c s u s1 Hp (Hus m (or_introl eq_refl)) Hc Oc OB Js Ss E1) as (-> & J1 & G1 & S1).
        destruct (IH s1 r s' J1 (g_mono _ _ _ G1 _ Ss) (fun x Hx => Hus x (or_intror Hx)) Hf) as (-> & J2 & G2 & S2).
        split; [reflexivity |]. split; [exact J2 |]. split; [exact (good_trans 0 0 _ _ _ G1 G2) |].
        intros x [<- | Hx] y Hy; [apply (g_mono _ _ _ G2), (S1 y Hy) | exact (S2 x Hx y Hy)]. }
    unfold bind at 1 in H.
    destruct (fold_st (fun (val : value) v0 => m_serialize v0 (nval c val)) (map (interp P n) ta) (c_val c) w) as [[v1 | e] w1] eqn:E1; [| discriminate H].
    destruct (X ta w v1 w1 Jw Sr) as (-> & J1 & G1 & S1); [intros m Hm; rewrite E; apply in_app_iff; auto | exact E1 |].
    unfold bind at 1 in H.
    destruct (fold_st (fun (val : value) v0 => m_serialize v0 (nval c val)) (map (interp P n) tb) (c_val c) w1) as [[v2 | e] w2] eqn:E2; [| discriminate H].
    destruct (X tb w1 v2 w2 J1 (g_mono _ _ _ G1 _ Sr)) as (-> & J2 & G2 & S2); [intros m Hm; rewrite E; apply in_app_iff; auto | exact E2 |].
    inversion H; subst v w'. split; [reflexivity |]. split; [exact J2 |]. split; [exact (good_trans 0 0 _ _ _ G1 G2) |].
    intros y Hy. apply carried_meets in Hy. destruct Hy as (m & Hm & Hy). rewrite E in Hm. apply in_app_iff in Hm.
    destruct Hm as [Hm | Hm]; [apply (g_mono _ _ _ G2), (S1 m Hm y Hy) | apply (S2 m Hm y Hy)].
  Qed.

  Lemma carried_snoc ts v y : carried ts v y -> carried (ts ++ [MRequired]) v y.
  Proof.
    intros H. inversion H; subst.
    - eapply carried_obj. apply in_app_iff. left. eassumption.
    - eapply carried_list; [apply in_app_iff; left; eassumption | apply ReachProofs.items_snoc; eassumption | eassumption | assumption].
  Qed.
  Lemma item_types_carried ts it it' : ReachSpec.items ts it -> item_types (fdef_of ts) = Some it' -> forall u y, carried it u y -> carried it' u y.
  Proof.
    intros H E u y Hy. apply ReachProofs.items_fdef in H. unfold item_types in E. rewrite H in E.
    destruct (f_item_null (fdef_of it)); inversion E; subst; try exact Hy. apply carried_snoc, Hy.
  Qed.

  Lemma list_good n B ts c w v w' : chain_good n -> (forall x, In x ts -> passing x) -> c_fdef c = fdef_of ts ->
    okB B -> J B (w_heap w) -> seen w root ->
    col_out P (t_serialize P (interp P n)) false c w = (Ok v, w') ->
    v = c_val c /\ J B (w_heap w') /\ good 0 w w' /\ forall it l u y, ReachSpec.items ts it -> c_val c = VList l -> In u l -> carried it u y -> seen w' y.
  Proof.
    intros M Hp Hc OB Jw Sr H. unfold col_out in H.
    assert (Hn : forall m, In m ts -> forall us, m <> MDictOf us).
    { intros m' Hm' us' ->. pose proof (Hp _ Hm') as Y. inversion Y; subst; discriminate. }
    destruct (c_val c) as [| | | | | | | | l | dd | |] eqn:Ev;
      try (cbn [col_items] in H; inversion H; subst; split; [reflexivity |]; split; [exact Jw |]; split; [apply good_refl | intros; discriminate]).
    cbn [col_items] in H. change (empty_col false) with (VList []) in H.
    assert (Gen : forall post pre i s r s', J B (w_heap s) -> seen s root ->
      fold_st (fun acc kv => do* ts0 <- items_of c; col_item P (t_serialize P (interp P n)) c (VList l) ts0 acc kv) (enum_list i post) (VList pre) s = (Ok r, s') ->
      r = VList (pre ++ post) /\ J B (w_heap s') /\ good 0 s s' /\ forall it u y, ReachSpec.items ts it -> In u post -> carried it u y -> seen s' y).
    { induction post as [| u post IH]; intros pre i s r s' Js Ss Hf; cbn [enum_list fold_st] in Hf.
      - inversion Hf; subst. rewrite app_nil_r. split; [reflexivity |]. split; [exact Js |]. split; [apply good_refl | intros it u y _ []].
      - unfold bind at 1 in Hf. unfold items_of in Hf at 1. rewrite Hc in Hf at 1.
        destruct (item_types (fdef_of ts)) as [it' |] eqn:Et; [| discriminate Hf].
        unfold bind at 1, ret at 1 in Hf. unfold col_item at 1 in Hf. cbn [fst snd] in Hf. unfold bind at 1 in Hf.
        match type of Hf with context [t_serialize P (interp P n) it' ?cc s] =>
          destruct (t_serialize P (interp P n) it' cc s) as [[x | e] s1] eqn:E1; [| discriminate Hf];
          destruct (M B it' cc s x s1 (passing_items ts it' Hp Hn Et) eq_refl (or_intror Logic.I) OB Js Ss E1) as (-> & J1 & G1 & S1) end.
        cbn [c_val colval] in *. unfold bind at 1 in Hf.
        assert (Hd : exists a, cdef_v P (c_owner c) s1 = (a, s1)) by (unfold cdef_v; destruct (c_owner c); eexists; reflexivity).
        destruct Hd as [[a | e] Hd]; rewrite Hd in Hf; [| discriminate Hf].
        unfold ret at 1 in Hf. cbn [append_value] in Hf.
        destruct (IH (pre ++ [u]) (i + 1)%Z s1 r s' J1 (g_mono _ _ _ G1 _ Ss) Hf) as (-> & J2 & G2 & S2).
        rewrite <- app_assoc. split; [reflexivity |]. split; [exact J2 |]. split; [exact (good_trans 0 0 _ _ _ G1 G2) |].
        intros it u' y Hit [<- | Hu] Hy; [| exact (S2 it u' y Hit Hu Hy)].
        apply (g_mono _ _ _ G2), S1. apply (item_types_carried ts it it' Hit Et), Hy. }
    destruct (Gen l [] 0%Z w v w' Jw Sr H) as (-> & J1 & G1 & S1). split; [reflexivity |]. split; [exact J1 |]. split; [exact G1 |].
    intros it l0 u y Hit El Hu Hy. inversion El; subst l0. exact (S1 it u y Hit Hu Hy).
  Qed.

  (** ** The fields of an object *)
  Definition grown (B : string -> Prop) (x : oid) (f : field) (n : string) : Prop :=
    B n \/ (x = root /\ n = fl_name f /\ is_calc f = false /\ is_ref (fl_fdef f) = false /\ exists m, In m (fl_types f) /\ idle m = false).
  Lemma okB_grown B x f : okB B -> field_at P w0 x f -> okB (grown B x f).
  Proof.
    intros OB F n [H | (-> & -> & C & R & m & Hm & Hi)]; [apply OB, H |]. exists f, m. repeat split; assumption.
  Qed.
  Lemma forall_or_exists (ts : types) : (forall m, In m ts -> idle m = true) \/ exists m, In m ts /\ idle m = false.
  Proof.
    destruct (forallb idle ts) eqn:E; [left; apply forallb_forall, E | right].
    induction ts as [| m ts IH]; [discriminate E |]. cbn in E. destruct (idle m) eqn:Em; [| exists m; split; [left; reflexivity | exact Em]].
    destruct (IH E) as (m' & H & H'). exists m'. split; [right; exact H | exact H'].
  Qed.

  Lemma carrier_field n B c x b f w b' w' : chain_good n -> okB B -> okci B x c -> field_at P w0 x f -> is_calc f = false -> carrier f ->
    (x = root -> ~ B (fl_name f)) -> J B (w_heap w) -> seen w root ->
    save_field P (interp P n) c x b f w = (Ok b', w') ->
    J (grown B x f) (w_heap w') /\ good 0 w w' /\
    (is_ref (fl_fdef f) || is_inst (fl_fdef f) || b || f_force_set_on_save (fl_fdef f) = true ->
     forall v y, reads P h0 x (fl_name f) v -> carried (fl_types f) v y -> seen w' y).
  Proof.
    intros M OB Oc F Ec Cf NB Jw Sr H. unfold save_field in H.
    assert (W : forall k, B k -> grown B x f k) by (intros k Hk; left; exact Hk).
    destruct (is_ref (fl_fdef f) || is_inst (fl_fdef f) || b || f_force_set_on_save (fl_fdef f)).
    2:{ inversion H; subst. split; [apply (J_weak B _ _ W Jw) |]. split; [apply good_refl | discriminate]. }
    assert (Ra : attr (w_heap w) x (fl_name f) = attr h0 x (fl_name f)).
    { destruct (j_attr B _ Jw x (fl_name f)) as [E | [O | [-> E]]]; [exact E | | contradiction (NB eq_refl E)].
      contradiction (carrier_closedat x f F Cf O). }
    assert (Gt : forall n0 s, w_heap s = w_heap w -> exists a, getattr P x n0 s = (a, s)).
    { intros n0 s Es. unfold getattr, liftH, ObjModel.getattr. destruct s as [hs e0 g1 l0]. cbn in *.
      destruct (ofield ct hs x n0) as [f' |]; [destruct (is_calc f') |]; eexists; reflexivity. }
    assert (Gv : forall v s, w_heap s = w_heap w -> getattr P x (fl_name f) s = (Ok v, s) -> attr h0 x (fl_name f) = Some v).
    { intros v s Es E. rewrite <- Ra. unfold getattr, liftH, ObjModel.getattr in E. rewrite Es in E.
      rewrite (ofield_at B (w_heap w) x f Jw F), Ec in E. destruct (attr (w_heap w) x (fl_name f)); inversion E; reflexivity. }
    assert (Rv : forall v, reads P h0 x (fl_name f) v -> attr h0 x (fl_name f) = Some v).
    { intros v R. unfold reads, ObjModel.getattr in R.
      assert (J0 : J B h0) by (constructor; auto). rewrite (ofield_at B h0 x f J0 F), Ec in R. cbn [fst] in R.
      destruct (attr h0 x (fl_name f)); inversion R; reflexivity. }
    unfold bind at 1 in H.
    match type of H with context [(if is_local f then ?a else ?b) w] => assert (Sk : exists r, (if is_local f then a else b) w = (r, w) /\
      (r = Ok true -> forall v, attr h0 x (fl_name f) = Some v -> v = VNone)) end.
    { destruct (is_local f); [| exists (Ok false); split; [reflexivity | discriminate]].
      destruct (Gt (fl_name f) w eq_refl) as [[v | e] Eg]; unfold bind at 1; rewrite Eg; [| eexists; split; [reflexivity | discriminate]].
      destruct (is_none v) eqn:En; [| eexists; split; [reflexivity | discriminate]].
      assert (v = VNone) as -> by (destruct v; try discriminate En; reflexivity).
      unfold bind. destruct (Gt (fl_ref f) w eq_refl) as [[k | e] Eg2]; rewrite Eg2; [| eexists; split; [reflexivity | discriminate]].
      eexists; split; [reflexivity |]. intros _ u Hu. rewrite (Gv VNone w eq_refl Eg) in Hu. inversion Hu; reflexivity. }
    destruct Sk as (r & Er & Sk). rewrite Er in H. destruct r as [[|] | e]; [| | discriminate H].
    { inversion H; subst. split; [apply (J_weak B _ _ W Jw) |]. split; [apply good_refl |]. intros _ v y R Cy.
      rewrite (Sk eq_refl v (Rv v R)) in Cy. inversion Cy. }
    rewrite Ec in H. unfold bind at 1 in H. unfold bind at 1 in H.
    destruct (Gt (fl_name f) w eq_refl) as [[v | e] Eg]; rewrite Eg in H; [| discriminate H]. pose proof (Gv v w eq_refl Eg) as Ea.
    unfold bind at 1 in H. assert (Ek : exists a, ekey P c (fl_name f) w = (a, w)).
    { unfold ekey, cdef_v. destruct (c_owner c); eexists; reflexivity. }
    destruct Ek as [[e | e] Ek]; rewrite Ek in H; [| discriminate H]. unfold bind at 1, getW at 1 in H. unfold bind at 1 in H.
    match type of H with context [t_serialize P (interp P n) (fl_types f) ?cc w] =>
      destruct (t_serialize P (interp P n) (fl_types f) cc w) as [[v' | e'] w3] eqn:E3; [| discriminate H]; set (cx := cc) in * end.
    assert (Ox : okc (grown B x f) (fl_types f) cx).
    { assert (D : x <> root \/ quiet_types (fl_types f) \/ grown B x f (fl_name f) /\ is_ref (fl_fdef f) = false).
      { destruct (Nat.eq_dec x root) as [-> | N]; [right | left; exact N].
        assert (Np : forall m, In m (fl_types f) -> m <> MPreserialize) by (intros m Hm ->; pose proof (Cf _ Hm) as Y; inversion Y; subst; discriminate).
        destruct (is_ref (fl_fdef f)) eqn:Er'.
        - left. intros m Hm. split; [| apply Np, Hm]. intros cls ->. exact (rd_root P w0 root RD f cls F Er' Hm).
        - destruct (forall_or_exists (fl_types f)) as [A | A]; [left | right].
          + intros m Hm. split; [| apply Np, Hm]. intros cls ->. specialize (A _ Hm). discriminate A.
          + split; [right; auto | reflexivity]. }
      destruct D as [D | [D | [D Dr]]]; [right | left; exact D | right]; (apply (strong_next _ x); [apply (okci_weak B _ x c W Oc) |]); intros E; [contradiction (D E) |].
      subst x. exists f. repeat split; auto. }
    destruct (M (grown B x f) (fl_types f) cx w v' w3 Cf eq_refl Ox (okB_grown B x f OB F) (J_weak B _ _ W Jw) Sr E3) as (Ev & J3 & G3 & S3).
    change (c_val cx) with v in Ev, S3. subst v'.
    unfold setattr, liftH in H.
    pose proof (set_ok (grown B x f) x f v (w_heap w3) J3 F Ec) as J4.
    destruct (run ct (p_oeq P) (p_getter P) (p_setter P) (LeafModel.py_str (p_str P)) (p_lim P) (TSet x (fl_name f) v) (w_heap w3)) as [[u | e'] h4]; [| discriminate H].
    cbn [snd] in J4. inversion H; subst b' w'. clear H. cbn [w_heap set_heap].
    split; [apply J4 |].
    - destruct (is_ref (fl_fdef f)) eqn:Er'; [right | left; auto]. split; [reflexivity |].
      assert (Hv : attr h0 x (fl_name f) = Some v) by exact Ea. split; [| exact (rd_same P w0 root RD x f v F Er' Hv)].
      destruct (j_attr _ _ J3 x (fl_name f)) as [E | [O | [-> [E | (_ & _ & _ & E & _)]]]].
      + rewrite E. exact Hv.
      + contradiction (carrier_closedat x f F Cf O).
      + contradiction (NB eq_refl E).
      + rewrite E in Er'. discriminate Er'.
    - split.
      + destruct G3 as [G1 (N & G2)]. constructor; [exact G1 |]. exists N. exact G2.
      + intros _ v1 y R Cy. rewrite (Rv v1 R) in Ea. inversion Ea; subst v1. exact (S3 y Cy).
  Qed.

  Notation touched0 x := (touched (h_obj h0 x) = true).
  Lemma looked x f b : (touched0 x -> b = true) -> looked_at w0 x f ->
    is_ref (fl_fdef f) || is_inst (fl_fdef f) || b || f_force_set_on_save (fl_fdef f) = true.
  Proof.
    intros T [H | [H | [H | H]]]; try (rewrite H, ?Bool.orb_true_r; reflexivity).
    rewrite T, !Bool.orb_true_r; [reflexivity |]. unfold touched. destruct H as [H | H]; fold h0 in H; rewrite H, ?Bool.orb_true_r; reflexivity.
  Qed.
  Definition due1 (x : oid) (f : field) : nat := if due_here w0 g x f then 1 else 0.
  Lemma due_called n c x b f w b' w' : (touched0 x -> b = true) -> save_field P (interp P n) c x b f w = (Ok b', w') ->
    (saves w + due1 x f <= saves w')%nat.
  Proof.
    intros T E. pose proof (save_field_log P n c x b f w) as [L _]. rewrite E in L. cbn [snd] in L. apply saves_logged in L.
    unfold due1. destruct (due_here w0 g x f) eqn:D; [| lia].
    unfold due_here in D. apply andb_prop in D. destruct D as [D D4]. apply andb_prop in D. destruct D as [D D3].
    apply andb_prop in D. destruct D as [D1 D2]. apply existsb_exists in D1. destruct D1 as (m & Hm & Sm).
    apply saves_adds. apply (field_called P n g m c x b f w b' w'); [| exact Hm | | | | exact E].
    - unfold sets in Sm. unfold sets_with. destruct m; try discriminate Sm; repeat (match type of Sm with context [match ?q with _ => _ end] => destruct q; try discriminate Sm end); apply Nat.eqb_eq, Sm.
    - destruct (is_calc f); [discriminate D2 | reflexivity].
    - destruct (is_local f); [discriminate D3 | reflexivity].
    - apply Bool.orb_prop in D4. destruct D4 as [D4 | D4]; [left | right; exact D4]. apply T. unfold touched. rewrite Bool.orb_comm. exact D4.
  Qed.
  Lemma carrier_due x f : carrier f -> due1 x f = 0%nat.
  Proof.
    intros C. unfold due1, due_here. replace (existsb (sets g) (fl_types f)) with false; [reflexivity |]. symmetry.
    apply Bool.not_true_is_false. intros X. apply existsb_exists in X. destruct X as (m & Hm & X). revert X. apply Bool.not_true_iff_false.
    pose proof (C m Hm) as Y. inversion Y; subst; try reflexivity. destruct m; try reflexivity; discriminate.
  Qed.

  Lemma field_good n B c x b f w b' w' : chain_good n -> okB B -> okci B x c -> field_at P w0 x f ->
    (x = root -> ~ B (fl_name f)) -> J B (w_heap w) -> seen w root -> (touched0 x -> b = true) ->
    save_field P (interp P n) c x b f w = (Ok b', w') ->
    exists B' : string -> Prop, (forall k, B k -> B' k) /\ (forall k, B' k -> B k \/ (x = root /\ k = fl_name f)) /\ okB B' /\ J B' (w_heap w') /\
      good (due1 x f) w w' /\ (touched0 x -> b' = true) /\
      (is_calc f = false -> looked_at w0 x f -> carrier f -> forall v y, reads P h0 x (fl_name f) v -> carried (fl_types f) v y -> seen w' y).
  Proof.
    intros M OB Oc F NB Jw Sr T E.
    assert (T' : touched0 x -> b' = true).
    { intros Tx. rewrite (T Tx) in E. apply (save_field_go P n c x f w b' w' E). }
    assert (C : is_calc f = true \/ open f = true \/ (is_calc f = false /\ carrier f)).
    { destruct (is_calc f) eqn:Ec; [left; reflexivity | right]. pose proof F as (d & E1 & E2).
      destruct (td_kinds P TD _ d f E1 E2 Ec) as [C | [_ D]]; [right; auto |].
      destruct (open f) eqn:Eo; [left; reflexivity | right; split; [reflexivity | apply data_open; assumption]]. }
    assert (Kf : is_calc f = true \/ open f = true -> J B (w_heap w') /\ good (due1 x f) w w').
    { intros H. pose proof (K_field B (w_mg w) n c x b f Oc F H w (conj Jw eq_refl)) as [[J1 M1] _]. rewrite E in J1, M1. cbn [snd] in J1, M1.
      split; [exact J1 |]. apply good_still; [exact M1 | exact (due_called n c x b f w b' w' T E)]. }
    destruct C as [C | [C | [Ec C]]].
    - destruct Kf as [J1 G1]; [auto |]. exists B. split; [auto |]. split; [auto |]. split; [exact OB |]. split; [exact J1 |]. split; [exact G1 |].
      split; [exact T' |]. intros X. rewrite X in C. discriminate C.
    - destruct Kf as [J1 G1]; [auto |]. exists B. split; [auto |]. split; [auto |]. split; [exact OB |]. split; [exact J1 |]. split; [exact G1 |].
      split; [exact T' |]. intros _ _ X. rewrite (carrier_closed f X) in C. discriminate C.
    - destruct (carrier_field n B c x b f w b' w' M OB Oc F Ec C NB Jw Sr E) as (J1 & G1 & S1).
      exists (grown B x f). split; [left; assumption |]. split; [intros k [H | (-> & -> & _)]; auto |].
      split; [apply okB_grown; assumption |]. split; [exact J1 |]. split; [rewrite (carrier_due x f C); exact G1 |]. split; [exact T' |].
      intros _ L _ v y R Cy. apply (S1 (looked x f b T L) v y R Cy).
  Qed.

  Lemma fields_good n c x : chain_good n -> forall fs B b w b' w', (forall f, In f fs -> field_at P w0 x f) -> NoDup (map fl_name fs) ->
    okB B -> okci B x c -> (x = root -> forall f, In f fs -> ~ B (fl_name f)) -> J B (w_heap w) -> seen w root -> (touched0 x -> b = true) ->
    fold_st (save_field P (interp P n) c x) fs b w = (Ok b', w') ->
    exists B' : string -> Prop, (forall k, B k -> B' k) /\ (x <> root -> forall k, B' k -> B k) /\ okB B' /\ J B' (w_heap w') /\
      good (length (filter (due_here w0 g x) fs)) w w' /\
      (forall f, In f fs -> is_calc f = false -> looked_at w0 x f -> carrier f -> forall v y, reads P h0 x (fl_name f) v -> carried (fl_types f) v y -> seen w' y).
  Proof.
    intros M. induction fs as [| f fs IH]; intros B b w b' w' F ND OB Oc NB Jw Sr T H; cbn [fold_st] in H.
    - inversion H; subst. exists B. split; [auto |]. split; [auto |]. split; [exact OB |]. split; [exact Jw |]. split; [apply good_refl | intros f []].
    - unfold bind in H. destruct (save_field P (interp P n) c x b f w) as [[b1 | e] w1] eqn:E1; [| discriminate H].
      inversion ND as [| ? ? Nf ND']; subst.
      destruct (field_good n B c x b f w b1 w1 M OB Oc (F f (or_introl eq_refl)) (fun Ex => NB Ex f (or_introl eq_refl)) Jw Sr T E1)
        as (B1 & W1 & V1 & OB1 & J1 & G1 & T1 & S1).
      destruct (IH B1 b1 w1 b' w') as (B2 & W2 & V2 & OB2 & J2 & G2 & S2); try assumption.
      + intros f' Hf. apply F. right. exact Hf.
      + apply (okci_weak B B1 x c W1 Oc).
      + intros Ex f' Hf Bf. destruct (V1 _ Bf) as [Bf' | [_ En]]; [exact (NB Ex f' (or_intror Hf) Bf') |].
        apply Nf. rewrite <- En. apply in_map, Hf.
      + apply (g_mono _ _ _ G1 _ Sr).
      + exists B2. split; [auto |]. split; [intros Nx k Bk; destruct (V1 k (V2 Nx k Bk)) as [Y | [Y _]]; [exact Y | contradiction (Nx Y)] |].
        split; [exact OB2 |]. split; [exact J2 |]. split.
        * cbn [filter]. unfold due1 in G1. pose proof (good_trans _ _ _ _ _ G1 G2) as G. destruct (due_here w0 g x f); exact G.
        * intros f' [<- | Hf] C L Cf v y R Cy; [apply (g_mono _ _ _ G2), (S1 C L Cf v y R Cy) | exact (S2 f' Hf C L Cf v y R Cy)].
  Qed.

  (** ** An object *)
  Lemma inst_good n B c o w v w' : chain_good n -> okB B -> okci B o c -> c_val c = VObj o -> J B (w_heap w) -> (o = root \/ seen w root) ->
    ~ seen w o -> (o = root -> forall k, ~ B k) -> inst_serialize P (interp P n) c w = (Ok v, w') ->
    v = VObj o /\ exists B' : string -> Prop, (o <> root -> forall k, B' k -> B k) /\ okB B' /\ J B' (w_heap w') /\ good 0 w w' /\ seen w' o.
  Proof.
    intros M OB Oc Ev Jw Sr So NB H. unfold inst_serialize in H. rewrite Ev in H.
    destruct (pk_J B w o Jw (okB_key B OB)) as [Ek Ec].
    assert (Cn : forall x, cname_of w x = cname_of w0 x) by (intros x; apply (pk_J B w x Jw (okB_key B OB))).
    assert (Mx : forall o' m pk, m_has (cname_of w) o' pk m = m_has (cname_of w0) o' pk m) by (intros; unfold m_has; rewrite Cn; reflexivity).
    unfold bind at 1, mg_get in H. cbn [the_obj] in H. unfold bind at 1, ret at 1, getW at 1 in H.
    destruct (m_get (cname_of w) o (pk_of P w o) (w_mg w)) as [x |] eqn:Em.
    { exfalso. apply So. unfold seen. rewrite <- Ek, <- Mx. destruct (m_has (cname_of w) o (pk_of P w o) (w_mg w)) eqn:Eh; [reflexivity |].
      apply SaveGraphProofs.dec_has in Eh. rewrite Eh in Em. discriminate Em. }
    unfold bind at 1, ret at 1 in H. unfold seq, bind at 1, mg_put, modW in H. unfold bind at 1, getW at 1 in H. unfold bind at 1, getW at 1 in H. unfold bind at 1 in H.
    set (w1 := set_mg (m_put (cname_of w) o (pk_of P w o) (w_mg w)) w) in *.
    destruct (fold_st (save_field P (interp P n) c o) (cd_fields (wcdef P w1 o)) (touched (wobj w1 o)) w1) as [[b' | e] w2] eqn:Ef; [| discriminate H].
    inversion H; subst v w'. split; [reflexivity |]. clear H.
    assert (Emg : w_mg w1 = m_put (cname_of w0) o (pk_of P w0 o) (w_mg w)).
    { unfold w1. cbn [w_mg set_mg]. unfold m_put. rewrite Ec, Ek. reflexivity. }
    assert (S1 : seen w1 o) by (unfold seen; rewrite Emg; apply has_put_same).
    assert (S2 : forall x, seen w x -> seen w1 x) by (intros x Sx; unfold seen; rewrite Emg; apply has_put_mono, Sx).
    assert (S3 : forall x, seen w1 x -> seen w x \/ x = o).
    { intros x Sx. unfold seen in Sx. rewrite Emg in Sx. apply ReachProofs.has_put_inv in Sx.
      destruct Sx as [Sx | [Ecn [Sx | (k & K1 & K2)]]]; [left; exact Sx | right; exact Sx | right]. exact (rd_apart P w0 root RD x o k Ecn K1 K2). }
    assert (Fs : cd_fields (wcdef P w1 o) = cd_fields (cdef_of ct h0 o)).
    { unfold wcdef, cdef_of. change (w_heap w1) with (w_heap w). rewrite (proj1 (j_class B _ Jw o)). reflexivity. }
    rewrite Fs in Ef.
    assert (Fo : forall f, In f (cd_fields (cdef_of ct h0 o)) -> field_at P w0 o f).
    { intros f Hf. unfold cdef_of in Hf. unfold field_at. fold h0. destruct (ct (o_class (h_obj h0 o))) as [d |]; [exists d; auto | contradiction Hf]. }
    destruct (fields_good n c o M (cd_fields (cdef_of ct h0 o)) B (touched (wobj w1 o)) w1 b' w2) as (B2 & W2 & V2 & OB2 & J2 & G2 & L2); try assumption.
    - unfold cdef_of. destruct (ct (o_class (h_obj h0 o))) as [d |] eqn:Ed; [apply (td_names P TD _ d Ed) | constructor].
    - intros Eo f _. apply (NB Eo).
    - destruct Sr as [<- | Sr]; [exact S1 | apply S2, Sr].
    - intros Tx. unfold touched, wobj in *. change (w_heap w1) with (w_heap w). destruct (j_class B _ Jw o) as (_ & _ & ->).
      apply Bool.orb_prop in Tx. destruct Tx as [Tx | Tx]; [rewrite (j_mod B _ Jw o Tx); reflexivity | rewrite Tx; apply Bool.orb_true_r].
    - exists B2. split; [exact V2 |]. split; [exact OB2 |]. split; [exact J2 |].
      assert (S4 : seen w2 o) by (apply (g_mono _ _ _ G2), S1). split; [| exact S4].
      destruct G2 as [GM (N & ND & SN & Le & Cl)]. constructor; [intros x Sx; apply GM, S2, Sx |].
      exists (o :: N). split; [constructor; [intros X; apply (proj1 (SN o X)), S1 | exact ND] |]. split; [| split].
      + intros x [<- | Hx]; [split; assumption |]. destruct (SN x Hx) as [A1 A2]. split; [intros Sx; apply A1, S2, Sx | exact A2].
      + assert (length (filter (due_here w0 g o) (cd_fields (cdef_of ct h0 o))) = dues P w0 g o) as Ed.
        { unfold dues, cdef_of. fold h0. destruct (ct (o_class (h_obj h0 o))); reflexivity. }
        rewrite Ed in Le. unfold sum_dues in *. cbn [map list_sum fold_right]. change (saves w1) with (saves w) in Le. unfold list_sum in *. lia.
      + intros x Sx. destruct (Cl x Sx) as [Sx1 | [Ix Lx]]; [| right; split; [right; exact Ix | exact Lx]].
        destruct (S3 x Sx1) as [Sx0 | ->]; [left; exact Sx0 | right]. split; [left; reflexivity |].
        intros y (f & v & Ff & Cf & Lf & Af & Rf & Cy). apply (L2 f) with v; try assumption.
        destruct Ff as (d & Ed & Hd). unfold cdef_of. fold h0 in Ed. rewrite Ed. exact Hd.
  Qed.

  Lemma all_good n : modifier_good n.
  Proof.
    induction n as [| n IH]; intros B ts m c w v w' Hp Hm Hc Oc OB Jw Sr H; [discriminate H |].
    assert (Idle : idle m = true -> v = c_val c /\ J B (w_heap w') /\ good 0 w w' /\ forall y, meets ts m (c_val c) y -> seen w' y).
    { intros Hi. assert (E : m_serialize (interp P (Datatypes.S n) m) c w = (Ok (c_val c), w)) by (destruct m; try discriminate Hi; reflexivity).
      rewrite E in H. inversion H; subst. split; [reflexivity |]. split; [exact Jw |]. split; [apply good_refl |].
      intros y Hy. destruct m; try discriminate Hi; contradiction Hy. }
    pose proof (Hp m Hm) as Pm. destruct Pm as [cls | us Hus | m Hi]; [| | exact (Idle Hi)]; clear Idle.
    - cbn [interp modif_of m_serialize serialize_of] in H.
      destruct (c_val c) as [| | | | | | | | | | o |] eqn:Ev;
        try (unfold inst_serialize in H; rewrite Ev in H; discriminate H).
      + unfold inst_serialize in H; rewrite Ev in H. inversion H; subst. split; [reflexivity |]. split; [exact Jw |]. split; [apply good_refl |].
        intros y Hy. discriminate Hy.
      + destruct (seen_dec w o) as [So | So].
        * unfold inst_serialize in H. rewrite Ev in H. destruct (pk_J B w o Jw (okB_key B OB)) as [Ek Ec].
          unfold bind at 1, mg_get in H. cbn [the_obj] in H. unfold bind at 1, ret at 1, getW at 1 in H.
          destruct (m_get (cname_of w) o (pk_of P w o) (w_mg w)) as [x |] eqn:Em.
          -- inversion H; subst. split; [reflexivity |]. split; [exact Jw |]. split; [apply good_refl |].
             intros y Hy. inversion Hy; subst. exact So.
          -- apply SaveGraphProofs.dec_has in Em. exfalso. unfold seen in So. rewrite <- Ek in So. unfold m_has in So, Em. rewrite Ec in Em.
             rewrite So in Em. discriminate Em.
        * assert (No : o <> root) by (intros ->; exact (So Sr)).
          destruct (inst_good n B c o w v w' (chain_from n IH) OB) as (-> & B' & V & OB' & J' & G' & S'); try assumption.
          -- unfold okci. destruct Oc as [Q | St]; [contradiction (proj1 (Q _ Hm) cls eq_refl) |]. unfold strong in St.
             destruct (c_parent c); auto. destruct St as [E (k & l & Ek & Wk)]. split; [exact E | right]. exists k, l. auto.
          -- right. exact Sr.
          -- intros X. contradiction (No X).
          -- split; [reflexivity |]. split; [apply (J_weak B' B _ (V No) J') |]. split; [exact G' |]. intros y Hy. inversion Hy; subst. exact S'.
    - cbn [interp modif_of m_serialize serialize_of] in H.
      destruct (list_good n B ts c w v w' (chain_from n IH) Hp Hc OB Jw Sr H) as (-> & J1 & G1 & S1).
      split; [reflexivity |]. split; [exact J1 |]. split; [exact G1 |]. intros y (it & l & u & Hit & Hl & Hu & Hy). exact (S1 it l u y Hit Hl Hu Hy).
  Qed.

  Lemma all_prepared n w' l : set_on_save P n root w0 = (Ok tt, w') -> NoDup l -> (forall x, In x l -> leads_to P w0 root x) ->
    (saves w0 + list_sum (map (dues P w0 g) l) <= saves w')%nat.
  Proof.
    intros H Nl Hl. unfold set_on_save in H. unfold bind at 1, getW at 1 in H. unfold bind at 1, getW at 1 in H. unfold seq, bind at 1 in H.
    unfold with_new_mgraph in H. unfold self_mod in H. destruct n as [| n]; [discriminate H |]. cbn [interp modif_of m_serialize serialize_of] in H.
    destruct (inst_serialize P (interp P n) (root_ctx root cfg0 w0) (set_mg [] w0)) as [[v | e] w1] eqn:E; [| discriminate H].
    assert (Ns : forall x, ~ seen (set_mg [] w0) x).
    { intros x Sx. unfold seen in Sx. cbn [w_mg set_mg] in Sx. unfold m_has, m_table in Sx. destruct (pk_of P w0 x); discriminate Sx. }
    destruct (inst_good n (fun _ => False) (root_ctx root cfg0 w0) root (set_mg [] w0) v w1 (chain_from n (all_good n))) as (_ & B' & _ & _ & _ & G & S).
    - intros k [].
    - cbn. split; [reflexivity | left; split; reflexivity].
    - reflexivity.
    - constructor; auto.
    - left. reflexivity.
    - apply Ns.
    - intros _ k X. exact X.
    - exact E.
    - destruct G as [_ (N & ND & SN & Le & Cl)].
      assert (A : forall x, leads_to P w0 root x -> seen w1 x).
      { intros x Hx. induction Hx as [| x y Hx IHx Hxy]; [exact S |]. destruct (Cl x IHx) as [X | [_ X]]; [contradiction (Ns x X) | exact (X y Hxy)]. }
      assert (In_N : incl l N).
      { intros x Hx. destruct (Cl x (A x (Hl x Hx))) as [X | [X _]]; [contradiction (Ns x X) | exact X]. }
      assert (Ew : saves w' = saves w1) by (inversion H; reflexivity). rewrite Ew. change (saves (set_mg [] w0)) with (saves w0) in Le.
      assert (Sm : forall a b : list oid, NoDup a -> incl a b -> (sum_dues a <= sum_dues b)%nat); [| specialize (Sm l N Nl In_N); unfold sum_dues in *; lia].
      unfold sum_dues. induction a as [| x a IHa]; intros b Na Hb; [cbn; lia |]. inversion Na as [| ? ? Nx Na']; subst.
      destruct (in_split x b (Hb x (or_introl eq_refl))) as (b1 & b2 & ->).
      assert (incl a (b1 ++ b2)) as Hi.
      { intros y Hy. pose proof (Hb y (or_intror Hy)) as X. apply in_app_iff in X. apply in_app_iff. destruct X as [X | [-> | X]]; auto. contradiction. }
      specialize (IHa (b1 ++ b2) Na' Hi). rewrite map_app, list_sum_app in IHa |- *. cbn [map list_sum fold_right] in *. unfold list_sum in *. cbn [fold_right]. lia.
  Qed.
End Prep.
