(** SaveGraphProofs.v -- lemmas for C56: preparing a graph of objects for saving. *)
From Verif Require Import Base Mon PyList PyDict StrDict ODictSpec ODictProofs KeypathModel Values OGraphModel MGraphModel MGraphProofs ChainModel
  TypesModel TypesSpec TypesProofs ObjModel ObjSpec ObjTrack IoModel IoBase Sound ObjSound LeafSound TameSpec Keep TameProofs GraphSpec GraphProofs
  OnsaveSpec OutSpec OutProofs OnsaveProofs WriteSpec WriteFrame ClassFrame SaveGraphSpec.
From Verif Require LeafModel.
Open Scope list_scope.

(** ** The heap during serialization *)
Section Fixed.
  Context (P : program) (h0 : heap).
  Hypothesis G : gentle P.
  Hypothesis PK : plain_keys P.
  Hypothesis KA : keys_apart P h0.
  Hypothesis FG : finite_graph P h0.
  Notation ct := (p_ct P).

  Definition keyed (x : oid) (f : field) : Prop :=
    exists d, ct (o_class (h_obj h0 x)) = Some d /\ primary_field d = Some f.
  (** [n] is not the name of the primary key of [x]. *)
  Definition safe (x : oid) (n : string) : Prop := forall f, keyed x f -> n <> fl_name f.
  Definition kept (x : oid) (f : field) (h : heap) : Prop :=
    held x (fl_name f) (fun a => a = attr h0 x (fl_name f)) (o_class (h_obj h0 x)) false h.
  Record fixed (h : heap) : Prop := {
    fx_class : forall x, o_class (h_obj h x) = o_class (h_obj h0 x) /\ o_lkeys (h_obj h x) = o_lkeys (h_obj h0 x);
    fx_key : forall x f, keyed x f -> kept x f h
  }.

  Lemma keyed_name x f : keyed x f -> key_name P (fl_name f).
  Proof. intros (d & H1 & H2). exists (o_class (h_obj h0 x)), d, f. auto. Qed.
  Lemma key_considerate k x : key_name P k -> considerate P x k.
  Proof.
    intros K. constructor; intros; unfold leaves.
    - destruct (gentle_call P G f c args h x) as (A & B & C & D). auto.
    - destruct (gentle_setter P G o n v h x) as (A & B & C & D). auto.
  Qed.
  Lemma fixed_start : fixed h0.
  Proof.
    constructor; [auto |]. intros x f K. pose proof K as (d & H1 & H2). destruct (KA x (fl_name f) (keyed_name x f K)) as [A B].
    constructor; try reflexivity; try assumption; [apply FG; rewrite H1; discriminate | discriminate].
  Qed.
  Lemma fixed_spares h h' : fixed h -> spares P h h' -> fixed h'.
  Proof.
    intros [F1 F2] S. constructor.
    - intros x. destruct (S x) as (A & B & _). rewrite A, B. apply F1.
    - intros x f K. destruct (F2 x f K) as [B1 B2 B3 B4 B5 B6]. destruct (S x) as (A & B & C & D).
      constructor; [rewrite (D _ (keyed_name x f K)); exact B1 | rewrite A; exact B2 | rewrite B; exact B3 | rewrite B; exact B4 | apply C, B5 | discriminate].
  Qed.
  Lemma fixed_run_class n t h : fixed h -> forall x, let h' := snd (run ct (p_oeq P) (p_getter P) (p_setter P) (LeafModel.py_str (p_str P)) n t h) in
    o_class (h_obj h' x) = o_class (h_obj h0 x) /\ o_lkeys (h_obj h' x) = o_lkeys (h_obj h0 x).
  Proof.
    intros [F1 _] x. refine (proj1 (run_class P x (o_class (h_obj h0 x)) (o_lkeys (h_obj h0 x)) _ n t h (F1 x))).
    intros o k v h1. destruct (gentle_setter P G o k v h1 x) as (A & B & _). auto.
  Qed.
  Lemma fixed_set n o k v h : fixed h -> safe o k ->
    fixed (snd (run ct (p_oeq P) (p_getter P) (p_setter P) (LeafModel.py_str (p_str P)) n (TSet o k v) h)).
  Proof.
    intros F S. constructor; [intros x; apply fixed_run_class, F |]. intros x f K. pose proof (keyed_name x f K) as N.
    refine (proj1 (run_off P x (fl_name f) _ _ false (pk_own P PK _ N) (key_considerate _ x N) _ n (TSet o k v) _ h (fx_key h F x f K))); [discriminate |].
    cbn. intros ->. apply S, K.
  Qed.
  Lemma fixed_set_key n o f v h : fixed h -> keyed o f -> attr h0 o (fl_name f) = Some v ->
    fixed (snd (run ct (p_oeq P) (p_getter P) (p_setter P) (LeafModel.py_str (p_str P)) n (TSet o (fl_name f) v) h)).
  Proof.
    intros F K V. constructor; [intros x; apply fixed_run_class, F |]. intros x g Kx. pose proof (keyed_name x g Kx) as N.
    destruct (Nat.eq_dec o x) as [<- | Nx].
    - assert (g = f) as ->. { destruct K as (d & A & B), Kx as (d' & A' & B'). congruence. }
      pose proof K as (d & A & B).
      refine (proj1 (run_held P o (fl_name f) _ _ false n f v _ eq_refl _ _ h (fx_key h F o f K))).
      + symmetry. exact V.
      + apply (pk_plain P PK _ d f A B).
      + exists d. split; [exact A |]. apply field_named_of; [apply (pk_names P PK _ d A) |].
        unfold primary_field in B. apply find_some in B. apply in_rev, B.
    - refine (proj1 (run_off P x (fl_name g) _ _ false (pk_own P PK _ N) (key_considerate _ x N) _ n (TSet o (fl_name f) v) _ h (fx_key h F x g Kx))); [discriminate |].
      cbn. intros E. contradiction (Nx E).
  Qed.
  Lemma fixed_id h x : fixed h -> id_of ct h x = id_of ct h0 x.
  Proof.
    intros F. unfold id_of, cdef_of. rewrite (proj1 (fx_class h F x)). destruct (ct (o_class (h_obj h0 x))) as [d |] eqn:E; [| reflexivity].
    destruct (primary_field d) as [f |] eqn:Ef; [| reflexivity].
    assert (K : keyed x f) by (exists d; auto). rewrite (he_attr _ _ _ _ _ _ (fx_key h F x f K)). reflexivity.
  Qed.
End Fixed.

(** ** The parts of a chain, each modifier in one of them *)
Section Parts.
  Context (rec : mdf -> modifier value ctx world).
  Hypothesis rec_kind : forall m, kind (rec m) = kind_of m.
  Lemma first_at k vs : forall i, first_vidx k vs = Some i -> exists v : modifier value ctx world, nth_error vs i = Some v /\ kind v = k.
  Proof.
    induction vs as [| v vs IH]; intros i H; [discriminate H |]. cbn [first_vidx] in H. destruct (kind_eqb (kind v) k) eqn:E.
    - inversion H; subst. exists v. split; [reflexivity |]. destruct (kind v), k; try discriminate E; reflexivity.
    - destruct (first_vidx k vs) as [j |]; [| discriminate H]. inversion H; subst. apply IH. reflexivity.
  Qed.
  Lemma last_at k vs i : last_vidx k vs = Some i -> exists v : modifier value ctx world, nth_error vs i = Some v /\ kind v = k.
  Proof.
    unfold last_vidx. destruct (first_vidx k (rev vs)) as [j |] eqn:E; [| discriminate]. cbn. intros H. inversion H; subst. clear H.
    destruct (first_at k _ _ E) as (v & Hv & Hk). exists v. split; [| exact Hk].
    assert (Rv : forall l : list (modifier value ctx world), nth_error l j = Some v -> nth_error (rev l) (length l - 1 - j) = Some v).
    { intros l Hl. assert (L : (j < length l)%nat) by (apply nth_error_Some; rewrite Hl; discriminate).
      rewrite (nth_error_nth' (rev l) v) by (rewrite rev_length; lia). rewrite rev_nth by lia.
      replace (length l - Datatypes.S (length l - 1 - j))%nat with j by lia. f_equal. apply nth_error_nth, Hl. }
    specialize (Rv (rev vs) Hv). rewrite rev_involutive, rev_length in Rv. exact Rv.
  Qed.
  Lemma kind_eager m : kind_of m = KEager -> m = MEager.
  Proof. destruct m; cbn; intros H; try discriminate H; reflexivity. Qed.
  Lemma kind_pre m : kind_of m = KPreserialize -> m = MPreserialize.
  Proof. destruct m; cbn; intros H; try discriminate H; reflexivity. Qed.
  Lemma parts ts : eager_first ts -> exists a b c, ts = a ++ b ++ c /\
    tvs (map rec ts) = map rec a /\ nvs (map rec ts) = map rec b /\ pvs (map rec ts) = map rec c.
  Proof.
    intros EF. unfold tvs, nvs, pvs. cbv zeta.
    set (lo := match levidx (map rec ts) with Some i => i | None => 0%nat end).
    set (hi := match fpvidx (map rec ts) with Some i => i | None => length (map rec ts) end).
    assert (L : (lo <= hi)%nat).
    { unfold lo, hi. destruct (levidx (map rec ts)) as [i |] eqn:Ei; [| lia]. apply last_at in Ei. destruct Ei as (v & Hv & Kv).
      destruct (fpvidx (map rec ts)) as [j |] eqn:Ej.
      - apply first_at in Ej. destruct Ej as (u & Hu & Ku). destruct (Nat.le_gt_cases i j) as [|Lt]; [assumption | exfalso].
        rewrite nth_error_map in Hv, Hu. destruct (nth_error ts i) as [m |] eqn:Em; [| discriminate Hv]. destruct (nth_error ts j) as [p |] eqn:Ep; [| discriminate Hu].
        inversion Hv; subst v. inversion Hu; subst u. rewrite rec_kind in Kv, Ku. apply kind_eager in Kv. apply kind_pre in Ku. subst m p.
        destruct (nth_error_split ts j Ep) as (pre & post & E & Lp). apply (EF pre post E). subst ts.
        rewrite nth_error_app2 in Em by lia. replace (i - length pre)%nat with (Datatypes.S (i - length pre - 1))%nat in Em by lia. cbn in Em.
        apply nth_error_In in Em. exact Em.
      - apply Nat.lt_le_incl. apply nth_error_Some. rewrite Hv. discriminate. }
    exists (firstn lo ts), (firstn (hi - lo) (skipn lo ts)), (skipn hi ts). split; [| split; [| split]].
    - rewrite <- (firstn_skipn lo ts) at 1. f_equal. rewrite <- (firstn_skipn (hi - lo) (skipn lo ts)) at 1. f_equal.
      rewrite skip_skip. f_equal. lia.
    - unfold lo. destruct (levidx (map rec ts)); [apply firstn_map | reflexivity].
    - rewrite skipn_map, firstn_map. reflexivity.
    - unfold hi. destruct (fpvidx (map rec ts)); [apply skipn_map |]. rewrite map_length, skipn_all. reflexivity.
  Qed.
End Parts.

Section Manner.
Context {spk : manner}.
Section Gen.
  Context (P : program) (D : nat) (h0 : heap) (Q : cbid -> Prop) (g : oid -> nat) (cnt : list event -> nat) (bad : mdf -> bool).
  Hypothesis G : gentle P.
  Hypothesis PK : plain_keys P.
  Hypothesis FG : finite_graph P h0.
  Hypothesis TC : tame_classes D P.
  Hypothesis getter_ok : forall h o n, louder (p_getter P h o n).
  Hypothesis arith_ok : forall op a b, louder (p_arith P op a b).
  Hypothesis call_loud : forall f c args h, louder (fst (p_call P f c args h)).
  Hypothesis set_loud : forall o n v h,
    (forall x, o_class (h_obj h x) = o_class (h_obj h0 x) /\ o_lkeys (h_obj h x) = o_lkeys (h_obj h0 x)) ->
    louder (fst (run (p_ct P) (p_oeq P) (p_getter P) (p_setter P) (LeafModel.py_str (p_str P)) (p_lim P) (TSet o n v) h)).
  Hypothesis cnt_other : forall l k f, k = KField \/ k = KValidate \/ Q f -> cnt (l ++ [EvCall k f]) = cnt l.
  Hypothesis cnt_any : forall l k f, (cnt (l ++ [EvCall k f]) <= Datatypes.S (cnt l))%nat.

  Definition mcost (m : mdf) : nat := if bad m then 1%nat else 0%nat.
  Definition flcost (fl : field) : nat := list_sum (map mcost (fl_types fl)).
  Definition dcost (d : cdef) : nat := list_sum (map flcost (cd_fields d)).
  Hypothesis bad_ok : forall m, bad m = true -> exists f, saves_with f m = true.
  Hypothesis good_ok : forall cls d fl m, p_ct P cls = Some d -> In fl (cd_fields d) -> In m (fl_types fl) -> bad m = false ->
    forall f, uses D f m -> Q f.
  Hypothesis g_cost : forall o d, p_ct P (o_class (h_obj h0 o)) = Some d -> (dcost d <= g o)%nat.
  Hypothesis g_pos : speak = Ending -> forall o, (1 <= g o)%nat.
  Hypothesis bad_ending : speak = Ending -> forall m, bad m = false.
  Hypothesis markers : forall cls d fl, p_ct P cls = Some d -> In fl (cd_fields d) ->
    eager_first (fl_types fl) \/ forall m, In m (fl_types fl) -> bad m = false.

  Definition U (w : world) (x : oid) : bool := unseen P (set_heap h0 w) x.
  Definition I (k : nat) (w : world) : Prop :=
    fixed P h0 (w_heap w) /\ (cnt (w_log w) + total (U w) g (seq 0 (h_next h0)) <= k)%nat.

  Lemma I_mono k k' w : (k <= k')%nat -> I k w -> I k' w.
  Proof. intros L [H1 H2]. split; [exact H1 | lia]. Qed.
  Lemma I_class k w : I k w -> forall o, o_class (h_obj (w_heap w) o) = o_class (h_obj h0 o).
  Proof. intros [H _] o. apply (fx_class P h0 _ H o). Qed.
  Lemma U_fixed w x : fixed P h0 (w_heap w) -> U w x = unseen P w x.
  Proof.
    intros H. unfold U, unseen, m_has, cname_of, pk_of. cbn [set_heap w_heap w_mg].
    rewrite (proj1 (fx_class P h0 _ H x)), (fixed_id P h0 _ x H). reflexivity.
  Qed.

  Lemma g_liftH {A} k (m : st heap A) : (forall h, fixed P h0 h -> fixed P h0 (snd (m h)) /\ louder (fst (m h))) -> keeps (I k) (liftH m).
  Proof.
    intros H w [H1 H2]. unfold liftH. destruct (H _ H1) as [H3 H4]. destruct (m (w_heap w)) as [r h']. cbn [fst snd] in *.
    split; [split; [exact H3 | exact H2] | exact H4].
  Qed.
  Lemma g_call k kd f c args : kd = KField \/ kd = KValidate \/ Q f -> keeps (I k) (call P kd f c args).
  Proof.
    intros Hk w [H1 H2]. unfold call, seq, bind, modW.
    apply (g_liftH k (p_call P f c args)).
    - intros h Hh. split; [apply (fixed_spares P h0 h); [exact Hh | apply (gentle_call P G)] | apply call_loud].
    - split; [exact H1 |]. cbn [add_log w_log]. rewrite cnt_other by exact Hk. exact H2.
  Qed.
  Lemma g_set k o n v : safe P h0 o n -> keeps (I k) (setattr P o n v).
  Proof.
    intros S. apply g_liftH. intros h Hh. split; [apply fixed_set; assumption | apply set_loud, (fx_class P h0 h Hh)].
  Qed.
  Lemma g_set_key k o f v : keyed P h0 o f -> attr h0 o (fl_name f) = Some v -> keeps (I k) (setattr P o (fl_name f) v).
  Proof.
    intros K V. apply g_liftH. intros h Hh. split; [apply fixed_set_key; assumption | apply set_loud, (fx_class P h0 h Hh)].
  Qed.
  Definition gain (o : oid) : nat := match p_ct P (o_class (h_obj h0 o)) with Some _ => g o | None => 0%nat end.
  Lemma g_mark k o w : I k w -> m_has (cname_of w) o (pk_of P w o) (w_mg w) = false ->
    exists k', (k' + gain o <= k)%nat /\ I k' (set_mg (m_put (cname_of w) o (pk_of P w o) (w_mg w)) w).
  Proof.
    intros [H1 H2] Hh. fold (marked P o w).
    assert (Uo : U w o = true) by (rewrite (U_fixed w o H1); unfold unseen; rewrite Hh; reflexivity).
    assert (Mono : forall x, U (marked P o w) x = true -> U w x = true).
    { intros x. rewrite (U_fixed w x H1), (U_fixed (marked P o w) x H1). apply unseen_marked. }
    assert (Us : U (marked P o w) o = false) by (rewrite (U_fixed (marked P o w) o H1); apply unseen_self).
    unfold gain. destruct (p_ct P (o_class (h_obj h0 o))) as [d |] eqn:Ed.
    - assert (Io : In o (seq 0 (h_next h0))) by (apply in_seq; split; [lia |]; apply FG; rewrite Ed; discriminate).
      pose proof (total_drop (U w) (U (marked P o w)) g (seq 0 (h_next h0)) o Mono Io Uo Us) as L.
      exists (k - g o)%nat. split; [lia |]. split; [exact H1 |]. change (w_log (marked P o w)) with (w_log w). lia.
    - exists k. split; [lia |]. split; [exact H1 |]. change (w_log (marked P o w)) with (w_log w).
      pose proof (total_le (U w) (U (marked P o w)) g (seq 0 (h_next h0)) Mono). lia.
  Qed.
  Lemma ending_dec : speak = Ending \/ speak <> Ending.
  Proof. destruct spk; [right | right | left]; try reflexivity; discriminate. Qed.

  Lemma g_validate n k d m c ts : tame d m -> c_fdef c = fdef_of ts -> (forall x, In x ts -> tame d x) ->
    enough (vfuel D k d) n -> keeps (I k) (m_validate (interp P n m) c).
  Proof.
    apply (heap_validate P h0 D TC getter_ok arith_ok I I_class I_mono).
    - intros j kd f c' args Hk. apply g_call. tauto.
    - intros j o w Hw Hh. destruct (g_mark j o w Hw Hh) as (k' & L & Hk). exists k'. split; [lia |]. split; [| exact Hk].
      destruct (p_ct P (wclass w o)) as [cd |] eqn:Ec; [| auto].
      unfold wclass, wobj in Ec. rewrite (I_class _ _ Hw) in Ec. unfold gain in L. rewrite Ec in L.
      destruct ending_dec as [E | E]; [| auto]. pose proof (g_pos E o). left. lia.
  Qed.

  (** ** Contexts: what a chain writes to its parent is not a primary key. *)
  Definition goodk (c : ctx) : Prop :=
    match c_parent c with VObj r => exists k l, c_kp c = k :: l /\ safe P h0 r (str_of_karg k) | _ => True end.
  Definition goodt (c : ctx) : Prop :=
    match c_parent c with VObj r => goodk c \/ c_kp c = [] /\ c_val c = VObj r | _ => True end.
  Lemma g_write k c v : goodk c -> keeps (I k) (write_parent P c v).
  Proof.
    unfold goodk, write_parent. destruct (c_parent c); try (intros; apply k_ret). intros (kk & l & E & S). rewrite E.
    intros w Hw. exact (g_set k o _ v S w Hw).
  Qed.

  Lemma k_chain_ser n k ts c : goodk c ->
    (forall m v, In m ts -> keeps (I k) (m_serialize (interp P n m) (nval c v))) ->
    (forall m v, In m ts -> keeps (I k) (m_validate (interp P n m) (nval c v))) ->
    keeps (I k) (t_serialize P (interp P n) ts c).
  Proof.
    intros Gc Hs Hv. unfold t_serialize, chain_serialize.
    assert (In_ts : forall x, In x (map (interp P n) ts) -> exists m, x = interp P n m /\ In m ts).
    { intros x Hx. apply in_map_iff in Hx. destruct Hx as (m & <- & Hm). eauto. }
    apply k_bind; [| intros v1; apply k_bind; [| intros v2]]; apply k_fold; intros b x Hx.
    - apply in_tvs, In_ts in Hx. destruct Hx as (m & -> & Hm). apply Hs, Hm.
    - apply in_nvs, In_ts in Hx. destruct Hx as (m & -> & Hm). apply Hs, Hm.
    - apply in_pvs, In_ts in Hx. destruct Hx as (m & -> & Hm). unfold sv.
      apply k_bind; [apply Hs, Hm | intros u]. apply k_bind; [apply (Hv m u), Hm | intros _].
      apply k_bind; [apply g_write; exact Gc | intros; apply k_ret].
  Qed.

  (** ** Collections and unions *)
  Lemma k_col_ser n k b c : (forall ts c', item_types (c_fdef c) = Some ts -> c_fdef c' = fdef_of ts -> goodk c' ->
      keeps (I k) (t_serialize P (interp P n) ts c')) ->
    keeps (I k) (col_out P (t_serialize P (interp P n)) b c).
  Proof.
    intros H. unfold col_out.
    assert (X : keeps (I k) (match col_items b (c_val c) with
      | None => ret (c_val c)
      | Some its => fold_st (fun acc kv => do* ts <- items_of c; col_item P (t_serialize P (interp P n)) c (c_val c) ts acc kv) its (empty_col b) end)).
    { destruct (col_items b (c_val c)) as [its |] eqn:Ei; [| apply k_ret]. apply k_fold. intros acc kv _.
      unfold items_of. destruct (item_types (c_fdef c)) as [ts |] eqn:Et; [| apply k_throw; loudly].
      intros w Hw. unfold bind at 1, ret at 1. revert w Hw. change (keeps (I k) (col_item P (t_serialize P (interp P n)) c (c_val c) ts acc kv)).
      unfold col_item. apply k_bind; [apply H; [reflexivity | reflexivity |] | intros x; apply k_bind; [apply k_cdef_v | intros; apply k_ret]].
      unfold goodk. cbn [colval c_parent]. destruct (c_val c), b; try discriminate Ei; exact Logic.I. }
    destruct (c_val c); exact X.
  Qed.
  Lemma k_union_ser n k c : (forall ts, In ts (f_union (c_fdef c)) ->
      keeps (I k) (t_validate (interp P n) ts (alterfdef c (fdef_of ts))) /\ keeps (I k) (t_serialize P (interp P n) ts (alterfdef c (fdef_of ts)))) ->
    keeps (I k) (union_out (interp P n) (t_serialize P (interp P n)) c).
  Proof.
    intros H. unfold union_out.
    assert (X : keeps (I k) (union_out_loop (interp P n) (t_serialize P (interp P n)) (f_union (c_fdef c)) c)).
    { revert H. generalize (f_union (c_fdef c)). intros us. induction us as [| ts us IH]; intros H; cbn [union_out_loop]; [apply k_ret |].
      cbv zeta. destruct (H ts (or_introl eq_refl)) as [H1 H2]. apply k_on_validation.
      - apply k_bind; [exact H1 | intros _; exact H2].
      - intros _. apply IH. intros t Ht. apply H. right. exact Ht. }
    destruct (c_val c); try exact X. apply k_ret.
  Qed.

  (** ** Modifiers that are not about parts *)
  Lemma flat_ser n k d m c : flatQ Q (Datatypes.S d) m -> enough (Datatypes.S d) n -> keeps (I k) (m_serialize (interp P n m) c).
  Proof.
    intros F E. destruct n as [| n].
    - apply k_throw. destruct E as [E | E]; [split; [intros _; discriminate | intros X; contradiction (E X)] | lia].
    - assert (E' : enough d n) by (destruct E as [E | E]; [left; exact E | right; lia]).
      assert (C : forall f, In f (own_calls m) -> Q f) by (intros f Hf; apply (proj2 F); left; exact Hf).
      assert (K : forall f args, In f (own_calls m) -> keeps (I k) (call P KSave f c args)) by (intros f args Hf; apply g_call; right; right; apply C, Hf).
      pose proof (flat_part _ _ (proj1 F)) as N.
      destruct m; try discriminate N; cbn [interp modif_of m_serialize serialize_of]; try apply k_ret.
      + unfold setonsave_serialize. destruct p; [apply k_ret | apply K; left; reflexivity |].
        apply (k_t_transform (I k) (interp P n) (flatQ (fun _ => True) d)).
        * intros x c' Hx. apply (flat_ok P (I k) (fun _ => True)) with (d := d); try assumption. intros; apply g_call; tauto.
        * intros x c' Hx. apply (flat_ok P (I k) (fun _ => True)) with (d := d); try assumption. intros; apply g_call; tauto.
        * intros x Hx. split; [| intros; exact Logic.I]. apply (proj1 F ts (or_introl eq_refl) x Hx).
      + unfold onsave_serialize. apply k_bind; [apply K; left; reflexivity | intros; apply k_ret].
      + unfold onwrite_serialize. apply k_bind; [apply k_lift, loud_last | intros kk]. apply k_bind; [apply k_the_obj | intros o].
        apply k_bind; [apply k_getW | intros b]. destruct b; [| apply k_ret]. apply k_bind; [apply K; left; reflexivity | intros; apply k_ret].
      + unfold onupdate_serialize. apply k_bind; [apply k_lift, loud_last | intros kk]. apply k_bind; [apply k_the_obj | intros o].
        apply k_bind; [apply k_getW | intros b]. destruct b; [| apply k_ret]. apply k_bind; [apply K; left; reflexivity | intros; apply k_ret].
  Qed.

  (** ** Objects *)
  (** [m] adds at most [a] to the budget, which is at most [K] if running out of fuel matters. *)
  Definition within (K j : nat) : Prop := speak <> Ending \/ (j <= K)%nat.
  Definition adds_up {A} (K a : nat) (m : st world A) : Prop :=
    forall j w, within K j -> I j w -> I (j + a) (snd (m w)) /\ louder (fst (m w)).
  Definition free (a : nat) : Prop := speak = Ending -> a = 0%nat.
  Lemma within_add K j a : within K j -> free a -> within K (j + a).
  Proof. intros [H | H] F; [left; exact H |]. destruct ending_dec as [E | E]; [right; rewrite (F E); lia | left; exact E]. Qed.
  Lemma au_keeps {A} K (m : st world A) : (forall j, within K j -> keeps (I j) m) -> adds_up K 0 m.
  Proof. intros H j w Hj Hw. rewrite Nat.add_0_r. apply (H j Hj w Hw). Qed.
  Lemma au_le {A} K a b (m : st world A) : (a <= b)%nat -> adds_up K a m -> adds_up K b m.
  Proof. intros L H j w Hj Hw. destruct (H j w Hj Hw) as [H1 H2]. split; [apply (I_mono (j + a)); [lia | exact H1] | exact H2]. Qed.
  Lemma au_bind {A B} K a b (m : st world A) (f : A -> st world B) : free a -> adds_up K a m -> (forall x, adds_up K b (f x)) -> adds_up K (a + b) (bind m f).
  Proof.
    intros F Hm Hf j w Hj Hw. unfold bind. destruct (Hm j w Hj Hw) as [H1 H2]. destruct (m w) as [[x | e] w']; cbn [fst snd] in *.
    - rewrite Nat.add_assoc. apply (Hf x (j + a)%nat w' (within_add K j a Hj F) H1).
    - split; [apply (I_mono (j + a)); [lia | exact H1] | apply louder_err, (H2 e eq_refl)].
  Qed.
  Lemma au_pre {A B} K b (m : st world A) (f : A -> st world B) : (forall j, within K j -> keeps (I j) m) -> (forall x, adds_up K b (f x)) -> adds_up K b (bind m f).
  Proof. intros Hm Hf. change b with (0 + b)%nat. apply au_bind; [intros _; reflexivity | apply au_keeps, Hm | exact Hf]. Qed.
  Lemma au_post {A B} K a (m : st world A) (f : A -> st world B) : free a -> adds_up K a m -> (forall x j, within K j -> keeps (I j) (f x)) -> adds_up K a (bind m f).
  Proof. intros F Hm Hf. rewrite <- (Nat.add_0_r a). apply au_bind; [exact F | exact Hm |]. intros x. apply au_keeps. intros j. apply Hf. Qed.
  Lemma free_sum {A} (cst : A -> nat) l : (forall x, free (cst x)) -> free (list_sum (map cst l)).
  Proof. intros H E. induction l as [| x l IH]; [reflexivity |]. cbn. rewrite (H x E). exact IH. Qed.
  Lemma au_fold {A B} K (cst : A -> nat) (f : B -> A -> st world B) l : (forall x, free (cst x)) ->
    (forall b x, In x l -> adds_up K (cst x) (f b x)) -> forall b, adds_up K (list_sum (map cst l)) (fold_st f l b).
  Proof.
    intros F. induction l as [| x l IH]; intros H b; cbn [fold_st map]; [apply au_keeps; intros; apply k_ret |].
    change (list_sum (cst x :: map cst l)) with (cst x + list_sum (map cst l))%nat. apply au_bind; [apply F | apply H; left; reflexivity |].
    intros b'. apply IH. intros b0 y Hy. apply H. right. exact Hy.
  Qed.
  Lemma free_mcost m : free (mcost m).
  Proof. intros E. unfold mcost. rewrite (bad_ending E m). reflexivity. Qed.

  Lemma au_chain n K ts c : eager_first ts -> goodk c ->
    (forall m v, In m ts -> adds_up K (mcost m) (m_serialize (interp P n m) (nval c v))) ->
    (forall m v j, In m ts -> within K j -> keeps (I j) (m_validate (interp P n m) (nval c v))) ->
    adds_up K (list_sum (map mcost ts)) (t_serialize P (interp P n) ts c).
  Proof.
    intros EF Gc Hs Hv. unfold t_serialize, chain_serialize.
    destruct (parts (interp P n)) with (ts := ts) as (ta & tb & tc & E & -> & -> & ->); [intros m; destruct n; reflexivity | exact EF |].
    assert (Fm : forall (B : Type) (f : B -> modifier value ctx world -> st world B) l,
      (forall b m, In m l -> adds_up K (mcost m) (f b (interp P n m))) -> forall b, adds_up K (list_sum (map mcost l)) (fold_st f (map (interp P n) l) b)).
    { intros B f. induction l as [| x l IH]; intros H b; cbn [fold_st map]; [apply au_keeps; intros; apply k_ret |].
      change (list_sum (mcost x :: map mcost l)) with (mcost x + list_sum (map mcost l))%nat.
      apply au_bind; [apply free_mcost | apply H; left; reflexivity |].
      intros b'. apply IH. intros b0 y Hy. apply H. right. exact Hy. }
    rewrite E, map_app, map_app, list_sum_app, list_sum_app.
    apply au_bind; [apply free_sum, free_mcost | apply Fm; intros b m Hm; apply Hs; rewrite E; apply in_or_app; left; exact Hm | intros v1].
    apply au_bind; [apply free_sum, free_mcost | apply Fm; intros b m Hm; apply Hs; rewrite E; apply in_or_app; right; apply in_or_app; left; exact Hm | intros v2].
    apply Fm. intros b m Hm. assert (Hin : In m ts) by (rewrite E; apply in_or_app; right; apply in_or_app; right; exact Hm). unfold sv.
    apply au_post; [apply free_mcost | apply Hs, Hin |]. intros u j Hj.
    apply k_bind; [apply (Hv m u), Hj; exact Hin | intros _]. apply k_bind; [apply g_write; exact Gc | intros; apply k_ret].
  Qed.

  Lemma au_bad n K m c : bad m = true -> adds_up K (mcost m) (m_serialize (interp P n m) c).
  Proof.
    intros B. unfold mcost. rewrite B. destruct (bad_ok m B) as (f & S).
    assert (NE : speak <> Ending) by (intros E; rewrite (bad_ending E m) in B; discriminate B).
    assert (Z : forall (A : Type) (x : st world A), (forall j, keeps (I j) x) -> adds_up K 1 x).
    { intros A x H. apply (au_le K 0); [lia |]. apply au_keeps. intros; apply H. }
    assert (C : forall args, adds_up K 1 (call P KSave f c args)).
    { intros args j w _ [H1 H2]. unfold call, seq, bind, modW. apply (g_liftH (j + 1) (p_call P f c args)).
      - intros h Hh. split; [apply (fixed_spares P h0 h); [exact Hh | apply (gentle_call P G)] | apply call_loud].
      - split; [exact H1 |]. cbn [add_log w_log]. pose proof (cnt_any (w_log w) KSave f). change (U (add_log (EvCall KSave f) w)) with (U w). lia. }
    destruct n as [| n]; [apply Z; intros j; apply k_throw; split; [intros _; discriminate | intros X; contradiction (NE X)] |].
    assert (F1 : free 1) by (intros E; contradiction (NE E)).
    destruct m; try discriminate S; cbn [interp modif_of m_serialize serialize_of].
    - destruct p; try discriminate S. cbn in S. apply Nat.eqb_eq in S. subst f0. apply C.
    - apply Nat.eqb_eq in S. subst f0. apply au_post; [exact F1 | apply C | intros; apply k_ret].
    - apply Nat.eqb_eq in S. subst f0. unfold onwrite_serialize.
      apply au_pre; [intros; apply k_lift, loud_last | intros kk]. apply au_pre; [intros; apply k_the_obj | intros o].
      apply au_pre; [intros; apply k_getW | intros b]. destruct b; [| apply Z; intros; apply k_ret].
      apply au_post; [exact F1 | apply C | intros; apply k_ret].
    - apply Nat.eqb_eq in S. subst f0. unfold onupdate_serialize.
      apply au_pre; [intros; apply k_lift, loud_last | intros kk]. apply au_pre; [intros; apply k_the_obj | intros o].
      apply au_pre; [intros; apply k_getW | intros b]. destruct b; [| apply Z; intros; apply k_ret].
      apply au_post; [exact F1 | apply C | intros; apply k_ret].
  Qed.

  (** The chain of a primary key gives the value that is there. *)
  Lemma idle_chain n ts c w : (forall m, In m ts -> idle m = true) ->
    t_serialize P (interp P n) ts c w = (Ok (c_val c), w) \/ (n = 0%nat /\ t_serialize P (interp P n) ts c w = (Err ERecursion, w)).
  Proof.
    intros H. unfold t_serialize, chain_serialize. rewrite no_pvs by (intros m Hm; apply pass_idle, H, Hm).
    destruct n as [| n].
    - assert (X : forall l v, (forall x, In x l -> In x (map (interp P 0) ts)) ->
        fold_st (fun val v0 => m_serialize v0 (nval c val)) l v w = (Ok v, w) \/ fold_st (fun val v0 => m_serialize v0 (nval c val)) l v w = (Err ERecursion, w)).
      { intros l v Hl. destruct l as [| x l]; [left; reflexivity | right]. cbn [fold_st].
        destruct (proj1 (in_map_iff _ _ _) (Hl x (or_introl eq_refl))) as (m & <- & _). reflexivity. }
      unfold bind. destruct (X (tvs (map (interp P 0) ts)) (c_val c)) as [-> | ->]; [intros x; apply in_tvs | | right; auto].
      destruct (X (nvs (map (interp P 0) ts)) (c_val c)) as [-> | ->]; [intros x; apply in_nvs | left; reflexivity | right; auto].
    - left. assert (X : forall l v, (forall x, In x l -> In x (map (interp P (Datatypes.S n)) ts)) ->
        fold_st (fun val v0 => m_serialize v0 (nval c val)) l v w = (Ok v, w)).
      { induction l as [| x l IH]; intros v Hl; [reflexivity |]. cbn [fold_st]. unfold bind.
        destruct (proj1 (in_map_iff _ _ _) (Hl x (or_introl eq_refl))) as (m & <- & Hm).
        assert (m_serialize (interp P (Datatypes.S n) m) (nval c v) w = (Ok v, w)) as ->.
        { pose proof (H m Hm) as Hi. destruct m; try discriminate Hi; reflexivity. }
        apply IH. intros y Hy. apply Hl. right. exact Hy. }
      unfold bind. rewrite X by (intros x; apply in_tvs). rewrite X by (intros x; apply in_nvs). reflexivity.
  Qed.

  Lemma k_bind_read {A B} (J : world -> Prop) (m : st world A) (f : A -> st world B) : keeps J m ->
    (forall w a, J w -> fst (m w) = Ok a -> keeps J (f a)) -> keeps J (bind m f).
  Proof.
    intros Hm Hf w Hw. destruct (Hm w Hw) as [H1 H2]. pose proof (Hf w) as H3. unfold bind. destruct (m w) as [[a | e] w1]; cbn [fst snd] in *.
    - apply (H3 a Hw eq_refl w1 H1).
    - split; [exact H1 | apply louder_err, (H2 e eq_refl)].
  Qed.
  Section Inst.
    Context (n K : nat).
    Hypothesis IH : forall k m c, within K k -> tameQ Q D m -> tame_ctx Q D c -> goodk c -> keeps (I k) (m_serialize (interp P n m) c).
    Hypothesis IV : forall k m c ts, within K k -> tame D m -> c_fdef c = fdef_of ts -> (forall x, In x ts -> tame D x) -> keeps (I k) (m_validate (interp P n m) c).
    Hypothesis fuel : speak = Ending -> n <> 0%nat.

    Lemma tame_field cls d fl m : p_ct P cls = Some d -> In fl (cd_fields d) -> In m (fl_types fl) -> bad m = false -> tameQ Q D m.
    Proof. intros Ed Hf Hm B. split; [apply (TC cls d fl m Ed Hf Hm) | apply (good_ok cls d fl m Ed Hf Hm B)]. Qed.
    Lemma part_good m : part m = true -> bad m = false.
    Proof. intros Hp. destruct (bad m) eqn:B; [| reflexivity]. destruct (bad_ok m B) as (f & S). destruct m; discriminate. Qed.

    Lemma au_types cls d fl c : p_ct P cls = Some d -> In fl (cd_fields d) -> c_fdef c = fl_fdef fl -> goodk c ->
      adds_up K (flcost fl) (t_serialize P (interp P n) (fl_types fl) c).
    Proof.
      intros Ed Hf Ec Gc.
      assert (Tc : forall v, tame_ctx Q D (nval c v)).
      { intros v. exists (fl_types fl). split; [exact Ec |]. intros x Hx Hp. apply (tame_field cls d fl x Ed Hf Hx), part_good, Hp. }
      assert (V : forall m v j, In m (fl_types fl) -> within K j -> keeps (I j) (m_validate (interp P n m) (nval c v))).
      { intros m v j Hm Hj. apply IV with (ts := fl_types fl); [exact Hj | apply (TC cls d fl m Ed Hf Hm) | exact Ec |].
        intros x Hx. apply (TC cls d fl x Ed Hf Hx). }
      destruct (markers cls d fl Ed Hf) as [EF | NB].
      - apply au_chain; [exact EF | exact Gc | | exact V]. intros m v Hm. destruct (bad m) eqn:B; [apply au_bad, B |].
        unfold mcost. rewrite B. apply au_keeps. intros j Hj. apply IH; [exact Hj | apply (tame_field cls d fl m Ed Hf Hm B) | apply Tc | exact Gc].
      - apply (au_le K 0); [lia |]. apply au_keeps. intros j Hj. apply k_chain_ser; [exact Gc | | intros m v Hm; apply V; assumption].
        intros m v Hm. apply IH; [exact Hj | apply (tame_field cls d fl m Ed Hf Hm (NB m Hm)) | apply Tc | exact Gc].
    Qed.

    Lemma flcost_free fl : free (flcost fl).
    Proof. apply free_sum, free_mcost. Qed.

    Lemma au_field c o d go fl : goodt c -> c_val c = VObj o -> p_ct P (o_class (h_obj h0 o)) = Some d -> In fl (cd_fields d) ->
      adds_up K (flcost fl) (save_field P (interp P n) c o go fl).
    Proof.
      intros Gc Ev Ed Hf. unfold save_field.
      assert (Z : forall (A : Type) (x : st world A), (forall j, keeps (I j) x) -> adds_up K (flcost fl) x).
      { intros A x H. apply (au_le K 0); [lia |]. apply au_keeps. intros; apply H. }
      destruct (is_ref (fl_fdef fl) || is_inst (fl_fdef fl) || go || f_force_set_on_save (fl_fdef fl)); [| apply Z; intros; apply k_ret].
      apply au_pre.
      { intros j _. destruct (is_local fl); [| apply k_ret]. apply k_bind; [apply k_getattr, getter_ok | intros v].
        destruct (is_none v); [| apply k_ret]. apply k_bind; [apply k_getattr, getter_ok | intros; apply k_ret]. }
      intros [|]; [apply Z; intros; apply k_ret |].
      apply au_post; [apply flcost_free | | intros x j _; apply k_bind; [apply k_getW | intros; apply k_ret]].
      destruct (is_calc fl) eqn:Ec; [apply Z; intros; apply k_ret |].
      assert (Nd : NoDup (map fl_name (cd_fields d))) by apply (pk_names P PK _ d Ed).
      assert (Others : safe P h0 o (fl_name fl) -> adds_up K (flcost fl) (
        do* v <- getattr P o (fl_name fl);
        do* e <- ekey P c (fl_name fl);
        do* cls <- getW (fun w => wclass w o);
        do* x <- t_serialize P (interp P n) (fl_types fl) (nextv c v (fl_name fl) e (fl_fdef fl) (fld_tag cls fl) None);
        setattr P o (fl_name fl) x)).
      { intros S. apply au_pre; [intros; apply k_getattr, getter_ok | intros v]. apply au_pre; [intros; apply k_ekey | intros e].
        apply au_pre; [intros; apply k_getW | intros cls0]. apply au_post; [apply flcost_free | | intros x j _; apply g_set, S].
        apply (au_types (o_class (h_obj h0 o)) d); [exact Ed | exact Hf | reflexivity |].
        unfold goodt, goodk in *. cbn [nextv c_parent c_kp]. destruct (c_parent c); try exact Logic.I.
        destruct Gc as [(kk & l & Ek & Sk) | [Ek Hk]]; rewrite Ek.
        - exists kk, (l ++ [KStr (fl_name fl)]). split; [reflexivity | exact Sk].
        - exists (KStr (fl_name fl)), []. split; [reflexivity |]. rewrite Ev in Hk. inversion Hk; subst. exact S. }
      destruct (primary_field d) as [pf |] eqn:Ep; [destruct (string_dec (fl_name pf) (fl_name fl)) as [En | En] |].
      - (* the primary key *)
        assert (Hp : In pf (cd_fields d)) by (unfold primary_field in Ep; apply find_some in Ep; apply in_rev, Ep).
        assert (pf = fl) as ->.
        { pose proof (field_named_of d pf Nd Hp) as A. pose proof (field_named_of d fl Nd Hf) as B. rewrite En, B in A. inversion A. reflexivity. }
        assert (Ky : keyed P h0 o fl) by (exists d; auto).
        apply (au_le K 0); [lia |]. apply au_keeps. intros j Hj. apply k_bind_read; [apply k_getattr, getter_ok |]. intros w v Hw Eg.
        assert (Hv : attr h0 o (fl_name fl) = Some v).
        { unfold getattr, liftH, ObjModel.getattr in Eg.
          assert (Of : ofield (p_ct P) (w_heap w) o (fl_name fl) = Some fl).
          { unfold ofield, cdef_of. rewrite (I_class j w Hw), Ed. apply field_named_of; assumption. }
          rewrite Of, Ec in Eg. pose proof (he_attr _ _ _ _ _ _ (fx_key P h0 _ (proj1 Hw) o fl Ky)) as X.
          rewrite <- X. destruct (attr (w_heap w) o (fl_name fl)); inversion Eg; subst; reflexivity. }
        clear w Hw Eg.
        apply k_bind; [apply k_ekey | intros e]. apply k_bind; [apply k_getW | intros cls0]. intros w1 Hw1. unfold bind.
        match goal with |- context [t_serialize P (interp P n) ?ts ?cc w1] => destruct (idle_chain n ts cc w1) as [-> | [N0 ->]] end.
        + intros m Hm. apply (pk_idle P PK _ d fl m Ed Ep Hm).
        + cbn [c_val nextv]. apply (g_set_key j o fl v Ky Hv w1 Hw1).
        + cbn [fst snd]. split; [exact Hw1 |]. apply louder_err. split; [intros _; discriminate | intros E; contradiction (fuel E N0)].
      - apply Others. intros f (d' & A & B) E. rewrite Ed in A. inversion A; subst d'. rewrite Ep in B. inversion B; subst f. apply En. symmetry. exact E.
      - apply Others. intros f (d' & A & B) E. rewrite Ed in A. inversion A; subst d'. rewrite Ep in B. discriminate B.
    Qed.
  End Inst.

  Lemma dec_has cname o pk m : m_get cname o pk m = None <-> m_has cname o pk m = false.
  Proof.
    unfold m_get, m_has, t_get, t_has. destruct pk as [p |]; [destruct (sget p _) |]; try (split; discriminate);
      destruct (dget Nat.eqb o _); split; try discriminate; reflexivity.
  Qed.
  Definition srest (n : nat) (c : ctx) (o : oid) : st world value :=
    do* t <- getW (fun w => touched (wobj w o));
    do* fs <- getW (fun w => cd_fields (wcdef P w o));
    do* _ <- fold_st (save_field P (interp P n) c o) fs t;
    ret (VObj o).
  Lemma inst_ok n k c : goodt c -> enough (vfuel D k 1) (Datatypes.S n) ->
    (forall k' m c', tameQ Q D m -> tame_ctx Q D c' -> goodk c' -> enough (vfuel D k' D) n -> keeps (I k') (m_serialize (interp P n m) c')) ->
    keeps (I k) (inst_serialize P (interp P n) c).
  Proof.
    intros Gc E IH. unfold inst_serialize.
    assert (Z : forall v, (forall o, v <> VObj o) -> forall (B : Type) (f : option oid -> st world B), keeps (I k) (bind (mg_get P v) f)).
    { intros v Nv B f w Hw. unfold mg_get, bind. destruct v; cbn; try (split; [exact Hw | apply louder_err; loudly]). contradiction (Nv o); reflexivity. }
    destruct (c_val c) as [| | | | | | | | | | o |] eqn:Ev; try (apply Z; discriminate); [apply k_ret |]. clear Z.
    intros w Hw. fold (srest n c o).
    match goal with |- I k (snd (?m w)) /\ _ => assert (Eq : m w = match m_get (cname_of w) o (pk_of P w o) (w_mg w) with
      | Some _ => (Ok (VObj o), w) | None => srest n c o (set_mg (m_put (cname_of w) o (pk_of P w o) (w_mg w)) w) end) end.
    { unfold mg_get, bind. cbn [the_obj ret getW]. destruct (m_get (cname_of w) o (pk_of P w o) (w_mg w)); reflexivity. }
    rewrite Eq. clear Eq. destruct (m_get (cname_of w) o (pk_of P w o) (w_mg w)) as [x |] eqn:Em; [split; [exact Hw | apply louder_ok] |].
    apply dec_has in Em. destruct (g_mark k o w Hw Em) as (k' & L & Hw').
    revert Hw'. generalize (set_mg (m_put (cname_of w) o (pk_of P w o) (w_mg w)) w). intros w1 Hw1.
    assert (X : adds_up k' (gain o) (srest n c o)).
    { unfold srest. apply au_pre; [intros; apply k_getW | intros t]. intros j w2 Hj Hw2.
      cut (adds_up k' (gain o) (do* _ <- fold_st (save_field P (interp P n) c o) (cd_fields (cdef_of (p_ct P) h0 o)) t; ret (VObj o))).
      { intros X. specialize (X j w2 Hj Hw2). unfold bind at 1 3, getW. unfold wcdef, cdef_of. rewrite (I_class j w2 Hw2). exact X. }
      clear j w2 Hj Hw2. unfold cdef_of, gain.
      destruct (p_ct P (o_class (h_obj h0 o))) as [d |] eqn:Ed; [| apply au_keeps; intros; apply k_ret].
      apply (au_le k' (dcost d)); [apply (g_cost o d Ed) |].
      apply au_post; [apply free_sum, flcost_free | | intros; apply k_ret].
      unfold gain in L. rewrite Ed in L.
      assert (En : forall j, within k' j -> enough (vfuel D j D) n).
      { intros j [Hj | Hj]; [left; exact Hj |]. destruct ending_dec as [Ee | Ee]; [| left; exact Ee]. right. pose proof (g_pos Ee o).
        destruct E as [E | E]; [contradiction (E Ee) |]. unfold vfuel in *. nia. }
      apply au_fold; [apply flcost_free |]. intros b fl Hf. apply (au_field n k') with d; try assumption.
      - intros j m c' Hj Tm Tc Gk. apply IH; try assumption. apply En, Hj.
      - intros j m c' ts Hj Tm Ec Ts. apply (g_validate n j D m c' ts); try assumption. apply En, Hj.
      - intros Ee. destruct (En 0%nat) as [X | X]; [right; lia | contradiction (X Ee) | unfold vfuel in X; lia]. }
    destruct (X k' w1) as [X1 X2]; [right; lia | exact Hw1 |]. split; [| exact X2]. eapply I_mono; [exact L | exact X1].
  Qed.

  Lemma all_or {A} (l : list A) (F : A -> Prop) (B : Prop) : (forall x, In x l -> F x \/ B) -> (forall x, In x l -> F x) \/ B.
  Proof.
    induction l as [| a l IHl]; intros H; [left; contradiction |].
    destruct (H a (or_introl eq_refl)) as [Ha | Hb]; [| right; exact Hb].
    destruct IHl as [Hl | Hb]; [intros x Hx; apply H; right; exact Hx | left | right; exact Hb].
    intros x [<- | Hx]; [exact Ha | apply Hl, Hx].
  Qed.
  Lemma ser n : forall k d m c, tameQ Q d m -> tame_ctx Q d c -> goodk c -> enough (vfuel D k d) n -> keeps (I k) (m_serialize (interp P n m) c).
  Proof.
    induction n as [| n IH]; intros k d m c Hm Hc Gc E; (destruct d as [| d]; [contradiction (proj1 Hm) |]).
    - apply k_throw. destruct E as [E | E]; [split; [intros _; discriminate | intros X; contradiction (E X)] | unfold vfuel in E; lia].
    - assert (E' : enough (vfuel D k d) n) by (destruct E as [E | E]; [left; exact E | right; unfold vfuel in *; lia]).
      assert (E1 : enough 1 n) by (destruct E' as [X | X]; [left; exact X | right; unfold vfuel in X; lia]).
      assert (Hc1 : forall ts c', (forall x, In x ts -> flatQ Q 1 x) -> goodk c' -> keeps (I k) (t_serialize P (interp P n) ts c')).
      { intros ts c' H Gk. apply k_chain_ser; [exact Gk | |]; intros x v Hx.
        - apply (flat_ser n k 0 x); [apply H, Hx | exact E1].
        - apply (flat_ok P (I k) (fun _ => True)) with (d := 1%nat); try assumption; [intros; apply g_call; tauto |].
          split; [apply H, Hx | intros; exact Logic.I]. }
      assert (Hc2 : forall ts c', tames Q d ts -> c_fdef c' = fdef_of ts -> goodk c' -> keeps (I k) (t_serialize P (interp P n) ts c')).
      { intros ts c' T Ec Gk. apply k_chain_ser; [exact Gk | |]; intros x v Hx.
        - apply (IH k d x); [apply T, Hx | apply (own_ctx Q _ ts); [exact Ec | exact T] | exact Gk | exact E'].
        - apply (g_validate n k d x _ ts); [apply T, Hx | exact Ec | intros y Hy; apply T, Hy | exact E']. }
      assert (Hcol : forall b, keeps (I k) (col_out P (t_serialize P (interp P n)) b c)).
      { intros b. apply k_col_ser. intros ts c' Et Ec Gk.
        destruct (all_or ts (flatQ Q 1) (tames Q d ts)) as [A | T].
        - intros x Hx. destruct (items_tame Q d c ts x Hc Et Hx) as [F | [_ T]]; auto.
        - apply Hc1; assumption.
        - apply Hc2; assumption. }
      destruct (part m) eqn:Np; [| apply (flat_ser (Datatypes.S n) k d m c); [apply tame_flat; assumption |]].
      2: { destruct E as [E | E]; [left; exact E | right; unfold vfuel in E; lia]. }
      destruct m; try discriminate Np; cbn [interp modif_of m_serialize serialize_of]; try apply Hcol.
      + apply inst_ok; [unfold goodt, goodk in *; destruct (c_parent c); try exact Logic.I; left; exact Gc | |].
        * destruct E as [E | E]; [left; exact E | right; unfold vfuel in *; lia].
        * intros k' x c' Tx Tc Gk Ek. apply (IH k' D x c' Tx Tc Gk Ek).
      + apply k_union_ser. intros us Hu. pose proof (union_tame Q d c us Hc Hu) as T. split.
        * apply k_tames. intros x Hx. apply (g_validate n k d x _ us); [apply T, Hx | reflexivity | intros y Hy; apply T, Hy | exact E'].
        * apply Hc2; [exact T | reflexivity | exact Gc].
  Qed.

  Lemma ser_top n k o w : I k (set_mg [] w) -> fixed P h0 (w_heap w) -> enough (vfuel D k 1) n ->
    let r := m_serialize (interp P n (MInstance (wclass w o))) (root_ctx o cfg0 w) (set_mg [] w) in I k (snd r) /\ louder (fst r).
  Proof.
    intros Hw F E. destruct n as [| n].
    - cbn. split; [exact Hw |]. apply louder_err. destruct E as [E | E]; [split; [intros _; discriminate | intros X; contradiction (E X)] | unfold vfuel in E; lia].
    - cbn zeta. cbn [interp modif_of m_serialize serialize_of]. apply inst_ok; [| exact E | | exact Hw].
      + unfold goodt. cbn. right. split; reflexivity.
      + intros k' m c' Tm Tc Gk Ek. apply (ser n k' D m c' Tm Tc Gk Ek).
  Qed.
End Gen.
End Manner.

(** ** Termination *)
Section SaveEnds.
  Context (P : program) (D : nat).
  Hypothesis G : gentle P.
  Hypothesis PK : plain_keys P.
  Hypothesis E : ending P.
  Hypothesis TC : tame_classes D P.
  Instance save_ends : manner := Ending.
  Lemma prepare_ends n o w : keys_apart P (w_heap w) -> finite_graph P (w_heap w) -> assignments_end P (w_heap w) ->
    (vfuel D (h_next (w_heap w)) 1 <= n)%nat -> fst (set_on_save P n o w) <> Err ERecursion.
  Proof.
    intros KA FG AE L.
    assert (X : louder (fst (m_serialize (interp P n (MInstance (wclass w o))) (root_ctx o cfg0 w) (set_mg [] w)))).
    { refine (proj2 (ser_top P D (w_heap w) (fun _ => True) (fun _ => 1%nat) (fun _ => 0%nat) (fun _ => false)
        G PK FG TC _ _ _ _ _ _ _ _ _ _ _ _ n (h_next (w_heap w)) o w _ _ _)).
      - intros h0 o0 n0 e He. apply loud_ends. intros ->. exact (ending_getter P E _ _ _ He).
      - intros op a b e He. apply loud_ends. intros ->. exact (ending_arith P E _ _ _ He).
      - intros f c args h e He. apply loud_ends. intros ->. exact (ending_call P E _ _ _ _ He).
      - intros o0 n0 v h S e He. apply loud_ends. intros ->. exact (AE o0 n0 v h S He).
      - reflexivity.
      - intros; lia.
      - discriminate.
      - trivial.
      - intros o0 d _. unfold dcost, flcost, mcost. clear. induction (cd_fields d) as [| f fs IH]; [cbn; lia |].
        cbn. replace (list_sum (map (fun _ : mdf => 0%nat) (fl_types f))) with 0%nat; [exact IH |]. induction (fl_types f); [reflexivity | assumption].
      - intros; lia.
      - reflexivity.
      - intros cls d fl _ _. right. reflexivity.
      - split; [apply fixed_start; assumption |]. cbn [Nat.add]. rewrite <- (seq_length (h_next (w_heap w)) 0) at 2. apply total_count.
      - apply fixed_start; assumption.
      - right. exact L. }
    unfold set_on_save, bind, getW, seq, with_new_mgraph, self_mod.
    destruct (m_serialize (interp P n (MInstance (wclass w o))) (root_ctx o cfg0 w) (set_mg [] w)) as [[v | e] w1]; cbn [fst] in *; [discriminate |].
    intros H. inversion H; subst. destruct (X ERecursion eq_refl) as [_ Y]. apply Y; reflexivity.
  Qed.
End SaveEnds.

(** ** Each object once *)
Section SaveOnce.
  Context (P : program) (D : nat) (f : cbid).
  Hypothesis G : gentle P.
  Hypothesis PK : plain_keys P.
  Hypothesis TC : tame_classes D P.
  Hypothesis only : forall cls d fl m, p_ct P cls = Some d -> In fl (cd_fields d) -> In m (fl_types fl) ->
    uses D f m -> saves_with f m = true.
  Hypothesis EF : forall cls d fl, p_ct P cls = Some d -> In fl (cd_fields d) -> eager_first (fl_types fl).
  Instance save_once : manner := Silent.
  Let cnt (l : list event) : nat := length (filter (is_save f) l).
  Lemma cnt_snoc l e : cnt (l ++ [e]) = (cnt l + if is_save f e then 1 else 0)%nat.
  Proof. unfold cnt. rewrite filter_app, app_length. cbn [filter]. destruct (is_save f e); reflexivity. Qed.
  Lemma save_places_sum d : save_places f d = dcost (saves_with f) d.
  Proof.
    unfold save_places, dcost. induction (cd_fields d) as [| fl fs IH]; [reflexivity |]. cbn [flat_map map list_sum fold_right].
    rewrite filter_app, app_length. change (fold_right Nat.add 0%nat) with list_sum. rewrite IH. f_equal. unfold flcost, mcost.
    induction (fl_types fl) as [| m ms IHm]; [reflexivity |]. cbn. destruct (saves_with f m); cbn; rewrite IHm; reflexivity.
  Qed.
  Lemma prepare_once n o w : keys_apart P (w_heap w) -> finite_graph P (w_heap w) ->
    (saves f (snd (set_on_save P n o w)) <= saves f w + once_for_each P f (w_heap w))%nat.
  Proof.
    intros KA FG.
    set (k := (saves f w + once_for_each P f (w_heap w))%nat).
    assert (X : I P (w_heap w) (save_places_at P f (w_heap w)) cnt k (snd (m_serialize (interp P n (MInstance (wclass w o))) (root_ctx o cfg0 w) (set_mg [] w)))).
    { refine (proj1 (ser_top P D (w_heap w) (fun g => g <> f) (save_places_at P f (w_heap w)) cnt (saves_with f)
        G PK FG TC _ _ _ _ _ _ _ _ _ _ _ _ n k o w _ _ _)).
      - intros; apply any_louder.
      - intros; apply any_louder.
      - intros; apply any_louder.
      - intros; apply any_louder.
      - intros l kd g H. rewrite cnt_snoc. destruct H as [-> | [-> | H]]; cbn [is_save]; try lia.
        destruct (Nat.eqb_spec g f); [contradiction | destruct kd; lia].
      - intros l kd g. rewrite cnt_snoc. destruct (is_save f (EvCall kd g)); lia.
      - intros m Hm. exists f. exact Hm.
      - intros cls d fl m Hc Hf Hm B g Ug ->. rewrite (only cls d fl m Hc Hf Hm Ug) in B. discriminate B.
      - intros o0 d Ed. unfold save_places_at. rewrite Ed, save_places_sum. lia.
      - discriminate.
      - discriminate.
      - intros cls d fl Hc Hf. left. apply (EF cls d fl Hc Hf).
      - split; [apply fixed_start; assumption |]. unfold k, saves. apply Nat.add_le_mono_l.
        apply (total_le (fun _ => true)). reflexivity.
      - apply fixed_start; assumption.
      - left. discriminate. }
    unfold set_on_save, bind, getW, seq, with_new_mgraph, self_mod.
    destruct (m_serialize (interp P n (MInstance (wclass w o))) (root_ctx o cfg0 w) (set_mg [] w)) as [[v | e] w1]; cbn [fst snd] in *;
      destruct X as [_ X]; unfold cnt in X; unfold ret; cbn [snd]; unfold saves; cbn [set_mg w_log]; lia.
  Qed.
End SaveOnce.
