(** ObjTrack.v -- how the methods of objects change attributes and the modification
    record. *)
From Verif Require Import Base Mon PyList PyDict OListModel ODictModel KeypathModel
  Values OGraphModel TypesModel ObjModel ObjSpec ObjList.
Open Scope Z_scope.

Lemma field_named_in n c f : field_named n c = Some f -> In f (cd_fields c) /\ fl_name f = n.
Proof.
  unfold field_named. intros H. apply find_some in H. destruct H as [H1 H2].
  split; [apply in_rev; exact H1 |]. apply String.eqb_eq in H2. symmetry; exact H2.
Qed.

Lemma field_named_of c f : NoDup (map fl_name (cd_fields c)) -> In f (cd_fields c) ->
  field_named (fl_name f) c = Some f.
Proof.
  intros HN Hin. unfold field_named.
  destruct (find (fun g => String.eqb (fl_name f) (fl_name g)) (rev (cd_fields c))) as [g |] eqn:E.
  - apply find_some in E. destruct E as [E1 E2]. apply in_rev in E1. apply String.eqb_eq in E2.
    f_equal. revert HN Hin E1 E2. generalize (cd_fields c) as l.
    induction l as [| x l IH]; intros HN Hin E1 E2; [destruct Hin |].
    cbn in HN. inversion HN as [| ? ? Hx HN']; subst.
    destruct Hin as [-> | Hin], E1 as [-> | E1]; [reflexivity | | |].
    + exfalso. apply Hx. rewrite E2. apply in_map. exact E1.
    + exfalso. apply Hx. rewrite <- E2. apply in_map. exact Hin.
    + apply IH; assumption.
  - exfalso. apply in_rev in Hin. pose proof (find_none _ _ E f Hin) as H.
    cbn in H. rewrite String.eqb_refl in H. discriminate H.
Qed.

Lemma sinb_In : forall k l, sinb k l = true <-> In k l.
Proof.
  intros k l. unfold sinb. rewrite existsb_exists. split.
  - intros (x & Hx & E). apply String.eqb_eq in E. subst. exact Hx.
  - intros H. exists k. split; [exact H | apply String.eqb_refl].
Qed.

Lemma in_sadd : forall k x l, In k (sadd x l) <-> k = x \/ In k l.
Proof.
  intros k x l. unfold sadd. destruct (sinb x l) eqn:E.
  - split; [intros H; right; exact H |]. intros [-> | H]; [apply sinb_In; exact E | exact H].
  - rewrite in_app_iff. cbn. split; [intros [H | [<- | []]]; auto | intros [-> | H]; auto].
Qed.

Section Track.
  Context (ct : string -> option cdef)
          (oeq : heap -> Values.oid -> Values.oid -> bool)
          (getter : heap -> Values.oid -> string -> res value)
          (setter : Values.oid -> string -> value -> st heap unit)
          (pystr : value -> string).
  Hypothesis wf : wf_classes ct.

  Notation ofield := (ofield ct).
  Notation typed_heap := (typed_heap ct).
  Notation typed_task := (typed_task ct).
  Notation place := (Values.oid -> string -> Prop).

  Lemma ofield_class h h' o n : o_class (h_obj h' o) = o_class (h_obj h o) ->
    ofield h' o n = ofield h o n.
  Proof. unfold ObjModel.ofield, cdef_of. intros ->. reflexivity. Qed.

  Lemma ofield_in h o n f : ofield h o n = Some f ->
    exists d, ct (o_class (h_obj h o)) = Some d /\ In f (cd_fields d) /\ fl_name f = n /\
              wf_class ct (o_class (h_obj h o)) d.
  Proof.
    unfold ObjModel.ofield, cdef_of. destruct (ct (o_class (h_obj h o))) as [d |] eqn:E; intros H.
    - exists d. apply field_named_in in H. destruct H as [H1 H2].
      split; [reflexivity | split; [exact H1 | split; [exact H2 |]]]. apply wf. exact E.
    - discriminate H.
  Qed.

  Lemma ofield_ref h o n f : ofield h o n = Some f -> is_local f = true ->
    ofield h o (fl_ref f) = None.
  Proof.
    intros H Hl. destruct (ofield_in _ _ _ _ H) as (d & Hd & Hin & Hn & W).
    destruct (ofield h o (fl_ref f)) as [g |] eqn:E; [| reflexivity].
    destruct (ofield_in _ _ _ _ E) as (d' & Hd' & Hin' & Hn' & _).
    rewrite Hd in Hd'. inversion Hd'; subst d'.
    exfalso. apply (wf_refname _ _ _ W f g Hin Hin' Hl). symmetry. exact Hn'.
  Qed.

  (** The other side of a relation *)
  Lemma foreign_other h o n f g b :
    ofield h o n = Some f -> foreign_field ct (o_class (h_obj h o)) f = Some g ->
    foreign_class f = Some (o_class (h_obj h b)) ->
    ofield h b (fl_name g) = Some g /\ is_ref (fl_fdef g) = true /\
    foreign_class g = Some (o_class (h_obj h o)).
  Proof.
    intros Hf Hg Hb. destruct (ofield_in _ _ _ _ Hf) as (d & Hd & Hin & Hn & W).
    pose proof (wf_other _ _ _ W f g Hin Hg) as Href.
    assert (Hx : exists c, ct (o_class (h_obj h b)) = Some c /\ In g (cd_fields c) /\
                 foreign_class g = Some (o_class (h_obj h o))).
    { unfold foreign_field in Hg. rewrite Hb in Hg.
      assert (K : forall c P, find (fun f0 => eq_opt_str (foreign_class f0) (o_class (h_obj h o)) && P f0)
                   (cd_fields c) = Some g ->
                 In g (cd_fields c) /\ foreign_class g = Some (o_class (h_obj h o))).
      { intros c P HF. apply find_some in HF. destruct HF as [H1 H2]. split; [exact H1 |].
        apply andb_true_iff in H2. destruct H2 as [H2 _]. unfold eq_opt_str in H2.
        destruct (foreign_class g) as [s |]; [| discriminate H2].
        apply String.eqb_eq in H2. subst. reflexivity. }
      destruct (f_fstore (fl_fdef f)); try discriminate Hg.
      - destruct (ct (o_class (h_obj h b))) as [c |]; [| discriminate Hg].
        exists c. split; [reflexivity |]. apply (K c (fun f0 => eq_opt_str (f_foreign_key (fl_fdef f0)) (fl_name f))).
        exact Hg.
      - destruct (ct (o_class (h_obj h b))) as [c |]; [| discriminate Hg].
        destruct (f_foreign_key (fl_fdef f)) as [k |]; [| discriminate Hg].
        exists c. split; [reflexivity |]. apply (K c (fun f0 => String.eqb (fl_name f0) k)).
        exact Hg. }
    destruct Hx as (c & Hc & Hing & Hfc). split; [| split; assumption].
    unfold ObjModel.ofield, cdef_of. rewrite Hc. apply field_named_of; [| exact Hing].
    apply (wf_names _ _ _ (wf _ _ Hc)).
  Qed.

  Lemma ref_not_plain f : is_ref (fl_fdef f) = true -> plain_field f = false.
  Proof. unfold plain_field. intros ->. reflexivity. Qed.
  Lemma ref_not_calc f : is_ref (fl_fdef f) = true -> is_calc f = false.
  Proof. unfold is_ref, is_calc. destruct (f_fstore (fl_fdef f)); try discriminate; reflexivity. Qed.
  Lemma local_ref f : is_local f = true -> is_ref (fl_fdef f) = true.
  Proof. unfold is_ref, is_local. destruct (f_fstore (fl_fdef f)); try discriminate; reflexivity. Qed.
  Lemma local_not_plain f : is_local f = true -> plain_field f = false.
  Proof. intros H. apply ref_not_plain, local_ref, H. Qed.

  (** ** What any run preserves *)
  Definition may_list (T : place) (h : heap) (o : Values.oid) (k : string) : Prop :=
    (exists f, ofield h o (initial_keypath k) = Some f /\ plain_field f = true /\
               T o (initial_keypath k)) \/
    (exists f, ofield h o k = Some f /\ is_ref (fl_fdef f) = true) \/
    (exists m, sget k (o_lkeys (h_obj h o)) = Some m).

  Record wk (T : place) (h h' : heap) : Prop := {
    wk_class : forall o, o_class (h_obj h' o) = o_class (h_obj h o);
    wk_new : forall o, o_new (h_obj h' o) = o_new (h_obj h o);
    wk_lkeys : forall o, o_lkeys (h_obj h' o) = o_lkeys (h_obj h o);
    wk_mod : forall o, o_modified (h_obj h o) = true -> o_modified (h_obj h' o) = true;
    wk_mf : forall o, incl (o_mfields (h_obj h o)) (o_mfields (h_obj h' o));
    wk_newmod : forall o, o_new (h_obj h o) = true -> o_modified (h_obj h' o) = o_modified (h_obj h o);
    wk_newmf : forall o k, o_new (h_obj h o) = true -> In k (o_mfields (h_obj h' o)) ->
      In k (o_mfields (h_obj h o)) \/
      exists f, ofield h o k = Some f /\ is_local f = true /\ is_inst_field f = true;
    wk_only : forall o k, In k (o_mfields (h_obj h' o)) ->
      In k (o_mfields (h_obj h o)) \/ may_list T h o k;
    wk_attr : forall o n f, ofield h o n = Some f -> plain_field f = true ->
      T o n \/ attr h' o n = attr h o n
  }.

  Definition noted (h' : heap) (o : Values.oid) (n : string) (f : field) : Prop :=
    (plain_field f = true -> tracked h' o n) /\ (is_local f = true -> listed h' o n).

  Definition sg (E : place) (h h' : heap) : Prop :=
    forall o n f, ofield h o n = Some f -> o_new (h_obj h o) = false ->
      E o n \/ attr h' o n = attr h o n \/ noted h' o n f.

  Definition good {A} (T E : place) (h : heap) (p : res A * heap) : Prop :=
    typed_heap (snd p) /\ wk T h (snd p) /\ (forall a, fst p = Ok a -> sg E h (snd p)).

  Definition nowhere : place := fun _ _ => False.

  Lemma wk_ofield T h h' o n : wk T h h' -> ofield h' o n = ofield h o n.
  Proof. intros H. apply ofield_class. apply (wk_class _ _ _ H). Qed.

  Lemma wk_refl T h : wk T h h.
  Proof.
    constructor; auto.
    - intros o. apply incl_refl.
  Qed.

  Lemma wk_trans T h1 h2 h3 : wk T h1 h2 -> wk T h2 h3 -> wk T h1 h3.
  Proof.
    intros A B. constructor.
    - intros o. rewrite (wk_class _ _ _ B). apply (wk_class _ _ _ A).
    - intros o. rewrite (wk_new _ _ _ B). apply (wk_new _ _ _ A).
    - intros o. rewrite (wk_lkeys _ _ _ B). apply (wk_lkeys _ _ _ A).
    - intros o H. apply (wk_mod _ _ _ B), (wk_mod _ _ _ A), H.
    - intros o. eapply incl_tran; [apply (wk_mf _ _ _ A) | apply (wk_mf _ _ _ B)].
    - intros o H. rewrite (wk_newmod _ _ _ B), (wk_newmod _ _ _ A); auto.
      rewrite (wk_new _ _ _ A). exact H.
    - intros o k H Hk. assert (H2 : o_new (h_obj h2 o) = true) by (rewrite (wk_new _ _ _ A); exact H).
      destruct (wk_newmf _ _ _ B o k H2 Hk) as [K | (f & K)]; [apply (wk_newmf _ _ _ A o k H K) |].
      right. exists f. rewrite <- (wk_ofield _ _ _ o k A). exact K.
    - intros o k Hk. destruct (wk_only _ _ _ B o k Hk) as [K | K]; [apply (wk_only _ _ _ A o k K) |].
      right. unfold may_list in *.
      rewrite !(wk_ofield _ _ _ o _ A), (wk_lkeys _ _ _ A) in K. exact K.
    - intros o n f Hf Hp. destruct (wk_attr _ _ _ A o n f Hf Hp) as [K | K]; [left; exact K |].
      assert (Hf2 : ofield h2 o n = Some f) by (rewrite (wk_ofield _ _ _ o n A); exact Hf).
      destruct (wk_attr _ _ _ B o n f Hf2 Hp) as [K2 | K2]; [left; exact K2 |].
      right. rewrite K2. exact K.
  Qed.

  Lemma wk_weaken (T T' : place) h h' :
    (forall o n f, ofield h o n = Some f -> plain_field f = true -> T o n -> T' o n) ->
    wk T h h' -> wk T' h h'.
  Proof.
    intros W A. destruct A. constructor; auto.
    - intros o k Hk. destruct (wk_only0 o k Hk) as [K | [(f & K1 & K2 & K3) | K]];
        [left; exact K | right; left | right; right; exact K].
      exists f. split; [exact K1 | split; [exact K2 |]]. apply (W _ _ f); assumption.
    - intros o n f Hf Hp. destruct (wk_attr0 o n f Hf Hp) as [K | K]; [left | right; exact K].
      apply (W _ _ f); assumption.
  Qed.

  Lemma noted_wk T h h' o n f : wk T h h' -> noted h o n f -> noted h' o n f.
  Proof.
    intros A [N1 N2].
    assert (L : listed h o n -> listed h' o n).
    { intros (k & Hk & Hi). exists k. split; [apply (wk_mf _ _ _ A); exact Hk | exact Hi]. }
    split; [intros H | auto]. destruct (N1 H) as [M K]. split; [apply (wk_mod _ _ _ A), M | auto].
  Qed.

  Lemma sg_trans T E h1 h2 h3 : wk T h1 h2 -> wk T h2 h3 -> sg E h1 h2 -> sg E h2 h3 -> sg E h1 h3.
  Proof.
    intros A B S1 S2 o n f Hf Hn.
    destruct (S1 o n f Hf Hn) as [K | [K | K]]; [left; exact K | | ].
    - assert (Hf2 : ofield h2 o n = Some f) by (rewrite (wk_ofield _ _ _ o n A); exact Hf).
      assert (Hn2 : o_new (h_obj h2 o) = false) by (rewrite (wk_new _ _ _ A); exact Hn).
      destruct (S2 o n f Hf2 Hn2) as [K2 | [K2 | K2]]; [left; exact K2 | | right; right; exact K2].
      right; left. rewrite K2. exact K.
    - right; right. eapply noted_wk; eassumption.
  Qed.

  Lemma sg_weaken (E E' : place) h h' : (forall o n, E o n -> E' o n) -> sg E h h' -> sg E' h h'.
  Proof. intros W S o n f Hf Hn. destruct (S o n f Hf Hn) as [K | K]; [left; auto | right; exact K]. Qed.

  Lemma good_weaken {A} (T T' E E' : place) h (p : res A * heap) :
    (forall o n f, ofield h o n = Some f -> plain_field f = true -> T o n -> T' o n) ->
    (forall o n, E o n -> E' o n) -> good T E h p -> good T' E' h p.
  Proof.
    intros W1 W2 (G1 & G2 & G3). split; [exact G1 | split].
    - eapply wk_weaken; eassumption.
    - intros a Ha. eapply sg_weaken; [exact W2 | eapply G3; exact Ha].
  Qed.

  Lemma good_refl {A} T E h (r : res A) : typed_heap h -> good T E h (r, h).
  Proof.
    intros H. split; [exact H | split; [apply wk_refl |]]. intros _ _ o n f _ _. right; left. reflexivity.
  Qed.

  Lemma good_pure {A} T E h (m : st heap A) : typed_heap h -> snd (m h) = h -> good T E h (m h).
  Proof. intros H E'. destruct (m h) as [r h']. cbn in E'. subst. apply good_refl. exact H. Qed.

  Lemma good_bind {A B} T E h (m : st heap A) (k : A -> st heap B) :
    good T E h (m h) ->
    (forall a h1, m h = (Ok a, h1) -> typed_heap h1 -> wk T h h1 -> good T E h1 (k a h1)) ->
    good T E h (bind m k h).
  Proof.
    intros G K. unfold bind. destruct (m h) as [[a | e] h1] eqn:E1.
    - destruct G as (G1 & G2 & G3). cbn in G1, G2, G3.
      destruct (K a h1 eq_refl G1 G2) as (K1 & K2 & K3).
      split; [exact K1 | split; [eapply wk_trans; eassumption |]].
      intros b Hb. eapply sg_trans; [exact G2 | exact K2 | apply (G3 a eq_refl) | apply (K3 b Hb)].
    - destruct G as (G1 & G2 & G3). split; [exact G1 | split; [exact G2 |]]. intros b Hb. discriminate Hb.
  Qed.

  Lemma good_gets {A B} T E h (q : heap -> A) (k : A -> st heap B) :
    good T E h (k (q h) h) -> good T E h (bind (gets q) k h).
  Proof. intros H. exact H. Qed.

  Lemma good_for {X} T E h (l : list X) (f : X -> st heap unit) :
    typed_heap h ->
    (forall x h1, In x l -> typed_heap h1 -> wk T h h1 -> good T E h1 (f x h1)) ->
    good T E h (for_st l f h).
  Proof.
    intros Ht H.
    assert (K : forall h1, typed_heap h1 -> wk T h h1 -> good T E h1 (for_st l f h1)).
    { revert H. induction l as [| x l IH]; intros H h1 Ht1 W1; cbn [for_st].
      - apply good_refl. exact Ht1.
      - apply good_bind.
        + apply H; [left; reflexivity | exact Ht1 | exact W1].
        + intros [] h2 _ Ht2 W2. apply IH.
          * intros y h3 Hy. apply H. right. exact Hy.
          * exact Ht2.
          * eapply wk_trans; eassumption. }
    apply K; [exact Ht | apply wk_refl].
  Qed.

  Lemma good_discharge {A} T (E : place) h (p : res A * heap) :
    good T E h p ->
    (forall a, fst p = Ok a -> forall o n f, E o n -> ofield h o n = Some f ->
       o_new (h_obj h o) = false -> attr (snd p) o n = attr h o n \/ noted (snd p) o n f) ->
    good T nowhere h p.
  Proof.
    intros (G1 & G2 & G3) D. split; [exact G1 | split; [exact G2 |]].
    intros a Ha o n f Hf Hn. destruct (G3 a Ha o n f Hf Hn) as [K | K]; [right | right; exact K].
    apply (D a Ha o n f K Hf Hn).
  Qed.

  (** ** One update of one object *)
  Record ostep (T E : place) (h : heap) (o : Values.oid) (b b' : obj) : Prop := {
    os_class : o_class b' = o_class b;
    os_new : o_new b' = o_new b;
    os_lkeys : o_lkeys b' = o_lkeys b;
    os_mod : o_modified b = true -> o_modified b' = true;
    os_mf : incl (o_mfields b) (o_mfields b');
    os_newmod : o_new b = true -> o_modified b' = o_modified b;
    os_newmf : forall k, o_new b = true -> In k (o_mfields b') -> In k (o_mfields b) \/
      exists f, ofield h o k = Some f /\ is_local f = true /\ is_inst_field f = true;
    os_only : forall k, In k (o_mfields b') -> In k (o_mfields b) \/ may_list T h o k;
    os_raw : forall k, In k (o_raw b') -> In k (o_raw b) \/ ofield h o k = None;
    os_attr : forall n f, ofield h o n = Some f ->
      o_attr b' n = o_attr b n \/
      ((is_ref (fl_fdef f) = true -> forall v x, o_attr b' n = Some v -> refers f v x ->
         foreign_class f = Some (o_class (h_obj h x))) /\
       (plain_field f = true -> T o n) /\
       (o_new b = false -> E o n \/
         ((plain_field f = true -> o_modified b' = true /\ exists k, In k (o_mfields b') /\ initial_keypath k = n)
          /\ (is_local f = true -> exists k, In k (o_mfields b') /\ initial_keypath k = n))))
  }.

  Lemma upd_same o F h : h_obj (upd o F h) o = F (h_obj h o).
  Proof. cbn. rewrite Nat.eqb_refl. reflexivity. Qed.
  Lemma upd_other o F h x : x <> o -> h_obj (upd o F h) x = h_obj h x.
  Proof. intros H. cbn. apply Nat.eqb_neq in H. rewrite H. reflexivity. Qed.

  Lemma good_upd T E h o F :
    typed_heap h -> ostep T E h o (h_obj h o) (F (h_obj h o)) ->
    good T E h ((Ok tt : res unit), upd o F h).
  Proof.
    intros Ht S. destruct S.
    assert (C : forall x, o_class (h_obj (upd o F h) x) = o_class (h_obj h x)).
    { intros x. destruct (Nat.eq_dec x o) as [-> | N]; [rewrite upd_same; assumption |].
      rewrite upd_other by exact N. reflexivity. }
    assert (OF : forall x n, ofield (upd o F h) x n = ofield h x n).
    { intros x n. apply ofield_class, C. }
    split; [| split]; cbn [fst snd].
    - constructor.
      + intros x n f v y Hf Hr Ha Hy. rewrite OF in Hf. rewrite C.
        destruct (Nat.eq_dec x o) as [-> | N].
        * unfold attr in Ha. rewrite upd_same in Ha.
          destruct (os_attr0 n f Hf) as [K | (K & _)].
          -- rewrite K in Ha. eapply (th_refs _ _ Ht); eassumption.
          -- eapply K; eassumption.
        * unfold attr in Ha. rewrite upd_other in Ha by exact N.
          eapply (th_refs _ _ Ht); eassumption.
      + intros x k n Hk. destruct (Nat.eq_dec x o) as [-> | N].
        * rewrite upd_same, os_lkeys0 in Hk. rewrite OF. apply (th_keys _ _ Ht). exact Hk.
        * rewrite upd_other in Hk by exact N. rewrite OF. apply (th_keys _ _ Ht). exact Hk.
      + intros x n f Hf Hl. rewrite OF in Hf. destruct (Nat.eq_dec x o) as [-> | N].
        * rewrite upd_same, os_lkeys0. apply (th_local _ _ Ht); assumption.
        * rewrite upd_other by exact N. apply (th_local _ _ Ht); assumption.
      + intros x k Hk. rewrite OF. destruct (Nat.eq_dec x o) as [-> | N].
        * rewrite upd_same in Hk. destruct (os_raw0 k Hk) as [K | K]; [| exact K].
          apply (th_raw _ _ Ht). exact K.
        * rewrite upd_other in Hk by exact N. apply (th_raw _ _ Ht). exact Hk.
    - constructor; intros x; unfold attr; (destruct (Nat.eq_dec x o) as [-> | N];
        [rewrite ?upd_same | rewrite ?upd_other by exact N]); auto; try apply incl_refl.
      intros n f Hf Hp.
      destruct (os_attr0 n f Hf) as [K | (_ & K & _)]; [right; exact K | left; auto].
    - intros _ _ x n f Hf Hn. unfold noted, tracked, listed, attr.
      destruct (Nat.eq_dec x o) as [-> | N];
        [rewrite ?upd_same | rewrite ?upd_other by exact N; right; left; reflexivity].
      destruct (os_attr0 n f Hf) as [K | (_ & _ & K)]; [right; left; exact K |].
      destruct (K Hn) as [K2 | K2]; [left; exact K2 | right; right; exact K2].
  Qed.

  (** An update that leaves the attributes and the record alone *)
  Lemma ostep_quiet T E h o b b' :
    o_class b' = o_class b -> o_new b' = o_new b -> o_lkeys b' = o_lkeys b ->
    o_modified b' = o_modified b -> o_mfields b' = o_mfields b -> o_raw b' = o_raw b ->
    o_attr b' = o_attr b -> ostep T E h o b b'.
  Proof.
    intros H1 H2 H3 H4 H5 H6 H7.
    constructor; rewrite ?H1, ?H2, ?H3, ?H4, ?H5, ?H6, ?H7; auto; try apply incl_refl.
  Qed.

  Lemma ostep_same T E h o b : ostep T E h o b b.
  Proof. apply ostep_quiet; reflexivity. Qed.

  Lemma ostep_mark T E h o b k :
    may_list T h o k ->
    ostep T E h o b (if o_new b then b else set_mfields (sadd k (o_mfields b)) (set_modified true b)).
  Proof.
    intros M. destruct (o_new b) eqn:En; [apply ostep_same |].
    constructor; cbn; auto.
    - intros x Hx. apply in_sadd. right. exact Hx.
    - rewrite En. discriminate.
    - rewrite En. discriminate.
    - intros k' Hk. apply in_sadd in Hk. destruct Hk as [-> | Hk]; [right; exact M | left; exact Hk].
  Qed.

  Lemma good_mark T E h o k : typed_heap h -> may_list T h o k -> good T E h (mark o k h).
  Proof. intros Ht M. unfold mark, updm, modify. apply good_upd; [exact Ht |]. apply ostep_mark. exact M. Qed.

  Lemma good_mark_local T E h o k : typed_heap h -> may_list T h o k -> good T E h (mark_local o k h).
  Proof.
    intros Ht M. unfold mark_local, updm, modify. apply good_upd; [exact Ht |].
    destruct (negb (o_new (h_obj h o)) && negb (sinb k (o_mfields (h_obj h o)))) eqn:En;
      [| apply ostep_same].
    apply andb_true_iff in En. destruct En as [En _]. apply negb_true_iff in En.
    pose proof (ostep_mark T E h o (h_obj h o) k M) as K. rewrite En in K. exact K.
  Qed.

  Lemma mark_noted h o k n f : o_new (h_obj h o) = false -> initial_keypath k = n ->
    noted (snd (mark o k h)) o n f.
  Proof.
    intros Hn Hk. unfold mark, updm, modify. cbn [snd].
    unfold noted, tracked, listed. rewrite upd_same, Hn. cbn.
    assert (L : exists k0, In k0 (sadd k (o_mfields (h_obj h o))) /\ initial_keypath k0 = n).
    { exists k. split; [apply in_sadd; left; reflexivity | exact Hk]. }
    split; intros _; [split; [reflexivity | exact L] | exact L].
  Qed.

  Lemma good_remember T E h o n v : typed_heap h -> good T E h (remember o n v h).
  Proof.
    intros Ht. unfold remember, updm, modify. apply good_upd; [exact Ht |].
    destruct (smem n (o_prev (h_obj h o))); apply ostep_quiet; reflexivity.
  Qed.

  Lemma good_add_unlinked T E h o n x : typed_heap h -> good T E h (add_unlinked oeq o n x h).
  Proof. intros Ht. unfold add_unlinked, modify. apply good_upd; [exact Ht |]. apply ostep_quiet; reflexivity. Qed.

  Lemma good_del_unlinked T E h o n x : typed_heap h -> good T E h (del_unlinked oeq o n x h).
  Proof. intros Ht. unfold del_unlinked, modify. apply good_upd; [exact Ht |]. apply ostep_quiet; reflexivity. Qed.

  (** Writing one attribute *)
  Lemma ostep_attr (T E : place) h o b n v :
    (forall f, ofield h o n = Some f ->
      (is_ref (fl_fdef f) = true -> forall x, refers f v x ->
         foreign_class f = Some (o_class (h_obj h x))) /\
      (plain_field f = true -> T o n) /\
      (o_new b = false -> E o n \/
         ((plain_field f = true -> o_modified b = true /\ exists k, In k (o_mfields b) /\ initial_keypath k = n)
          /\ (is_local f = true -> exists k, In k (o_mfields b) /\ initial_keypath k = n)))) ->
    ostep T E h o b (set_attr n v b).
  Proof.
    intros H. constructor; cbn; auto; try apply incl_refl.
    intros m f Hf. destruct (String.eqb m n) eqn:Em; [| left; reflexivity].
    apply String.eqb_eq in Em. subst m. right. destruct (H f Hf) as (H1 & H2 & H3).
    split; [| split; assumption]. intros Hr v' x Hv Hx. inversion Hv; subst v'. apply H1; assumption.
  Qed.

  Lemma good_attr (T E : place) h o n v :
    typed_heap h ->
    (forall f, ofield h o n = Some f ->
      (is_ref (fl_fdef f) = true -> forall x, refers f v x ->
         foreign_class f = Some (o_class (h_obj h x))) /\
      (plain_field f = true -> T o n) /\
      (o_new (h_obj h o) = false -> E o n \/ noted h o n f)) ->
    good T E h (updm o (set_attr n v) h).
  Proof. intros Ht H. unfold updm, modify. apply good_upd; [exact Ht |]. apply ostep_attr. exact H. Qed.

  Lemma good_attr_nofield T E h o n v :
    typed_heap h -> ofield h o n = None -> good T E h (updm o (set_attr n v) h).
  Proof. intros Ht H. apply good_attr; [exact Ht |]. intros f Hf. rewrite H in Hf. discriminate Hf. Qed.

  Lemma good_store_keys T E h o k l :
    typed_heap h -> ofield h o k = None -> good T E h (store_keys o k l h).
  Proof.
    intros Ht H. unfold store_keys, updm, modify. apply good_upd; [exact Ht |].
    constructor; cbn; auto; try apply incl_refl.
    - intros x Hx. apply filter_In in Hx. left. apply Hx.
    - intros n f Hf. destruct (String.eqb n k) eqn:En; [| left; reflexivity].
      apply String.eqb_eq in En. subst. rewrite H in Hf. discriminate Hf.
  Qed.

  Lemma good_set_plain T E h o n v :
    typed_heap h -> ofield h o n = None -> good T E h (set_plain o n v h).
  Proof.
    intros Ht H. unfold set_plain, updm, modify. apply good_upd; [exact Ht |].
    constructor; cbn; auto; try apply incl_refl.
    - intros x Hx.
      assert (K : In x (filter (fun m => negb (String.eqb m n)) (o_raw (h_obj h o))) \/ x = n).
      { destruct v; try (left; exact Hx).
        apply in_app_or in Hx. destruct Hx as [Hx | [Hx | []]]; [left; exact Hx | right; auto]. }
      destruct K as [K | ->]; [left; apply filter_In in K; apply K | right; exact H].
    - intros m f Hf. destruct (String.eqb m n) eqn:En; [| left; reflexivity].
      apply String.eqb_eq in En. subst. rewrite H in Hf. discriminate Hf.
  Qed.

  Lemma good_put (T E : place) h o a p c :
    typed_heap h ->
    (forall f, ofield h o a = Some f ->
      (is_ref (fl_fdef f) = true -> p = [] /\ forall x, refers f c x ->
         foreign_class f = Some (o_class (h_obj h x))) /\
      (plain_field f = true -> T o a) /\
      (o_new (h_obj h o) = false -> E o a \/ noted h o a f)) ->
    good T E h (modify (put_at o a p c) h).
  Proof.
    intros Ht H. unfold modify, put_at. destruct (attr h o a) as [v |]; [| apply good_refl; exact Ht].
    apply (good_attr T E h o a (vput p c v) Ht). intros f Hf. destruct (H f Hf) as (H1 & H2 & H3).
    split; [| split; assumption]. intros Hr. destruct (H1 Hr) as [-> K]. cbn [vput]. exact K.
  Qed.

  (** ** Tasks stay well typed *)
  Lemma typed_task_wk T h h' t : wk T h h' -> typed_task h t -> typed_task h' t.
  Proof.
    intros W. pose proof (wk_class _ _ _ W) as C. pose proof (wk_lkeys _ _ _ W) as L.
    assert (OF : forall o n, ofield h' o n = ofield h o n) by (intros; apply (wk_ofield T); exact W).
    destruct t as [o n v | o f v | o f v | o a p lab op | o a p lab op]; cbn [ObjSpec.typed_task].
    - intros [(f & H1 & H2 & H3) | (H1 & m & H2)].
      + left. exists f. rewrite OF. split; [exact H1 | split; [exact H2 |]].
        intros Hr b Hb. rewrite C. auto.
      + right. rewrite OF, L. split; [exact H1 | exists m; exact H2].
    - intros (H1 & H2 & H3). rewrite OF. split; [exact H1 | split; [exact H2 |]].
      intros b Hb. rewrite C. auto.
    - intros (H1 & H2 & H3). rewrite OF. split; [exact H1 | split; [exact H2 |]].
      intros b Hb. rewrite C. auto.
    - intros [(f & H) | [(f & H1 & H2 & H3 & H4 & H5) | (H1 & H2 & H3 & m & H4)]].
      + left. exists f. rewrite OF. exact H.
      + right; left. exists f. rewrite OF. repeat (split; [assumption |]).
        intros b Hb. rewrite C. auto.
      + right; right. rewrite OF, L. repeat (split; [assumption |]). exists m. exact H4.
    - intros (f & H). exists f. rewrite OF. exact H.
  Qed.

  (** ** The methods, given that the calls they make are good *)
  Section Rec.
    Context (rec : task -> st heap unit).
    Hypothesis IH : forall t h, typed_heap h -> typed_task h t -> silent t = false ->
      good (touches t) nowhere h (rec t h).

    Lemma rec_ref (T : place) h t :
      typed_heap h -> typed_task h t -> silent t = false ->
      (forall o n f, ofield h o n = Some f -> plain_field f = true -> touches t o n -> T o n) ->
      good T nowhere h (rec t h).
    Proof.
      intros Ht Htt Hs W. eapply good_weaken; [exact W | | apply IH; assumption]. intros o n H. exact H.
    Qed.

    (** No plain field is touched by a task on a reference or a stored key. *)
    Lemma touch_absurd h (P : Prop) o n f o' n' :
      ofield h o n = Some f -> plain_field f = true -> o = o' /\ n = n' ->
      (ofield h o' n' = None \/ exists g, ofield h o' n' = Some g /\ is_ref (fl_fdef g) = true) -> P.
    Proof.
      intros Hf Hp [-> ->] [K | (g & K & Hr)]; rewrite K in Hf; [discriminate Hf |].
      inversion Hf; subst g. rewrite (ref_not_plain _ Hr) in Hp. discriminate Hp.
    Qed.

    Lemma E_nowhere (E : place) : forall o n, nowhere o n -> E o n.
    Proof. intros o n []. Qed.

    Lemma good_record_previous T E h o f : typed_heap h -> good T E h (record_previous ct getter o f h).
    Proof.
      intros Ht. unfold record_previous. apply good_gets.
      destruct (resettable ct h o f); [| apply good_refl; exact Ht].
      destruct (has_linked _ _); [apply good_refl; exact Ht |]. apply good_gets.
      destruct (smem _ _); [apply good_refl; exact Ht |].
      assert (K : good T E h
        ((do* v <- getattr ct getter o (fl_name f);
          do* c <- lift (copy_for f v);
          match c with Some c => remember o (fl_name f) c | None => ret tt end) h)).
      { apply good_bind.
        - apply good_pure; [exact Ht |]. unfold getattr. destruct (ofield h o (fl_name f)) as [f' |];
            [destruct (is_calc f') |]; reflexivity.
        - intros v h1 _ Ht1 _. apply good_bind; [apply good_pure; [exact Ht1 | reflexivity] |].
          intros [c |] h2 _ Ht2 _; [apply good_remember; exact Ht2 | apply good_refl; exact Ht2]. }
      destruct (f_ftype (fl_fdef f)) as [[] |]; first [exact K | apply good_refl; exact Ht].
    Qed.

    Lemma good_olist_will T E h o lab : typed_heap h -> good T E h (olist_will ct getter o lab h).
    Proof.
      intros Ht. unfold olist_will. apply good_gets. destruct (ofield h o _);
        [apply good_record_previous | apply good_refl]; exact Ht.
    Qed.
    Lemma good_odict_will T E h o lab : typed_heap h -> good T E h (odict_will ct getter o lab h).
    Proof.
      intros Ht. unfold odict_will. apply good_gets. destruct (ofield h o _);
        [apply good_record_previous | apply good_refl]; exact Ht.
    Qed.

    Lemma len_at_pure o a p h : snd (len_at o a p h) = h.
    Proof. unfold len_at. destruct (attr_at h o a p) as [[] |]; reflexivity. Qed.
    Lemma vid_pure x h : snd (vid ct x h) = h.
    Proof. destruct x; reflexivity. Qed.
    Lemma getattr_pure o n h : snd (getattr ct getter o n h) = h.
    Proof.
      unfold getattr. destruct (ofield h o n) as [f |]; [destruct (is_calc f) |]; reflexivity.
    Qed.
    Lemma bind_pure {A B} (m : st heap A) (k : A -> st heap B) h :
      snd (m h) = h -> (forall a, snd (k a h) = h) -> snd (bind m k h) = h.
    Proof.
      intros H K. unfold bind. destruct (m h) as [[a | e] h1]; cbn in H; subst; [apply K | reflexivity].
    Qed.
    Lemma first_with_id_pure v l h : snd (first_with_id ct oeq v l h) = h.
    Proof.
      induction l as [| x l IHl]; [reflexivity |]. cbn [first_with_id].
      apply bind_pure; [apply vid_pure |]. intros i. apply bind_pure; [reflexivity |].
      intros [|]; [reflexivity | exact IHl].
    Qed.
    Lemma keys_of_pure l h : snd (keys_of ct l h) = h.
    Proof.
      induction l as [| x l IHl]; [reflexivity |]. cbn [keys_of]. destruct (is_none x); [exact IHl |].
      apply bind_pure; [apply vid_pure |]. intros i. apply bind_pure; [exact IHl |]. reflexivity.
    Qed.
    Lemma pick_by_ids_pure ids l h : snd (pick_by_ids ct oeq ids l h) = h.
    Proof.
      induction ids as [| x ids IHl]; [reflexivity |]. cbn [pick_by_ids].
      apply bind_pure; [apply first_with_id_pure |]. intros i. apply bind_pure; [exact IHl |]. reflexivity.
    Qed.

    (** What the reports of a list may be about *)
    Definition list_place (h : heap) (o : Values.oid) (a : string) (p : path) (lab : string) : Prop :=
      (exists f, ofield h o a = Some f /\ plain_field f = true /\ initial_keypath lab = a)
      \/ (exists f, ofield h o a = Some f /\ is_ref (fl_fdef f) = true /\ p = [] /\ lab = a)
      \/ (ofield h o a = None /\ p = [] /\ lab = a /\
            exists m, sget a (o_lkeys (h_obj h o)) = Some m).

    Definition item_ok (h : heap) (o : Values.oid) (a : string) (x : value) : Prop :=
      forall f b, ofield h o a = Some f -> is_ref (fl_fdef f) = true -> x = VObj b ->
        f_ftype (fl_fdef f) = Some FTList -> foreign_class f = Some (o_class (h_obj h b)).

    Lemma list_place_wk T h h' o a p lab : wk T h h' -> list_place h o a p lab -> list_place h' o a p lab.
    Proof.
      intros W. unfold list_place. rewrite (wk_ofield _ _ _ o a W), (wk_lkeys _ _ _ W o). auto.
    Qed.
    Lemma item_ok_wk T h h' o a x : wk T h h' -> item_ok h o a x -> item_ok h' o a x.
    Proof.
      intros W H f b Hf Hr Hx Hl. rewrite (wk_ofield _ _ _ o a W) in Hf. rewrite (wk_class _ _ _ W).
      eapply H; eassumption.
    Qed.

    (** the label of a plain list is no stored key *)
    Lemma plain_lab h o a f lab : typed_heap h -> ofield h o a = Some f -> plain_field f = true ->
      initial_keypath lab = a -> sget lab (o_lkeys (h_obj h o)) = None /\
      (forall g, ofield h o lab = Some g -> g = f).
    Proof.
      intros Ht Hf Hp Hl. destruct (ofield_in _ _ _ _ Hf) as (d & Hd & Hin & Hn & W). split.
      - destruct (sget lab (o_lkeys (h_obj h o))) as [m |] eqn:E; [| reflexivity].
        destruct (th_keys _ _ Ht _ _ _ E) as (g & Hg & Hlg & Hrg).
        destruct (ofield_in _ _ _ _ Hg) as (d' & Hd' & Hing & Hng & _).
        rewrite Hd in Hd'. inversion Hd'; subst d'.
        exfalso. apply (wf_refname _ _ _ W g f Hing Hin Hlg).
        rewrite <- (wf_refdot _ _ _ W g Hing), Hrg, Hl. symmetry. exact Hn.
      - intros g Hg. destruct (ofield_in _ _ _ _ Hg) as (d' & Hd' & Hing & Hng & _).
        rewrite Hd in Hd'. inversion Hd'; subst d'.
        assert (lab = a).
        { rewrite <- Hng, <- (wf_nodot _ _ _ W g Hing), Hng. exact Hl. }
        subst lab. congruence.
    Qed.

    Definition pl (o : Values.oid) (a : string) : place := fun x n => x = o /\ n = a.

    Lemma may_list_place h o a p lab : list_place h o a p lab -> ofield h o a <> None ->
      may_list (pl o a) h o lab.
    Proof.
      intros [(f & H1 & H2 & H3) | [(f & H1 & H2 & H3 & H4) | (H1 & _)]] Hn.
      - left. exists f. rewrite H3. split; [exact H1 | split; [exact H2 | split; reflexivity]].
      - right; left. exists f. subst lab. split; assumption.
      - congruence.
    Qed.

    Lemma may_list_ref T h o n f : ofield h o n = Some f -> is_ref (fl_fdef f) = true -> may_list T h o n.
    Proof. intros H1 H2. right; left. exists f. split; assumption. Qed.

    Lemma place_lk h o a p lab m : typed_heap h -> list_place h o a p lab ->
      local_field_of h o lab = Some m ->
      ofield h o a = None /\ lab = a /\ p = [] /\
      exists f, ofield h o m = Some f /\ is_local f = true /\ fl_ref f = a.
    Proof.
      intros Ht HL E. unfold local_field_of in E.
      destruct HL as [(f & H1 & H2 & H3) | [(f & H1 & H2 & H3 & H4) | (H1 & H2 & H3 & m' & H4)]].
      - destruct (plain_lab h o a f lab Ht H1 H2 H3) as [K _]. congruence.
      - subst lab. destruct (th_keys _ _ Ht _ _ _ E) as (g & Hg & Hlg & Hrg).
        pose proof (ofield_ref _ _ _ _ Hg Hlg) as K. rewrite Hrg in K. congruence.
      - subst lab. split; [exact H1 | split; [reflexivity | split; [exact H2 |]]].
        apply (th_keys _ _ Ht _ _ _ E).
    Qed.

    Lemma place_nolk h o a p lab : typed_heap h -> list_place h o a p lab ->
      local_field_of h o lab = None -> ofield h o a <> None.
    Proof.
      intros Ht [(f & H1 & _) | [(f & H1 & _) | (H1 & H2 & H3 & m' & H4)]] E; try congruence.
      subst lab. unfold local_field_of in E. congruence.
    Qed.

    Lemma good_olist_add h o a p lab i x :
      typed_heap h -> list_place h o a p lab -> item_ok h o a x ->
      good (pl o a) nowhere h (olist_add ct rec o a p lab i x h).
    Proof.
      intros Ht HL HI. unfold olist_add. apply good_gets.
      destruct (local_field_of h o lab) as [m |] eqn:E.
      - destruct (place_lk _ _ _ _ _ _ Ht HL E) as (_ & _ & _ & f & Hf & Hl & _).
        apply good_mark_local; [exact Ht |]. eapply may_list_ref; [exact Hf | apply local_ref, Hl].
      - pose proof (place_nolk _ _ _ _ _ Ht HL E) as Hne.
        apply good_gets. apply good_bind.
        + destruct (ofield h o lab) as [f |] eqn:Ef; [| apply good_refl; exact Ht].
          destruct (is_ref (fl_fdef f)) eqn:Er; [| apply good_refl; exact Ht].
          (* the label is the name of a reference list *)
          assert (Hlab : lab = a /\ p = []).
          { destruct HL as [(g & H1 & H2 & H3) | [(g & H1 & H2 & H3 & H4) | (H1 & _)]]; [| auto | congruence].
            destruct (plain_lab h o a g lab Ht H1 H2 H3) as [_ K]. specialize (K f Ef). subst g.
            rewrite (ref_not_plain _ Er) in H2. discriminate H2. }
          destruct Hlab as [-> ->].
          assert (Hfn : fl_name f = a) by (destruct (ofield_in _ _ _ _ Ef) as (d & _ & _ & Hn & _); exact Hn).
          apply good_bind.
          * apply rec_ref; [exact Ht | | reflexivity |].
            -- cbn. rewrite Hfn. split; [exact Ef | split; [exact Er |]].
               intros b Hb. unfold refers, link_items in Hb.
               destruct (f_ftype (fl_fdef f)) as [[] |] eqn:Et; try (destruct Hb; fail).
               destruct Hb as [Hb | []]. apply (HI f b Ef Er Hb Et).
            -- intros o' n' f' _ _ [].
          * intros [] h1 _ Ht1 W1. destruct (is_local f) eqn:El; [| apply good_refl; exact Ht1].
            apply good_bind; [apply good_pure; [exact Ht1 | apply len_at_pure] |].
            intros n h2 _ Ht2 W2.
            apply good_bind; [apply good_pure; [exact Ht2 | apply len_at_pure] |].
            intros n' h3 _ Ht3 W3.
            destruct (n =? n'); [apply good_refl; exact Ht3 |].
            apply good_bind; [apply good_pure; [exact Ht3 | apply vid_pure] |].
            intros j h4 _ Ht4 W4. destruct (is_none j); [apply good_refl; exact Ht4 |].
            assert (W14 : wk (pl o a) h h4).
            { eapply wk_trans; [exact W1 |]. eapply wk_trans; [exact W2 |].
              eapply wk_trans; [exact W3 | exact W4]. }
            assert (Ef4 : ofield h4 o a = Some f) by (rewrite (wk_ofield _ _ _ _ _ W14); exact Ef).
            pose proof (ofield_ref _ _ _ _ Ef4 El) as Hnone.
            apply rec_ref; [exact Ht4 | | reflexivity |].
            -- cbn. right; right. split; [exact Hnone | split; [reflexivity | split; [reflexivity |]]].
               exists a. apply (th_local _ _ Ht4 o a f Ef4 El).
            -- intros o' m' f' H1 H2 H3. eapply touch_absurd; [exact H1 | exact H2 | exact H3 |].
               left. exact Hnone.
        + intros [] h1 _ Ht1 W1. apply good_bind.
          * assert (K : forall v, match v with VDict _ | VList _ => True | _ => False end ->
                     v = x -> good (pl o a) nowhere h1 (rec (TOp o a p lab (LSetInt i x)) h1)).
            { intros v Hv ->. apply rec_ref; [exact Ht1 | | reflexivity |].
              - apply (typed_task_wk _ _ _ _ W1). cbn [ObjSpec.typed_task].
                destruct HL as [HL | [(f & H1 & H2 & H3 & H4) | HL]]; [left; exact HL | | right; right; exact HL].
                right; left. exists f. repeat (split; [assumption |]).
                cbn [op_items]. intros b Hb. unfold refers, link_items in Hb.
                destruct (f_ftype (fl_fdef f)) as [[] |]; try (destruct Hb; fail).
                destruct Hb as [Hb | []]. subst x. destruct Hv.
              - intros o' n' f' H1 H2 H3. exact H3. }
            destruct x; try (apply good_refl; exact Ht1);
              (eapply K; [| reflexivity]; exact I).
          * intros [] h2 _ Ht2 W2. apply good_mark; [exact Ht2 |].
            apply may_list_place with (p := p).
            -- eapply list_place_wk; [exact (wk_trans _ _ _ _ W1 W2) | exact HL].
            -- rewrite (wk_ofield _ _ _ _ _ W2), (wk_ofield _ _ _ _ _ W1). exact Hne.
    Qed.

    Lemma good_olist_del h o a p lab x :
      typed_heap h -> list_place h o a p lab -> item_ok h o a x ->
      good (pl o a) nowhere h (olist_del ct oeq getter rec o a p lab x h).
    Proof.
      intros Ht HL HI. unfold olist_del. apply good_gets.
      destruct (local_field_of h o lab) as [m |] eqn:E.
      - destruct (place_lk _ _ _ _ _ _ Ht HL E) as (_ & _ & _ & f & Hf & Hl & _).
        apply good_bind.
        { apply good_mark_local; [exact Ht |]. eapply may_list_ref; [exact Hf | apply local_ref, Hl]. }
        intros [] h1 _ Ht1 W1.
        apply good_bind; [apply good_pure; [exact Ht1 | apply getattr_pure] |].
        intros v h2 Eg Ht2 W2.
        assert (h2 = h1) by (pose proof (getattr_pure o m h1) as P; rewrite Eg in P; exact P). subst h2.
        destruct v as [ | | | | | | | | l | | | ]; try (apply good_refl; exact Ht1).
        apply good_bind; [apply good_pure; [exact Ht1 | apply len_at_pure] |].
        intros k h3 E3 Ht3 _.
        assert (h3 = h1) by (pose proof (len_at_pure o a p h1) as P; rewrite E3 in P; exact P). subst h3.
        destruct (_ =? k); [apply good_refl; exact Ht1 |].
        apply good_bind; [apply good_pure; [exact Ht1 | apply first_with_id_pure] |].
        intros r h4 E4 Ht4 _.
        assert (h4 = h1) by (pose proof (first_with_id_pure x l h1) as P; rewrite E4 in P; exact P). subst h4.
        destruct r as [v |]; [| apply good_refl; exact Ht1].
        assert (Hf1 : ofield h1 o m = Some f) by (rewrite (wk_ofield _ _ _ _ _ W1); exact Hf).
        apply rec_ref; [exact Ht1 | | reflexivity |].
        + cbn [ObjSpec.typed_task]. right; left. exists f.
          split; [exact Hf1 | split; [apply local_ref, Hl | split; [reflexivity | split; [reflexivity |]]]].
          cbn [op_items]. intros b Hb. unfold refers, link_items in Hb.
          destruct (f_ftype (fl_fdef f)) as [[] |] eqn:Et; try (destruct Hb; fail).
          destruct Hb as [Hb | []]. subst v.
          assert (Hin : In (VObj b) l).
          { clear - E4. revert E4. induction l as [| y l IHl]; cbn [first_with_id]; [discriminate |].
            unfold bind at 1. destruct (vid ct y h1) as [[i | e] h2] eqn:Ev; [| discriminate].
            assert (h2 = h1) by (pose proof (vid_pure y h1) as P; rewrite Ev in P; exact P). subst h2.
            unfold bind, gets. destruct (eqv oeq h1 i x); intros H.
            - unfold ret in H. inversion H; subst. left. reflexivity.
            - right. apply IHl. exact H. }
          assert (Ha : attr h1 o m = Some (VList l)).
          { unfold getattr in Eg. rewrite Hf1 in Eg. rewrite (ref_not_calc _ (local_ref _ Hl)) in Eg.
            destruct (attr h1 o m) as [w |]; inversion Eg. reflexivity. }
          apply (th_refs _ _ Ht1 o m f (VList l) b Hf1 (local_ref _ Hl) Ha).
          unfold refers, link_items. rewrite Et. exact Hin.
        + intros o' n' f' H1 H2 H3. eapply touch_absurd; [exact H1 | exact H2 | exact H3 |].
          right. exists f. split; [exact Hf1 | apply local_ref, Hl].
      - pose proof (place_nolk _ _ _ _ _ Ht HL E) as Hne.
        apply good_gets. apply good_bind.
        + destruct (ofield h o lab) as [f |] eqn:Ef; [| apply good_refl; exact Ht].
          destruct (is_ref (fl_fdef f)) eqn:Er; [| apply good_refl; exact Ht].
          assert (Hlab : lab = a /\ p = []).
          { destruct HL as [(g & H1 & H2 & H3) | [(g & H1 & H2 & H3 & H4) | (H1 & _)]]; [| auto | congruence].
            destruct (plain_lab h o a g lab Ht H1 H2 H3) as [_ K]. specialize (K f Ef). subst g.
            rewrite (ref_not_plain _ Er) in H2. discriminate H2. }
          destruct Hlab as [-> ->].
          assert (Hfn : fl_name f = a) by (destruct (ofield_in _ _ _ _ Ef) as (d & _ & _ & Hn & _); exact Hn).
          apply good_bind.
          * apply rec_ref; [exact Ht | | reflexivity |].
            -- cbn. rewrite Hfn. split; [exact Ef | split; [exact Er |]].
               intros b Hb. unfold refers, link_items in Hb.
               destruct (f_ftype (fl_fdef f)) as [[] |] eqn:Et; try (destruct Hb; fail).
               destruct Hb as [Hb | []]. apply (HI f b Ef Er Hb Et).
            -- intros o' n' f' _ _ [].
          * intros [] h1 _ Ht1 W1. destruct (is_local f) eqn:El; [| apply good_refl; exact Ht1].
            apply good_bind; [apply good_pure; [exact Ht1 | apply len_at_pure] |].
            intros n h2 _ Ht2 W2.
            apply good_bind; [apply good_pure; [exact Ht2 | apply len_at_pure] |].
            intros n' h3 _ Ht3 W3.
            destruct (n =? n'); [apply good_refl; exact Ht3 |].
            destruct (is_none x); [apply good_refl; exact Ht3 |].
            apply good_bind; [apply good_pure; [exact Ht3 | apply vid_pure] |].
            intros j h4 _ Ht4 W4. apply good_gets.
            match goal with |- good _ _ _ ((if ?c then _ else _) _) => destruct c end;
              [| apply good_refl; exact Ht4].
            assert (W14 : wk (pl o a) h h4).
            { eapply wk_trans; [exact W1 |]. eapply wk_trans; [exact W2 |].
              eapply wk_trans; [exact W3 | exact W4]. }
            assert (Ef4 : ofield h4 o a = Some f) by (rewrite (wk_ofield _ _ _ _ _ W14); exact Ef).
            pose proof (ofield_ref _ _ _ _ Ef4 El) as Hnone.
            apply rec_ref; [exact Ht4 | | reflexivity |].
            -- cbn. right; right. split; [exact Hnone | split; [reflexivity | split; [reflexivity |]]].
               exists a. apply (th_local _ _ Ht4 o a f Ef4 El).
            -- intros o' m' f' H1 H2 H3. eapply touch_absurd; [exact H1 | exact H2 | exact H3 |].
               left. exact Hnone.
        + intros [] h1 _ Ht1 W1. apply good_mark; [exact Ht1 |].
          apply may_list_place with (p := p).
          * eapply list_place_wk; [exact W1 | exact HL].
          * rewrite (wk_ofield _ _ _ _ _ W1). exact Hne.
    Qed.

    Lemma good_list_event h o a p lab e :
      typed_heap h -> list_place h o a p lab ->
      (forall x, match fst e with CAdd _ y | CDel (Some y) => x = y | _ => False end -> item_ok h o a x) ->
      good (pl o a) nowhere h (list_event ct oeq getter rec o a p lab e h).
    Proof.
      intros Ht HL HI. unfold list_event. destruct (fst e) as [| i x | [x |] |].
      - apply good_refl. exact Ht.
      - apply good_olist_add; [exact Ht | exact HL | apply HI; reflexivity].
      - apply good_olist_del; [exact Ht | exact HL | apply HI; reflexivity].
      - apply good_olist_del; [exact Ht | exact HL |]. intros f b _ _ Hx. discriminate Hx.
      - unfold olist_sor.
        destruct (local_field_of h o lab) as [m |] eqn:E.
        + destruct (place_lk _ _ _ _ _ _ Ht HL E) as (Hn & -> & _).
          apply good_mark; [exact Ht |]. right; right. exists m. exact E.
        + apply good_mark; [exact Ht |]. apply may_list_place with (p := p); [exact HL |].
          apply (place_nolk _ _ _ _ _ Ht HL E).
    Qed.

    Lemma bind_ok {A B} (m : st heap A) (k : A -> st heap B) h b h' :
      bind m k h = (Ok b, h') -> exists a h1, m h = (Ok a, h1) /\ k a h1 = (Ok b, h').
    Proof.
      unfold bind. destruct (m h) as [[a | e] h1]; intros H; [| discriminate H].
      exists a, h1. split; [reflexivity | exact H].
    Qed.

    Lemma mark_noted_after h h' o k n f : mark o k h = (Ok tt, h') -> o_new (h_obj h' o) = false ->
      initial_keypath k = n -> noted h' o n f.
    Proof.
      intros Hm Hn Hk. assert (Hn0 : o_new (h_obj h o) = false).
      { unfold mark, updm, modify in Hm. inversion Hm; subst h'. rewrite upd_same in Hn.
        destruct (o_new (h_obj h o)) eqn:E; [congruence | reflexivity]. }
      pose proof (mark_noted h o k n f Hn0 Hk) as K. rewrite Hm in K. exact K.
    Qed.

    Lemma place_initial h o a p lab : list_place h o a p lab -> ofield h o a <> None ->
      initial_keypath lab = a.
    Proof.
      intros [(f & H1 & H2 & H3) | [(f & H1 & H2 & H3 & H4) | (H1 & _)]] Hn; [exact H3 | | congruence].
      subst lab. destruct (ofield_in _ _ _ _ H1) as (d & _ & Hin & Hnm & W). subst a.
      apply (wf_nodot _ _ _ W f Hin).
    Qed.

    Definition items_ok (h : heap) (o : Values.oid) (a : string) (e : ev value) : Prop :=
      forall x, match fst e with CAdd _ y | CDel (Some y) => x = y | _ => False end -> item_ok h o a x.

    Lemma event_noted h h' o a p lab e f :
      typed_heap h -> list_place h o a p lab -> items_ok h o a e ->
      list_event ct oeq getter rec o a p lab e h = (Ok tt, h') -> is_will e = false ->
      ofield h o a = Some f -> o_new (h_obj h o) = false -> noted h' o a f.
    Proof.
      intros Ht HL HI He Hw Hf Hn.
      pose proof (good_list_event h o a p lab e Ht HL HI) as G. rewrite He in G.
      destruct G as (_ & W & _). cbn [snd] in W.
      assert (Hn' : o_new (h_obj h' o) = false) by (rewrite (wk_new _ _ _ W); exact Hn).
      assert (Hi : initial_keypath lab = a).
      { apply (place_initial h o a p lab HL). rewrite Hf. discriminate. }
      assert (Hlk : local_field_of h o lab = None).
      { destruct (local_field_of h o lab) as [m |] eqn:E; [| reflexivity].
        destruct (place_lk _ _ _ _ _ _ Ht HL E) as (K & _). congruence. }
      assert (D : forall x, olist_del ct oeq getter rec o a p lab x h = (Ok tt, h') -> noted h' o a f).
      { intros x Hx. unfold olist_del in Hx.
        apply bind_ok in Hx. destruct Hx as (lk & h1 & E1 & Hx). unfold gets in E1. inversion E1; subst lk h1.
        rewrite Hlk in Hx.
        apply bind_ok in Hx. destruct Hx as (fo & h1 & E2 & Hx).
        apply bind_ok in Hx. destruct Hx as (u & h2 & E3 & Hx).
        eapply mark_noted_after; eassumption. }
      unfold list_event in He. unfold is_will in Hw. destruct (fst e) as [| i x | [x |] |].
      - discriminate Hw.
      - unfold olist_add in He.
        apply bind_ok in He. destruct He as (lk & h1 & E1 & Hx). unfold gets in E1. inversion E1; subst lk h1.
        rewrite Hlk in Hx.
        apply bind_ok in Hx. destruct Hx as (fo & h1 & E2 & Hx).
        apply bind_ok in Hx. destruct Hx as (u & h2 & E3 & Hx).
        apply bind_ok in Hx. destruct Hx as (u' & h3 & E4 & Hx).
        eapply mark_noted_after; eassumption.
      - apply (D x). exact He.
      - apply (D VNone). exact He.
      - unfold olist_sor in He. eapply mark_noted_after; eassumption.
    Qed.

    Lemma events_noted o a p lab f es : forall h h',
      typed_heap h -> list_place h o a p lab -> (forall e, In e es -> items_ok h o a e) ->
      for_st es (list_event ct oeq getter rec o a p lab) h = (Ok tt, h') ->
      reports es = true -> ofield h o a = Some f -> o_new (h_obj h o) = false -> noted h' o a f.
    Proof.
      induction es as [| e es IHes]; intros h h' Ht HL HI HF Hr Hf Hn; [discriminate Hr |].
      cbn [for_st] in HF. apply bind_ok in HF. destruct HF as ([] & h1 & E1 & HF).
      pose proof (good_list_event h o a p lab e Ht HL (HI e (or_introl eq_refl))) as G.
      rewrite E1 in G. destruct G as (Ht1 & W1 & _). cbn [snd] in Ht1, W1.
      assert (HL1 : list_place h1 o a p lab) by (eapply list_place_wk; eassumption).
      assert (HI1 : forall e', In e' es -> items_ok h1 o a e').
      { intros e' He' x Hx. eapply item_ok_wk; [exact W1 |]. apply (HI e'); [right; exact He' | exact Hx]. }
      destruct (is_will e) eqn:Ew.
      - apply (IHes h1 h'); try assumption.
        + cbn in Hr. rewrite Ew in Hr. exact Hr.
        + rewrite (wk_ofield _ _ _ _ _ W1). exact Hf.
        + rewrite (wk_new _ _ _ W1). exact Hn.
      - assert (N1 : noted h1 o a f).
        { eapply event_noted; [exact Ht | exact HL | apply HI; left; reflexivity | exact E1 | exact Ew | exact Hf | exact Hn]. }
        assert (G : good (pl o a) nowhere h1 (for_st es (list_event ct oeq getter rec o a p lab) h1)).
        { apply good_for; [exact Ht1 |]. intros e' h2 He' Ht2 W2. apply good_list_event; [exact Ht2 | |].
          - eapply list_place_wk; eassumption.
          - intros x Hx. eapply item_ok_wk; [exact W2 |]. apply (HI1 e' He' x Hx). }
        rewrite HF in G. destruct G as (_ & W2 & _). eapply noted_wk; [exact W2 | exact N1].
    Qed.

    Lemma record_previous_attr o f h x n :
      attr (snd (record_previous ct getter o f h)) x n = attr h x n.
    Proof.
      unfold record_previous, bind, gets, lift. destruct (resettable ct h o f); [| reflexivity].
      destruct (has_linked _ _); [reflexivity |]. destruct (smem _ _); [reflexivity |].
      destruct (f_ftype (fl_fdef f)) as [[] |]; try reflexivity.
      all: pose proof (getattr_pure o (fl_name f) h) as P;
        destruct (getattr ct getter o (fl_name f) h) as [[v | e] h1]; cbn in P; subst h1; [| reflexivity];
        destruct (copy_for f v) as [[c |] | e]; try reflexivity.
      all: unfold remember, updm, modify, attr; cbn [snd];
        (destruct (Nat.eq_dec x o) as [-> | N]; [rewrite upd_same | rewrite upd_other by exact N; reflexivity]);
        destruct (smem _ _); reflexivity.
    Qed.

    Lemma olist_will_attr o lab h x n : attr (snd (olist_will ct getter o lab h)) x n = attr h x n.
    Proof.
      unfold olist_will, bind, gets. destruct (ofield h o _); [apply record_previous_attr | reflexivity].
    Qed.
    Lemma odict_will_attr o lab h x n : attr (snd (odict_will ct getter o lab h)) x n = attr h x n.
    Proof.
      unfold odict_will, bind, gets. destruct (ofield h o _); [apply record_previous_attr | reflexivity].
    Qed.

    Lemma replace_nth_same {A} : forall (l : list A) i x, nth_error l i = Some x -> replace_nth i x l = l.
    Proof.
      induction l as [| y l IHl]; intros [| i] x H; try discriminate H; cbn in *.
      - inversion H. reflexivity.
      - rewrite (IHl i x H). reflexivity.
    Qed.

    Lemma sset_same : forall k (v : value) d, sget k d = Some v -> sset k v d = d.
    Proof.
      intros k v. induction d as [| [k' v'] d IHd]; intros H; [discriminate H |].
      unfold sget, sset in *. cbn in *. destruct (String.eqb k k') eqn:E.
      - inversion H; subst. reflexivity.
      - rewrite IHd; [reflexivity | exact H].
    Qed.

    Lemma vput_same : forall p c v, vget p v = Some c -> vput p c v = v.
    Proof.
      induction p as [| [i | k] p IHp]; intros c v H; cbn in *.
      - inversion H. reflexivity.
      - destruct v; try discriminate H. destruct (nth_error l i) as [x |] eqn:E; [| reflexivity].
        rewrite (IHp c x H). rewrite (replace_nth_same _ _ _ E). reflexivity.
      - destruct v; try discriminate H. destruct (sget k d) as [x |] eqn:E; [| reflexivity].
        rewrite (IHp c x H). rewrite (sset_same _ _ _ E). reflexivity.
    Qed.

    Lemma good_put_same T E h o a p c : typed_heap h -> attr_at h o a p = Some c ->
      good T E h (modify (put_at o a p c) h).
    Proof.
      intros Ht H. unfold modify, put_at, attr_at in *. destruct (attr h o a) as [v |] eqn:Ea; [| discriminate H].
      apply (good_upd T E h o (set_attr a (vput p c v)) Ht).
      constructor; cbn; auto; try apply incl_refl.
      intros n f Hf. left. destruct (String.eqb n a) eqn:En; [| reflexivity].
      apply String.eqb_eq in En. subst n. rewrite (vput_same _ _ _ H). symmetry. exact Ea.
    Qed.

    Lemma quiet_events o a p lab es h : reports es = false ->
      for_st es (list_event ct oeq getter rec o a p lab) h = (Ok tt, h).
    Proof.
      induction es as [| e es IHes]; intros H; [reflexivity |].
      cbn in H. apply orb_false_iff in H. destruct H as [H1 H2]. apply negb_false_iff in H1.
      cbn [for_st]. unfold bind. unfold list_event at 1. unfold is_will in H1.
      destruct (fst e); try discriminate H1. cbn. apply IHes. exact H2.
    Qed.

    Lemma good_do_list h o a p lab op :
      typed_heap h -> typed_task h (TOp o a p lab op) ->
      good (pl o a) (fun x n => silent_list op = true /\ pl o a x n) h (do_list ct oeq getter rec o a p lab op h).
    Proof.
      intros Ht Htt. unfold do_list.
      destruct (attr_at h o a p) as [[ | | | | | | | | l | | | ] |] eqn:Ea; try (apply good_refl; exact Ht).
      assert (HL : list_place h o a p lab).
      { destruct Htt as [H | [(f & H1 & H2 & H3 & H4 & _) | H]];
          [left; exact H | right; left; exists f; auto | right; right; exact H]. }
      destruct (sinb a (o_raw (h_obj h o))) eqn:Er.
      - apply sinb_In in Er. pose proof (th_raw _ _ Ht _ _ Er) as Hnone.
        destruct (plain_step (eqv oeq h) op l) as [r l'].
        apply good_bind.
        + apply good_put; [exact Ht |]. intros f Hf. rewrite Hnone in Hf. discriminate Hf.
        + intros [] h1 _ Ht1 _. destruct r; apply good_refl; exact Ht1.
      - destruct (owned_step (eqv oeq h) op l) as [[r l'] es] eqn:Eo.
        destruct (owned_step_from _ _ _ _ _ _ Eo) as [F1 F2].
        assert (FI : forall x, from l (op_items op) x -> item_ok h o a x).
        { intros x Hx f b Hf Hr Hb Hl. subst x.
          destruct Htt as [(g & H1 & H2 & _) | [(g & H1 & H2 & H3 & H4 & H5) | (H1 & _)]]; [| | congruence].
          - assert (g = f) by congruence. subst g. rewrite (ref_not_plain _ Hr) in H2. discriminate H2.
          - assert (g = f) by congruence. subst g p. destruct Hx as [Hx | Hx].
            + unfold attr_at in Ea. destruct (attr h o a) as [v |] eqn:Eav; [| discriminate Ea].
              cbn in Ea. inversion Ea; subst v.
              apply (th_refs _ _ Ht o a f (VList l) b Hf Hr Eav). unfold refers, link_items.
              rewrite Hl. exact Hx.
            + apply H5. unfold refers, link_items. rewrite Hl. exact Hx. }
        assert (HW : forall E, good (pl o a) E h ((if existsb is_will es then olist_will ct getter o lab else ret tt) h)).
        { intros E. destruct (existsb is_will es); [apply good_olist_will | apply good_refl]; exact Ht. }
        assert (HA : forall u h1, (if existsb is_will es then olist_will ct getter o lab else ret tt) h = (Ok u, h1) ->
                     forall x n, attr h1 x n = attr h x n).
        { intros u h1 H x n. destruct (existsb is_will es).
          - pose proof (olist_will_attr o lab h x n) as K. rewrite H in K. exact K.
          - unfold ret in H. inversion H. reflexivity. }
        assert (HEV : forall h1, typed_heap h1 -> wk (pl o a) h h1 ->
                  good (pl o a) nowhere h1 (for_st es (list_event ct oeq getter rec o a p lab) h1)).
        { intros h1 Ht1 W1. apply good_for; [exact Ht1 |]. intros e h2 He Ht2 W2.
          apply good_list_event; [exact Ht2 | |].
          - eapply list_place_wk; [exact (wk_trans _ _ _ _ W1 W2) | exact HL].
          - intros x Hx. eapply item_ok_wk; [exact (wk_trans _ _ _ _ W1 W2) |]. apply FI.
            specialize (F2 e He). unfold event_from in F2.
            destruct (fst e) as [| i y | [y |] |]; try (destruct Hx; fail); subst x; exact F2. }
        assert (G0 : good (pl o a) (pl o a) h
          (((if existsb is_will es then olist_will ct getter o lab else ret tt) >>
            modify (put_at o a p (VList l')) >>
            match r with
            | Ok _ => for_st es (list_event ct oeq getter rec o a p lab)
            | Err e => throw e
            end) h)).
        { apply good_bind; [apply HW |]. intros u h1 E1 Ht1 W1. apply good_bind.
            -- apply good_put; [exact Ht1 |]. intros f Hf. rewrite (wk_ofield _ _ _ _ _ W1) in Hf. split; [| split].
               ++ intros Hr. destruct Htt as [(g & H1 & H2 & _) | [(g & H1 & H2 & H3 & H4 & H5) | (H1 & _)]]; [| | congruence].
                  ** assert (g = f) by congruence. subst g. rewrite (ref_not_plain _ Hr) in H2. discriminate H2.
                  ** split; [exact H3 |]. intros x Hx. unfold refers, link_items in Hx.
                     destruct (f_ftype (fl_fdef f)) as [[] |] eqn:Et; try (destruct Hx; fail).
                     rewrite (wk_class _ _ _ W1). apply (FI (VObj x) (F1 _ Hx) f x Hf Hr eq_refl Et).
               ++ intros _. split; reflexivity.
               ++ intros _. left. split; reflexivity.
            -- intros [] h2 _ Ht2 W2. destruct r as [r | e]; [| apply good_refl; exact Ht2].
               eapply good_weaken; [| apply E_nowhere | apply HEV; [exact Ht2 | exact (wk_trans _ _ _ _ W1 W2)]].
               intros; assumption. }
        destruct (silent_list op) eqn:Hs.
        { eapply good_weaken; [| | exact G0]; auto. }
        eapply good_weaken with (E := nowhere); [| apply E_nowhere |]; [intros; eassumption |].
        destruct (reports es) eqn:Erep.
        + (* some change is reported *)
          apply good_discharge with (E := pl o a); [exact G0 |].
          { intros u Hu x n f [-> ->] Hf Hn. right.
            match type of Hu with fst (?m h) = _ => destruct (m h) as [r0 h'] eqn:Em end.
            cbn in Hu. subst r0. cbn [snd].
            apply bind_ok in Em. destruct Em as (u1 & h1 & E1 & Em).
            apply bind_ok in Em. destruct Em as (u2 & h2 & E2 & Em).
            destruct r as [r | e]; [| unfold throw in Em; discriminate Em].
            destruct u.
            assert (W1 : wk (pl o a) h h1) by (pose proof (HW nowhere) as (_ & K & _); rewrite E1 in K; exact K).
            assert (Ht1 : typed_heap h1) by (pose proof (HW nowhere) as (K & _ & _); rewrite E1 in K; exact K).
            assert (G2 : good (pl o a) (pl o a) h1 (modify (put_at o a p (VList l')) h1)).
            { apply good_put; [exact Ht1 |]. intros g Hg. rewrite (wk_ofield _ _ _ _ _ W1) in Hg.
              assert (g = f) by congruence. subst g. split; [| split].
              - intros Hr. destruct Htt as [(g & H1 & H2 & _) | [(g & H1 & H2 & H3 & H4 & H5) | (H1 & _)]]; [| | congruence].
                + assert (g = f) by congruence. subst g. rewrite (ref_not_plain _ Hr) in H2. discriminate H2.
                + split; [exact H3 |]. intros x Hx. unfold refers, link_items in Hx.
                  destruct (f_ftype (fl_fdef f)) as [[] |] eqn:Et; try (destruct Hx; fail).
                  rewrite (wk_class _ _ _ W1). apply (FI (VObj x) (F1 _ Hx) f x Hf Hr eq_refl Et).
              - intros _. split; reflexivity.
              - intros _. left. split; reflexivity. }
            rewrite E2 in G2. destruct G2 as (Ht2 & W2 & _). cbn [snd] in Ht2, W2.
            pose proof (wk_trans _ _ _ _ W1 W2) as W12.
            eapply events_noted; [exact Ht2 | | | exact Em | exact Erep | | ].
            -- eapply list_place_wk; [exact W12 | exact HL].
            -- intros e He x Hx. eapply item_ok_wk; [exact W12 |]. apply FI.
               specialize (F2 e He). unfold event_from in F2.
               destruct (fst e) as [| i y | [y |] |]; try (destruct Hx; fail); subst x; exact F2.
            -- rewrite (wk_ofield _ _ _ _ _ W12). exact Hf.
            -- rewrite (wk_new _ _ _ W12). exact Hn. }
        + (* nothing changed *)
          assert (l' = l).
          { destruct (owned_step_reports _ _ _ _ _ _ Eo Hs) as [K | K]; [exact K | congruence]. }
          subst l'.
          apply good_bind; [apply HW |]. intros u h1 E1 Ht1 W1. apply good_bind.
          * apply good_put_same; [exact Ht1 |]. unfold attr_at. rewrite (HA u h1 E1 o a). exact Ea.
          * intros [] h2 _ Ht2 W2. destruct r as [r | e]; [| apply good_refl; exact Ht2].
            apply HEV; [exact Ht2 | exact (wk_trans _ _ _ _ W1 W2)].
    Qed.

    Definition dict_place (h : heap) (o : Values.oid) (a lab : string) : Prop :=
      exists f, ofield h o a = Some f /\ plain_field f = true /\ initial_keypath lab = a.

    Lemma dict_place_wk T h h' o a lab : wk T h h' -> dict_place h o a lab -> dict_place h' o a lab.
    Proof. intros W. unfold dict_place. rewrite (wk_ofield _ _ _ o a W). auto. Qed.

    Lemma dict_may h o a lab : dict_place h o a lab -> may_list (pl o a) h o lab.
    Proof.
      intros (f & H1 & H2 & H3). left. exists f. rewrite H3.
      split; [exact H1 | split; [exact H2 | split; reflexivity]].
    Qed.

    Lemma good_dict_event h o a p lab e :
      typed_heap h -> dict_place h o a lab ->
      good (pl o a) nowhere h (dict_event rec o a p lab e h).
    Proof.
      intros Ht HD. unfold dict_event. destruct (fst e) as [| k x | x].
      - apply good_refl. exact Ht.
      - apply good_bind.
        + assert (K : good (pl o a) nowhere h (rec (TDOp o a p lab (DSetItem k x)) h)).
          { apply rec_ref; [exact Ht | exact HD | reflexivity |]. intros o' n' f' _ _ H. exact H. }
          destruct x; first [exact K | apply good_refl; exact Ht].
        + intros [] h1 _ Ht1 W1. apply good_mark; [exact Ht1 |]. apply dict_may.
          eapply dict_place_wk; eassumption.
      - apply good_mark; [exact Ht |]. apply dict_may. exact HD.
    Qed.

    Lemma devent_noted h h' o a p lab e f :
      typed_heap h -> dict_place h o a lab ->
      dict_event rec o a p lab e h = (Ok tt, h') -> is_dwill e = false ->
      ofield h o a = Some f -> o_new (h_obj h o) = false -> noted h' o a f.
    Proof.
      intros Ht HD He Hw Hf Hn.
      pose proof (good_dict_event h o a p lab e Ht HD) as G. rewrite He in G.
      destruct G as (_ & W & _). cbn [snd] in W.
      assert (Hn' : o_new (h_obj h' o) = false) by (rewrite (wk_new _ _ _ W); exact Hn).
      assert (Hi : initial_keypath lab = a) by (destruct HD as (g & _ & _ & K); exact K).
      unfold dict_event in He. unfold is_dwill in Hw. destruct (fst e) as [| k x | x].
      - discriminate Hw.
      - apply bind_ok in He. destruct He as (u & h1 & E1 & Hx). eapply mark_noted_after; eassumption.
      - eapply mark_noted_after; eassumption.
    Qed.

    Lemma devents_noted o a p lab f es : forall h h',
      typed_heap h -> dict_place h o a lab ->
      for_st es (dict_event rec o a p lab) h = (Ok tt, h') ->
      dreports es = true -> ofield h o a = Some f -> o_new (h_obj h o) = false -> noted h' o a f.
    Proof.
      induction es as [| e es IHes]; intros h h' Ht HL HF Hr Hf Hn; [discriminate Hr |].
      cbn [for_st] in HF. apply bind_ok in HF. destruct HF as ([] & h1 & E1 & HF).
      pose proof (good_dict_event h o a p lab e Ht HL) as G.
      rewrite E1 in G. destruct G as (Ht1 & W1 & _). cbn [snd] in Ht1, W1.
      assert (HL1 : dict_place h1 o a lab) by (eapply dict_place_wk; eassumption).
      destruct (is_dwill e) eqn:Ew.
      - apply (IHes h1 h'); try assumption.
        + cbn in Hr. rewrite Ew in Hr. exact Hr.
        + rewrite (wk_ofield _ _ _ _ _ W1). exact Hf.
        + rewrite (wk_new _ _ _ W1). exact Hn.
      - assert (N1 : noted h1 o a f) by (eapply devent_noted; [exact Ht | exact HL | exact E1 | exact Ew | exact Hf | exact Hn]).
        assert (G : good (pl o a) nowhere h1 (for_st es (dict_event rec o a p lab) h1)).
        { apply good_for; [exact Ht1 |]. intros e' h2 He' Ht2 W2. apply good_dict_event; [exact Ht2 |].
          eapply dict_place_wk; eassumption. }
        rewrite HF in G. destruct G as (_ & W2 & _). eapply noted_wk; [exact W2 | exact N1].
    Qed.

    Lemma good_do_dict h o a p lab op :
      typed_heap h -> typed_task h (TDOp o a p lab op) ->
      good (pl o a) (fun x n => silent_dict op = true /\ pl o a x n) h (do_dict ct getter rec o a p lab op h).
    Proof.
      intros Ht HD. unfold do_dict. cbn [ObjSpec.typed_task] in HD.
      destruct (attr_at h o a p) as [[ | | | | | | | | | d | | ] |] eqn:Ea; try (apply good_refl; exact Ht).
      destruct (owned_dstep String.eqb VNone op d) as [[r d'] es] eqn:Eo.
      assert (HW : forall E, good (pl o a) E h ((if existsb is_dwill es then odict_will ct getter o lab else ret tt) h)).
      { intros E. destruct (existsb is_dwill es); [apply good_odict_will | apply good_refl]; exact Ht. }
      assert (HA : forall u h1, (if existsb is_dwill es then odict_will ct getter o lab else ret tt) h = (Ok u, h1) ->
                   forall x n, attr h1 x n = attr h x n).
      { intros u h1 H x n. destruct (existsb is_dwill es).
        - pose proof (odict_will_attr o lab h x n) as K. rewrite H in K. exact K.
        - unfold ret in H. inversion H. reflexivity. }
      assert (HEV : forall h1, typed_heap h1 -> wk (pl o a) h h1 ->
                good (pl o a) nowhere h1 (for_st es (dict_event rec o a p lab) h1)).
      { intros h1 Ht1 W1. apply good_for; [exact Ht1 |]. intros e h2 He Ht2 W2.
        apply good_dict_event; [exact Ht2 |].
        eapply dict_place_wk; [exact (wk_trans _ _ _ _ W1 W2) | exact HD]. }
      assert (HP : forall h1, typed_heap h1 -> wk (pl o a) h h1 ->
                good (pl o a) (pl o a) h1 (modify (put_at o a p (VDict d')) h1)).
      { intros h1 Ht1 W1. apply good_put; [exact Ht1 |]. intros f Hf. rewrite (wk_ofield _ _ _ _ _ W1) in Hf.
        split; [| split].
        - intros Hr. destruct HD as (g & H1 & H2 & _). assert (g = f) by congruence. subst g.
          rewrite (ref_not_plain _ Hr) in H2. discriminate H2.
        - intros _. split; reflexivity.
        - intros _. left. split; reflexivity. }
      assert (G0 : good (pl o a) (pl o a) h
        (((if existsb is_dwill es then odict_will ct getter o lab else ret tt) >>
          modify (put_at o a p (VDict d')) >>
          match r with
          | Ok _ => for_st es (dict_event rec o a p lab)
          | Err e => throw e
          end) h)).
      { apply good_bind; [apply HW |]. intros u h1 E1 Ht1 W1. apply good_bind; [apply HP; assumption |].
          intros [] h2 _ Ht2 W2. destruct r as [r | e]; [| apply good_refl; exact Ht2].
          eapply good_weaken; [| apply E_nowhere | apply HEV; [exact Ht2 | exact (wk_trans _ _ _ _ W1 W2)]].
          intros; assumption. }
      destruct (silent_dict op) eqn:Hs.
      { eapply good_weaken; [| | exact G0]; auto. }
      eapply good_weaken with (E := nowhere); [| apply E_nowhere |]; [intros; eassumption |].
      destruct (dreports es) eqn:Erep.
      - apply good_discharge with (E := pl o a); [exact G0 |].
        { intros u Hu x n f [-> ->] Hf Hn. right.
          match type of Hu with fst (?m h) = _ => destruct (m h) as [r0 h'] eqn:Em end.
          cbn in Hu. subst r0. cbn [snd].
          apply bind_ok in Em. destruct Em as (u1 & h1 & E1 & Em).
          apply bind_ok in Em. destruct Em as (u2 & h2 & E2 & Em).
          destruct r as [r | e]; [| unfold throw in Em; discriminate Em].
          destruct u.
          assert (W1 : wk (pl o a) h h1) by (pose proof (HW nowhere) as (_ & K & _); rewrite E1 in K; exact K).
          assert (Ht1 : typed_heap h1) by (pose proof (HW nowhere) as (K & _ & _); rewrite E1 in K; exact K).
          pose proof (HP h1 Ht1 W1) as G2.
          rewrite E2 in G2. destruct G2 as (Ht2 & W2 & _). cbn [snd] in Ht2, W2.
          pose proof (wk_trans _ _ _ _ W1 W2) as W12.
          eapply devents_noted; [exact Ht2 | | exact Em | exact Erep | | ].
          * eapply dict_place_wk; [exact W12 | exact HD].
          * rewrite (wk_ofield _ _ _ _ _ W12). exact Hf.
          * rewrite (wk_new _ _ _ W12). exact Hn. }
      - assert (d' = d).
        { destruct (owned_dstep_reports _ _ _ _ _ Eo Hs) as [K | K]; [exact K | congruence]. }
        subst d'.
        apply good_bind; [apply HW |]. intros u h1 E1 Ht1 W1. apply good_bind.
        + apply good_put_same; [exact Ht1 |]. unfold attr_at. rewrite (HA u h1 E1 o a). exact Ea.
        + intros [] h2 _ Ht2 W2. destruct r as [r | e]; [| apply good_refl; exact Ht2].
          apply HEV; [exact Ht2 | exact (wk_trans _ _ _ _ W1 W2)].
    Qed.

    (** ** Links *)
    Lemma item_attr_pure x n h : snd (item_attr ct getter x n h) = h.
    Proof. destruct x; try reflexivity. apply getattr_pure. Qed.

    Definition other_side (h : heap) (o : Values.oid) (g : field) (x : value) : Prop :=
      forall b, x = VObj b -> ofield h b (fl_name g) = Some g /\ is_ref (fl_fdef g) = true /\
                foreign_class g = Some (o_class (h_obj h o)).

    Lemma other_side_wk T h h' o g x : wk T h h' -> other_side h o g x -> other_side h' o g x.
    Proof.
      intros W H b Hb. rewrite (wk_ofield _ _ _ _ _ W), (wk_class _ _ _ W). apply H. exact Hb.
    Qed.

    Lemma pl_ref_absurd h o n f g o' n' (P : Prop) :
      ofield h o' n' = Some f -> plain_field f = true -> o' = o /\ n' = n ->
      ofield h o n = Some g -> is_ref (fl_fdef g) = true -> P.
    Proof.
      intros H1 H2 H3 H4 H5. eapply touch_absurd; [exact H1 | exact H2 | exact H3 |].
      right. exists g. split; assumption.
    Qed.

    Lemma good_unlink_item T h o g x : typed_heap h -> other_side h o g x ->
      good T nowhere h (unlink_item ct oeq getter rec o g x h).
    Proof.
      intros Ht HO. unfold unlink_item.
      destruct (f_ftype (fl_fdef g)) as [ty |] eqn:Et; [| apply good_refl; exact Ht].
      assert (KI : is_inst_field g = match ty with FTInstance => true | _ => false end).
      { unfold is_inst_field. rewrite Et. destruct ty; reflexivity. }
      destruct ty; try (apply good_refl; exact Ht).
      - apply good_bind; [apply good_pure; [exact Ht | apply item_attr_pure] |].
        intros cur h1 E1 Ht1 W1.
        assert (h1 = h) by (pose proof (item_attr_pure x (fl_name g) h) as P; rewrite E1 in P; exact P). subst h1.
        destruct x; try (apply good_refl; exact Ht). rename o0 into b.
        destruct cur as [ | | | | | | | | l | | | ]; try (apply good_refl; exact Ht).
        destruct (HO b eq_refl) as (Hg & Hr & Hfc).
        apply good_gets.
        destruct (list_contains _ _ _); [| apply good_refl; exact Ht].
        apply good_bind; [| intros; apply good_add_unlinked; assumption].
        apply rec_ref; [exact Ht | | reflexivity |].
        + cbn [ObjSpec.typed_task]. right; left. exists g. repeat (split; [first [assumption | reflexivity] |]).
          cbn [op_items]. intros c Hc. unfold refers, link_items in Hc. rewrite Et in Hc.
          destruct Hc as [Hc | []]. inversion Hc; subst c. exact Hfc.
        + intros o' n' f' H1 H2 H3. eapply pl_ref_absurd; eassumption.
      - apply good_bind; [apply good_pure; [exact Ht | apply item_attr_pure] |].
        intros cur h1 E1 Ht1 W1.
        assert (h1 = h) by (pose proof (item_attr_pure x (fl_name g) h) as P; rewrite E1 in P; exact P). subst h1.
        destruct x; try (apply good_refl; exact Ht). rename o0 into b.
        destruct cur; try (apply good_refl; exact Ht).
        destruct (HO b eq_refl) as (Hg & Hr & Hfc).
        destruct (Nat.eqb o0 o); [| apply good_refl; exact Ht].
        assert (GA : forall h1 E, typed_heap h1 -> wk T h h1 -> (E = pl b (fl_name g) \/ is_local g = false) ->
                     good T E h1 (updm b (set_attr (fl_name g) VNone) h1)).
        { intros h1 E Ht1' W1' HE. apply good_attr; [exact Ht1' |]. intros f Hf.
          rewrite (wk_ofield _ _ _ _ _ W1') in Hf. assert (f = g) by congruence. subst f.
          split; [| split].
          - intros _ y Hy. unfold refers, link_items in Hy. rewrite Et in Hy. destruct Hy.
          - intros Hp. rewrite (ref_not_plain _ Hr) in Hp. discriminate Hp.
          - intros _. destruct HE as [-> | HE]; [left; split; reflexivity | right].
            split; intros Hp; [rewrite (ref_not_plain _ Hr) in Hp; discriminate Hp | congruence]. }
        destruct (is_local g) eqn:El.
        + apply good_discharge with (E := pl b (fl_name g)).
          * apply good_bind; [apply GA; [exact Ht | apply wk_refl | left; reflexivity] |].
            intros [] h1 _ Ht1' W1'. apply good_bind; [| intros; apply good_add_unlinked; assumption].
            unfold updm, modify. apply good_upd; [exact Ht1' |].
            assert (Hg1 : ofield h1 b (fl_name g) = Some g) by (rewrite (wk_ofield _ _ _ _ _ W1'); exact Hg).
            constructor; cbn; auto.
            -- intros k Hk. apply in_sadd. right. exact Hk.
            -- intros k Hn Hk. apply in_sadd in Hk. destruct Hk as [-> | Hk]; [right | left; exact Hk].
               exists g. split; [exact Hg1 | split; [exact El | exact KI]].
            -- intros k Hk. apply in_sadd in Hk. destruct Hk as [-> | Hk]; [right | left; exact Hk].
               eapply may_list_ref; eassumption.
            -- intros n f Hf. left. destruct (String.eqb n (fl_ref g)) eqn:En; [| reflexivity].
               apply String.eqb_eq in En. subst n. rewrite (ofield_ref _ _ _ _ Hg1 El) in Hf. discriminate Hf.
          * intros u Hu o' n' f [-> ->] Hf Hn. right.
            assert (f = g) by congruence. subst f.
            split; [intros Hp; rewrite (ref_not_plain _ Hr) in Hp; discriminate Hp |]. intros _.
            unfold bind, updm, modify, add_unlinked, listed. cbn [snd]. unfold modify. cbn [snd].
            rewrite !upd_same. cbn. exists (fl_name g). split; [apply in_sadd; left; reflexivity |].
            destruct (ofield_in _ _ _ _ Hg) as (d & _ & Hin & Hnm & Wc). apply (wf_nodot _ _ _ Wc g Hin).
        + apply good_bind; [apply GA; [exact Ht | apply wk_refl | right; reflexivity] |].
          intros [] h1 _ Ht1' W1'. apply good_bind; [apply good_refl; exact Ht1' |].
          intros. apply good_add_unlinked. assumption.
    Qed.

    Lemma typed_other h o f g v x : typed_heap h -> typed_task h (TUnlink o f v) ->
      foreign_field ct (o_class (h_obj h o)) f = Some g -> In x (link_items f v) -> other_side h o g x.
    Proof.
      intros Ht (H1 & H2 & H3) Hg Hx b ->. eapply foreign_other; [exact H1 | exact Hg |]. apply H3. exact Hx.
    Qed.

    Lemma good_unlink T h o f v : typed_heap h -> typed_task h (TUnlink o f v) ->
      good T nowhere h (unlink ct oeq getter rec o f v h).
    Proof.
      intros Ht Htt. unfold unlink. apply good_gets.
      destruct (foreign_field ct (o_class (h_obj h o)) f) as [g |] eqn:Eg.
      - apply good_for; [exact Ht |]. intros x h1 Hx Ht1 W1. apply good_bind; [apply good_add_unlinked; exact Ht1 |].
        intros [] h2 _ Ht2 W2. apply good_unlink_item; [exact Ht2 |].
        eapply other_side_wk; [exact (wk_trans _ _ _ _ W1 W2) |]. eapply typed_other; eassumption.
      - destruct (link_items f v); [apply good_refl | apply good_add_unlinked]; exact Ht.
    Qed.

    Lemma good_link_graphs T E h o x : typed_heap h -> good T E h (link_graphs ct pystr o x h).
    Proof.
      intros Ht. unfold link_graphs. destruct x; try (apply good_refl; exact Ht).
      destruct (link_graph _ _ _ _ _) as [r gg].
      assert (K : forall x, h_obj (with_graph gg h) x = h_obj h x) by reflexivity.
      split; [| split]; cbn [fst snd].
      - destruct Ht as [A B C D]. constructor; [exact A | exact B | exact C | exact D].
      - constructor; intros; cbn; auto. apply incl_refl.
      - intros _ _ y n f Hf Hn. right; left. reflexivity.
    Qed.

    Lemma good_link_item T h o g x : typed_heap h -> other_side h o g x ->
      good T nowhere h (link_item ct oeq getter rec o g x h).
    Proof.
      intros Ht HO. unfold link_item.
      destruct (f_ftype (fl_fdef g)) as [ty |] eqn:Et; [| apply good_refl; exact Ht].
      assert (RF : forall v b, x = VObj b -> (forall y, refers g v y -> y = o) ->
                  good T nowhere h ((rec (TSet b (fl_name g) v) >> del_unlinked oeq b (fl_name g) (VObj o)) h)).
      { intros v b -> Hv. destruct (HO b eq_refl) as (Hg & Hr & Hfc).
        apply good_bind; [| intros; apply good_del_unlinked; assumption].
        apply rec_ref; [exact Ht | | reflexivity |].
        - cbn [ObjSpec.typed_task]. left. exists g. split; [exact Hg | split; [apply ref_not_calc; exact Hr |]].
          intros _ y Hy. rewrite (Hv y Hy). exact Hfc.
        - intros o' n' f' H1 H2 H3. eapply pl_ref_absurd; eassumption. }
      destruct ty; try (apply good_refl; exact Ht).
      - apply good_bind; [apply good_pure; [exact Ht | apply item_attr_pure] |].
        intros cur h1 E1 Ht1 W1.
        assert (h1 = h) by (pose proof (item_attr_pure x (fl_name g) h) as P; rewrite E1 in P; exact P). subst h1.
        destruct x; try (destruct cur; apply good_refl; exact Ht). rename o0 into b.
        assert (K : good T nowhere h ((rec (TSet b (fl_name g) (VList [VObj o])) >>
                     del_unlinked oeq b (fl_name g) (VObj o)) h)).
        { apply RF; [reflexivity |]. intros y Hy. unfold refers, link_items in Hy. rewrite Et in Hy.
          destruct Hy as [Hy | []]. inversion Hy. reflexivity. }
        destruct cur as [ | | | | | | | | l | | | ]; try exact K.
        destruct (HO b eq_refl) as (Hg & Hr & Hfc).
        apply good_gets.
        destruct (list_contains _ _ _); [apply good_refl; exact Ht |].
        apply good_bind; [| intros; apply good_del_unlinked; assumption].
        apply rec_ref; [exact Ht | | reflexivity |].
        + cbn [ObjSpec.typed_task]. right; left. exists g. repeat (split; [first [assumption | reflexivity] |]).
          cbn [op_items]. intros c Hc. unfold refers, link_items in Hc. rewrite Et in Hc.
          destruct Hc as [Hc | []]. inversion Hc; subst c. exact Hfc.
        + intros o' n' f' H1 H2 H3. eapply pl_ref_absurd; eassumption.
      - apply good_bind; [apply good_pure; [exact Ht | apply item_attr_pure] |].
        intros cur h1 E1 Ht1 W1.
        assert (h1 = h) by (pose proof (item_attr_pure x (fl_name g) h) as P; rewrite E1 in P; exact P). subst h1.
        destruct x; try (apply good_refl; exact Ht). rename o0 into b. apply good_gets.
        destruct (eqv oeq h cur (VObj o)); [apply good_refl; exact Ht |].
        apply RF; [reflexivity |]. intros y Hy. unfold refers, link_items in Hy. rewrite Et in Hy.
        destruct Hy as [Hy | []]. inversion Hy. reflexivity.
    Qed.

    Lemma good_link T h o f v : typed_heap h -> typed_task h (TLink o f v) ->
      good T nowhere h (link ct oeq getter pystr rec o f v h).
    Proof.
      intros Ht Htt. unfold link. apply good_gets.
      destruct (foreign_field ct (o_class (h_obj h o)) f) as [g |] eqn:Eg.
      - apply good_for; [exact Ht |]. intros x h1 Hx Ht1 W1. apply good_bind; [apply good_del_unlinked; exact Ht1 |].
        intros [] h2 _ Ht2 W2. apply good_bind.
        + apply good_link_item; [exact Ht2 |].
          eapply other_side_wk; [exact (wk_trans _ _ _ _ W1 W2) |]. eapply typed_other; eassumption.
        + intros [] h3 _ Ht3 W3. apply good_link_graphs. exact Ht3.
      - destruct (link_items f v); [apply good_refl | apply good_del_unlinked]; exact Ht.
    Qed.

    (** ** Assignment *)
    Lemma good_store_local T h o f v : typed_heap h -> ofield h o (fl_name f) = Some f ->
      good T nowhere h (store_local ct o f v h).
    Proof.
      intros Ht Hf. unfold store_local. destruct (is_local f) eqn:El; [| apply good_refl; exact Ht].
      pose proof (ofield_ref _ _ _ _ Hf El) as Hnone.
      destruct (f_ftype (fl_fdef f)) as [[] |]; try (apply good_refl; exact Ht).
      - destruct v; try (apply good_refl; exact Ht); try (apply good_store_keys; assumption).
        apply good_bind; [apply good_pure; [exact Ht | apply keys_of_pure] |].
        intros ks h1 E1 Ht1 W1. apply good_store_keys; [exact Ht1 |].
        rewrite (wk_ofield _ _ _ _ _ W1). exact Hnone.
      - destruct v; try (apply good_refl; exact Ht); try (apply good_attr_nofield; assumption).
    Qed.

    Lemma good_set_field h o n f v :
      typed_heap h -> ofield h o n = Some f -> is_calc f = false ->
      (is_ref (fl_fdef f) = true -> forall b, refers f v b -> foreign_class f = Some (o_class (h_obj h b))) ->
      good (pl o n) nowhere h (set_field ct oeq getter setter rec o f v h).
    Proof.
      intros Ht Hf Hc Hv. destruct (ofield_in _ _ _ _ Hf) as (d & _ & Hin & Hn & Wc).
      unfold set_field. rewrite Hc, Hn. apply good_gets. apply good_gets.
      match goal with |- good _ _ _ ((if ?c then _ else _) _) => destruct c end;
        [apply good_refl; exact Ht |].
      apply good_gets.
      assert (Hlab : initial_keypath n = n) by (rewrite <- Hn; apply (wf_nodot _ _ _ Wc f Hin)).
      assert (ML : is_ref (fl_fdef f) = true \/ plain_field f = true).
      { unfold plain_field. rewrite Hc. destruct (is_ref (fl_fdef f)); auto. }
      assert (MM : may_list (pl o n) h o n).
      { destruct ML as [K | K]; [eapply may_list_ref; eassumption |]. left. exists f. rewrite Hlab.
        split; [exact Hf | split; [exact K | split; reflexivity]]. }
      (* the record *)
      assert (G1 : good (pl o n) nowhere h
        ((if o_new (h_obj h o) then ret tt
          else mark o n >>
               do* r <- gets (fun h => resettable ct h o f);
               if r then
                 do* known <- gets (fun h => smem n (o_prev (h_obj h o)));
                 if known then ret tt
                 else do* c <- getattr ct getter o n; remember o n c
               else ret tt) h)).
      { destruct (o_new (h_obj h o)); [apply good_refl; exact Ht |].
        apply good_bind; [apply good_mark; assumption |]. intros [] h1 _ Ht1 W1. apply good_gets.
        destruct (resettable ct h1 o f); [| apply good_refl; exact Ht1]. apply good_gets.
        destruct (smem n _); [apply good_refl; exact Ht1 |].
        apply good_bind; [apply good_pure; [exact Ht1 | apply getattr_pure] |].
        intros c h2 _ Ht2 W2. apply good_remember. exact Ht2. }
      assert (N1 : forall u h1, (if o_new (h_obj h o) then ret tt
          else mark o n >>
               do* r <- gets (fun h => resettable ct h o f);
               if r then
                 do* known <- gets (fun h => smem n (o_prev (h_obj h o)));
                 if known then ret tt
                 else do* c <- getattr ct getter o n; remember o n c
               else ret tt) h = (Ok u, h1) -> o_new (h_obj h o) = false -> noted h1 o n f).
      { intros u h1 E Hnew. rewrite Hnew in E. apply bind_ok in E. destruct E as ([] & h2 & E1 & E2).
        assert (Gm : good (pl o n) nowhere h (mark o n h)) by (apply good_mark; assumption).
        rewrite E1 in Gm. destruct Gm as (Ht2 & W2 & _). cbn [snd] in Ht2, W2.
        assert (Nm : noted h2 o n f).
        { eapply mark_noted_after; [exact E1 | rewrite (wk_new _ _ _ W2); exact Hnew | exact Hlab]. }
        assert (G2 : good (pl o n) nowhere h2
          ((do* r <- gets (fun h => resettable ct h o f);
               if r then
                 do* known <- gets (fun h => smem n (o_prev (h_obj h o)));
                 if known then ret tt
                 else do* c <- getattr ct getter o n; remember o n c
               else ret tt) h2)).
        { apply good_gets. destruct (resettable ct h2 o f); [| apply good_refl; exact Ht2]. apply good_gets.
          destruct (smem n _); [apply good_refl; exact Ht2 |].
          apply good_bind; [apply good_pure; [exact Ht2 | apply getattr_pure] |].
          intros c h3 _ Ht3 W3. apply good_remember. exact Ht3. }
        rewrite E2 in G2. destruct G2 as (_ & W3 & _). eapply noted_wk; [exact W3 | exact Nm]. }
      apply good_bind; [exact G1 |]. intros u h1 E1 Ht1 W1.
      assert (Hf1 : ofield h1 o n = Some f) by (rewrite (wk_ofield _ _ _ _ _ W1); exact Hf).
      assert (NW : forall h2, wk (pl o n) h1 h2 -> o_new (h_obj h2 o) = false -> noted h2 o n f).
      { intros h2 W2 Hn2. eapply noted_wk; [exact W2 |]. apply (N1 _ _ E1).
        rewrite <- (wk_new _ _ _ W1), <- (wk_new _ _ _ W2). exact Hn2. }
      assert (GA : forall h2, typed_heap h2 -> wk (pl o n) h1 h2 ->
                   good (pl o n) nowhere h2 (updm o (set_attr n v) h2)).
      { intros h2 Ht2 W2. apply good_attr; [exact Ht2 |]. intros f' Hf'.
        rewrite (wk_ofield _ _ _ _ _ W2) in Hf'. assert (f' = f) by congruence. subst f'.
        split; [| split].
        - intros Hr x Hx. rewrite (wk_class _ _ _ W2), (wk_class _ _ _ W1). apply Hv; assumption.
        - intros _. split; reflexivity.
        - intros Hn2. right. apply NW; assumption. }
      destruct (is_ref (fl_fdef f)) eqn:Er; [| apply GA; [exact Ht1 | apply wk_refl]].
      assert (TT : forall h2 w, wk (pl o n) h1 h2 ->
                (forall b, refers f w b -> foreign_class f = Some (o_class (h_obj h b))) ->
                typed_task h2 (TUnlink o f w)).
      { intros h2 w W2 Hw. cbn [ObjSpec.typed_task]. rewrite Hn, (wk_ofield _ _ _ _ _ W2).
        split; [exact Hf1 | split; [exact Er |]]. intros b Hb.
        rewrite (wk_class _ _ _ W2), (wk_class _ _ _ W1). apply Hw. exact Hb. }
      apply good_bind.
      { destruct (attr h o n) as [c |] eqn:Ec; [| apply good_refl; exact Ht1].
        apply rec_ref; [exact Ht1 | | reflexivity |].
        - apply TT; [apply wk_refl |]. intros b Hb. eapply (th_refs _ _ Ht); eassumption.
        - intros o' n' f' _ _ []. }
      intros [] h2 _ Ht2 W2. apply good_bind; [apply GA; assumption |].
      intros [] h3 _ Ht3 W3. pose proof (wk_trans _ _ _ _ W2 W3) as W13.
      apply good_bind.
      { apply good_store_local; [exact Ht3 |]. rewrite Hn, (wk_ofield _ _ _ _ _ W13). exact Hf1. }
      intros [] h4 _ Ht4 W4. pose proof (wk_trans _ _ _ _ W13 W4) as W14.
      apply rec_ref; [exact Ht4 | | reflexivity |].
      - apply (TT h4 v W14). apply Hv. reflexivity.
      - intros o' n' f' _ _ [].
    Qed.

    Lemma first_with_id_in v l h x h' : first_with_id ct oeq v l h = (Ok (Some x), h') -> In x l.
    Proof.
      revert h'. induction l as [| y l IHl]; intros h'; cbn [first_with_id]; [discriminate |].
      unfold bind at 1. destruct (vid ct y h) as [[i | e] h2] eqn:Ev; [| discriminate].
      assert (h2 = h) by (pose proof (vid_pure y h) as P; rewrite Ev in P; exact P). subst h2.
      unfold bind, gets. destruct (eqv oeq h i v); intros H.
      - unfold ret in H. inversion H; subst. left. reflexivity.
      - right. eapply IHl. exact H.
    Qed.

    Lemma pick_by_ids_in ids l h nl h' : pick_by_ids ct oeq ids l h = (Ok nl, h') -> incl nl l.
    Proof.
      revert nl h'. induction ids as [| i ids IHi]; intros nl h' H; cbn [pick_by_ids] in H.
      - unfold ret in H. inversion H. intros x [].
      - apply bind_ok in H. destruct H as (v & h1 & E1 & H).
        assert (h1 = h) by (pose proof (first_with_id_pure i l h) as P; rewrite E1 in P; exact P). subst h1.
        apply bind_ok in H. destruct H as (rest & h2 & E2 & H). unfold ret in H. inversion H; subst.
        pose proof (IHi _ _ E2) as K. destruct v as [x |]; [| exact K].
        apply incl_cons; [apply (first_with_id_in _ _ _ _ _ E1) | exact K].
    Qed.

    Lemma good_set_local_key h o n m v :
      typed_heap h -> sget n (o_lkeys (h_obj h o)) = Some m ->
      good (pl o n) nowhere h (set_local_key ct oeq getter rec o n m v h).
    Proof.
      intros Ht Hk. destruct (th_keys _ _ Ht _ _ _ Hk) as (f & Hf & Hl & Hrf).
      pose proof (ofield_ref _ _ _ _ Hf Hl) as Hnone. rewrite Hrf in Hnone.
      pose proof (local_ref _ Hl) as Hr.
      unfold set_local_key. apply good_gets. rewrite Hf.
      assert (TS : forall h1 w, typed_heap h1 -> wk (pl o n) h h1 ->
                (forall b, refers f w b -> foreign_class f = Some (o_class (h_obj h1 b))) ->
                good (pl o n) nowhere h1 (rec (TSet o m w) h1)).
      { intros h1 w Ht1 W1 Hw.
        assert (Hf1 : ofield h1 o m = Some f) by (rewrite (wk_ofield _ _ _ _ _ W1); exact Hf).
        apply rec_ref; [exact Ht1 | | reflexivity |].
        - cbn [ObjSpec.typed_task]. left. exists f.
          split; [exact Hf1 | split; [apply ref_not_calc, Hr | intros _; exact Hw]].
        - intros o' n' f' H1 H2 H3. eapply pl_ref_absurd; eassumption. }
      assert (E0 : forall h1 b, refers f VNone b -> foreign_class f = Some (o_class (h_obj h1 b))).
      { intros h1 b Hb. unfold refers, link_items in Hb.
        destruct (f_ftype (fl_fdef f)) as [[] |]; destruct Hb. }
      assert (E1 : forall h1 b, refers f (VList []) b -> foreign_class f = Some (o_class (h_obj h1 b))).
      { intros h1 b Hb. unfold refers, link_items in Hb.
        destruct (f_ftype (fl_fdef f)) as [[] |]; destruct Hb. }
      assert (MK : forall h1, typed_heap h1 -> wk (pl o n) h h1 -> good (pl o n) nowhere h1 (mark o m h1)).
      { intros h1 Ht1 W1. apply good_mark; [exact Ht1 |]. eapply may_list_ref; [| exact Hr].
        rewrite (wk_ofield _ _ _ _ _ W1). exact Hf. }
      apply good_bind; [| intros [] h1 _ Ht1 W1; apply MK; assumption].
      assert (SK : forall l (k : st heap unit),
                (forall h1, typed_heap h1 -> wk (pl o n) h h1 -> good (pl o n) nowhere h1 (k h1)) ->
                good (pl o n) nowhere h ((store_keys o n l >> k) h)).
      { intros l k HK. apply good_bind; [apply good_store_keys; assumption |].
        intros [] h1 _ Ht1 W1. apply HK; assumption. }
      destruct (f_ftype (fl_fdef f)) as [[] |] eqn:Et; try (apply good_refl; exact Ht).
      - destruct v; try (apply good_refl; exact Ht).
        + apply SK. intros h1 Ht1 W1. apply TS; [exact Ht1 | exact W1 | apply E1].
        + apply SK. intros h1 Ht1 W1.
          apply good_bind; [apply good_pure; [exact Ht1 | apply getattr_pure] |].
          intros cur h2 Eg Ht2 W2.
          assert (h2 = h1) by (pose proof (getattr_pure o m h1) as P; rewrite Eg in P; exact P). subst h2.
          destruct cur as [ | | | | | | | | l1 | | | ]; try (apply good_refl; exact Ht1).
          * apply TS; [exact Ht1 | exact W1 | apply E1].
          * apply good_bind; [apply good_pure; [exact Ht1 | apply pick_by_ids_pure] |].
            intros nl h3 Ep Ht3 W3.
            assert (h3 = h1) by (pose proof (pick_by_ids_pure l l1 h1) as P; rewrite Ep in P; exact P). subst h3.
            apply TS; [exact Ht1 | exact W1 |]. intros b Hb. unfold refers, link_items in Hb. rewrite Et in Hb.
            assert (Hf1 : ofield h1 o m = Some f) by (rewrite (wk_ofield _ _ _ _ _ W1); exact Hf).
            apply (th_refs _ _ Ht1 o m f (VList l1) b Hf1 Hr).
            -- unfold getattr in Eg. rewrite Hf1 in Eg. rewrite (ref_not_calc _ Hr) in Eg.
               destruct (attr h1 o m) as [w |]; inversion Eg. reflexivity.
            -- unfold refers, link_items. rewrite Et. apply (pick_by_ids_in _ _ _ _ _ Ep). exact Hb.
      - apply good_bind; [apply good_attr_nofield; assumption |].
        intros [] h1 _ Ht1 W1. apply TS; [exact Ht1 | exact W1 | apply E0].
    Qed.

    Lemma good_set_attribute h o n v : typed_heap h -> typed_task h (TSet o n v) ->
      good (pl o n) nowhere h (set_attribute ct oeq getter setter rec o n v h).
    Proof.
      intros Ht Htt. unfold set_attribute. apply good_gets. apply good_gets.
      destruct Htt as [(f & Hf & Hc & Hv) | (Hnone & m & Hm)].
      - assert (Hlk : local_field_of h o n = None).
        { unfold local_field_of. destruct (sget n (o_lkeys (h_obj h o))) as [m |] eqn:E; [| reflexivity].
          destruct (th_keys _ _ Ht _ _ _ E) as (g & Hg & Hl & Hrg).
          pose proof (ofield_ref _ _ _ _ Hg Hl) as K. rewrite Hrg in K. congruence. }
        rewrite Hlk, Hf. apply good_set_field; assumption.
      - unfold local_field_of. rewrite Hm, Hnone.
        apply good_bind; [apply good_pure; [exact Ht | apply getattr_pure] |].
        intros cur h1 E1 Ht1 W1.
        assert (h1 = h) by (pose proof (getattr_pure o n h) as P; rewrite E1 in P; exact P). subst h1.
        apply good_gets. destruct (eqv oeq h v cur); [apply good_refl; exact Ht |].
        apply good_bind; [apply good_set_local_key; assumption |].
        intros [] h2 _ Ht2 W2. apply good_set_plain; [exact Ht2 |].
        rewrite (wk_ofield _ _ _ _ _ W2). exact Hnone.
    Qed.

    Lemma good_body t h : typed_heap h -> typed_task h t ->
      good (touches t) (fun o n => silent t = true /\ touches t o n) h (body ct oeq getter setter pystr rec t h).
    Proof.
      intros Ht Htt. destruct t as [o n v | o f v | o f v | o a p lab op | o a p lab op]; cbn [body].
      - eapply good_weaken; [| apply E_nowhere | apply good_set_attribute; assumption].
        intros ? ? ? _ _ K; exact K.
      - eapply good_weaken; [| apply E_nowhere | apply good_unlink; assumption].
        intros ? ? ? _ _ K; exact K.
      - eapply good_weaken; [| apply E_nowhere | apply good_link; assumption].
        intros ? ? ? _ _ K; exact K.
      - apply good_do_list; assumption.
      - apply good_do_dict; assumption.
    Qed.
  End Rec.

  Theorem run_good n : forall t h, typed_heap h -> typed_task h t ->
    good (touches t) (fun o n => silent t = true /\ touches t o n) h (run ct oeq getter setter pystr n t h).
  Proof.
    induction n as [| n IHn]; intros t h Ht Htt; cbn [run].
    - apply good_refl. exact Ht.
    - apply good_body; [| exact Ht | exact Htt]. intros t' h' Ht' Htt' Hs'.
      eapply good_weaken; [| | apply IHn; assumption]; [auto |]. intros o m [K _]. congruence.
  Qed.

  (** ** Histories *)
  Lemma history_good n : forall xs h, typed_heap h -> Forall (typed_hop ct h) xs ->
    good (fun o m => exists x, In x xs /\ touches (task_of x) o m)
         (fun o m => exists x, In x xs /\ silent (task_of x) = true /\ touches (task_of x) o m)
         h (history ct oeq getter setter pystr n xs h).
  Proof.
    intros xs h Ht HF. unfold history. apply good_for; [exact Ht |].
    intros x h1 Hx Ht1 W1. rewrite Forall_forall in HF.
    eapply good_weaken; [| | apply run_good; [exact Ht1 | eapply typed_task_wk; [exact W1 | apply HF; exact Hx]]].
    - intros o m f _ _ K. exists x. split; assumption.
    - intros o m [K1 K2]. exists x. split; [exact Hx | split; assumption].
  Qed.

  Theorem history_tracked n xs h h' o k f :
    typed_heap h -> Forall (typed_hop ct h) xs ->
    history ct oeq getter setter pystr n xs h = (Ok tt, h') ->
    o_new (h_obj h o) = false -> ofield h o k = Some f ->
    (forall x, In x xs -> silent (task_of x) = true -> ~ touches (task_of x) o k) ->
    attr h' o k <> attr h o k -> noted h' o k f.
  Proof.
    intros Ht HF HH Hn Hf Hs Hd. pose proof (history_good n xs h Ht HF) as (_ & _ & G).
    rewrite HH in G. specialize (G tt eq_refl o k f Hf Hn). cbn [snd] in G.
    destruct G as [(x & K1 & K2 & K3) | [K | K]]; [| congruence | exact K].
    exfalso. apply (Hs x K1 K2 K3).
  Qed.

  Theorem history_untouched n xs h r h' o k f :
    typed_heap h -> Forall (typed_hop ct h) xs ->
    history ct oeq getter setter pystr n xs h = (r, h') ->
    ofield h o k = Some f -> plain_field f = true ->
    (forall x, In x xs -> ~ touches (task_of x) o k) ->
    attr h' o k = attr h o k /\ (listed h' o k -> listed h o k).
  Proof.
    intros Ht HF HH Hf Hp Hx. pose proof (history_good n xs h Ht HF) as (_ & W & _).
    rewrite HH in W. cbn [snd] in W. split.
    - destruct (wk_attr _ _ _ W o k f Hf Hp) as [(x & K1 & K2) | K]; [| exact K].
      exfalso. apply (Hx x K1 K2).
    - intros (kp & Hkp & Hi). destruct (wk_only _ _ _ W o kp Hkp) as [K | K]; [exists kp; auto |].
      exfalso. destruct K as [(g & _ & _ & x & K1 & K2) | [(g & K1 & K2) | (m & K)]].
      + rewrite Hi in K2. apply (Hx x K1 K2).
      + destruct (ofield_in _ _ _ _ K1) as (d & _ & Hin & Hnm & Wc).
        assert (kp = k) by (rewrite <- Hi, <- Hnm; symmetry; apply (wf_nodot _ _ _ Wc g Hin)).
        subst kp. assert (g = f) by congruence. subst g. rewrite (ref_not_plain _ K2) in Hp. discriminate Hp.
      + destruct (plain_lab h o k f kp Ht Hf Hp Hi) as [N _]. congruence.
  Qed.

  Theorem history_new n xs h r h' o :
    typed_heap h -> Forall (typed_hop ct h) xs ->
    history ct oeq getter setter pystr n xs h = (r, h') ->
    o_new (h_obj h o) = true ->
    o_new (h_obj h' o) = true /\ o_modified (h_obj h' o) = o_modified (h_obj h o) /\
    forall kp, In kp (o_mfields (h_obj h' o)) -> In kp (o_mfields (h_obj h o)) \/
      exists f, ofield h o kp = Some f /\ is_local f = true /\ is_inst_field f = true.
  Proof.
    intros Ht HF HH Hn. pose proof (history_good n xs h Ht HF) as (_ & W & _).
    rewrite HH in W. cbn [snd] in W. split; [rewrite (wk_new _ _ _ W); exact Hn | split].
    - apply (wk_newmod _ _ _ W). exact Hn.
    - intros kp Hkp. apply (wk_newmf _ _ _ W o kp Hn Hkp).
  Qed.
End Track.
