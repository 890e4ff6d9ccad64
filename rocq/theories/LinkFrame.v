(** LinkFrame.v -- operations on other fields leave a relation alone: a set of protected
    attributes that is closed under the other sides of relations and under stored keys
    is not touched by any operation on an attribute outside it. *)
From Verif Require Import Base Mon PyList PyDict OListModel ODictModel KeypathModel
  Values OGraphModel TypesModel ObjModel ObjSpec ObjList ObjTrack.
From Coq Require Import Lia.
Open Scope nat_scope.

Section Frame.
  Context (ct : string -> option cdef)
          (oeq : heap -> Values.oid -> Values.oid -> bool)
          (getter : heap -> Values.oid -> string -> res value)
          (setter : Values.oid -> string -> value -> st heap unit)
          (pystr : value -> string).
  Hypothesis wf : wf_classes ct.
  Context (h0 : heap).
  Context (prot : Values.oid -> string -> Prop).
  Notation ofield := (ofield ct).
  Notation typed_heap := (typed_heap ct).
  Notation typed_task := (typed_task ct).
  Notation fld := (ofield h0).
  Notation cls x := (o_class (h_obj h0 x)).

  Hypothesis p_ref : forall o n f, fld o n = Some f -> is_local f = true -> ~ prot o n -> ~ prot o (fl_ref f).
  Hypothesis p_key : forall o n f, fld o n = Some f -> is_local f = true -> ~ prot o (fl_ref f) -> ~ prot o n.
  Hypothesis p_other : forall o n f g b, fld o n = Some f -> is_ref (fl_fdef f) = true -> ~ prot o n ->
    foreign_field ct (cls o) f = Some g -> foreign_class f = Some (cls b) -> ~ prot b (fl_name g).

  Record inv (h : heap) : Prop := {
    iv_typed : typed_heap h;
    iv_class : forall x, o_class (h_obj h x) = cls x;
    iv_lkeys : forall x, o_lkeys (h_obj h x) = o_lkeys (h_obj h0 x)
  }.
  Definition kp (h h' : heap) : Prop := forall o n, prot o n ->
    attr h' o n = attr h o n /\ sget n (o_unlinked (h_obj h' o)) = sget n (o_unlinked (h_obj h o)).
  Definition okp {A} (h : heap) (p : res A * heap) : Prop := inv (snd p) /\ kp h (snd p).

  Lemma kp_refl h : kp h h.
  Proof. intros o n _. split; reflexivity. Qed.
  Lemma kp_trans h1 h2 h3 : kp h1 h2 -> kp h2 h3 -> kp h1 h3.
  Proof. intros A B o n P. destruct (A o n P) as [A1 A2], (B o n P) as [B1 B2]. split; etransitivity; eassumption. Qed.
  Lemma okp_refl {A} h (r : res A) : inv h -> okp h (r, h).
  Proof. intros H. split; [exact H | apply kp_refl]. Qed.
  Lemma okp_pure {A} h (m : st heap A) : inv h -> snd (m h) = h -> okp h (m h).
  Proof. intros H E. unfold okp. rewrite E. split; [exact H | apply kp_refl]. Qed.
  Lemma okp_bind {A B} h (m : st heap A) (k : A -> st heap B) :
    okp h (m h) -> (forall a h1, m h = (Ok a, h1) -> inv h1 -> okp h1 (k a h1)) -> okp h (bind m k h).
  Proof.
    intros [I K] C. unfold bind. destruct (m h) as [[a | e] h1] eqn:E; cbn [snd] in I, K.
    - destruct (C a h1 eq_refl I) as [I2 K2]. split; [exact I2 | apply (kp_trans _ _ _ K K2)].
    - split; assumption.
  Qed.
  Lemma okp_gets {A B} h (q : heap -> A) (k : A -> st heap B) : okp h (k (q h) h) -> okp h (bind (gets q) k h).
  Proof. intros H. exact H. Qed.
  Lemma okp_then {A B} h (m : st heap A) (k : A -> st heap B) : inv h ->
    (forall a, m h = (Ok a, h) -> okp h (k a h)) -> snd (m h) = h -> okp h (bind m k h).
  Proof.
    intros I C E. apply okp_bind; [apply okp_pure; assumption |]. intros a h1 E1 _. rewrite E1 in E. cbn in E. subst h1.
    apply C, E1.
  Qed.
  Lemma okp_for {X} h (l : list X) (f : X -> st heap unit) :
    inv h -> (forall x h1, In x l -> inv h1 -> okp h1 (f x h1)) -> okp h (for_st l f h).
  Proof.
    revert h. induction l as [| x l IH]; intros h I H; cbn [for_st]; [apply okp_refl, I |].
    apply okp_bind; [apply H; [left; reflexivity | exact I] |]. intros [] h1 _ I1. apply IH; [exact I1 |].
    intros y h2 Hy. apply H. right. exact Hy.
  Qed.

  Lemma inv_ofield h o n : inv h -> ofield h o n = fld o n.
  Proof. intros I. apply ofield_class, (iv_class _ I). Qed.
  Lemma inv_refs h o n f v b : inv h -> fld o n = Some f -> is_ref (fl_fdef f) = true -> attr h o n = Some v ->
    refers f v b -> foreign_class f = Some (cls b).
  Proof.
    intros I F R A B. rewrite <- (iv_class _ I b). apply (th_refs _ _ (iv_typed _ I) o n f v b); try assumption.
    rewrite inv_ofield by exact I. exact F.
  Qed.
  Lemma inv_keys h o k n : inv h -> sget k (o_lkeys (h_obj h0 o)) = Some n ->
    exists f, fld o n = Some f /\ is_local f = true /\ fl_ref f = k.
  Proof.
    intros I H. rewrite <- (iv_lkeys _ I) in H. destruct (th_keys _ _ (iv_typed _ I) _ _ _ H) as (f & A & B).
    exists f. rewrite inv_ofield in A by exact I. split; assumption.
  Qed.
  Lemma inv_local h o n f : inv h -> fld o n = Some f -> is_local f = true ->
    sget (fl_ref f) (o_lkeys (h_obj h0 o)) = Some n.
  Proof.
    intros I F L. rewrite <- (iv_lkeys _ I). apply (th_local _ _ (iv_typed _ I)); [| exact L]. rewrite inv_ofield by exact I. exact F.
  Qed.
  Lemma inv_task h t : inv h -> typed_task h0 t -> typed_task h t.
  Proof.
    intros I. pose proof (iv_class _ I) as C. pose proof (iv_lkeys _ I) as L.
    assert (OF : forall o n, ofield h o n = fld o n) by (intros; apply inv_ofield, I).
    destruct t as [o n v | o f v | o f v | o a p lab op | o a p lab op]; cbn [ObjSpec.typed_task].
    - intros [(f & H1 & H2 & H3) | (H1 & m & H2)].
      + left. exists f. rewrite OF. split; [exact H1 | split; [exact H2 |]]. intros Hr b Hb. rewrite C. auto.
      + right. rewrite OF, L. split; [exact H1 | exists m; exact H2].
    - intros (H1 & H2 & H3). rewrite OF. split; [exact H1 | split; [exact H2 |]]. intros b Hb. rewrite C. auto.
    - intros (H1 & H2 & H3). rewrite OF. split; [exact H1 | split; [exact H2 |]]. intros b Hb. rewrite C. auto.
    - intros [(f & H) | [(f & H1 & H2 & H3 & H4 & H5) | (H1 & H2 & H3 & m & H4)]].
      + left. exists f. rewrite OF. exact H.
      + right; left. exists f. rewrite OF. repeat (split; [assumption |]). intros b Hb. rewrite C. auto.
      + right; right. rewrite OF, L. repeat (split; [assumption |]). exists m. exact H4.
    - intros (f & H). exists f. rewrite OF. exact H.
  Qed.

  (** ** One update *)
  Lemma okp_upd h o F : inv h ->
    (let b := h_obj h o in
     o_class (F b) = o_class b /\ o_lkeys (F b) = o_lkeys b /\
     (forall k, In k (o_raw (F b)) -> In k (o_raw b) \/ fld o k = None) /\
     (forall n, o_attr (F b) n = o_attr b n \/
        (~ prot o n /\ forall f v x, fld o n = Some f -> is_ref (fl_fdef f) = true ->
           o_attr (F b) n = Some v -> refers f v x -> foreign_class f = Some (cls x))) /\
     (forall n, prot o n -> sget n (o_unlinked (F b)) = sget n (o_unlinked b))) ->
    okp h ((Ok tt : res unit), upd o F h).
  Proof.
    intros I (HC & HL & HR & HA & HU). set (b := h_obj h o) in *.
    assert (SM : h_obj (upd o F h) o = F b) by (cbn; rewrite Nat.eqb_refl; reflexivity).
    assert (OT : forall x, x <> o -> h_obj (upd o F h) x = h_obj h x).
    { intros x N. cbn. apply Nat.eqb_neq in N. rewrite N. reflexivity. }
    assert (C : forall x, o_class (h_obj (upd o F h) x) = cls x).
    { intros x. rewrite <- (iv_class _ I). destruct (Nat.eq_dec x o) as [-> | N]; [rewrite SM; exact HC | rewrite OT by exact N; reflexivity]. }
    assert (L : forall x, o_lkeys (h_obj (upd o F h) x) = o_lkeys (h_obj h0 x)).
    { intros x. rewrite <- (iv_lkeys _ I). destruct (Nat.eq_dec x o) as [-> | N]; [rewrite SM; exact HL | rewrite OT by exact N; reflexivity]. }
    assert (OF : forall x n, ofield (upd o F h) x n = fld x n) by (intros; apply ofield_class, C).
    split; cbn [snd].
    - constructor; [constructor | exact C | exact L].
      + intros x n f v y Hf Hr Ha Hy. rewrite OF in Hf. rewrite C. destruct (Nat.eq_dec x o) as [-> | N].
        * unfold attr in Ha. rewrite SM in Ha. destruct (HA n) as [K | [_ K]]; [| eapply K; eassumption].
          rewrite K in Ha. eapply (inv_refs h); eassumption.
        * unfold attr in Ha. rewrite OT in Ha by exact N. eapply (inv_refs h); eassumption.
      + intros x k n Hk. rewrite L in Hk. rewrite OF. apply (inv_keys h); assumption.
      + intros x n f Hf Hl. rewrite OF in Hf. rewrite L. apply (inv_local h); assumption.
      + intros x k Hk. rewrite OF. destruct (Nat.eq_dec x o) as [-> | N].
        * rewrite SM in Hk. destruct (HR k Hk) as [K | K]; [| exact K]. rewrite <- (inv_ofield h) by exact I. apply (th_raw _ _ (iv_typed _ I)), K.
        * rewrite OT in Hk by exact N. rewrite <- (inv_ofield h) by exact I. apply (th_raw _ _ (iv_typed _ I)), Hk.
    - intros x n P. unfold attr. destruct (Nat.eq_dec x o) as [-> | N]; [| rewrite OT by exact N; split; reflexivity].
      rewrite SM. split; [| apply HU, P]. destruct (HA n) as [K | [K _]]; [exact K | contradiction].
  Qed.

  Lemma okp_quiet h o F : inv h ->
    (forall b, o_class (F b) = o_class b /\ o_lkeys (F b) = o_lkeys b /\ o_raw (F b) = o_raw b /\
               o_attr (F b) = o_attr b /\ o_unlinked (F b) = o_unlinked b) -> okp h (updm o F h).
  Proof.
    intros I H. unfold updm, modify. apply okp_upd; [exact I |]. destruct (H (h_obj h o)) as (A & B & C & D & E).
    cbn zeta. rewrite A, B, C, D, E. repeat split; auto.
  Qed.
  Lemma okp_mark h o k : inv h -> okp h (mark o k h).
  Proof. intros I. unfold mark. apply okp_quiet; [exact I |]. intros b. destruct (o_new b); repeat split. Qed.
  Lemma okp_mark_local h o k : inv h -> okp h (mark_local o k h).
  Proof. intros I. unfold mark_local. apply okp_quiet; [exact I |]. intros b. destruct (_ && _); repeat split. Qed.
  Lemma okp_remember h o n v : inv h -> okp h (remember o n v h).
  Proof. intros I. unfold remember. apply okp_quiet; [exact I |]. intros b. destruct (smem _ _); repeat split. Qed.

  Lemma sget_sset_other (n m : string) (v : list value) d : n <> m -> sget n (sset m v d) = sget n d.
  Proof.
    intros N. unfold sget, sset. induction d as [| [k w] d IH]; cbn.
    - apply String.eqb_neq in N. rewrite N. reflexivity.
    - destruct (String.eqb m k) eqn:E; cbn; [| rewrite IH; reflexivity].
      apply String.eqb_eq in E. subst k. apply String.eqb_neq in N. rewrite N. reflexivity.
  Qed.
  Lemma okp_pool h o n (G : obj -> list value) : inv h -> ~ prot o n ->
    okp h (Ok tt : res unit, upd o (fun b => set_unlinked (sset n (G b) (o_unlinked b)) b) h).
  Proof.
    intros I P. apply okp_upd; [exact I |]. cbn. repeat split; auto. intros m Pm. apply sget_sset_other. intros ->. contradiction.
  Qed.
  Lemma okp_add_unlinked h o n x : inv h -> ~ prot o n -> okp h (add_unlinked oeq o n x h).
  Proof. intros I P. unfold add_unlinked, modify. apply (okp_pool h o n (fun b => _) I P). Qed.
  Lemma okp_del_unlinked h o n x : inv h -> ~ prot o n -> okp h (del_unlinked oeq o n x h).
  Proof. intros I P. unfold del_unlinked, modify. apply (okp_pool h o n (fun b => _) I P). Qed.

  Lemma okp_attr h o n v : inv h -> ~ prot o n ->
    (forall f x, fld o n = Some f -> is_ref (fl_fdef f) = true -> refers f v x -> foreign_class f = Some (cls x)) ->
    okp h (updm o (set_attr n v) h).
  Proof.
    intros I P H. unfold updm, modify. apply okp_upd; [exact I |]. cbn. repeat split; auto.
    intros m. destruct (String.eqb_spec m n) as [-> | N]; [| left; reflexivity]. right. split; [exact P |].
    intros f w x Hf Hr Hw. injection Hw as <-. apply H; assumption.
  Qed.
  Lemma okp_attr_nofield h o n v : inv h -> ~ prot o n -> fld o n = None -> okp h (updm o (set_attr n v) h).
  Proof. intros I P H. apply okp_attr; [exact I | exact P |]. intros f x Hf. rewrite H in Hf. discriminate Hf. Qed.
  Lemma okp_store_keys h o k l : inv h -> ~ prot o k -> fld o k = None -> okp h (store_keys o k l h).
  Proof.
    intros I P H. unfold store_keys, updm, modify. apply okp_upd; [exact I |]. cbn. repeat split; auto.
    - intros x Hx. apply filter_In in Hx. left. apply Hx.
    - intros m. destruct (String.eqb_spec m k) as [-> | N]; [| left; reflexivity]. right. split; [exact P |].
      intros f w x Hf. rewrite H in Hf. discriminate Hf.
  Qed.
  Lemma okp_set_plain h o n v : inv h -> ~ prot o n -> fld o n = None -> okp h (set_plain o n v h).
  Proof.
    intros I P H. unfold set_plain, updm, modify. apply okp_upd; [exact I |]. cbn. repeat split; auto.
    - intros x Hx.
      assert (K : In x (filter (fun m => negb (String.eqb m n)) (o_raw (h_obj h o))) \/ x = n).
      { destruct v; try (left; exact Hx). apply in_app_or in Hx. destruct Hx as [Hx | [Hx | []]]; [left; exact Hx | right; auto]. }
      destruct K as [K | ->]; [left; apply filter_In in K; apply K | right; exact H].
    - intros m. destruct (String.eqb_spec m n) as [-> | N]; [| left; reflexivity]. right. split; [exact P |].
      intros f w x Hf. rewrite H in Hf. discriminate Hf.
  Qed.
  Lemma okp_put h o a p c : inv h -> ~ prot o a ->
    (forall f, fld o a = Some f -> is_ref (fl_fdef f) = true -> p = [] /\ forall x, refers f c x -> foreign_class f = Some (cls x)) ->
    okp h (modify (put_at o a p c) h).
  Proof.
    intros I P H. unfold modify, put_at. destruct (attr h o a) as [v |]; [| apply okp_refl, I].
    apply (okp_attr h o a (vput p c v) I P). intros f x Hf Hr. destruct (H f Hf Hr) as [-> K]. cbn [vput]. apply K.
  Qed.
  Lemma okp_graphs h o x : inv h -> okp h (link_graphs ct pystr o x h).
  Proof.
    intros I. unfold link_graphs. destruct x; try (apply okp_refl, I). destruct (link_graph _ _ _ _ _) as [r g].
    split; cbn [snd]; [| intros y n _; split; reflexivity]. destruct I as [[A B C D] E G]. constructor; [constructor | |]; assumption.
  Qed.
  Lemma okp_record_previous h o f : inv h -> okp h (record_previous ct getter o f h).
  Proof.
    intros I. unfold record_previous. apply okp_gets. destruct (resettable ct h o f); [| apply okp_refl, I].
    destruct (has_linked _ _); [apply okp_refl, I |]. apply okp_gets. destruct (smem _ _); [apply okp_refl, I |].
    assert (K : okp h ((do* v <- getattr ct getter o (fl_name f); do* c <- lift (copy_for f v);
                        match c with Some c => remember o (fl_name f) c | None => ret tt end) h)).
    { apply okp_then; [exact I | | apply getattr_pure]. intros v _. apply okp_then; [exact I | | unfold lift; reflexivity].
      intros [c |] _; [apply okp_remember, I | apply okp_refl, I]. }
    destruct (f_ftype (fl_fdef f)) as [[] |]; try exact K; apply okp_refl, I.
  Qed.
  Lemma okp_olist_will h o lab : inv h -> okp h (olist_will ct getter o lab h).
  Proof. intros I. unfold olist_will. apply okp_gets. destruct (ObjModel.ofield ct h o _); [apply okp_record_previous, I | apply okp_refl, I]. Qed.
  Lemma okp_odict_will h o lab : inv h -> okp h (odict_will ct getter o lab h).
  Proof. intros I. unfold odict_will. apply okp_gets. destruct (ObjModel.ofield ct h o _); [apply okp_record_previous, I | apply okp_refl, I]. Qed.

  Definition off (t : task) : Prop :=
    match t with
    | TSet o n _ | TOp o n _ _ _ | TDOp o n _ _ _ => ~ prot o n
    | TUnlink o f _ | TLink o f _ => ~ prot o (fl_name f)
    end.

  Section Rec.
    Context (rec : task -> st heap unit).
    Hypothesis IH : forall t h, inv h -> typed_task h0 t -> off t -> okp h (rec t h).

    Lemma okp_olist_add h o a p lab i x : inv h -> ~ prot o a ->
      list_place ct h o a p lab -> item_ok ct h o a x -> okp h (olist_add ct rec o a p lab i x h).
    Proof.
      intros I P HL HI. pose proof (iv_typed _ I) as Ht. unfold olist_add. apply okp_gets.
      destruct (local_field_of h o lab) as [m |] eqn:E; [apply okp_mark_local, I |].
      pose proof (place_nolk _ _ _ _ _ _ Ht HL E) as Hne. apply okp_gets. apply okp_bind.
      - destruct (ofield h o lab) as [f |] eqn:Ef; [| apply okp_refl, I].
        destruct (is_ref (fl_fdef f)) eqn:Er; [| apply okp_refl, I].
        assert (Hlab : lab = a /\ p = []).
        { destruct HL as [(g & H1 & H2 & H3) | [(g & H1 & H2 & H3 & H4) | (H1 & _)]]; [| auto | congruence].
          destruct (plain_lab ct wf h o a g lab Ht H1 H2 H3) as [_ K]. specialize (K f Ef). subst g.
          rewrite (ref_not_plain _ Er) in H2. discriminate H2. }
        destruct Hlab as [-> ->].
        assert (Hfn : fl_name f = a) by (destruct (ofield_in ct wf _ _ _ _ Ef) as (d & _ & _ & Hn & _); exact Hn).
        assert (Ef0 : fld o a = Some f) by (rewrite <- (inv_ofield h) by exact I; exact Ef).
        apply okp_bind.
        + apply IH; [exact I | | cbn [off]; rewrite Hfn; exact P].
          cbn. rewrite Hfn. split; [exact Ef0 | split; [exact Er |]].
          intros b Hb. unfold refers, link_items in Hb.
          destruct (f_ftype (fl_fdef f)) as [[] |] eqn:Et; try (destruct Hb; fail).
          destruct Hb as [Hb | []]. rewrite <- (iv_class _ I). apply (HI f b Ef Er Hb Et).
        + intros [] h1 _ I1. destruct (is_local f) eqn:El; [| apply okp_refl, I1].
          apply okp_then; [exact I1 | | apply len_at_pure]. intros n _.
          apply okp_then; [exact I1 | | apply len_at_pure]. intros n' _.
          destruct (Z.eqb n n'); [apply okp_refl, I1 |].
          apply okp_then; [exact I1 | | apply vid_pure]. intros j _. destruct (is_none j); [apply okp_refl, I1 |].
          apply IH; [exact I1 | | cbn [off]; apply (p_ref o a f Ef0 El P)].
          cbn. right; right. split; [apply (ofield_ref ct wf _ _ _ _ Ef0 El) | split; [reflexivity | split; [reflexivity |]]].
          exists a. apply (inv_local h1); assumption.
      - intros [] h1 _ I1. apply okp_bind; [| intros [] h2 _ I2; apply okp_mark, I2].
        assert (K : match x with VDict _ | VList _ => True | _ => False end -> okp h1 (rec (TOp o a p lab (LSetInt i x)) h1)).
        { intros Hv. apply IH; [exact I1 | | exact P]. cbn [ObjSpec.typed_task].
          unfold list_place in HL. rewrite (inv_ofield h) in HL by exact I. rewrite (iv_lkeys _ I) in HL.
          destruct HL as [HL | [(f & H1 & H2 & H3 & H4) | HL]]; [left; exact HL | | right; right; exact HL].
          right; left. exists f. repeat (split; [assumption |]).
          cbn [op_items]. intros b Hb. unfold refers, link_items in Hb.
          destruct (f_ftype (fl_fdef f)) as [[] |]; try (destruct Hb; fail).
          destruct Hb as [Hb | []]. subst x. destruct Hv. }
        destruct x; try (apply okp_refl, I1); apply K; exact Logic.I.
    Qed.

    Lemma okp_olist_del h o a p lab x : inv h -> ~ prot o a ->
      list_place ct h o a p lab -> item_ok ct h o a x -> okp h (olist_del ct oeq getter rec o a p lab x h).
    Proof.
      intros I P HL HI. pose proof (iv_typed _ I) as Ht. unfold olist_del. apply okp_gets.
      destruct (local_field_of h o lab) as [m |] eqn:E.
      - destruct (place_lk ct wf _ _ _ _ _ _ Ht HL E) as (_ & _ & _ & f & Hf & Hl & Hrf).
        rewrite (inv_ofield h) in Hf by exact I.
        apply okp_bind; [apply okp_mark_local, I |]. intros [] h1 _ I1.
        apply okp_then; [exact I1 | | apply getattr_pure]. intros v Eg.
        destruct v as [ | | | | | | | | l | | | ]; try (apply okp_refl, I1).
        apply okp_then; [exact I1 | | apply len_at_pure]. intros k _. destruct (Z.eqb _ k); [apply okp_refl, I1 |].
        apply okp_then; [exact I1 | | apply first_with_id_pure]. intros [v |] E4; [| apply okp_refl, I1].
        apply IH; [exact I1 | |].
        + cbn [ObjSpec.typed_task]. right; left. exists f.
          split; [exact Hf | split; [apply local_ref, Hl | split; [reflexivity | split; [reflexivity |]]]].
          cbn [op_items]. intros b Hb. unfold refers, link_items in Hb.
          destruct (f_ftype (fl_fdef f)) as [[] |] eqn:Et; try (destruct Hb; fail).
          destruct Hb as [Hb | []]. subst v. apply first_with_id_in in E4.
          assert (Ha : attr h1 o m = Some (VList l)).
          { unfold getattr in Eg. rewrite (inv_ofield h1), Hf in Eg by exact I1. rewrite (ref_not_calc _ (local_ref _ Hl)) in Eg.
            destruct (attr h1 o m) as [w |]; inversion Eg. reflexivity. }
          apply (inv_refs h1 o m f (VList l) b I1 Hf (local_ref _ Hl) Ha). unfold refers, link_items. rewrite Et. exact E4.
        + cbn [off]. apply (p_key o m f Hf Hl). rewrite Hrf. exact P.
      - pose proof (place_nolk _ _ _ _ _ _ Ht HL E) as Hne. apply okp_gets. apply okp_bind; [| intros [] h1 _ I1; apply okp_mark, I1].
        destruct (ofield h o lab) as [f |] eqn:Ef; [| apply okp_refl, I].
        destruct (is_ref (fl_fdef f)) eqn:Er; [| apply okp_refl, I].
        assert (Hlab : lab = a /\ p = []).
        { destruct HL as [(g & H1 & H2 & H3) | [(g & H1 & H2 & H3 & H4) | (H1 & _)]]; [| auto | congruence].
          destruct (plain_lab ct wf h o a g lab Ht H1 H2 H3) as [_ K]. specialize (K f Ef). subst g.
          rewrite (ref_not_plain _ Er) in H2. discriminate H2. }
        destruct Hlab as [-> ->].
        assert (Hfn : fl_name f = a) by (destruct (ofield_in ct wf _ _ _ _ Ef) as (d & _ & _ & Hn & _); exact Hn).
        assert (Ef0 : fld o a = Some f) by (rewrite <- (inv_ofield h) by exact I; exact Ef).
        apply okp_bind.
        + apply IH; [exact I | | cbn [off]; rewrite Hfn; exact P].
          cbn. rewrite Hfn. split; [exact Ef0 | split; [exact Er |]].
          intros b Hb. unfold refers, link_items in Hb.
          destruct (f_ftype (fl_fdef f)) as [[] |] eqn:Et; try (destruct Hb; fail).
          destruct Hb as [Hb | []]. rewrite <- (iv_class _ I). apply (HI f b Ef Er Hb Et).
        + intros [] h1 _ I1. destruct (is_local f) eqn:El; [| apply okp_refl, I1].
          apply okp_then; [exact I1 | | apply len_at_pure]. intros n _.
          apply okp_then; [exact I1 | | apply len_at_pure]. intros n' _.
          destruct (Z.eqb n n'); [apply okp_refl, I1 |].
          destruct (is_none x); [apply okp_refl, I1 |].
          apply okp_then; [exact I1 | | apply vid_pure]. intros j _. apply okp_gets.
          match goal with |- okp _ ((if ?c then _ else _) _) => destruct c end; [| apply okp_refl, I1].
          apply IH; [exact I1 | | cbn [off]; apply (p_ref o a f Ef0 El P)].
          cbn. right; right. split; [apply (ofield_ref ct wf _ _ _ _ Ef0 El) | split; [reflexivity | split; [reflexivity |]]].
          exists a. apply (inv_local h1); assumption.
    Qed.

    Lemma okp_list_event h o a p lab e : inv h -> ~ prot o a -> list_place ct h o a p lab ->
      (forall x, match fst e with CAdd _ y | CDel (Some y) => x = y | _ => False end -> item_ok ct h o a x) ->
      okp h (list_event ct oeq getter rec o a p lab e h).
    Proof.
      intros I P HL HI. unfold list_event. destruct (fst e) as [| i x | [x |] |].
      - apply okp_refl, I.
      - apply okp_olist_add; [exact I | exact P | exact HL | apply HI; reflexivity].
      - apply okp_olist_del; [exact I | exact P | exact HL | apply HI; reflexivity].
      - apply okp_olist_del; [exact I | exact P | exact HL |]. intros f b _ _ Hx. discriminate Hx.
      - unfold olist_sor. apply okp_mark, I.
    Qed.

    Lemma place_inv h h' o a p lab : inv h -> inv h' -> list_place ct h o a p lab -> list_place ct h' o a p lab.
    Proof.
      intros I I'. unfold list_place. rewrite !(inv_ofield h), !(inv_ofield h'), (iv_lkeys _ I), (iv_lkeys _ I') by assumption. auto.
    Qed.
    Lemma item_inv h h' o a x : inv h -> inv h' -> item_ok ct h o a x -> item_ok ct h' o a x.
    Proof.
      intros I I' H f b Hf Hr Hx Hl. rewrite (inv_ofield h') in Hf by exact I'. rewrite (iv_class _ I'), <- (iv_class _ I).
      eapply H; try eassumption. rewrite (inv_ofield h) by exact I. exact Hf.
    Qed.

    Lemma okp_do_list h o a p lab op : inv h -> typed_task h0 (TOp o a p lab op) -> ~ prot o a ->
      okp h (do_list ct oeq getter rec o a p lab op h).
    Proof.
      intros I Htt0 P. pose proof (inv_task h _ I Htt0) as Htt. pose proof (iv_typed _ I) as Ht. unfold do_list.
      destruct (attr_at h o a p) as [[ | | | | | | | | l | | | ] |] eqn:Ea; try (apply okp_refl, I).
      assert (HL : list_place ct h o a p lab).
      { destruct Htt as [H | [(f & H1 & H2 & H3 & H4 & _) | H]];
          [left; exact H | right; left; exists f; auto | right; right; exact H]. }
      destruct (sinb a (o_raw (h_obj h o))) eqn:Er.
      - apply sinb_In in Er. pose proof (th_raw _ _ Ht _ _ Er) as Hnone. rewrite (inv_ofield h) in Hnone by exact I.
        destruct (plain_step (eqv oeq h) op l) as [r l']. apply okp_bind.
        + apply okp_put; [exact I | exact P |]. intros f Hf. rewrite Hnone in Hf. discriminate Hf.
        + intros [] h1 _ I1. destruct r; apply okp_refl, I1.
      - destruct (owned_step (eqv oeq h) op l) as [[r l'] es] eqn:Eo.
        destruct (owned_step_from _ _ _ _ _ _ Eo) as [F1 F2].
        assert (FI : forall x, from l (op_items op) x -> item_ok ct h o a x).
        { intros x Hx f b Hf Hr Hb Hl. subst x.
          destruct Htt as [(g & H1 & H2 & _) | [(g & H1 & H2 & H3 & H4 & H5) | (H1 & _)]]; [| | congruence].
          - assert (g = f) by congruence. subst g. rewrite (ref_not_plain _ Hr) in H2. discriminate H2.
          - assert (g = f) by congruence. subst g p. destruct Hx as [Hx | Hx].
            + unfold attr_at in Ea. destruct (attr h o a) as [v |] eqn:Eav; [| discriminate Ea].
              cbn in Ea. inversion Ea; subst v.
              apply (th_refs _ _ Ht o a f (VList l) b Hf Hr Eav). unfold refers, link_items. rewrite Hl. exact Hx.
            + apply H5. unfold refers, link_items. rewrite Hl. exact Hx. }
        apply okp_bind.
        { destruct (existsb is_will es); [apply okp_olist_will | apply okp_refl]; exact I. }
        intros [] h1 _ I1. apply okp_bind.
        + apply okp_put; [exact I1 | exact P |]. intros f Hf Hr. rewrite <- (inv_ofield h) in Hf by exact I.
          destruct Htt as [(g & H1 & H2 & _) | [(g & H1 & H2 & H3 & H4 & H5) | (H1 & _)]]; [| | congruence].
          * assert (g = f) by congruence. subst g. rewrite (ref_not_plain _ Hr) in H2. discriminate H2.
          * split; [exact H3 |]. intros x Hx. unfold refers, link_items in Hx.
            destruct (f_ftype (fl_fdef f)) as [[] |] eqn:Et; try (destruct Hx; fail).
            rewrite <- (iv_class _ I). apply (FI (VObj x) (F1 _ Hx) f x Hf Hr eq_refl Et).
        + intros [] h2 _ I2. destruct r as [r | e]; [| apply okp_refl, I2].
          apply okp_for; [exact I2 |]. intros e h3 He I3. apply okp_list_event; [exact I3 | exact P | apply (place_inv h); assumption |].
          intros x Hx. apply (item_inv h); [exact I | exact I3 |]. apply FI. specialize (F2 e He). unfold event_from in F2.
          destruct (fst e) as [| i y | [y |] |]; try (destruct Hx; fail); subst x; exact F2.
    Qed.

    Lemma okp_do_dict h o a p lab op : inv h -> typed_task h0 (TDOp o a p lab op) -> ~ prot o a ->
      okp h (do_dict ct getter rec o a p lab op h).
    Proof.
      intros I Htt P. unfold do_dict.
      destruct (attr_at h o a p) as [[ | | | | | | | | | d | | ] |] eqn:Ea; try (apply okp_refl, I).
      destruct (owned_dstep String.eqb VNone op d) as [[r d'] es].
      apply okp_bind; [destruct (existsb is_dwill es); [apply okp_odict_will | apply okp_refl]; exact I |].
      intros [] h1 _ I1. apply okp_bind.
      - apply okp_put; [exact I1 | exact P |]. intros f Hf Hr. destruct Htt as (g & H1 & H2 & _). assert (g = f) by congruence. subst g.
        rewrite (ref_not_plain _ Hr) in H2. discriminate H2.
      - intros [] h2 _ I2. destruct r as [r | e]; [| apply okp_refl, I2].
        apply okp_for; [exact I2 |]. intros e h3 He I3. unfold dict_event. destruct (fst e) as [| k x | x]; [apply okp_refl, I3 | | apply okp_mark, I3].
        apply okp_bind; [| intros [] h4 _ I4; apply okp_mark, I4].
        assert (K : okp h3 (rec (TDOp o a p lab (DSetItem k x)) h3)) by (apply IH; [exact I3 | exact Htt | exact P]).
        destruct x; try (apply okp_refl, I3); exact K.
    Qed.

    Definition side_ok (o : Values.oid) (g : field) (x : value) : Prop :=
      forall b, x = VObj b -> fld b (fl_name g) = Some g /\ is_ref (fl_fdef g) = true /\
                foreign_class g = Some (cls o) /\ ~ prot b (fl_name g).

    Lemma okp_unlink_item h o g x : inv h -> side_ok o g x -> okp h (unlink_item ct oeq getter rec o g x h).
    Proof.
      intros I HO. unfold unlink_item.
      destruct (f_ftype (fl_fdef g)) as [[] |] eqn:Et; try (apply okp_refl, I).
      - apply okp_then; [exact I | | apply item_attr_pure]. intros cur _.
        destruct x; try (apply okp_refl, I). rename o0 into b.
        destruct cur as [ | | | | | | | | l | | | ]; try (apply okp_refl, I).
        destruct (HO b eq_refl) as (Hg & Hr & Hfc & Hp). apply okp_gets.
        destruct (list_contains _ _ _); [| apply okp_refl, I].
        apply okp_bind; [| intros [] h1 _ I1; apply okp_add_unlinked; assumption].
        apply IH; [exact I | | exact Hp].
        cbn [ObjSpec.typed_task]. right; left. exists g. repeat (split; [first [assumption | reflexivity] |]).
        cbn [op_items]. intros c Hc. unfold refers, link_items in Hc. rewrite Et in Hc.
        destruct Hc as [Hc | []]. inversion Hc; subst c. exact Hfc.
      - apply okp_then; [exact I | | apply item_attr_pure]. intros cur _.
        destruct x; try (apply okp_refl, I). rename o0 into b.
        destruct cur; try (apply okp_refl, I).
        destruct (HO b eq_refl) as (Hg & Hr & Hfc & Hp).
        destruct (Nat.eqb o0 o); [| apply okp_refl, I].
        apply okp_bind.
        { apply okp_attr; [exact I | exact Hp |]. intros f y Hf _ Hy. assert (f = g) by congruence. subst f.
          unfold refers, link_items in Hy. rewrite Et in Hy. destruct Hy. }
        intros [] h1 _ I1. apply okp_bind; [| intros [] h2 _ I2; apply okp_add_unlinked; assumption].
        destruct (is_local g) eqn:El; [| apply okp_refl, I1].
        unfold updm, modify. apply okp_upd; [exact I1 |]. cbn. repeat split; auto.
        intros m. destruct (String.eqb_spec m (fl_ref g)) as [-> | N]; [| left; reflexivity]. right.
        split; [apply (p_ref b (fl_name g) g Hg El Hp) |]. intros f v y Hf. rewrite (ofield_ref ct wf _ _ _ _ Hg El) in Hf. discriminate Hf.
    Qed.

    Lemma side_of o f g v x : typed_task h0 (TUnlink o f v) -> ~ prot o (fl_name f) ->
      foreign_field ct (cls o) f = Some g -> In x (link_items f v) -> side_ok o g x.
    Proof.
      intros (H1 & H2 & H3) P Hg Hx b ->.
      destruct (foreign_other ct wf h0 o (fl_name f) f g b H1 Hg (H3 b Hx)) as (A & B & C).
      split; [exact A | split; [exact B | split; [exact C |]]]. apply (p_other o (fl_name f) f g b H1 H2 P Hg (H3 b Hx)).
    Qed.

    Lemma okp_unlink h o f v : inv h -> typed_task h0 (TUnlink o f v) -> ~ prot o (fl_name f) ->
      okp h (unlink ct oeq getter rec o f v h).
    Proof.
      intros I Htt P. unfold unlink. apply okp_gets. rewrite (iv_class _ I).
      destruct (foreign_field ct (cls o) f) as [g |] eqn:Eg.
      - apply okp_for; [exact I |]. intros x h1 Hx I1. apply okp_bind; [apply okp_add_unlinked; assumption |].
        intros [] h2 _ I2. apply okp_unlink_item; [exact I2 |]. eapply side_of; eassumption.
      - destruct (link_items f v); [apply okp_refl, I | apply okp_add_unlinked; assumption].
    Qed.

    Lemma okp_link_item h o g x : inv h -> side_ok o g x -> okp h (link_item ct oeq getter rec o g x h).
    Proof.
      intros I HO. unfold link_item.
      destruct (f_ftype (fl_fdef g)) as [ty |] eqn:Et; [| apply okp_refl, I].
      assert (RF : forall v b, x = VObj b -> (forall y, refers g v y -> y = o) ->
                  okp h ((rec (TSet b (fl_name g) v) >> del_unlinked oeq b (fl_name g) (VObj o)) h)).
      { intros v b -> Hv. destruct (HO b eq_refl) as (Hg & Hr & Hfc & Hp).
        apply okp_bind; [| intros [] h1 _ I1; apply okp_del_unlinked; assumption].
        apply IH; [exact I | | exact Hp].
        cbn [ObjSpec.typed_task]. left. exists g. split; [exact Hg | split; [apply ref_not_calc; exact Hr |]].
        intros _ y Hy. rewrite (Hv y Hy). exact Hfc. }
      destruct ty; try (apply okp_refl, I).
      - apply okp_then; [exact I | | apply item_attr_pure]. intros cur _.
        destruct x; try (destruct cur; apply okp_refl, I). rename o0 into b.
        assert (K : okp h ((rec (TSet b (fl_name g) (VList [VObj o])) >> del_unlinked oeq b (fl_name g) (VObj o)) h)).
        { apply RF; [reflexivity |]. intros y Hy. unfold refers, link_items in Hy. rewrite Et in Hy.
          destruct Hy as [Hy | []]. inversion Hy. reflexivity. }
        destruct cur as [ | | | | | | | | l | | | ]; try exact K.
        destruct (HO b eq_refl) as (Hg & Hr & Hfc & Hp). apply okp_gets.
        destruct (list_contains _ _ _); [apply okp_refl, I |].
        apply okp_bind; [| intros [] h1 _ I1; apply okp_del_unlinked; assumption].
        apply IH; [exact I | | exact Hp].
        cbn [ObjSpec.typed_task]. right; left. exists g. repeat (split; [first [assumption | reflexivity] |]).
        cbn [op_items]. intros c Hc. unfold refers, link_items in Hc. rewrite Et in Hc.
        destruct Hc as [Hc | []]. inversion Hc; subst c. exact Hfc.
      - apply okp_then; [exact I | | apply item_attr_pure]. intros cur _.
        destruct x; try (apply okp_refl, I). rename o0 into b. apply okp_gets.
        destruct (eqv oeq h cur (VObj o)); [apply okp_refl, I |].
        apply RF; [reflexivity |]. intros y Hy. unfold refers, link_items in Hy. rewrite Et in Hy.
        destruct Hy as [Hy | []]. inversion Hy. reflexivity.
    Qed.

    Lemma okp_link h o f v : inv h -> typed_task h0 (TLink o f v) -> ~ prot o (fl_name f) ->
      okp h (link ct oeq getter pystr rec o f v h).
    Proof.
      intros I Htt P. unfold link. apply okp_gets. rewrite (iv_class _ I).
      destruct (foreign_field ct (cls o) f) as [g |] eqn:Eg.
      - apply okp_for; [exact I |]. intros x h1 Hx I1. apply okp_bind; [apply okp_del_unlinked; assumption |].
        intros [] h2 _ I2. apply okp_bind; [apply okp_link_item; [exact I2 |]; eapply side_of; eassumption |].
        intros [] h3 _ I3. apply okp_graphs, I3.
      - destruct (link_items f v); [apply okp_refl, I | apply okp_del_unlinked; assumption].
    Qed.

    Lemma okp_store_local h o n f v : inv h -> fld o n = Some f -> ~ prot o n -> okp h (store_local ct o f v h).
    Proof.
      intros I Hf P. unfold store_local. destruct (is_local f) eqn:El; [| apply okp_refl, I].
      pose proof (ofield_ref ct wf _ _ _ _ Hf El) as Hnone. pose proof (p_ref o n f Hf El P) as Pr.
      destruct (f_ftype (fl_fdef f)) as [[] |]; try (apply okp_refl, I).
      - destruct v; try (apply okp_refl, I); try (apply okp_store_keys; assumption).
        apply okp_then; [exact I | | apply keys_of_pure]. intros ks _. apply okp_store_keys; assumption.
      - destruct v; try (apply okp_refl, I); try (apply okp_attr_nofield; assumption).
    Qed.

    Lemma okp_set_field h o n f v : inv h -> fld o n = Some f -> is_calc f = false -> ~ prot o n ->
      (is_ref (fl_fdef f) = true -> forall b, refers f v b -> foreign_class f = Some (cls b)) ->
      okp h (set_field ct oeq getter setter rec o f v h).
    Proof.
      intros I Hf Hc P Hv. destruct (ofield_in ct wf _ _ _ _ Hf) as (d & _ & Hin & Hn & Wc).
      unfold set_field. rewrite Hc, Hn. apply okp_gets. apply okp_gets.
      match goal with |- okp _ ((if ?c then _ else _) _) => destruct c end; [apply okp_refl, I |].
      apply okp_gets. apply okp_bind.
      { destruct (o_new (h_obj h o)); [apply okp_refl, I |].
        apply okp_bind; [apply okp_mark, I |]. intros [] h1 _ I1. apply okp_gets.
        destruct (resettable ct h1 o f); [| apply okp_refl, I1]. apply okp_gets.
        destruct (smem n _); [apply okp_refl, I1 |].
        apply okp_then; [exact I1 | | apply getattr_pure]. intros c _. apply okp_remember, I1. }
      intros [] h1 _ I1.
      assert (GA : forall h2, inv h2 -> okp h2 (updm o (set_attr n v) h2)).
      { intros h2 I2. apply okp_attr; [exact I2 | exact P |]. intros f' x Hf' Hr Hx. assert (f' = f) by congruence. subst f'.
        apply Hv; assumption. }
      destruct (is_ref (fl_fdef f)) eqn:Er; [| apply GA, I1].
      apply okp_bind.
      { destruct (attr h o n) as [c |] eqn:Ec; [| apply okp_refl, I1].
        apply IH; [exact I1 | | cbn [off]; rewrite Hn; exact P].
        cbn [ObjSpec.typed_task]. rewrite Hn. split; [exact Hf | split; [exact Er |]].
        intros b Hb. eapply (inv_refs h); eassumption. }
      intros [] h2 _ I2. apply okp_bind; [apply GA, I2 |].
      intros [] h3 _ I3. apply okp_bind; [apply (okp_store_local h3 o n); assumption |].
      intros [] h4 _ I4. apply IH; [exact I4 | | cbn [off]; rewrite Hn; exact P].
      cbn [ObjSpec.typed_task]. rewrite Hn. split; [exact Hf | split; [exact Er |]]. apply Hv. reflexivity.
    Qed.

    Lemma okp_set_local_key h o n m v : inv h -> sget n (o_lkeys (h_obj h0 o)) = Some m -> ~ prot o n ->
      okp h (set_local_key ct oeq getter rec o n m v h).
    Proof.
      intros I Hk P. destruct (inv_keys h _ _ _ I Hk) as (f & Hf & Hl & Hrf).
      pose proof (ofield_ref ct wf _ _ _ _ Hf Hl) as Hnone. rewrite Hrf in Hnone.
      pose proof (local_ref _ Hl) as Hr.
      assert (Pm : ~ prot o m) by (apply (p_key o m f Hf Hl); rewrite Hrf; exact P).
      unfold set_local_key. apply okp_gets. rewrite (inv_ofield h), Hf by exact I.
      assert (TS : forall h1 w, inv h1 -> (forall b, refers f w b -> foreign_class f = Some (cls b)) -> okp h1 (rec (TSet o m w) h1)).
      { intros h1 w I1 Hw. apply IH; [exact I1 | | exact Pm].
        cbn [ObjSpec.typed_task]. left. exists f. split; [exact Hf | split; [apply ref_not_calc, Hr | intros _; exact Hw]]. }
      assert (E0 : forall b, refers f VNone b -> foreign_class f = Some (cls b)).
      { intros b Hb. unfold refers, link_items in Hb. destruct (f_ftype (fl_fdef f)) as [[] |]; destruct Hb. }
      assert (E1 : forall b, refers f (VList []) b -> foreign_class f = Some (cls b)).
      { intros b Hb. unfold refers, link_items in Hb. destruct (f_ftype (fl_fdef f)) as [[] |]; destruct Hb. }
      apply okp_bind; [| intros [] h1 _ I1; apply okp_mark, I1].
      destruct (f_ftype (fl_fdef f)) as [[] |] eqn:Et; try (apply okp_refl, I).
      - destruct v; try (apply okp_refl, I).
        + apply okp_bind; [apply okp_store_keys; assumption |]. intros [] h1 _ I1. apply TS; assumption.
        + apply okp_bind; [apply okp_store_keys; assumption |]. intros [] h1 _ I1.
          apply okp_then; [exact I1 | | apply getattr_pure]. intros cur Eg.
          destruct cur as [ | | | | | | | | l1 | | | ]; try (apply okp_refl, I1).
          * apply TS; assumption.
          * apply okp_then; [exact I1 | | apply pick_by_ids_pure]. intros nl Ep.
            apply TS; [exact I1 |]. intros b Hb. unfold refers, link_items in Hb. rewrite Et in Hb.
            apply (inv_refs h1 o m f (VList l1) b I1 Hf Hr).
            -- unfold getattr in Eg. rewrite (inv_ofield h1), Hf in Eg by exact I1. rewrite (ref_not_calc _ Hr) in Eg.
               destruct (attr h1 o m) as [w |]; inversion Eg. reflexivity.
            -- unfold refers, link_items. rewrite Et. apply (pick_by_ids_in _ _ _ _ _ _ _ Ep). exact Hb.
      - apply okp_bind; [apply okp_attr_nofield; assumption |]. intros [] h1 _ I1. apply TS; assumption.
    Qed.

    Lemma okp_set_attribute h o n v : inv h -> typed_task h0 (TSet o n v) -> ~ prot o n ->
      okp h (set_attribute ct oeq getter setter rec o n v h).
    Proof.
      intros I Htt P. unfold set_attribute. apply okp_gets. apply okp_gets.
      unfold local_field_of. rewrite (iv_lkeys _ I), (inv_ofield h) by exact I.
      destruct Htt as [(f & Hf & Hc & Hv) | (Hnone & m & Hm)].
      - assert (Hlk : sget n (o_lkeys (h_obj h0 o)) = None).
        { destruct (sget n (o_lkeys (h_obj h0 o))) as [m |] eqn:E; [| reflexivity].
          destruct (inv_keys h _ _ _ I E) as (g & Hg & Hl & Hrg).
          pose proof (ofield_ref ct wf _ _ _ _ Hg Hl) as K. rewrite Hrg in K. congruence. }
        rewrite Hlk, Hf. apply (okp_set_field h o n); assumption.
      - rewrite Hm, Hnone. apply okp_then; [exact I | | apply getattr_pure]. intros cur _.
        apply okp_gets. destruct (eqv oeq h v cur); [apply okp_refl, I |].
        apply okp_bind; [apply okp_set_local_key; assumption |].
        intros [] h2 _ I2. apply okp_set_plain; assumption.
    Qed.
  End Rec.

  Theorem run_frame n : forall t h, inv h -> typed_task h0 t -> off t ->
    okp h (run ct oeq getter setter pystr n t h).
  Proof.
    induction n as [| n IHn]; intros t h I T O; [apply okp_refl, I |]. cbn [run].
    destruct t as [o k v | o f v | o f v | o a p lab op | o a p lab op]; cbn [body off] in *.
    - apply okp_set_attribute; assumption.
    - apply okp_unlink; assumption.
    - apply okp_link; assumption.
    - apply okp_do_list; assumption.
    - apply okp_do_dict; assumption.
  Qed.
End Frame.
