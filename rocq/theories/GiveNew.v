(** GiveNew.v -- lemmas for C94: a new object among the others. *)
From Coq Require Import Lia.
From Verif Require Import Base Mon PyList PyDict StrDict KeypathModel KeypathSpec PyStr Values OGraphModel OListModel OListSpec LeafSpec ChainModel
  TypesModel ObjModel ObjSpec LinkOps LinkSpec LinkFrame LinkHist PropLink IoModel IoBase InitProofs RoundSpec
  StrictSpec StrictProofs KeypathProofs MakeSpec GiveSpec GiveProofs GiveLink.
From Verif Require LeafModel ObjTrack.
Open Scope list_scope.

Section Ready.
  Context (P : program).
  Notation ct := (p_ct P).
  Notation run := (run (p_ct P) (p_oeq P) (p_getter P) (p_setter P) (LeafModel.py_str (p_str P))).

  (** What setting the field [f] to None can change in a new object *)
  Definition touched_by (f : field) (b b' : obj) : Prop :=
    o_lkeys b' = o_lkeys b /\ (o_raw b = [] -> o_raw b' = []) /\
    forall n, n <> fl_name f -> (is_local f = true -> n <> fl_ref f) -> o_attr b' n = o_attr b n.

  Lemma init_touch n cls d done rest f o h h' :
    ct cls = Some d -> proper_names d -> cd_fields d = done ++ f :: rest -> is_calc f = false ->
    blank cls done (h_obj h o) -> run (S (S n)) (TSet o (fl_name f) VNone) h = (Ok tt, h') -> touched_by f (h_obj h o) (h_obj h' o).
  Proof.
    intros D Pn E K B.
    destruct (blank_unset cls d done rest f _ B E Pn) as [Hattr Hlk].
    assert (Hin : In f (cd_fields d)) by (rewrite E; apply in_app_iff; right; left; reflexivity).
    assert (Hof : ofield ct h o (fl_name f) = Some f).
    { unfold ofield, cdef_of. rewrite (bl_class _ _ _ B), D. apply field_named_in; [apply Pn | exact Hin]. }
    cbn [ObjModel.run body]. unfold set_attribute, bind at 1 2, gets at 1 2, local_field_of. rewrite Hlk, Hof.
    unfold set_field. rewrite K. unfold bind at 1 2 3 4, gets. unfold attr. rewrite Hattr, (bl_new _ _ _ B). unfold ret at 1.
    set (h1 := upd o (set_attr (fl_name f) VNone) h).
    assert (T1 : touched_by f (h_obj h o) (h_obj h1 o)).
    { unfold h1. rewrite upd_same. split; [reflexivity | split; [auto |]]. intros m Nm _. cbn. apply String.eqb_neq in Nm. rewrite Nm. reflexivity. }
    destruct (is_ref (fl_fdef f)); [| intros X; injection X as <-; exact T1].
    unfold bind at 1, ret at 1. unfold bind at 1, updm at 1, modify at 1. fold h1.
    assert (St : exists h2, store_local ct o f VNone h1 = (Ok tt, h2) /\ touched_by f (h_obj h o) (h_obj h2 o)).
    { unfold store_local. destruct (is_local f) eqn:Lf; [| exists h1; split; [reflexivity | exact T1]].
      destruct T1 as (A1 & A2 & A3).
      destruct (f_ftype (fl_fdef f)) as [[] |]; try (exists h1; split; [reflexivity | split; [exact A1 | split; [exact A2 | exact A3]]]);
        (eexists; split; [reflexivity |]); rewrite upd_same; (split; [exact A1 | split; [intros R0; cbn [o_raw set_attr set_raw]; rewrite ?(A2 R0); try reflexivity; exact (A2 R0) |
          intros m N1 N2; rewrite <- (A3 m N1 N2); specialize (N2 Lf); apply String.eqb_neq in N2; cbn [o_attr set_attr set_raw]; rewrite N2; reflexivity]]). }
    destruct St as (h2 & St & T2). unfold bind at 1. rewrite St. cbn [body]. rewrite link_none. intros X. injection X as <-. exact T2.
  Qed.

  (** The stored keys of the fields [done] are registered and empty. *)
  Record ready (done : list field) (b : obj) : Prop := {
    rd_raw : o_raw b = [];
    rd_keys : forall f, In f done -> is_local f = true -> sget (fl_ref f) (o_lkeys b) = Some (fl_name f) /\ o_attr b (fl_ref f) = Some (empty_key f)
  }.

  Lemma ready_fields cls d o : (2 <= p_lim P)%nat -> ct cls = Some d -> proper_names d ->
    (forall f g, In f (cd_fields d) -> In g (cd_fields d) -> is_local f = true -> is_local g = true -> fl_ref f = fl_ref g -> f = g) ->
    forall rest done w, cd_fields d = done ++ rest -> blank cls done (wobj w o) -> ready done (wobj w o) ->
    forall w', for_st rest (init_field P o) w = (Ok tt, w') -> ready (cd_fields d) (wobj w' o).
  Proof.
    intros Lim D Pn Inj. induction rest as [| f rest IH]; intros done w E B Rd w' H.
    - injection H as <-. rewrite E, app_nil_r. exact Rd.
    - destruct (init_field_ok P cls d done rest f o w Lim D Pn E B) as (h1 & R & A & B1).
      cbn [for_st] in H. rewrite (bind_eq _ _ w tt (set_heap h1 w) R) in H.
      apply (IH (done ++ [f]) (set_heap h1 w)); [rewrite E, <- app_assoc; reflexivity | exact B1 | | exact H].
      assert (Inc : incl (done ++ f :: rest) (cd_fields d)) by (rewrite E; apply incl_refl).
      assert (Hf : In f (cd_fields d)) by (apply Inc, in_app_iff; right; left; reflexivity).
      assert (Old : forall g, In g done -> is_local g = true -> fl_ref g <> fl_name f /\ (is_local f = true -> fl_ref g <> fl_ref f)).
      { intros g Hg Lg. assert (Hg' : In g (cd_fields d)) by (apply Inc, in_app_iff; left; exact Hg). split; [apply (pn_refs _ Pn); assumption |].
        intros Lf Eq. pose proof (Inj g f Hg' Hf Lg Lf Eq) as ->. pose proof (pn_names _ Pn) as Nd. rewrite E, map_app in Nd. cbn in Nd.
        apply NoDup_remove_2 in Nd. apply Nd, in_app_iff. left. apply in_map, Hg. }
      unfold init_field in R. unfold wobj. cbn [set_heap w_heap]. destruct (is_calc f) eqn:K.
      + rewrite (calc_not_local f K) in R. unfold bind, ret in R. assert (h1 = w_heap w) as -> by (pose proof (f_equal (fun p => w_heap (snd p)) R) as X; cbn in X; symmetry; exact X).
        destruct Rd as [R1 R2]. split; [exact R1 |]. intros g Hg Lg. apply in_app_or in Hg. destruct Hg as [Hg | [<- | []]]; [apply R2; assumption |].
        rewrite (calc_not_local f K) in Lg. discriminate Lg.
      + unfold bind in R. destruct (setattr P o (fl_name f) VNone w) as [[[] | e] w1] eqn:E1; [| discriminate R].
        unfold setattr, liftH in E1. destruct (run (p_lim P) (TSet o (fl_name f) VNone) (w_heap w)) as [r0 h0] eqn:E0. injection E1 as -> <-.
        destruct (p_lim P) as [| [| n]] eqn:El; [lia | lia |].
        pose proof (init_touch n cls d done rest f o (w_heap w) h0 D Pn E K B E0) as (T1 & T2 & T3).
        destruct Rd as [R1 R2]. unfold wobj in *.
        destruct (is_local f) eqn:Lf.
        * assert (Eh : h1 = upd o (fun b => set_lkeys (sset (fl_ref f) (fl_name f) (o_lkeys b)) (set_attr (fl_ref f) (if is_list_field f then VList [] else VNone) b)) h0).
          { unfold liftH, updm, modify in R. cbn [set_heap w_heap] in R. injection R as <-. reflexivity. }
          subst h1. rewrite upd_same. split; [cbn; apply T2, R1 |]. intros g Hg Lg. cbn. apply in_app_or in Hg. destruct Hg as [Hg | [<- | []]].
          -- destruct (Old g Hg Lg) as [N1 N2]. specialize (N2 eq_refl). rewrite sget_sset, T1. apply String.eqb_neq in N2. rewrite N2.
             destruct (R2 g Hg Lg) as [K1 K2]. split; [exact K1 |]. rewrite T3; [exact K2 | exact N1 | intros _; apply (String.eqb_neq); exact N2].
          -- rewrite sget_sset, String.eqb_refl. auto.
        * assert (h1 = h0) as -> by (unfold ret in R; injection R as <-; reflexivity). split; [apply T2, R1 |].
          intros g Hg Lg. apply in_app_or in Hg. destruct Hg as [Hg | [<- | []]]; [| congruence].
          destruct (Old g Hg Lg) as [N1 N2]. rewrite T1, T3; [apply R2; assumption | exact N1 | discriminate].
  Qed.
End Ready.

(** ** Construction is a new object and the assignments *)
Section Steps.
  Context (P : program).
  Notation ct := (p_ct P).

  Lemma fresh_ready cls : ready [] (fresh_obj cls).
  Proof. split; [reflexivity | intros f []]. Qed.

  Lemma construct_steps cls d o kw xss : ct cls = Some d -> cd_abstract d = false -> (2 <= p_lim P)%nat -> proper_names d -> own_keys d ->
    names_known d kw -> Forall (fun kv => plain (fst kv)) kw -> Forall2 (assigns P true o kw) (cd_fields d) xss ->
    exists N, forall n w, (N <= n)%nat -> h_next (w_heap w) = o -> exists h1,
      (forall z, z <> o -> h_obj h1 z = h_obj (w_heap w) z) /\ blank cls (cd_fields d) (h_obj h1 o) /\ ready (cd_fields d) (h_obj h1 o) /\
      match given P o d kw xss h1 with
      | (Ok tt, h2) => exists w', construct P n cls kw w = (Ok o, w') /\ h_obj (w_heap w') = h_obj h2
      | (Err e, h2) => exists w', construct P n cls kw w = (Err e, w') /\ h_obj (w_heap w') = h_obj h2
      end.
  Proof.
    intros D Ab Lim Pn Ok_ Kn Pl F. destruct (set_with_eq P true o kw cls d xss D Kn F) as (N & H). exists N. intros n w L Eo.
    destruct (plain_args kw Pl) as [E1 E2]. unfold construct. rewrite E1, E2.
    pose proof (alloc_ok cls w) as Al. destruct (alloc cls w) as [o' w1] eqn:Ea.
    destruct Al as (A1 & A2 & A3 & _). assert (o' = o) as -> by congruence.
    destruct (init_fields_ok P cls d o Lim D Pn (cd_fields d) [] w1 eq_refl) as (h1 & I1 & (I2 & _) & I3).
    { unfold wobj. rewrite A2. apply fresh_blank. }
    pose proof (ready_fields P cls d o Lim D Pn Ok_ (cd_fields d) [] w1 eq_refl) as Rd. unfold wobj in Rd. rewrite A2 in Rd.
    specialize (Rd (fresh_blank cls) (fresh_ready cls) _ I1). cbn [set_heap w_heap] in Rd.
    exists h1. split; [intros z Nz; rewrite (I2 z Nz); apply A3, Nz | split; [exact I3 | split; [exact Rd |]]].
    specialize (H n (set_heap h1 w1) L (bl_class _ _ _ I3)).
    assert (C : create P (m_transform (self_mod P n cls)) cls kw w = (liftH (given P o d kw xss) >> ret o) (set_heap h1 w1)).
    { unfold create, class_named. rewrite D, bind_ret, Ab. rewrite (bind_eq _ _ w o w1); [| rewrite Ea; reflexivity]. rewrite (bind_eq _ _ w1 tt (set_heap h1 w1) I1).
      apply bind_ext; [exact H | reflexivity]. }
    unfold liftH, bind at 1 in C. cbn [set_heap w_heap] in C.
    destruct (given P o d kw xss h1) as [[[] | e] h2].
    - unfold ret in C. rewrite (bind_eq _ _ _ _ _ C). cbn [keypath_set for_st]. unfold bind, ret, graph_put, modW. cbn.
      eexists. split; [reflexivity |]. destruct (g_put _ _ _ _); reflexivity.
    - rewrite (bind_eq_err _ _ _ _ _ C). eexists. split; reflexivity.
  Qed.
End Steps.

(** ** The relation when the new object has come *)

(** No reference leads to [o], and neither side of [R] does. *)
Definition newcomer (ct : string -> option cdef) (R : relation) (h : heap) (o : oid) : Prop :=
  (forall z n f v, z <> o -> ofield ct h z n = Some f -> is_ref (fl_fdef f) = true -> attr h z n = Some v -> ~ refers f v o) /\
  (forall (s : bool) z, z <> o -> o_class (h_obj h z) = ra_class (if s then R else flip R) -> ~ In o (refs h z (ra_field (if s then R else flip R)))).

Section Born.
  Context (P : program) (R : relation).
  Notation ct := (p_ct P).
  Notation hist := (history (p_ct P) (p_oeq P) (p_getter P) (p_setter P) (LeafModel.py_str (p_str P)) (p_lim P)).
  Hypothesis W : wf_classes ct.
  Hypothesis PP : plain_primary ct.
  Hypothesis RO : relation_ok ct R.
  Context (o : oid) (cls : string) (d : cdef) (h h1 : heap).
  Hypothesis D : ct cls = Some d.
  Hypothesis Oth : forall z, z <> o -> h_obj h1 z = h_obj h z.
  Hypothesis Bl : blank cls (cd_fields d) (h_obj h1 o).
  Hypothesis Rd : ready (cd_fields d) (h_obj h1 o).
  Hypothesis Ty : typed_heap ct h.
  Hypothesis Co : consistent R h.
  Hypothesis Un : newcomer ct R h o.

  Lemma refers_objs f v b : refers f v b -> In b (objs (Some v)).
  Proof.
    unfold refers, link_items. destruct (f_ftype (fl_fdef f)) as [[] |]; try (intros []; fail).
    - destruct v as [| | | | | | | | l | | |]; try (intros []; fail). intros H. cbn [objs]. apply in_flat_map. exists (VObj b). split; [exact H | left; reflexivity].
    - destruct v; try (intros []; fail); intros [H | []]; try discriminate H. injection H as ->. left. reflexivity.
  Qed.
  Lemma field_o n f : ofield ct h1 o n = Some f -> In f (cd_fields d) /\ fl_name f = n.
  Proof. unfold ofield, cdef_of. rewrite (bl_class _ _ _ Bl), D. intros E. apply ObjTrack.field_named_in in E. exact E. Qed.
  Lemma o_field f : In f (cd_fields d) -> ofield ct h1 o (fl_name f) = Some f.
  Proof. intros Hf. unfold ofield, cdef_of. rewrite (bl_class _ _ _ Bl), D. apply field_named_in; [apply (wf_names _ _ _ (W _ _ D)) | exact Hf]. Qed.
  Lemma field_z z n : z <> o -> ofield ct h1 z n = ofield ct h z n.
  Proof. intros N. unfold ofield, cdef_of. rewrite (Oth z N). reflexivity. Qed.

  Lemma typed1 : typed_heap ct h1.
  Proof.
    constructor.
    - intros z n f v b Ef Rf Ea Hb. destruct (Nat.eq_dec z o) as [-> | Nz].
      + destruct (field_o _ _ Ef) as [Hf <-]. exfalso. destruct (bl_attrs _ _ _ Bl _ _ Ea) as [(g & _ & _ & ->) | (g & Hg & Lg & E)].
        * apply (refers_objs f VNone b) in Hb. destruct Hb.
        * apply (wf_refname _ _ _ (W _ _ D) g f Hg Hf Lg). symmetry. exact E.
      + rewrite (field_z z n Nz) in Ef. unfold attr in Ea. rewrite (Oth z Nz) in Ea. rewrite (th_refs _ _ Ty z n f v b Ef Rf Ea Hb).
        destruct (Nat.eq_dec b o) as [-> | Nb]; [| rewrite (Oth b Nb); reflexivity].
        exfalso. apply (proj1 Un z n f v Nz Ef Rf Ea Hb).
    - intros z k n E. destruct (Nat.eq_dec z o) as [-> | Nz].
      + destruct (bl_lkeys _ _ _ Bl k n E) as (f & Hf & Lf & -> & ->). exists f. split; [apply o_field, Hf | auto].
      + rewrite (Oth z Nz) in E. rewrite (field_z z n Nz). apply (th_keys _ _ Ty), E.
    - intros z n f Ef Lf. destruct (Nat.eq_dec z o) as [-> | Nz].
      + destruct (field_o _ _ Ef) as [Hf <-]. apply (rd_keys _ _ Rd f Hf Lf).
      + rewrite (Oth z Nz). rewrite (field_z z n Nz) in Ef. apply (th_local _ _ Ty); assumption.
    - intros z k Hk. destruct (Nat.eq_dec z o) as [-> | Nz].
      + rewrite (rd_raw _ _ Rd) in Hk. destruct Hk.
      + rewrite (Oth z Nz) in Hk. rewrite (field_z z k Nz). apply (th_raw _ _ Ty), Hk.
  Qed.

  Lemma ref_calc f : is_ref (fl_fdef f) = true -> is_calc f = false.
  Proof. unfold is_ref, is_calc. destruct (f_fstore (fl_fdef f)); cbn; congruence. Qed.
  Lemma refs_o f : In f (cd_fields d) -> is_ref (fl_fdef f) = true -> refs h1 o f = [].
  Proof. intros Hf Rf. unfold refs, attr. rewrite (bl_fields _ _ _ Bl f Hf (ref_calc f Rf)). reflexivity. Qed.
  Lemma refs_z z f : z <> o -> refs h1 z f = refs h z f.
  Proof. intros N. unfold refs, attr. rewrite (Oth z N). reflexivity. Qed.
  Lemma side_field s : field_of ct (ra_class (if s : bool then R else flip R)) (ra_field (if s then R else flip R)).
  Proof. destruct s; [apply (os_field _ _ (ro_a _ _ RO)) | apply (os_field _ _ (ro_b _ _ RO))]. Qed.
  Lemma side_ref s : is_ref (fl_fdef (ra_field (if s : bool then R else flip R))) = true.
  Proof. destruct s; [apply (os_ref _ _ (ro_a _ _ RO)) | apply (os_ref _ _ (ro_b _ _ RO))]. Qed.
  Lemma refs_no z (s : bool) : o_class (h_obj h1 z) = ra_class (if s then R else flip R) -> ~ In o (refs h1 z (ra_field (if s then R else flip R))).
  Proof.
    destruct (side_field s) as (d' & Ed & Hf). pose proof (side_ref s) as Rf. set (f := ra_field (if s then R else flip R)) in *.
    set (c := ra_class (if s then R else flip R)) in *. intros C H. destruct (Nat.eq_dec z o) as [-> | Nz].
    - rewrite (bl_class _ _ _ Bl) in C. rewrite <- C, D in Ed. injection Ed as <-. rewrite (refs_o f Hf Rf) in H. destruct H.
    - rewrite (refs_z z f Nz) in H. rewrite (Oth z Nz) in C. apply (proj2 Un s z Nz C), H.
  Qed.

  Lemma fine1 c f : field_of ct c f -> is_ref (fl_fdef f) = true -> side_fine h c f -> side_fine h1 c f.
  Proof.
    intros Fo Rf [S1 S2 S3 S4 S5].
    assert (Ho : o_class (h_obj h1 o) = c -> In f (cd_fields d)).
    { intros C. destruct Fo as (d' & Ed & Hf). rewrite (bl_class _ _ _ Bl) in C. subst c. rewrite D in Ed. injection Ed as <-. exact Hf. }
    constructor; intros z.
    - intros C. destruct (Nat.eq_dec z o) as [-> | Nz]; [left; apply (bl_fields _ _ _ Bl); [auto | apply ref_calc, Rf] |].
      rewrite (refs_z z f Nz). unfold attr. rewrite (Oth z Nz) in *. apply S1, C.
    - intros C. destruct (Nat.eq_dec z o) as [-> | Nz]; [rewrite refs_o; [constructor | auto | exact Rf] |].
      rewrite (refs_z z f Nz). rewrite (Oth z Nz) in *. apply S2, C.
    - intros C. unfold recorded, unlinked, recorded. destruct (Nat.eq_dec z o) as [-> | Nz].
      + rewrite (bl_unlinked _ _ _ Bl). split; [reflexivity | constructor].
      + rewrite (Oth z Nz) in *. apply S3, C.
    - intros b C Hb. destruct (Nat.eq_dec z o) as [-> | Nz]; [rewrite refs_o in Hb; [destruct Hb | auto | exact Rf] |].
      rewrite (refs_z z f Nz) in Hb. unfold unlinked, recorded. rewrite (Oth z Nz) in *. apply (S4 z b C Hb).
    - intros C L. destruct (Nat.eq_dec z o) as [-> | Nz].
      + destruct (rd_keys _ _ Rd f (Ho C) L) as [_ K]. exists (empty_key f). split; [exact K |]. unfold is_list_type, empty_key, is_list_field.
        destruct (f_ftype (fl_fdef f)) as [[] |]; try discriminate. eauto.
      + unfold stored, attr. rewrite (Oth z Nz) in *. apply S5; assumption.
  Qed.
  Lemma consistent1 : consistent R h1.
  Proof.
    pose proof (side_field true) as FA. pose proof (side_field false) as FB. cbn in FA, FB.
    pose proof (os_ref _ _ (ro_a _ _ RO)) as RA. pose proof (os_ref _ _ (ro_b _ _ RO)) as RB. cbn in RB.
    constructor; [apply fine1; [exact FA | exact RA | apply Co] | apply fine1; [exact FB | exact RB | apply Co] |].
    intros a b Ca Cb. destruct (Nat.eq_dec a o) as [-> | Na].
    - split; intros H; exfalso.
      + destruct FA as (d' & Ed & Hf). rewrite (bl_class _ _ _ Bl) in Ca. rewrite <- Ca, D in Ed. injection Ed as <-. rewrite (refs_o _ Hf RA) in H. destruct H.
      + apply (refs_no b false Cb H).
    - destruct (Nat.eq_dec b o) as [-> | Nb].
      + split; intros H; exfalso.
        * apply (refs_no a true Ca H).
        * destruct FB as (d' & Ed & Hf). rewrite (bl_class _ _ _ Bl) in Cb. rewrite <- Cb, D in Ed. injection Ed as <-. rewrite (refs_o _ Hf RB) in H. destruct H.
      + rewrite (refs_z a _ Na), (refs_z b _ Nb). rewrite (Oth a Na) in Ca. rewrite (Oth b Nb) in Cb. apply (co_sym _ _ Co); assumption.
  Qed.
  Lemma id_z z : z <> o -> id_of ct h1 z = id_of ct h z.
  Proof. intros N. unfold id_of, cdef_of, attr. rewrite (Oth z N). reflexivity. Qed.
  Lemma keys1 (s : bool) : let c := ra_class (if s then R else flip R) in let f := ra_field (if s then R else flip R) in
    keys_agree ct h c f -> keys_agree ct h1 c f.
  Proof.
    intros c f K L z C. pose proof (side_field s) as Fo. pose proof (side_ref s) as Rf. fold c f in Fo, Rf. destruct (Nat.eq_dec z o) as [-> | Nz].
    - destruct Fo as (d' & Ed & Hf). rewrite (bl_class _ _ _ Bl) in C. rewrite <- C, D in Ed. injection Ed as <-.
      destruct (rd_keys _ _ Rd f Hf L) as [_ E]. unfold stored, attr. rewrite E. unfold keys_shown. rewrite (refs_o f Hf Rf). reflexivity.
    - pose proof (refs_no z s C) as No. fold f in No. rewrite (refs_z z f Nz) in No. unfold stored, attr. rewrite (Oth z Nz) in *. specialize (K L z C). unfold stored, attr in K. rewrite K.
      unfold keys_shown. rewrite (refs_z z f Nz). f_equal. destruct (is_list_type f).
      + f_equal. apply map_ext_in. intros b Hb. symmetry. apply id_z. intros ->. contradiction.
      + destruct (refs h z f) as [| b l]; [reflexivity |]. symmetry. apply id_z. intros ->. apply No. left. reflexivity.
  Qed.

  (** ** The assignments that come before those to the relation *)
  Definition prot1 (z : oid) (n : string) : Prop :=
    of_side h1 (ra_class R) (ra_field R) z n \/ of_side h1 (rb_class R) (rb_field R) z n \/
    (z <> o /\ exists d f, ct (o_class (h_obj h1 z)) = Some d /\ primary_field d = Some f /\ n = fl_name f).
  Definition prot2 (z : oid) (n : string) : Prop :=
    exists d f, ct (o_class (h_obj h1 z)) = Some d /\ primary_field d = Some f /\ n = fl_name f.

  Lemma prim_in d' f : primary_field d' = Some f -> In f (cd_fields d').
  Proof. intros Pf. unfold primary_field in Pf. apply find_some in Pf. apply in_rev, (proj1 Pf). Qed.
  Lemma of_field z n f : ofield ct h1 z n = Some f -> exists d', ct (o_class (h_obj h1 z)) = Some d' /\ In f (cd_fields d') /\ fl_name f = n.
  Proof.
    unfold ofield, cdef_of. destruct (ct (o_class (h_obj h1 z))) as [d' |] eqn:E; intros H.
    - exists d'. split; [reflexivity | apply ObjTrack.field_named_in, H].
    - discriminate H.
  Qed.
  Lemma prim_ref z n f : ofield ct h1 z n = Some f -> is_ref (fl_fdef f) = true -> ~ prot2 z n.
  Proof.
    intros Ef Rf (d' & g & Ed & Pg & ->). destruct (of_field _ _ _ Ef) as (d2 & Ed2 & Hf & En). rewrite Ed in Ed2. injection Ed2 as <-.
    pose proof (field_named_in d' g (wf_names _ _ _ (W _ _ Ed)) (prim_in _ _ Pg)) as G. pose proof (field_named_in d' f (wf_names _ _ _ (W _ _ Ed)) Hf) as G'.
    rewrite En, G in G'. injection G' as ->. rewrite (PP _ _ _ Ed Pg) in Rf. discriminate Rf.
  Qed.
  Lemma prim_key z n f : ofield ct h1 z n = Some f -> is_local f = true -> ~ prot2 z (fl_ref f).
  Proof.
    intros Ef Lf (d' & g & Ed & Pg & E). destruct (of_field _ _ _ Ef) as (d2 & Ed2 & Hf & En). rewrite Ed in Ed2. injection Ed2 as <-.
    apply (wf_refname _ _ _ (W _ _ Ed) f g Hf (prim_in _ _ Pg) Lf E).
  Qed.
  Lemma prot_12 z n : ~ prot2 z n -> (prot1 z n <-> prot ct R h1 z n).
  Proof.
    intros N. unfold prot1, prot, of_relation. split; intros [H | [H | H]]; auto.
    - destruct H as [_ H]. auto.
    - exfalso. apply N. exact H.
  Qed.
  Lemma other_ref z n f g b : ofield ct h1 z n = Some f -> foreign_field ct (o_class (h_obj h1 z)) f = Some g -> foreign_class f = Some (o_class (h_obj h1 b)) ->
    ofield ct h1 b (fl_name g) = Some g /\ is_ref (fl_fdef g) = true.
  Proof. intros A B C. destruct (ObjTrack.foreign_other ct W h1 z n f g b A B C) as (G1 & G2 & _). split; [exact G1 |].
    destruct (of_field _ _ _ A) as (d2 & Ed2 & Hf & En). apply (wf_other _ _ _ (W _ _ Ed2) f g Hf B). Qed.

  Lemma frame1 xs : Forall (beside P R h1) xs -> (forall z n v, In (HSet z n v) xs -> z = o) -> 
    okp ct h1 prot1 h1 (hist xs h1).
  Proof.
    intros F Fo. apply okp_for; [constructor; [exact typed1 | reflexivity | reflexivity] |]. intros x h' Hx I.
    rewrite Forall_forall in F. destruct (F x Hx) as [T K]. destruct x as [z n v | |]; try destruct K.
    pose proof (Fo z n v Hx) as ->.
    apply run_frame; try exact W; [| | | exact I | exact T |].
    - intros z n' f Ef Lf N. rewrite (prot_12 z _ (prim_key z n' f Ef Lf)). rewrite (prot_12 z n' (prim_ref z n' f Ef (local_is_ref f Lf))) in N.
      apply (LinkHist.p_ref ct W R RO h1 typed1 z n' f Ef Lf N).
    - intros z n' f Ef Lf N. rewrite (prot_12 z _ (prim_key z n' f Ef Lf)) in N. rewrite (prot_12 z n' (prim_ref z n' f Ef (local_is_ref f Lf))).
      apply (LinkHist.p_key ct W PP R RO h1 z n' f Ef Lf N).
    - intros z n' f g b Ef Rf N FF FC. destruct (other_ref z n' f g b Ef FF FC) as [G1 G2].
      rewrite (prot_12 b _ (prim_ref b _ g G1 G2)). rewrite (prot_12 z n' (prim_ref z n' f Ef Rf)) in N.
      apply (LinkHist.p_other ct W PP R RO h1 z n' f g b Ef Rf N FF FC).
    - cbn [task_of off]. intros [Q | [Q | [Q _]]]; tauto.
  Qed.

  Section Later.
    Context (h2 : heap).
    Hypothesis I2 : inv ct h1 h2.
    Hypothesis K2 : kp prot1 h1 h2.

    Lemma fine2 (s : bool) : let Q := if s then R else flip R in side_fine h1 (ra_class Q) (ra_field Q) -> side_fine h2 (ra_class Q) (ra_field Q).
    Proof.
      intros Q.
      assert (K : forall z n, of_side h1 (ra_class Q) (ra_field Q) z n -> attr h2 z n = attr h1 z n /\ sget n (o_unlinked (h_obj h2 z)) = sget n (o_unlinked (h_obj h1 z))).
      { intros z n H. apply K2. unfold Q in H. destruct s; [left | right; left]; exact H. }
      assert (A : forall z, o_class (h_obj h2 z) = ra_class Q -> attr h2 z (fl_name (ra_field Q)) = attr h1 z (fl_name (ra_field Q)) /\
                  sget (fl_name (ra_field Q)) (o_unlinked (h_obj h2 z)) = sget (fl_name (ra_field Q)) (o_unlinked (h_obj h1 z))).
      { intros z C. rewrite (iv_class _ _ _ I2) in C. apply K. split; [exact C | left; reflexivity]. }
      intros [S1 S2 S3 S4 S5]. constructor; intros z.
      - intros C. destruct (A z C) as [A1 A2]. unfold refs. rewrite A1. rewrite (iv_class _ _ _ I2) in C. apply S1, C.
      - intros C. destruct (A z C) as [A1 A2]. unfold refs. rewrite A1. rewrite (iv_class _ _ _ I2) in C. apply S2, C.
      - intros C. destruct (A z C) as [A1 A2]. unfold unlinked, recorded. rewrite A2. rewrite (iv_class _ _ _ I2) in C. apply S3, C.
      - intros b C. destruct (A z C) as [A1 A2]. unfold unlinked, recorded, refs. rewrite A1, A2. rewrite (iv_class _ _ _ I2) in C. apply S4, C.
      - intros C L. rewrite (iv_class _ _ _ I2) in C. unfold stored. destruct (K z (fl_ref (ra_field Q))) as [-> _]; [split; [exact C | right; auto] |]. apply S5; assumption.
    Qed.
    Lemma refs2 (s : bool) z : let Q := if s then R else flip R in o_class (h_obj h1 z) = ra_class Q -> refs h2 z (ra_field Q) = refs h1 z (ra_field Q).
    Proof.
      intros Q C. unfold refs. destruct (K2 z (fl_name (ra_field Q))) as [-> _]; [| reflexivity]. unfold Q in *.
      destruct s; [left | right; left]; (split; [exact C | left; reflexivity]).
    Qed.
    Lemma consistent2 : consistent R h2.
    Proof.
      pose proof consistent1 as C1. constructor; [apply (fine2 true), C1 | apply (fine2 false), C1 |].
      intros a b Ca Cb. rewrite (iv_class _ _ _ I2) in Ca, Cb. pose proof (refs2 true a Ca) as E1. pose proof (refs2 false b Cb) as E2. cbn in E1, E2. rewrite E1, E2. apply (co_sym _ _ C1); assumption.
    Qed.
    Lemma id2 z : z <> o -> id_of ct h2 z = id_of ct h1 z.
    Proof.
      intros N. unfold id_of, cdef_of. rewrite (iv_class _ _ _ I2). destruct (ct (o_class (h_obj h1 z))) as [d' |] eqn:Ed.
      - destruct (primary_field d') as [f |] eqn:Pf; [| reflexivity]. destruct (K2 z (fl_name f)) as [-> _]; [| reflexivity].
        right. right. split; [exact N |]. eauto.
      - reflexivity.
    Qed.
    Lemma keys2 (s : bool) : let Q := if s then R else flip R in keys_agree ct h (ra_class Q) (ra_field Q) -> keys_agree ct h2 (ra_class Q) (ra_field Q).
    Proof.
      intros Q K. assert (Rf : is_ref (fl_fdef (ra_field Q)) = true) by (unfold Q; destruct s; [apply (os_ref _ _ (ro_a _ _ RO)) | apply (os_ref _ _ (ro_b _ _ RO))]).
      pose proof (keys1 s K) as K1. intros L z C. rewrite (iv_class _ _ _ I2) in C. specialize (K1 L z C).
      unfold stored. destruct (K2 z (fl_ref (ra_field Q))) as [-> _].
      { unfold Q in *. destruct s; [left | right; left]; (split; [exact C | right; auto]). }
      unfold stored in K1. fold Q in K1. rewrite K1. f_equal. unfold keys_shown. pose proof (refs2 s z C) as E. cbv zeta in E. fold Q in E. rewrite E.
      pose proof (refs_no z s C) as No. fold Q in No. destruct (is_list_type (ra_field Q)).
      - f_equal. apply map_ext_in. intros b Hb. symmetry. apply id2. intros ->. contradiction.
      - destruct (refs h1 z (ra_field Q)) as [| b l]; [reflexivity |]. symmetry. apply id2. intros ->. apply No. left. reflexivity.
    Qed.

    (** ** The assignments from the first one to the relation on *)
    Definition keyless (x : hop) : Prop := typed_hop ct h1 x /\ match x with HSet z n _ => ~ prot2 z n | _ => False end.
    Lemma side_keyless (s : bool) x : is_set x -> on_side (if s then R else flip R) h1 x -> keyless x.
    Proof.
      assert (RS : one_side ct (if s then R else flip R)) by (destruct s; [apply RO | apply RO]).
      set (Q := if s then R else flip R) in *. destruct x as [z n v | |]; intros X H; try destruct X.
      destruct H as (C & -> & new & _ & CI & SV). destruct RS as [[d' [D1 D2]] RF TY CL _ _].
      assert (Ef : ofield ct h1 z (fl_name (ra_field Q)) = Some (ra_field Q)).
      { unfold ofield, cdef_of. rewrite C, D1. apply field_named_in; [apply (wf_names _ _ _ (W _ _ D1)) | exact D2]. }
      split; [left; exists (ra_field Q); split; [exact Ef | split; [apply ref_calc, RF |]] | apply (prim_ref _ _ _ Ef RF)].
      intros _ b Hb. rewrite CL. f_equal. symmetry. apply CI.
      unfold refers, link_items in Hb. unfold is_list_type in SV.
      destruct SV as [[-> _] | SV]; [destruct TY as [E | E]; rewrite E in Hb; destruct Hb |].
      destruct TY as [E | E]; rewrite E in Hb, SV.
      - subst v. apply in_map_iff in Hb. destruct Hb as (y & Ey & Hy). injection Ey as ->. exact Hy.
      - destruct SV as (y & -> & ->). destruct Hb as [Ey | []]. injection Ey as ->. left. reflexivity.
    Qed.
    Lemma link_keyless x : is_set x -> link_op ct R h1 x -> keyless x.
    Proof.
      intros X [[T N] | [H | H]]; [| apply (side_keyless true x X H) | apply (side_keyless false x X H)].
      split; [exact T |]. destruct x; try destruct X. intros K. apply N. right. right. exact K.
    Qed.
    Lemma owed_keyless kw f : In f (cd_fields d) -> owed_list kw f = true -> keyless (HSet o (fl_name f) (VList [])).
    Proof.
      intros Hf O. unfold owed_list in O. apply andb_true_iff in O. destruct O as [O _]. apply andb_true_iff in O. destruct O as [O _].
      apply andb_true_iff in O. destruct O as [Or Ol]. pose proof (o_field f Hf) as Ef.
      split; [left; exists f; split; [exact Ef | split; [apply ref_calc, Or |]] | apply (prim_ref _ _ _ Ef Or)].
      intros _ b Hb. unfold refers, link_items in Hb. destruct (f_ftype (fl_fdef f)) as [[] |]; destruct Hb.
    Qed.
    Lemma frame2 xs h3 : Forall keyless xs -> hist xs h2 = (Ok tt, h3) ->
      (forall z, o_class (h_obj h3 z) = o_class (h_obj h2 z)) /\ (forall z, id_of ct h3 z = id_of ct h2 z).
    Proof.
      intros F H. assert (X : okp ct h1 prot2 h2 (hist xs h2)).
      { apply okp_for; [exact I2 |]. intros x h' Hx I. rewrite Forall_forall in F. destruct (F x Hx) as [T K]. destruct x as [z n v | |]; [| destruct K | destruct K].
        apply run_frame; try exact W; [| | | exact I | exact T | exact K].
        - intros z' n' f Ef Lf _. apply (prim_key z' n' f Ef Lf).
        - intros z' n' f Ef Lf _. apply (prim_ref z' n' f Ef (local_is_ref f Lf)).
        - intros z' n' f g b Ef Rf _ FF FC. destruct (other_ref z' n' f g b Ef FF FC) as [G1 G2]. apply (prim_ref b _ g G1 G2). }
      rewrite H in X. destruct X as [I3 K3]. cbn [snd] in I3, K3.
      assert (C : forall z, o_class (h_obj h3 z) = o_class (h_obj h2 z)) by (intros z; rewrite (iv_class _ _ _ I3), (iv_class _ _ _ I2); reflexivity).
      split; [exact C |]. intros z. unfold id_of, cdef_of. rewrite C, (iv_class _ _ _ I2).
      destruct (ct (o_class (h_obj h1 z))) as [d' |] eqn:Ed; [| reflexivity].
      destruct (primary_field d') as [f |] eqn:Pf; [| reflexivity]. destruct (K3 z (fl_name f)) as [-> _]; [| reflexivity]. exists d', f. auto.
    Qed.
  End Later.

  (** ** All of it *)
  Lemma new_linked kw fs1 fs2 xss1 xss2 h3 :
    cd_fields d = fs1 ++ fs2 -> Forall2 (assigns P true o kw) fs1 xss1 -> Forall2 (assigns P true o kw) fs2 xss2 ->
    Forall (beside P R h1) (concat xss1) -> Forall (link_op ct R h1) (concat xss2) ->
    given P o d kw (xss1 ++ xss2) h1 = (Ok tt, h3) ->
    distinct_objects ct (p_oeq P) R h3 -> distinct_keys ct (p_oeq P) R h3 -> distinct_keys ct (p_oeq P) (flip R) h3 ->
    consistent R h3 /\ (forall z, o_class (h_obj h3 z) = o_class (h_obj h1 z)) /\ (forall z, z <> o -> id_of ct h3 z = id_of ct h z) /\
    (forall a b, a <> o -> b <> o -> o_class (h_obj h a) = ra_class R -> o_class (h_obj h b) = rb_class R ->
       In b (refs h a (ra_field R)) ->
       In b (refs h3 a (ra_field R)) \/ In b (unlinked h3 a (ra_field R)) /\ In a (unlinked h3 b (rb_field R))) /\
    (keys_agree ct h (ra_class R) (ra_field R) -> keys_agree ct h (rb_class R) (rb_field R) ->
     keys_agree ct h3 (ra_class R) (ra_field R) /\ keys_agree ct h3 (rb_class R) (rb_field R)) /\
    (forall u, cls = ra_class R -> ra_class R <> rb_class R -> In (HSet o (fl_name (ra_field R)) u) (concat xss2) ->
       refs h3 o (ra_field R) = objs (Some u)).
  Proof.
    intros Ed F1 F2 B1 L2 G DO DA DB.
    assert (X : exists h2, hist (concat xss1) h1 = (Ok tt, h2) /\ given P o d kw xss2 h2 = (Ok tt, h3)).
    { unfold given in G. rewrite concat_app in G. unfold bind in G at 1. unfold history in G. rewrite for_app in G. unfold bind in G at 1.
      unfold history. destruct (for_st (concat xss1) _ h1) as [[[] | e] h2]; [| discriminate G]. exists h2. split; [reflexivity |]. exact G. }
    destruct X as (h2 & H1 & G2).
    assert (Fo : forall fs xss, Forall2 (assigns P true o kw) fs xss -> forall z n v, In (HSet z n v) (concat xss) -> z = o).
    { intros fs xss F z n v Hi. apply in_concat in Hi. destruct Hi as (ys & Y1 & Y2). destruct (F2_in_r _ _ _ F _ Y1) as (g & _ & Ag).
      destruct (assigned_name _ _ _ _ _ _ _ Ag Y2) as (n' & v' & E & _). congruence. }
    pose proof (frame1 (concat xss1) B1 (Fo _ _ F1)) as X. rewrite H1 in X. destruct X as [I2 K2]. cbn [snd] in I2, K2.
    destruct (given_history P o d kw xss2 h2 h3 G2) as (ys & Y & Hy).
    assert (S2 : Forall is_set (concat xss2)) by apply (assigns_sets P _ _ _ _ _ F2).
    assert (KL : Forall keyless (concat xss2 ++ ys)).
    { apply Forall_app. split.
      - rewrite Forall_forall in *. intros x Hx. apply link_keyless; auto.
      - revert Y. apply Forall_impl. intros y (f & Hf & O & ->). apply (owed_keyless kw f Hf O). }
    destruct (frame2 h2 I2 _ _ KL Hy) as [C3 D3].
    assert (ST : setting ct (p_oeq P) R h2).
    { constructor; [exact W | exact PP | exact RO | apply I2 | | | | apply (consistent2 h2 I2 K2)].
      - intros h' a b HC HI HR. apply DO; [intros z; rewrite C3; apply HC | intros z; rewrite D3; apply HI |]. unfold in_relation in *. rewrite !C3. exact HR.
      - intros La Ls h' a b Ha Hb. rewrite <- !D3. apply DA; [exact La | exact Ls | rewrite C3; exact Ha | rewrite C3; exact Hb].
      - intros La Ls h' a b Ha Hb. rewrite <- !D3. apply DB; [exact La | exact Ls | rewrite C3; exact Ha | rewrite C3; exact Hb]. }
    assert (L2' : Forall (link_op ct R h2) (concat xss2)).
    { rewrite Forall_forall in *. intros x Hx. apply (op_stable ct R h1); [exact typed1 | apply I2 | apply I2 | apply S2, Hx | apply L2, Hx]. }
    assert (Ec : o_class (h_obj h2 o) = cls) by (rewrite (iv_class _ _ _ I2); apply (bl_class _ _ _ Bl)).
    destruct (given_after P R true o cls d kw fs2 xss2 h2 h3 D F2 ST Ec L2' G2) as (ys' & Hs & _ & A).
    destruct (after_sets _ _ _ _ _ _ _ _ _ _ ST A) as (S3 & _ & _).
    split; [apply S3 |]. split; [intros z; rewrite C3; apply (iv_class _ _ _ I2) |].
    split; [intros z Nz; rewrite D3, (id2 h2 I2 K2 z Nz); apply id_z, Nz |]. split.
    - intros a b Na Nb Ca Cb Hb. rewrite <- (Oth a Na) in Ca. rewrite <- (Oth b Nb) in Cb.
      apply (after_known _ _ _ _ _ _ _ _ _ _ a b ST A); [rewrite (iv_class _ _ _ I2); exact Ca | rewrite (iv_class _ _ _ I2); exact Cb |].
      pose proof (refs2 h2 K2 true a Ca) as E. cbn in E. rewrite E, (refs_z a _ Na). exact Hb.
    - split.
      + intros KA KB. destruct A as [A1 A2]. eapply after_keys; [exact ST | split; [apply set_in_step; [exact Hs | exact A1] | exact A2] | apply (keys2 h2 I2 K2 true KA) | apply (keys2 h2 I2 K2 false KB)].
      + intros u Ea Ne Hu. pose proof (wf_names _ _ _ (W _ _ D)) as Nd. rewrite Ed, map_app in Nd.
        apply (given_refs P R true o cls d kw fs2 xss2 h2 h3 u D F2); auto.
        * rewrite Ed. apply incl_appr, incl_refl.
        * clear - Nd. induction (map fl_name fs1) as [| a l IH]; [exact Nd | inversion Nd; auto].
  Qed.
End Born.

Lemma unborn_newcomer ct R h o : unborn h o -> newcomer ct R h o.
Proof.
  intros U. split.
  - intros z n f v N _ _ E H. apply (U z n N). rewrite E. apply (refers_objs f), H.
  - intros s z N _ H. apply (U z (fl_name (ra_field (if s then R else flip R))) N), H.
Qed.
