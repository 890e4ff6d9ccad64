(** LinkHist.v -- histories keep the two sides of a relation consistent. *)
From Verif Require Import Base Mon PyList PyDict OListModel KeypathModel
  Values TypesModel ObjModel ObjSpec ObjTrack OListSpec OListProofs LinkAbs LinkOps LinkRun LinkFrame LinkSpec.
From Coq Require Import Lia.
Open Scope nat_scope.

Lemma objs_map l : objs (Some (VList (map VObj l))) = l.
Proof. cbn. induction l as [| x l IH]; [reflexivity |]. cbn. f_equal. exact IH. Qed.

Section Hist.
  Context (ct : string -> option cdef)
          (oeq : heap -> Values.oid -> Values.oid -> bool)
          (getter : heap -> Values.oid -> string -> res value)
          (setter : Values.oid -> string -> value -> st heap unit)
          (pystr : value -> string).
  Hypothesis wf : wf_classes ct.
  Hypothesis pk_plain : plain_primary ct.
  Context (R : relation).
  Hypothesis RO : relation_ok ct R.
  Context (strict : bool).
  Context (h0 : heap).
  Hypothesis typed0 : typed_heap ct h0.
  Hypothesis obj_ne : distinct_objects ct oeq R h0.
  Hypothesis keys_a : distinct_keys ct oeq R h0.
  Hypothesis keys_b : distinct_keys ct oeq (flip R) h0.

  Definition Rs (s : bool) : relation := if s then R else flip R.
  Definition cl (s : bool) : string := ra_class (Rs s).
  Definition fd (s : bool) : field := ra_field (Rs s).
  Definition lst (s : bool) : bool := is_list_type (fd s).
  Notation cls x := (o_class (h_obj h0 x)).
  Notation rel_state := (rel_state ct cl fd lst h0).
  Notation kx := (kx ct cl fd lst strict h0).
  Notation run := (run ct oeq getter setter pystr).
  Notation inv := (inv ct h0).

  Lemma sides s : one_side ct (Rs s).
  Proof. destruct s; apply RO. Qed.
  Lemma Rs_class s : rb_class (Rs s) = cl (negb s).
  Proof. destruct s; reflexivity. Qed.
  Lemma Rs_field s : rb_field (Rs s) = fd (negb s).
  Proof. destruct s; reflexivity. Qed.
  Lemma r_in s : exists d, ct (cl s) = Some d /\ In (fd s) (cd_fields d).
  Proof. apply (os_field _ _ (sides s)). Qed.
  Lemma r_ref s : is_ref (fl_fdef (fd s)) = true.
  Proof. apply (os_ref _ _ (sides s)). Qed.
  Lemma r_type s : f_ftype (fl_fdef (fd s)) = Some (if lst s then FTList else FTInstance).
  Proof. unfold lst, is_list_type. destruct (os_type _ _ (sides s)) as [E | E]; unfold fd; rewrite E; reflexivity. Qed.
  Lemma r_other s : foreign_field ct (cl s) (fd s) = Some (fd (negb s)).
  Proof. rewrite <- Rs_field. apply (os_other _ _ (sides s)). Qed.
  Lemma r_class s : foreign_class (fd s) = Some (cl (negb s)).
  Proof. rewrite <- Rs_class. apply (os_class _ _ (sides s)). Qed.
  Lemma r_distinct : cl true = cl false -> fl_name (fd true) <> fl_name (fd false).
  Proof. apply (ro_two _ _ RO). Qed.
  Lemma ident : forall h a b, same ct h0 h -> robj cl h0 a \/ robj cl h0 b -> oeq h a b = Nat.eqb a b.
  Proof.
    intros h a b [S1 S2] H. apply obj_ne; [exact S1 | exact S2 |].
    destruct H as [([] & H) | ([] & H)]; [left; left | left; right | right; left | right; right]; exact H.
  Qed.
  Lemma keyed : forall s, is_local (fd s) = true -> lst s = true ->
    forall h a b, cls a = cl (negb s) -> cls b = cl (negb s) ->
      eqv oeq h (id_of ct h0 a) (id_of ct h0 b) = Nat.eqb a b.
  Proof. intros [] L1 L2; [apply keys_a | apply keys_b]; assumption. Qed.

  (** ** The abstract state that a heap shows *)
  Definition shown (h : heap) : rst :=
    {| lk := fun s o => if String.eqb (cls o) (cl s) then refs h o (fd s) else [];
       pl := fun s o => if String.eqb (cls o) (cl s) then unlinked h o (fd s) else [] |}.

  Lemma shown_lk h s o : cls o = cl s -> lk (shown h) s o = refs h o (fd s).
  Proof. intros C. cbn. rewrite C, String.eqb_refl. reflexivity. Qed.
  Lemma shown_pl h s o : cls o = cl s -> pl (shown h) s o = unlinked h o (fd s).
  Proof. intros C. cbn. rewrite C, String.eqb_refl. reflexivity. Qed.

  Lemma fine_side h s : consistent R h -> side_fine h (cl s) (fd s).
  Proof. destruct s; intros H; apply H. Qed.
  Lemma sym_side h s a b : consistent R h -> o_class (h_obj h a) = cl s -> o_class (h_obj h b) = cl (negb s) ->
    (In b (refs h a (fd s)) <-> In a (refs h b (fd (negb s)))).
  Proof. destruct s; intros H A B; [| symmetry]; apply (co_sym _ _ H); assumption. Qed.

  Lemma refs_refers h o s v b : attr h o (fl_name (fd s)) = Some v ->
    (v = VNone \/ (if lst s then v = VList (map VObj (refs h o (fd s))) else exists b, v = VObj b)) ->
    In b (refs h o (fd s)) -> refers (fd s) v b.
  Proof.
    intros A SH H. unfold refers, link_items. rewrite r_type. destruct SH as [-> | SH].
    - unfold refs in H. rewrite A in H. destruct H.
    - destruct (lst s).
      + subst v. apply in_map. exact H.
      + destruct SH as (c & ->). unfold refs in H. rewrite A in H. destruct H as [-> | []]. left. reflexivity.
  Qed.

  (** What a heap shows is what the heap model of the relation follows. *)
  Lemma shown_state h : inv h -> (forall z, id_of ct h z = id_of ct h0 z) -> consistent R h ->
    rel_state h (shown h) /\ symm lst (shown h).
  Proof.
    intros I ID CO.
    assert (CC : forall o s, cls o = cl s -> o_class (h_obj h o) = cl s) by (intros o s; rewrite (iv_class _ _ _ I); auto).
    assert (IT : forall s o x, In x (lk (shown h) s o) -> cls o = cl s /\ cls x = cl (negb s) /\ In x (refs h o (fd s))).
    { intros s o x H. cbn in H. destruct (String.eqb_spec (cls o) (cl s)) as [C | _]; [| destruct H].
      split; [exact C | split; [| exact H]].
      destruct (sf_shape _ _ _ (fine_side h s CO) o (CC _ _ C)) as [E | E].
      - unfold refs in H. rewrite E in H. destruct H.
      - assert (EV : exists v, attr h o (fl_name (fd s)) = Some v /\ (v = VNone \/ (if lst s then v = VList (map VObj (refs h o (fd s))) else exists b, v = VObj b))).
        { fold (lst s) in E. destruct (lst s); [eexists; split; [exact E | auto] |]. destruct E as (b & E). eexists; split; [exact E | right; eauto]. }
        destruct EV as (v & EV & SV).
        assert (FF : ofield ct h0 o (fl_name (fd s)) = Some (fd s)).
        { destruct (r_in s) as (d & Hd & Hin). unfold ObjModel.ofield, cdef_of. rewrite C, Hd.
          apply field_named_of; [apply (wf_names _ _ _ (wf _ _ Hd)) | exact Hin]. }
        pose proof (inv_refs ct h0 h o _ (fd s) v x I FF (r_ref s) EV (refs_refers h o s v x EV SV H)) as K.
        rewrite r_class in K. injection K as K. symmetry. exact K. }
    assert (TI : tidy lst (shown h)).
    { constructor; intros s o; cbn.
      - destruct (String.eqb_spec (cls o) (cl s)) as [C | _]; [| constructor]. apply (sf_once _ _ _ (fine_side h s CO) o (CC _ _ C)).
      - destruct (String.eqb_spec (cls o) (cl s)) as [C | _]; [| constructor]. apply (sf_pool _ _ _ (fine_side h s CO) o (CC _ _ C)).
      - intros L. destruct (String.eqb_spec (cls o) (cl s)) as [C | _]; [| cbn; lia].
        destruct (sf_shape _ _ _ (fine_side h s CO) o (CC _ _ C)) as [E | E]; unfold refs.
        + rewrite E. cbn. lia.
        + fold (lst s) in E. rewrite L in E. destruct E as (b & ->). cbn. lia. }
    split.
    - constructor.
      + apply (iv_class _ _ _ I).
      + apply (iv_lkeys _ _ _ I).
      + intros x k Hk. rewrite <- (inv_ofield ct h0 h) by exact I. apply (th_raw _ _ (iv_typed _ _ _ I)), Hk.
      + exact ID.
      + intros s o C. rewrite shown_lk by exact C. unfold shows.
        destruct (sf_shape _ _ _ (fine_side h s CO) o (CC _ _ C)) as [E | E].
        * left. split; [exact E |]. unfold refs. rewrite E. reflexivity.
        * right. fold (lst s) in E. destruct (lst s); [exact E |]. destruct E as (b & E). exists b. split; [exact E |]. unfold refs. rewrite E. reflexivity.
      + intros s o C. cbn. apply String.eqb_neq in C. rewrite C. reflexivity.
      + intros s o C. rewrite shown_pl by exact C. apply (sf_pool _ _ _ (fine_side h s CO) o (CC _ _ C)).
      + intros s o x H. apply (IT s o x H).
      + exact TI.
    - constructor; [exact TI | |].
      + intros s o x. split; intros H; destruct (IT _ _ _ H) as (C1 & C2 & H').
        * rewrite shown_lk by exact C2. apply (sym_side h s o x CO (CC _ _ C1) (CC _ _ C2)), H'.
        * rewrite negb_involutive in C2. rewrite shown_lk by exact C2.
          apply (sym_side h s o x CO (CC _ _ C2) (CC _ _ C1)), H'.
      + intros s o x H. destruct (IT _ _ _ H) as (C1 & C2 & H'). rewrite shown_pl by exact C1.
        apply (sf_apart _ _ _ (fine_side h s CO) o x (CC _ _ C1) H').
  Qed.

  Lemma state_refs h r s o : rel_state h r -> cls o = cl s -> lk r s o = refs h o (fd s).
  Proof.
    intros S C. pose proof (rs_link _ _ _ _ _ _ _ S s o C) as SH. unfold refs. unfold shows in SH.
    destruct SH as [[-> ->] | SH]; [reflexivity |]. destruct (lst s); [rewrite SH; symmetry; apply objs_map |].
    destruct SH as (b & -> & ->). reflexivity.
  Qed.
  Lemma state_pool h r s o : rel_state h r -> cls o = cl s -> pl r s o = unlinked h o (fd s) /\ recorded h o (fd s) = map VObj (pl r s o).
  Proof.
    intros S C. pose proof (rs_pool _ _ _ _ _ _ _ S s o C) as P. unfold unlinked, recorded. unfold pool_of in P. rewrite P.
    split; [symmetry; apply objs_map | reflexivity].
  Qed.

  Lemma state_consistent h r : rel_state h r -> symm lst r -> kx nowhere h r -> consistent R h.
  Proof.
    intros S Y K.
    assert (CC : forall o s, o_class (h_obj h o) = cl s -> cls o = cl s) by (intros o s; rewrite (rs_class _ _ _ _ _ _ _ S); auto).
    assert (F : forall s, side_fine h (cl s) (fd s)).
    { intros s. constructor.
      - intros o C. apply CC in C. pose proof (rs_link _ _ _ _ _ _ _ S s o C) as SH. unfold shows in SH.
        destruct SH as [[E _] | SH]; [left; exact E | right]. fold (lst s). destruct (lst s).
        + rewrite <- (state_refs h r s o S C). exact SH.
        + destruct SH as (b & E & _). exists b. exact E.
      - intros o C. apply CC in C. rewrite <- (state_refs h r s o S C). apply (sy_tidy _ _ Y).
      - intros o C. apply CC in C. destruct (state_pool h r s o S C) as [E1 E2]. rewrite <- E1. split; [exact E2 | apply (sy_tidy _ _ Y)].
      - intros o b C. apply CC in C. destruct (state_pool h r s o S C) as [E1 _]. rewrite <- E1, <- (state_refs h r s o S C). apply (sy_pool _ _ Y).
      - intros o C L. apply CC in C. destruct (K s o (fun x => x) (conj L C)) as (k & E & G & _). exists k. split; [exact E | exact G]. }
    constructor; [exact (F true) | exact (F false) |].
    intros a b A B. pose proof (CC a true A) as A'. pose proof (CC b false B) as B'.
    change (ra_field R) with (fd true). change (rb_field R) with (fd false).
    rewrite <- (state_refs h r true a S A'), <- (state_refs h r false b S B'). apply (sy_sym _ _ Y true).
  Qed.

  Lemma state_keys h r s : strict = true -> rel_state h r -> kx nowhere h r -> keys_agree ct h (cl s) (fd s).
  Proof.
    intros ST S K L o C. rewrite (rs_class _ _ _ _ _ _ _ S) in C. destruct (K s o (fun x => x) (conj L C)) as (k & E & _ & G).
    unfold stored. unfold kat in E. rewrite E. f_equal. rewrite (G ST). unfold keyval, keys_shown. rewrite <- (state_refs h r s o S C).
    fold (lst s). destruct (lst s).
    - f_equal. apply map_ext. intros z. symmetry. apply (rs_ids _ _ _ _ _ _ _ S).
    - destruct (lk r s o); [reflexivity |]. symmetry. apply (rs_ids _ _ _ _ _ _ _ S).
  Qed.

  Lemma shown_keys h : inv h -> (forall z, id_of ct h z = id_of ct h0 z) -> consistent R h ->
    (strict = true -> keys_agree ct h (ra_class R) (ra_field R) /\ keys_agree ct h (rb_class R) (rb_field R)) ->
    kx nowhere h (shown h).
  Proof.
    intros I ID CO KA s o _ [L C]. pose proof C as C'. rewrite <- (iv_class _ _ _ I) in C'.
    destruct (sf_stored _ _ _ (fine_side h s CO) o C' L) as (k & E & G). exists k. split; [exact E | split; [exact G |]].
    intros ST. assert (A : keys_agree ct h (cl s) (fd s)) by (destruct (KA ST), s; assumption).
    specialize (A L o C'). rewrite E in A. injection A as ->. unfold keyval, keys_shown. rewrite (shown_lk h s o C).
    fold (lst s). destruct (lst s).
    - f_equal. apply map_ext. intros z. apply ID.
    - destruct (refs h o (fd s)); [reflexivity | apply ID].
  Qed.

  (** ** The protected attributes *)
  Definition prot (o : nat) (n : string) : Prop := of_relation ct R h0 o n.
  Lemma prot_side s o n : of_side h0 (cl s) (fd s) o n -> prot o n.
  Proof. destruct s; intros H; [left | right; left]; exact H. Qed.
  Lemma prot_cases o n : prot o n -> (exists s, of_side h0 (cl s) (fd s) o n) \/
    (exists d f, ct (cls o) = Some d /\ primary_field d = Some f /\ n = fl_name f).
  Proof. intros [H | [H | H]]; [left; exists true | left; exists false | right]; exact H. Qed.
  Lemma primary_in d f : primary_field d = Some f -> In f (cd_fields d).
  Proof. intros P. unfold primary_field in P. apply find_some in P. apply in_rev, (proj1 P). Qed.
  Notation fld := (ofield ct h0).
  Lemma in_side s o : cls o = cl s -> fld o (fl_name (fd s)) = Some (fd s).
  Proof.
    intros C. destruct (r_in s) as (d & Hd & Hin). unfold ObjModel.ofield, cdef_of. rewrite C, Hd.
    apply field_named_of; [apply (wf_names _ _ _ (wf _ _ Hd)) | exact Hin].
  Qed.
  Lemma p_ref : forall o n f, fld o n = Some f -> is_local f = true -> ~ prot o n -> ~ prot o (fl_ref f).
  Proof.
    intros o n f F L NP P. apply NP. clear NP.
    destruct (ofield_in ct wf _ _ _ _ F) as (d & Hd & Hin & Hn & W).
    apply prot_cases in P. destruct P as [(s & C & [E | [Ls E]]) | (d' & g & Hd' & Pg & E)].
    - exfalso. destruct (ofield_in ct wf _ _ _ _ (in_side s o C)) as (d' & Hd' & Hin' & _). assert (d' = d) by congruence. subst d'.
      apply (wf_refname _ _ _ W f (fd s) Hin Hin' L E).
    - apply (prot_side s). split; [exact C | left].
      pose proof (th_local _ _ typed0 o n f F L) as A. pose proof (th_local _ _ typed0 o _ _ (in_side s o C) Ls) as B.
      rewrite E, B in A. injection A as A. symmetry. exact A.
    - exfalso. assert (d' = d) by congruence. subst d'. apply (wf_refname _ _ _ W f g Hin (primary_in _ _ Pg) L E).
  Qed.
  Lemma p_key : forall o n f, fld o n = Some f -> is_local f = true -> ~ prot o (fl_ref f) -> ~ prot o n.
  Proof.
    intros o n f F L NP P. apply NP. clear NP.
    destruct (ofield_in ct wf _ _ _ _ F) as (d & Hd & Hin & Hn & W).
    apply prot_cases in P. destruct P as [(s & C & [E | [Ls E]]) | (d' & g & Hd' & Pg & E)].
    - pose proof (in_side s o C) as F'. rewrite <- E, F in F'. injection F' as ->. apply (prot_side s). split; [exact C | right; split; [exact L | reflexivity]].
    - exfalso. destruct (ofield_in ct wf _ _ _ _ (in_side s o C)) as (d' & Hd' & Hin' & _). assert (d' = d) by congruence. subst d'.
      apply (wf_refname _ _ _ W (fd s) f Hin' Hin Ls). congruence.
    - exfalso. assert (d' = d) by congruence. subst d'.
      pose proof (field_named_of d g (wf_names _ _ _ W) (primary_in _ _ Pg)) as A.
      unfold ObjModel.ofield, cdef_of in F. rewrite Hd, E, A in F. injection F as ->.
      pose proof (pk_plain _ _ _ Hd Pg) as K. rewrite (local_ref _ L) in K. discriminate K.
  Qed.
  Lemma p_other : forall o n f g b, fld o n = Some f -> is_ref (fl_fdef f) = true -> ~ prot o n ->
    foreign_field ct (cls o) f = Some g -> foreign_class f = Some (cls b) -> ~ prot b (fl_name g).
  Proof.
    intros o n f g b F Rf NP FF FC P. apply NP. clear NP.
    destruct (foreign_other ct wf h0 o n f g b F FF FC) as (G1 & G2 & G3).
    destruct (ofield_in ct wf _ _ _ _ G1) as (d & Hd & Hin & Hn & W).
    apply prot_cases in P. destruct P as [(s & C & [E | [Ls E]]) | (d' & g' & Hd' & Pg & E)].
    - pose proof (in_side s b C) as F'. rewrite <- E, G1 in F'. injection F' as ->.
      destruct (ofield_in ct wf _ _ _ _ F) as (do & Hdo & Hino & Hno & _).
      destruct (os_only _ _ (sides s) (cls o) f) as [C1 C2].
      + exists do. split; assumption.
      + rewrite FC. f_equal. exact C.
      + exact FF.
      + rewrite Rs_class in C1. rewrite Rs_field in C2. apply (prot_side (negb s)). split; [exact C1 | left]. congruence.
    - exfalso. destruct (ofield_in ct wf _ _ _ _ (in_side s b C)) as (d' & Hd' & Hin' & _). assert (d' = d) by congruence. subst d'.
      apply (wf_refname _ _ _ W (fd s) g Hin' Hin Ls). symmetry. exact E.
    - exfalso. assert (d' = d) by congruence. subst d'.
      pose proof (field_named_of d g' (wf_names _ _ _ W) (primary_in _ _ Pg)) as A.
      unfold ObjModel.ofield, cdef_of in G1. rewrite Hd, E, A in G1. injection G1 as ->.
      pose proof (pk_plain _ _ _ Hd Pg) as K. congruence.
  Qed.

  Lemma kp_state h h' r : inv h' -> kp prot h h' -> rel_state h r -> rel_state h' r.
  Proof.
    intros I K [A B C D F G H T1 T2]. constructor; auto.
    - apply (iv_class _ _ _ I).
    - apply (iv_lkeys _ _ _ I).
    - intros x k Hk. rewrite <- (inv_ofield ct h0 h') by exact I. apply (th_raw _ _ (iv_typed _ _ _ I)), Hk.
    - intros z. rewrite <- D. unfold id_of.
      assert (EC : forall q, (forall x, o_class (h_obj q x) = cls x) -> cdef_of ct q z = cdef_of ct h0 z) by (intros q E; unfold cdef_of; rewrite E; reflexivity).
      rewrite (EC h' (iv_class _ _ _ I)), (EC h A). unfold cdef_of. destruct (ct (cls z)) as [d |] eqn:Ed; [| reflexivity].
      destruct (primary_field d) as [f |] eqn:P; [| reflexivity].
      destruct (K z (fl_name f)) as [-> _]; [| reflexivity]. right; right. exists d, f. auto.
    - intros s o Co. destruct (K o (fl_name (fd s))) as [-> _]; [apply (prot_side s); split; [exact Co | left; reflexivity] | apply F, Co].
    - intros s o Co. unfold pool_of. destruct (K o (fl_name (fd s))) as [_ ->]; [apply (prot_side s); split; [exact Co | left; reflexivity] | apply H, Co].
  Qed.
  Lemma kp_keys h h' r : kp prot h h' -> kx nowhere h r -> kx nowhere h' r.
  Proof.
    intros K KX s o N KK. destruct (KX s o N KK) as (k & E & G). exists k. split; [| exact G]. unfold kat in *.
    destruct (K o (fl_ref (fd s))) as [-> _]; [| exact E]. apply (prot_side s). destruct KK as [L C]. split; [exact C | right; auto].
  Qed.

  (** ** One operation *)
  Definition good_now (h : heap) (r : rst) : Prop :=
    rel_state h r /\ kx nowhere h r /\ symm lst r /\ inv h.

  Lemma state_inv h r : rel_state h r -> typed_heap ct h -> inv h.
  Proof. intros S T. constructor; [exact T | apply (rs_class _ _ _ _ _ _ _ S) | apply (rs_lkeys _ _ _ _ _ _ _ S)]. Qed.
  Lemma known_all s r r' : symm lst r -> symm lst r' -> (forall y z, known s r y z -> known s r' y z) ->
    forall s' y z, known s' r y z -> known s' r' y z.
  Proof.
    intros Y Y' H s' y z K. destruct (Bool.bool_dec s' s) as [-> | N]; [apply H, K |].
    apply other_side in N. subst s'. apply (known_flip getter setter lst h0 s r' z y Y'), H, (known_flip getter setter lst h0 s r z y Y), K.
  Qed.

  Definition hop_object (x : hop) : nat := match x with HSet o _ _ | HList o _ _ _ _ | HDict o _ _ _ _ => o end.
  Lemma others_left h r h' r' s x o : rel_state h r -> rel_state h' r' -> symm lst r' ->
    (forall o c, o_class (h_obj h o) = c -> cls o = c) -> hop_object x = o -> cls o = cl s ->
    (forall y z, y <> o -> (In z (lk r' s y) -> In z (lk r s y)) /\
       (In z (lk r s y) -> In z (lk r' s y) \/ (In z (lk r' s o) /\ lst (negb s) = false))) ->
    leaves_others (Rs s) h h' x.
  Proof.
    intros S S' Y' CC <- CO OT.
    assert (K : forall a b, a <> hop_object x -> o_class (h_obj h a) = ra_class (Rs s) ->
      (In b (refs h' a (ra_field (Rs s))) <->
       In b (refs h a (ra_field (Rs s))) /\
       (is_list_type (rb_field (Rs s)) = true \/ ~ In b (refs h' (hop_object x) (ra_field (Rs s)))))).
    { intros a b N A. apply CC in A. destruct (OT a b N) as [O1 O2].
      assert (EL : is_list_type (rb_field (Rs s)) = lst (negb s)) by (rewrite Rs_field; reflexivity).
      change (ra_field (Rs s)) with (fd s).
      rewrite EL, <- (state_refs h' r' s a S' A), <- (state_refs h r s a S A), <- (state_refs h' r' s _ S' CO). split.
      - intros H. split; [apply O1, H |]. destruct (lst (negb s)) eqn:LG; [left; reflexivity | right]. intros H2.
        apply (sy_sym _ _ Y') in H, H2. pose proof (td_inst _ _ (sy_tidy _ _ Y') (negb s) b LG) as LE.
        destruct (lk r' (negb s) b) as [| y [| y' l]]; cbn in *; [tauto | destruct H, H2; try contradiction; congruence | lia].
      - intros [H [L | NI]]; destruct (O2 H) as [Q | [Q1 Q2]]; try exact Q; [congruence | contradiction]. }
    destruct x; exact K.
  Qed.

  Lemma side_step n h r x s h' : good_now h r -> on_side (Rs s) h x -> (strict = true -> in_step R h x) ->
    run n (task_of x) h = (Ok tt, h') ->
    exists r', good_now h' r' /\ (forall s' y z, known s' r y z -> known s' r' y z) /\
      takes_effect oeq (Rs s) h h' x /\ leaves_others (Rs s) h h' x.
  Proof.
    intros (S & K & Y & I) OS MI H.
    assert (CC : forall o c, o_class (h_obj h o) = c -> cls o = c) by (intros o c; rewrite (iv_class _ _ _ I); auto).
    assert (TT : typed_task ct h (task_of x)).
    { destruct x as [o nn v | o nn p lab op | o nn p lab op]; cbn [on_side task_of typed_task] in *.
      - destruct OS as (C & -> & new & N & CI & SV). left. exists (fd s).
        split; [rewrite (inv_ofield ct h0) by exact I; apply in_side, CC, C |].
        split; [apply ref_not_calc, r_ref |]. intros _ b Hb. rewrite r_class. f_equal. rewrite <- Rs_class. symmetry. apply CI.
        unfold refers, link_items in Hb. rewrite r_type in Hb. fold (fd s) in SV. fold (lst s) in SV. destruct SV as [[-> _] | SV]; [destruct (lst s); destruct Hb |].
        destruct (lst s); [subst v; apply in_map_iff in Hb; destruct Hb as (z & E & Hz); injection E as ->; exact Hz |].
        destruct SV as (c & -> & ->). destruct Hb as [E | []]. injection E as ->. left. reflexivity.
      - destruct OS as (C & -> & -> & -> & L & LO & new & INS & N & CI). right; left. exists (fd s).
        split; [rewrite (inv_ofield ct h0) by exact I; apply in_side, CC, C |].
        split; [apply r_ref | split; [reflexivity | split; [reflexivity |]]].
        intros b Hb. rewrite r_class. f_equal. rewrite <- Rs_class.
        unfold refers, link_items in Hb. rewrite r_type in Hb. fold (fd s) in L. fold (lst s) in L. rewrite L in Hb.
        assert (IB : In b new \/ op = LRemove (VObj b)).
        { destruct op as [y|[]|i y|y|le| |i| |[]|k|i y|sl []| |i|sl| ]; cbn [op_items inserts] in *; try (destruct Hb; fail);
            try (left; rewrite INS in Hb; apply in_map_iff in Hb; destruct Hb as (z & E & Hz); injection E as ->; exact Hz).
          right. destruct Hb as [-> | []]. reflexivity. }
        destruct IB as [IB | ->]; [symmetry; apply CI, IB |].
        (* a removed object is one of the list, or the call raises *)
        cbn [task_of] in H. destruct n as [| n]; [discriminate H |]. change (ra_field (Rs s)) with (fd s) in H.
        pose proof (rs_link _ _ _ _ _ _ _ S s o (CC _ _ C)) as SH. unfold shows in SH. rewrite L in SH.
        destruct SH as [[E _] | E].
        { cbn [ObjModel.run body] in H. unfold do_list in H. rewrite attr_at_nil, E in H. discriminate H. }
        destruct (op_run ct oeq getter setter pystr wf cl fd lst r_in h0 n h r s o _ _ h' S (CC _ _ C) E H) as (y & l' & es & h1 & OP & _).
        cbn [owned_step] in OP. unfold o_remove in OP.
        destruct (py_remove (eqv oeq h) (VObj b) (map VObj (lk r s o))) as [l2 | e] eqn:PR; [| discriminate OP].
        clear l' OP. rename l2 into l'.
        assert (IN : In b (lk r s o)).
        { assert (RI : forall z, In z (lk r s o) -> cls z = cl (negb s)) by apply (rs_items _ _ _ _ _ _ _ S s o).
          revert l' PR RI. clear - S obj_ne. generalize (lk r s o). induction l as [| z l IH]; intros l' PR RI; cbn [map py_remove] in PR; [discriminate PR |].
          destruct (eqv oeq h (VObj z) (VObj b)) eqn:EV.
          - unfold eqv in EV. cbn [veq] in EV. rewrite ident in EV.
            + apply Nat.eqb_eq in EV. subst z. left. reflexivity.
            + split; [apply (rs_class _ _ _ _ _ _ _ S) | apply (rs_ids _ _ _ _ _ _ _ S)].
            + left. exists (negb s). apply RI. left. reflexivity.
          - destruct (py_remove _ _ (map VObj l)); [| discriminate PR]. right. eapply IH; [reflexivity | intros w Hw; apply RI; right; exact Hw]. }
        rewrite Rs_class, (iv_class _ _ _ I). symmetry. apply (rs_items _ _ _ _ _ _ _ S s o b IN).
      - destruct OS. }
    assert (TH : typed_heap ct h').
    { pose proof (run_good ct oeq getter setter pystr wf n (task_of x) h (iv_typed _ _ _ I) TT) as (A & _). rewrite H in A. exact A. }
    destruct x as [o nn v | o nn p lab op | o nn p lab op]; cbn [on_side task_of] in *.
    - destruct OS as (C & -> & new & N & CI & SV). apply CC in C.
      assert (CN : forall z, In z new -> cls z = cl (negb s)) by (intros z Hz; rewrite <- Rs_class; apply CC, CI, Hz).
      assert (SH : shows lst s (Some v) new).
      { unfold shows. fold (fd s) in SV. fold (lst s) in SV. destruct SV as [[-> ->] | SV]; [left; split; reflexivity | right].
        destruct (lst s); [rewrite SV; reflexivity | destruct SV as (b & -> & ->); exists b; split; reflexivity]. }
      assert (SV' : objs (Some v) = new).
      { unfold shows in SH. destruct SH as [[E ->] | SH]; [injection E as ->; reflexivity |].
        destruct (lst s); [injection SH as ->; apply objs_map | destruct SH as (b & E & ->); injection E as ->; reflexivity]. }
      destruct (assign_run ct oeq getter setter pystr wf pk_plain cl fd lst r_in r_ref r_type r_other r_distinct strict h0 typed0 ident keyed
                  n h r s o v new h' S K C SH N CN H) as [[-> ->] | [S' K']].
      + exists r. split; [split; [exact S | split; [exact K | split; [exact Y | exact I]]] |]. split; [auto |].
        cbn [takes_effect]. change (ra_field (Rs s)) with (fd s). split; [rewrite <- (state_refs h r s o S C), SV'; reflexivity |].
        apply (others_left h r h r s (HSet o (fl_name (fd s)) v) o S S Y CC eq_refl C). auto.
      + destruct (set_symm lst s o new r Y N) as (Y' & OWN & KN).
        { intros L. unfold shows in SH. rewrite L in SH. destruct SH as [[_ ->] | (b & _ & ->)]; cbn; lia. }
        exists (SetA lst s o new r). split; [split; [exact S' | split; [exact K' | split; [exact Y' | apply (state_inv _ _ S' TH)]]] |].
        split; [apply (known_all s); assumption |].
        cbn [takes_effect]. change (ra_field (Rs s)) with (fd s). split; [rewrite <- (state_refs h' _ s o S' C), SV'; exact OWN |].
        apply (others_left h r h' _ s (HSet o (fl_name (fd s)) v) o S S' Y' CC eq_refl C). intros y z NY.
        rewrite OWN. apply SetA_others, NY.
    - destruct OS as (C0 & -> & -> & -> & L & LO & new & INS & N & CI). pose proof (CC _ _ C0) as C. change (ra_field (Rs s)) with (fd s) in *.
      rewrite <- (state_refs h r s o S C) in INS, N.
      destruct (op_rel ct oeq getter setter pystr wf pk_plain cl fd lst r_in r_ref r_type r_other r_distinct strict h0 typed0 ident keyed
                  n h r s o op new h' S K Y C L LO INS N) with (3 := H) as (r' & S' & K' & Y' & KN & _ & OWN & OT).
      + intros z Hz. rewrite <- Rs_class. apply CC, CI, Hz.
      + intros ST LC. specialize (MI ST). cbn [in_step] in MI. apply MI. destruct s; [left | right]; split; auto.
      + exists r'. split; [split; [exact S' | split; [exact K' | split; [exact Y' | apply (state_inv _ _ S' TH)]]] |].
        split; [apply (known_all s); assumption |].
        split; [| apply (others_left h r h' r' s (HList o (fl_name (fd s)) [] (fl_name (fd s)) op) o S S' Y' CC eq_refl C); exact OT].
        cbn [takes_effect]. change (ra_field (Rs s)) with (fd s). intros SA.
        rewrite <- (state_refs h r s o S C), <- (state_refs h' r' s o S' C).
        destruct OWN as (y & es & OWN). exists y. rewrite (owned_step_plain _ _ _ SA), OWN. reflexivity.
    - destruct OS.
  Qed.

  Lemma of_relation_inv h o n : inv h -> of_relation ct R h o n <-> prot o n.
  Proof. intros I. unfold prot, of_relation, of_side. rewrite (iv_class _ _ _ I). tauto. Qed.

  Lemma typed_back h t : inv h -> typed_task ct h t -> typed_task ct h0 t.
  Proof.
    intros I. pose proof (iv_class _ _ _ I) as C. pose proof (iv_lkeys _ _ _ I) as L.
    assert (OF : forall o n, ofield ct h o n = fld o n) by (intros; apply inv_ofield, I).
    destruct t as [o n v | o f v | o f v | o a p lab op | o a p lab op]; cbn [typed_task].
    - intros [(f & H1 & H2 & H3) | (H1 & m & H2)].
      + left. exists f. rewrite <- OF. split; [exact H1 | split; [exact H2 |]]. intros Hr b Hb. rewrite <- C. auto.
      + right. rewrite <- OF, <- L. split; [exact H1 | exists m; exact H2].
    - intros (H1 & H2 & H3). rewrite <- OF. split; [exact H1 | split; [exact H2 |]]. intros b Hb. rewrite <- C. auto.
    - intros (H1 & H2 & H3). rewrite <- OF. split; [exact H1 | split; [exact H2 |]]. intros b Hb. rewrite <- C. auto.
    - intros [(f & H) | [(f & H1 & H2 & H3 & H4 & H5) | (H1 & H2 & H3 & m & H4)]].
      + left. exists f. rewrite <- OF. exact H.
      + right; left. exists f. rewrite <- OF. repeat (split; [assumption |]). intros b Hb. rewrite <- C. auto.
      + right; right. rewrite <- OF, <- L. repeat (split; [assumption |]). exists m. exact H4.
    - intros (f & H). exists f. rewrite <- OF. exact H.
  Qed.

  Lemma other_step n h r x q h' : good_now h r -> elsewhere ct R h x -> run n (task_of x) h = (q, h') -> good_now h' r.
  Proof.
    intros (S & K & Y & I) [TT OF] H.
    assert (OK : off prot (task_of x)).
    { destruct x; cbn [task_of off]; rewrite <- (of_relation_inv h) by exact I; exact OF. }
    pose proof (run_frame ct oeq getter setter pystr wf h0 prot p_ref p_key p_other n (task_of x) h I (typed_back h _ I TT) OK) as [I' KP].
    rewrite H in I', KP. cbn [snd] in I', KP.
    split; [apply (kp_state h); assumption | split; [apply (kp_keys h); assumption | split; assumption]].
  Qed.

  Lemma op_step n h r x h' : good_now h r -> link_op ct R h x -> (strict = true -> in_step R h x) ->
    run n (task_of x) h = (Ok tt, h') ->
    exists r', good_now h' r' /\ (forall s' y z, known s' r y z -> known s' r' y z).
  Proof.
    intros G [L | [L | L]] MI H.
    - exists r. split; [apply (other_step n h r x _ h' G L H) | auto].
    - destruct (side_step n h r x true h' G L MI H) as (r' & A & B & _). exists r'. auto.
    - destruct (side_step n h r x false h' G L MI H) as (r' & A & B & _). exists r'. auto.
  Qed.

  Lemma history_step n : forall xs h r h', good_now h r ->
    lawful (fun x => run n (task_of x)) (fun h x => link_op ct R h x /\ (strict = true -> in_step R h x)) xs h ->
    history ct oeq getter setter pystr n xs h = (Ok tt, h') ->
    exists r', good_now h' r' /\ (forall s' y z, known s' r y z -> known s' r' y z).
  Proof.
    induction xs as [| x xs IH]; intros h r h' G L H.
    - injection H as ->. exists r. split; [exact G | auto].
    - unfold history in H. cbn [for_st] in H. apply bind_ok in H. destruct H as ([] & h1 & H1 & H).
      cbn [lawful] in L. destruct L as ((L1 & L2) & L3).
      destruct (op_step n h r x h1 G L1 L2 H1) as (r1 & G1 & K1).
      destruct (IH h1 r1 h' G1 (L3 h1 H1) H) as (r2 & G2 & K2). exists r2. split; [exact G2 | auto].
  Qed.

  Lemma start_good : consistent R h0 ->
    (strict = true -> keys_agree ct h0 (ra_class R) (ra_field R) /\ keys_agree ct h0 (rb_class R) (rb_field R)) ->
    good_now h0 (shown h0).
  Proof.
    intros CO KA. assert (I : inv h0) by (constructor; auto).
    destruct (shown_state h0 I (fun z => eq_refl) CO) as [S Y].
    split; [exact S | split; [apply shown_keys; auto | split; [exact Y | exact I]]].
  Qed.

  Theorem history_links n xs h' : consistent R h0 ->
    (strict = true -> keys_agree ct h0 (ra_class R) (ra_field R) /\ keys_agree ct h0 (rb_class R) (rb_field R)) ->
    lawful (fun x => run n (task_of x)) (fun h x => link_op ct R h x /\ (strict = true -> in_step R h x)) xs h0 ->
    history ct oeq getter setter pystr n xs h0 = (Ok tt, h') ->
    consistent R h' /\
    (strict = true -> keys_agree ct h' (ra_class R) (ra_field R) /\ keys_agree ct h' (rb_class R) (rb_field R)) /\
    (forall a b, cls a = ra_class R -> cls b = rb_class R -> In b (refs h0 a (ra_field R)) ->
       In b (refs h' a (ra_field R)) \/
       (In b (unlinked h' a (ra_field R)) /\ In a (unlinked h' b (rb_field R)))).
  Proof.
    intros CO KA L H. destruct (history_step n xs h0 (shown h0) h' (start_good CO KA) L H) as (r' & (S & K & Y & I) & KN).
    split; [apply (state_consistent h' r' S Y K) | split].
    - intros ST. split; [apply (state_keys h' r' true ST S K) | apply (state_keys h' r' false ST S K)].
    - intros a b A B HB.
      assert (K0 : known false (shown h0) b a).
      { left. cbn [negb]. rewrite (shown_lk h0 true a A). exact HB. }
      apply KN in K0. destruct K0 as [K0 | [K0 K1]]; cbn [negb] in *.
      + left. change (ra_field R) with (fd true). rewrite <- (state_refs h' r' true a S A). exact K0.
      + right. destruct (state_pool h' r' true a S A) as [E1 _]. destruct (state_pool h' r' false b S B) as [E2 _].
        change (ra_field R) with (fd true). change (rb_field R) with (fd false). rewrite <- E1, <- E2. split; assumption.
  Qed.

  Lemma end_setting n xs h' : consistent R h0 -> strict = false ->
    lawful (fun x => run n (task_of x)) (fun h x => link_op ct R h x) xs h0 ->
    history ct oeq getter setter pystr n xs h0 = (Ok tt, h') ->
    setting ct oeq R h' /\ (forall z, o_class (h_obj h' z) = cls z) /\ (forall z, id_of ct h' z = id_of ct h0 z).
  Proof.
    intros CO ST L H.
    assert (L' : lawful (fun x => run n (task_of x)) (fun h x => link_op ct R h x /\ (strict = true -> in_step R h x)) xs h0).
    { clear H CO. revert L. generalize h0. induction xs as [| x xs IH]; intros h L; [exact Logic.I |].
      destruct L as [L1 L2]. split; [split; [exact L1 | congruence] |]. intros h1 H1. apply IH, L2, H1. }
    assert (KA : strict = true -> keys_agree ct h0 (ra_class R) (ra_field R) /\ keys_agree ct h0 (rb_class R) (rb_field R)) by congruence.
    destruct (history_step n xs h0 (shown h0) h' (start_good CO KA) L' H) as (r' & (S & K & Y & I) & _).
    pose proof (rs_class _ _ _ _ _ _ _ S) as EC. pose proof (rs_ids _ _ _ _ _ _ _ S) as EI.
    split; [| split; assumption]. constructor; try assumption.
    - apply (iv_typed _ _ _ I).
    - intros h2 a b C2 I2 HR. apply obj_ne.
      + intros z. rewrite C2. apply EC.
      + intros z. rewrite I2. apply EI.
      + unfold in_relation in *. rewrite !EC in HR. exact HR.
    - intros A B h2 a b. rewrite !EC, !EI. apply (keys_a A B).
    - intros A B h2 a b. rewrite !EC, !EI. apply (keys_b A B).
    - apply (state_consistent h' r' S Y K).
  Qed.

  Theorem others n x h' : strict = false -> consistent R h0 -> on_side R h0 x ->
    run n (task_of x) h0 = (Ok tt, h') -> leaves_others R h0 h' x.
  Proof.
    intros ST CO OS H.
    destruct (side_step n h0 (shown h0) x true h') as (r' & _ & _ & _ & E); try assumption; [| congruence].
    apply start_good; [exact CO | congruence].
  Qed.

  Theorem effect n x h' : strict = false -> consistent R h0 -> on_side R h0 x ->
    run n (task_of x) h0 = (Ok tt, h') -> takes_effect oeq R h0 h' x.
  Proof.
    intros ST CO OS H.
    destruct (side_step n h0 (shown h0) x true h') as (r' & _ & _ & E & _); try assumption; [| congruence].
    apply start_good; [exact CO | congruence].
  Qed.
End Hist.
