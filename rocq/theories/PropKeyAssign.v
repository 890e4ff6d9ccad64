(** PropKeyAssign.v -- C101: assigning a stored key. *)
From Verif Require Import Base Mon PyList PyDict KeypathModel Values OListModel OListSpec TypesModel ObjModel ObjSpec ObjTrack
  LinkOps LinkSpec LinkHist LinkRun ObjExample PropLink KeyAssignSpec.
From Coq Require Import Lia.
Open Scope nat_scope.
Open Scope list_scope.

Section Key.
  Context (ct : string -> option cdef)
          (oeq : heap -> Values.oid -> Values.oid -> bool)
          (getter : heap -> Values.oid -> string -> res value)
          (setter : Values.oid -> string -> value -> st heap unit)
          (pystr : value -> string) (R : relation).
  Notation run := (run ct oeq getter setter pystr).
  Notation A := (ra_field R).
  Notation B := (rb_field R).

  (** Heaps that differ in the stored key of [o] only *)
  Record rekeyed (o : Values.oid) (h h' : heap) : Prop := {
    rk_class : forall x, o_class (h_obj h' x) = o_class (h_obj h x);
    rk_lkeys : forall x, o_lkeys (h_obj h' x) = o_lkeys (h_obj h x);
    rk_unl : forall x, o_unlinked (h_obj h' x) = o_unlinked (h_obj h x);
    rk_attr : forall x n, x <> o \/ n <> fl_ref A -> attr h' x n = attr h x n;
    rk_key : exists k, attr h' o (fl_ref A) = Some k /\ (is_list_type A = true -> exists ks, k = VList ks);
    rk_raw : forall x k, In k (o_raw (h_obj h' x)) -> In k (o_raw (h_obj h x)) \/ (x = o /\ k = fl_ref A)
  }.

  Context (h : heap) (ST : setting ct oeq R h) (o : Values.oid) (CO : o_class (h_obj h o) = ra_class R) (LA : is_local A = true).

  Lemma a_in : exists d, ct (o_class (h_obj h o)) = Some d /\ In A (cd_fields d) /\ wf_class ct (o_class (h_obj h o)) d.
  Proof.
    destruct (os_field _ _ (ro_a _ _ (st_rel _ _ _ _ ST))) as (d & Hd & Hin). exists d. rewrite CO.
    split; [exact Hd |]. split; [exact Hin | apply (st_wf _ _ _ _ ST _ _ Hd)].
  Qed.
  Lemma ref_no_field f : ofield ct h o (fl_ref A) = Some f -> False.
  Proof.
    intros F. destruct a_in as (d & Hd & Hin & W). destruct (ofield_in ct (st_wf _ _ _ _ ST) _ _ _ _ F) as (d' & Hd' & Hin' & Hn & _).
    rewrite Hd in Hd'. injection Hd' as <-. apply (wf_refname _ _ _ W A f Hin Hin' LA). symmetry. exact Hn.
  Qed.
  Lemma a_field : ofield ct h o (fl_name A) = Some A.
  Proof.
    destruct a_in as (d & Hd & Hin & W). unfold ofield, cdef_of. rewrite Hd. apply field_named_of; [apply (wf_names _ _ _ W) | exact Hin].
  Qed.
  Lemma a_key : local_field_of h o (fl_ref A) = Some (fl_name A).
  Proof. apply (th_local _ _ (st_typed _ _ _ _ ST)); [exact a_field | exact LA]. Qed.
  Lemma name_ref : fl_name A <> fl_ref A.
  Proof. intros E. apply (ref_no_field A). rewrite <- E. exact a_field. Qed.

  Lemma rk_ofield h' x n : rekeyed o h h' -> ofield ct h' x n = ofield ct h x n.
  Proof. intros K. unfold ofield, cdef_of. rewrite (rk_class _ _ _ K). reflexivity. Qed.
  Lemma rk_named h' x n f : rekeyed o h h' -> ofield ct h x n = Some f -> attr h' x n = attr h x n.
  Proof.
    intros K F. apply (rk_attr _ _ _ K). destruct (Nat.eq_dec x o) as [-> | N]; [right | left; exact N].
    intros ->. apply (ref_no_field f F).
  Qed.
  Lemma rk_id h' x : rekeyed o h h' -> id_of ct h' x = id_of ct h x.
  Proof.
    intros K. unfold id_of. assert (EC : cdef_of ct h' x = cdef_of ct h x) by (unfold cdef_of; rewrite (rk_class _ _ _ K); reflexivity).
    rewrite EC. destruct (primary_field (cdef_of ct h x)) as [f |] eqn:P; [| reflexivity].
    destruct (ct (o_class (h_obj h x))) as [d |] eqn:Hd.
    - rewrite (rk_named h' x (fl_name f) f K); [reflexivity |]. unfold ofield, cdef_of in *. rewrite Hd in *.
      apply field_named_of; [apply (wf_names _ _ _ (st_wf _ _ _ _ ST _ _ Hd)) |].
      unfold primary_field in P. apply find_some in P. apply in_rev, (proj1 P).
    - unfold cdef_of in P. rewrite Hd in P. discriminate P.
  Qed.
  Lemma side_field (a_side : bool) x : o_class (h_obj h x) = (if a_side then ra_class R else rb_class R) ->
    ofield ct h x (fl_name (if a_side then A else B)) = Some (if a_side then A else B).
  Proof.
    intros C. assert (F : field_of ct (if a_side then ra_class R else rb_class R) (if a_side then A else B)).
    { destruct a_side; [apply (os_field _ _ (ro_a _ _ (st_rel _ _ _ _ ST))) | apply (os_field _ _ (ro_b _ _ (st_rel _ _ _ _ ST)))]. }
    destruct F as (d & Hd & Hin). unfold ofield, cdef_of. rewrite C, Hd. apply field_named_of; [apply (wf_names _ _ _ (st_wf _ _ _ _ ST _ _ Hd)) | exact Hin].
  Qed.
  Lemma rk_refs h' (a_side : bool) x : rekeyed o h h' -> o_class (h_obj h x) = (if a_side then ra_class R else rb_class R) ->
    attr h' x (fl_name (if a_side then A else B)) = attr h x (fl_name (if a_side then A else B)).
  Proof. intros K C. apply (rk_named h' x _ _ K (side_field a_side x C)). Qed.

  Lemma rk_side h' (a_side : bool) : rekeyed o h h' ->
    side_fine h (if a_side then ra_class R else rb_class R) (if a_side then A else B) ->
    side_fine h' (if a_side then ra_class R else rb_class R) (if a_side then A else B).
  Proof.
    intros K [S1 S2 S3 S4 S5].
    assert (EC : forall x, o_class (h_obj h' x) = (if a_side then ra_class R else rb_class R) -> o_class (h_obj h x) = (if a_side then ra_class R else rb_class R))
      by (intros x; rewrite (rk_class _ _ _ K); auto).
    assert (EU : forall x f, recorded h' x f = recorded h x f) by (intros x f; unfold recorded; rewrite (rk_unl _ _ _ K); reflexivity).
    constructor; intros x; [intros C | intros C | intros C | intros b C | intros C L]; apply EC in C; unfold refs, unlinked; rewrite ?EU, ?(rk_refs h' a_side x K C).
    - apply (S1 x C).
    - apply (S2 x C).
    - apply (S3 x C).
    - apply (S4 x b C).
    - destruct (S5 x C L) as (k & E & G). unfold stored in *.
      destruct (Nat.eq_dec x o) as [-> | N].
      + destruct (string_dec (fl_ref (if a_side then A else B)) (fl_ref A)) as [ER | NR].
        * assert (EF : (if a_side then A else B) = A).
          { pose proof (th_local _ _ (st_typed _ _ _ _ ST) o _ _ (side_field a_side o C) L) as P.
            unfold local_field_of in *. rewrite ER in P. pose proof a_key as Q. unfold local_field_of in Q. rewrite P in Q. injection Q as Q.
            pose proof (side_field a_side o C) as F. rewrite Q, a_field in F. injection F as F. symmetry. exact F. }
          rewrite EF. apply (rk_key _ _ _ K).
        * exists k. rewrite (rk_attr _ _ _ K) by (right; exact NR). auto.
      + exists k. rewrite (rk_attr _ _ _ K) by (left; exact N). auto.
  Qed.

  Lemma rk_setting h' : rekeyed o h h' -> setting ct oeq R h'.
  Proof.
    intros K. pose proof ST as [W PP RO TY OB KA KB CS]. constructor; try assumption.
    - constructor.
      + intros x n f v b F Rf At Rr. rewrite (rk_ofield h' x n K) in F. rewrite (rk_named h' x n f K F) in At.
        rewrite (rk_class _ _ _ K). apply (th_refs _ _ TY x n f v b F Rf At Rr).
      + intros x k n S. rewrite (rk_lkeys _ _ _ K) in S. rewrite (rk_ofield h' x n K). apply (th_keys _ _ TY x k n S).
      + intros x n f F L. rewrite (rk_ofield h' x n K) in F. rewrite (rk_lkeys _ _ _ K). apply (th_local _ _ TY x n f F L).
      + intros x k I. rewrite (rk_ofield h' x k K). destruct (rk_raw _ _ _ K x k I) as [I' | [-> ->]]; [apply (th_raw _ _ TY x k I') |].
        destruct (ofield ct h o (fl_ref A)) as [f |] eqn:F; [destruct (ref_no_field f F) | reflexivity].
    - intros h2 a b C2 I2 HR. apply OB.
      + intros z. rewrite C2. apply (rk_class _ _ _ K).
      + intros z. rewrite I2. apply (rk_id h' z K).
      + unfold in_relation in *. rewrite !(rk_class _ _ _ K) in HR. exact HR.
    - intros L1 L2 h2 a b. rewrite !(rk_class _ _ _ K), !(rk_id h' _ K). apply (KA L1 L2).
    - intros L1 L2 h2 a b. rewrite !(rk_class _ _ _ K), !(rk_id h' _ K). apply (KB L1 L2).
    - destruct CS as [CA CB SY]. constructor; [apply (rk_side h' true K CA) | apply (rk_side h' false K CB) |].
      intros a b Ca Cb. rewrite (rk_class _ _ _ K) in Ca, Cb. unfold refs.
      rewrite (rk_refs h' true a K Ca), (rk_refs h' false b K Cb). apply (SY a b Ca Cb).
  Qed.
End Key.

(** ** One assignment, step by step *)
Section Assign.
  Context (ct : string -> option cdef)
          (oeq : heap -> Values.oid -> Values.oid -> bool)
          (getter : heap -> Values.oid -> string -> res value)
          (setter : Values.oid -> string -> value -> st heap unit)
          (pystr : value -> string) (R : relation).
  Notation run := (run ct oeq getter setter pystr).
  Notation A := (ra_field R).
  Notation B := (rb_field R).

  (** An update of the stored key, in between what changes no attribute *)
  Lemma upd_rekeyed o h h1 g k :
    quiet h h1 ->
    (forall b, o_class (g b) = o_class b /\ o_lkeys (g b) = o_lkeys b /\ o_unlinked (g b) = o_unlinked b /\
       o_attr (g b) = o_attr (set_attr (fl_ref A) k b) /\
       forall x, In x (o_raw (g b)) -> In x (o_raw b) \/ x = fl_ref A) ->
    (is_list_type A = true -> exists ks, k = VList ks) ->
    rekeyed R o h (upd o g h1).
  Proof.
    intros Q G L.
    assert (K : forall x, o_class (h_obj (upd o g h1) x) = o_class (h_obj h x) /\ o_lkeys (h_obj (upd o g h1) x) = o_lkeys (h_obj h x) /\
                o_unlinked (h_obj (upd o g h1) x) = o_unlinked (h_obj h x)).
    { intros x. destruct (Q x) as (Q1 & Q2 & Q3 & Q4 & Q5). destruct (Nat.eq_dec x o) as [-> | N].
      - rewrite upd_same. destruct (G (h_obj h1 o)) as (G1 & G2 & G3 & _). repeat split; congruence.
      - rewrite upd_other by exact N. repeat split; assumption. }
    constructor.
    - intros x. apply K.
    - intros x. apply K.
    - intros x. apply K.
    - intros x n N. unfold attr. destruct (Q x) as (Q1 & Q2 & _). destruct (Nat.eq_dec x o) as [-> | NX].
      + rewrite upd_same. destruct (G (h_obj h1 o)) as (_ & _ & _ & -> & _). unfold set_attr. cbn [o_attr]. rewrite Q2.
        destruct N as [N | N]; [contradiction N; reflexivity |]. apply String.eqb_neq in N. rewrite N. reflexivity.
      + rewrite upd_other by exact NX. rewrite Q2. reflexivity.
    - exists k. split; [| exact L]. unfold attr. rewrite upd_same. destruct (G (h_obj h1 o)) as (_ & _ & _ & -> & _).
      unfold set_attr. cbn [o_attr]. rewrite String.eqb_refl. reflexivity.
    - intros x n. destruct (Q x) as (_ & _ & _ & Q4 & _). destruct (Nat.eq_dec x o) as [-> | NX].
      + rewrite upd_same. intros I. destruct (G (h_obj h1 o)) as (_ & _ & _ & _ & G5). destruct (G5 n I) as [I' | E]; [left; rewrite <- Q4; exact I' | right; auto].
      + rewrite upd_other by exact NX. rewrite Q4. auto.
  Qed.

  Lemma veq_key e e' x i : key_value i -> veq e x i = veq e' x i.
  Proof. destruct i; cbn; intros []; destruct x; reflexivity. Qed.

  Lemma first_run h i l : first_with_id ct oeq i (map VObj l) h =
    (Ok (option_map VObj (find (fun b => eqv oeq h (id_of ct h b) i) l)), h).
  Proof.
    induction l as [| b l IH]; [reflexivity |]. cbn [map first_with_id find]. unfold bind at 1. cbn [vid]. unfold bind at 1. cbn [gets].
    destruct (eqv oeq h (id_of ct h b) i); [reflexivity | exact IH].
  Qed.
  Lemma pick_run h ids l : pick_by_ids ct oeq ids (map VObj l) h = (Ok (map VObj (with_keys ct oeq h l ids)), h).
  Proof.
    induction ids as [| i ids IH]; [reflexivity |]. cbn [pick_by_ids with_keys flat_map]. unfold bind at 1. rewrite first_run.
    unfold bind at 1. rewrite IH. unfold with_keys. destruct (find _ l); reflexivity.
  Qed.
  Lemma pick_in h l ids b : In b (with_keys ct oeq h l ids) -> In b l.
  Proof.
    unfold with_keys. intros I. apply in_flat_map in I. destruct I as (i & _ & I). destruct (find _ l) as [c |] eqn:F; [| destruct I].
    destruct I as [-> | []]. apply find_some in F. apply F.
  Qed.

  Section One.
    Context (h : heap) (ST : setting ct oeq R h) (o : Values.oid) (CO : o_class (h_obj h o) = ra_class R) (LA : is_local A = true).

    Lemma rk_find h1 l i : rekeyed R o h h1 -> key_value i ->
      find (fun b => eqv oeq h1 (id_of ct h1 b) i) l = find (fun b => eqv oeq h (id_of ct h b) i) l.
    Proof.
      intros K Hi. induction l as [| b l IH]; [reflexivity |]. cbn [find]. rewrite (rk_id ct oeq R h ST o CO LA h1 b K). unfold eqv at 1 3.
      rewrite (veq_key (oeq h1) (oeq h) _ _ Hi), IH. reflexivity.
    Qed.
    Lemma rk_with h1 l ids : rekeyed R o h h1 -> Forall key_value ids -> with_keys ct oeq h1 l ids = with_keys ct oeq h l ids.
    Proof.
      intros K F. unfold with_keys. induction F as [| i ids Hi F IH]; [reflexivity |]. cbn [flat_map]. rewrite IH, (rk_find h1 l i K Hi). reflexivity.
    Qed.

    Lemma not_calc_a : is_calc A = false.
    Proof. apply ref_not_calc, (os_ref _ _ (ro_a _ _ (st_rel _ _ _ _ ST))). Qed.
    Lemma refs_class b : In b (refs h o A) -> o_class (h_obj h b) = rb_class R.
    Proof.
      intros I. pose proof (ro_a _ _ (st_rel _ _ _ _ ST)) as OS.
      pose proof (co_a _ _ (st_consistent _ _ _ _ ST)) as SF.
      assert (E : foreign_class A = Some (o_class (h_obj h b))).
      { destruct (sf_shape _ _ _ SF o CO) as [S | S]; [unfold refs in I; rewrite S in I; destruct I |].
        destruct (os_type _ _ OS) as [T | T]; unfold is_list_type in S; rewrite T in S.
        - apply (th_refs _ _ (st_typed _ _ _ _ ST) o (fl_name A) A _ b (a_field ct oeq R h ST o CO) (os_ref _ _ OS) S).
          unfold refers, link_items. rewrite T. apply in_map. exact I.
        - destruct S as (c & S). apply (th_refs _ _ (st_typed _ _ _ _ ST) o (fl_name A) A _ b (a_field ct oeq R h ST o CO) (os_ref _ _ OS) S).
          unfold refers, link_items. rewrite T. unfold refs in I. rewrite S in I. destruct I as [-> | []]. left. reflexivity. }
      rewrite (os_class _ _ OS) in E. injection E as ->. reflexivity.
    Qed.
    Lemma rk_refs_a h' (a_side : bool) x : rekeyed R o h h' -> o_class (h_obj h x) = (if a_side then ra_class R else rb_class R) ->
      refs h' x (if a_side then A else B) = refs h x (if a_side then A else B).
    Proof. intros K C. unfold refs. rewrite (rk_refs ct oeq R h ST o CO LA h' a_side x K C). reflexivity. Qed.

    (** What an assignment to the stored key comes to: the key is stored, the reference is
        assigned what is kept, and the key is stored again. *)
    Lemma assign_run n v h' : key_assignment ct oeq R h (HSet o (fl_ref A) v) ->
      run (Datatypes.S n) (TSet o (fl_ref A) v) h = (Ok tt, h') ->
      (h' = h /\ exists k, stored h o A = Some k /\ eqv oeq h v k = true) \/
      exists h1 h2 w, rekeyed R o h h1 /\ on_side R h1 (HSet o (fl_name A) w) /\
        objs (Some w) = kept_by ct oeq R h o v /\
        run n (TSet o (fl_name A) w) h1 = (Ok tt, h2) /\ rekeyed R o h2 h' /\ stored h' o A = Some v.
    Proof.
      intros (_ & _ & _ & KV) H. pose proof (ro_a _ _ (st_rel _ _ _ _ ST)) as OS.
      cbn [run ObjModel.run body] in H. unfold set_attribute in H.
      unfold bind at 1 in H. cbn [gets] in H. rewrite (a_key ct oeq R h ST o CO LA) in H.
      assert (NF : ofield ct h o (fl_ref A) = None).
      { destruct (ofield ct h o (fl_ref A)) as [f |] eqn:F; [destruct (ref_no_field ct oeq R h ST o CO LA f F) | reflexivity]. }
      unfold bind at 1 in H. cbn [gets] in H. rewrite NF in H. cbv zeta in H.
      destruct (sf_stored _ _ _ (co_a _ _ (st_consistent _ _ _ _ ST)) o CO LA) as (k & SK & SL).
      unfold bind at 1 in H. unfold getattr in H at 1. rewrite NF in H. unfold stored in SK. rewrite SK in H.
      unfold bind at 1 in H. cbn [gets] in H. destruct (eqv oeq h v k) eqn:EV.
      { injection H as <-. left. split; [reflexivity |]. exists k. auto. }
      right. unfold set_local_key in H. apply ok_bind in H. destruct H as ([] & h3 & H & P).
      unfold bind at 1 in H. cbn [gets] in H. rewrite (a_field ct oeq R h ST o CO) in H.
      apply ok_bind in H. destruct H as ([] & h2 & H & M).
      assert (QM : quiet h2 h3).
      { replace h3 with (snd (mark o (fl_name A) h2)) by (rewrite M; reflexivity). apply mark_quiet. }
      (* the last step *)
      assert (PL : (is_list_type A = true -> exists ks, v = VList ks) -> rekeyed R o h2 h' /\ stored h' o A = Some v).
      { intros LV. unfold set_plain, updm, modify in P. injection P as <-. split.
        - apply (upd_rekeyed o h2 h3 _ v QM); [| exact LV]. intros b. cbn. repeat split. intros x I.
          assert (I' : In x (filter (fun n0 => negb (String.eqb n0 (fl_ref A))) (o_raw b) ++ [fl_ref A])).
          { destruct v; try (apply in_or_app; left; exact I). exact I. }
          apply in_app_or in I'. destruct I' as [I' | [<- | []]]; [left; apply filter_In in I'; apply I' | right; reflexivity].
        - unfold stored, attr. rewrite upd_same. cbn. rewrite String.eqb_refl. reflexivity. }
      destruct (os_type _ _ OS) as [T | T]; rewrite T in H.
      - assert (LT : is_list_type A = true) by (unfold is_list_type; rewrite T; reflexivity).
        destruct (KV LT) as (ids & -> & KI & ND).
        apply ok_bind in H. destruct H as ([] & h1 & SKS & H).
        assert (K : rekeyed R o h h1).
        { unfold store_keys, updm, modify in SKS. injection SKS as <-. apply (upd_rekeyed o h h _ (VList ids) (quiet_refl h)); [| eauto].
          intros b. cbn. repeat split. intros x I. left. apply filter_In in I. apply I. }
        assert (LR : run n (TSet o (fl_name A) (VList (map VObj (with_keys ct oeq h (refs h o A) ids)))) h1 = (Ok tt, h2)).
        { apply ok_bind in H. destruct H as (cur & h1' & G & H). unfold getattr in G.
          rewrite (rk_ofield ct R o h h1 (fl_name A) K) in G || rewrite (rk_ofield ct R h o h1 o (fl_name A) K) in G.
          rewrite (a_field ct oeq R h ST o CO), not_calc_a in G. rewrite (rk_refs ct oeq R h ST o CO LA h1 true o K CO) in G.
          destruct (sf_shape _ _ _ (co_a _ _ (st_consistent _ _ _ _ ST)) o CO) as [S | S].
          - rewrite S in G. injection G as <- <-. unfold refs. rewrite S. cbn [objs].
            assert (E : with_keys ct oeq h [] ids = []) by (clear; induction ids; [reflexivity | exact IHids]). rewrite E. exact H.
          - rewrite LT in S. rewrite S in G. injection G as <- <-. unfold bind in H. rewrite pick_run in H.
            rewrite (rk_with h1 _ ids K KI) in H. exact H. }
        exists h1, h2, (VList (map VObj (with_keys ct oeq h (refs h o A) ids))).
        split; [exact K |]. split.
        { split; [rewrite (rk_class _ _ _ _ K); exact CO |]. split; [reflexivity |]. exists (with_keys ct oeq h (refs h o A) ids).
          split; [exact ND |]. split; [| right; rewrite LT; reflexivity].
          intros b I. rewrite (rk_class _ _ _ _ K). apply refs_class, (pick_in h _ ids b I). }
        split; [unfold kept_by; rewrite LT; apply objs_map |]. split; [exact LR |]. apply PL. eauto.
      - assert (LT : is_list_type A = false) by (unfold is_list_type; rewrite T; reflexivity).
        apply ok_bind in H. destruct H as ([] & h1 & SKS & H).
        assert (K : rekeyed R o h h1).
        { unfold updm, modify in SKS. injection SKS as <-. apply (upd_rekeyed o h h _ v (quiet_refl h)); [| congruence].
          intros b. cbn. repeat split. auto. }
        exists h1, h2, VNone. split; [exact K |]. split.
        { split; [rewrite (rk_class _ _ _ _ K); exact CO |]. split; [reflexivity |]. exists (@nil Values.oid).
          split; [constructor |]. split; [intros b [] | left; auto]. }
        split; [unfold kept_by; rewrite LT; reflexivity |]. split; [exact H |]. apply PL. congruence.
    Qed.
  End One.
End Assign.

Lemma flip_flip R : flip (flip R) = R.
Proof. destruct R. reflexivity. Qed.
Lemma setting_flip ct oeq R h : setting ct oeq R h -> setting ct oeq (flip R) h.
Proof.
  intros [W PP [RA RB RT] TY OB KA KB [CA CB SY]]. constructor; try assumption.
  - constructor; [exact RB | replace (flip (flip R)) with R by (symmetry; apply flip_flip); exact RA |]. intros E N. apply RT; symmetry; assumption.
  - intros h2 a b C I HR. apply (OB h2 a b C I). unfold in_relation in *. cbn [flip ra_class rb_class] in HR. tauto.
  - constructor; [exact CB | exact CA |]. intros a b Ca Cb. symmetry. apply (SY b a Cb Ca).
Qed.

(** ** C101 Assigning a stored key

    An assignment to the attribute that stores the key of a reference, or the keys of a
    list of references, that returns normally: if the value equals the one that is stored,
    nothing changes.  Otherwise the value is stored, and the reference keeps of its objects
    exactly the ones the value names -- none for a single reference, the ones with a listed
    key in the order of the keys for a list.  The two sides of the relation still agree; the
    other objects keep exactly the links they had; every object that is let go is recorded
    as unlinked, and so is its owner for it. *)
Theorem C101_assigning_keys :
  forall ct oeq getter setter pystr fuel R h h' o v,
    setting ct oeq R h ->
    key_assignment ct oeq R h (HSet o (fl_ref (ra_field R)) v) ->
    run ct oeq getter setter pystr fuel (task_of (HSet o (fl_ref (ra_field R)) v)) h = (Ok tt, h') ->
    (h' = h /\ exists k, stored h o (ra_field R) = Some k /\ eqv oeq h v k = true) \/
    (stored h' o (ra_field R) = Some v /\
     refs h' o (ra_field R) = kept_by ct oeq R h o v /\
     setting ct oeq R h' /\
     leaves_others R h h' (HSet o (fl_ref (ra_field R)) v) /\
     forall b, In b (refs h o (ra_field R)) -> ~ In b (kept_by ct oeq R h o v) ->
       In b (unlinked h' o (ra_field R)) /\ In o (unlinked h' b (rb_field R))).
Proof.
  intros ct oeq getter setter pystr fuel R h h' o v ST KV H. pose proof KV as (CO & LA & _).
  destruct fuel as [| n]; [discriminate H |]. cbn [task_of] in H.
  destruct (assign_run ct oeq getter setter pystr R h ST o CO LA n v h' KV H) as [E | (h1 & h2 & w & K1 & OS & EW & RN & K2 & SK)];
    [left; exact E | right].
  pose proof (rk_setting ct oeq R h ST o CO LA h1 K1) as ST1.
  assert (AF : after ct oeq getter setter pystr R n [HSet o (fl_name (ra_field R)) w] h1 h2).
  { split; [split; [right; left; exact OS | intros; exact Logic.I] |]. cbn [history for_st]. unfold bind, ret. cbn [task_of]. rewrite RN. reflexivity. }
  destruct (after_sets _ _ _ _ _ _ _ _ _ _ ST1 AF) as (ST2 & EC & _).
  assert (C1 : o_class (h_obj h1 o) = ra_class R) by (rewrite (rk_class _ _ _ _ K1); exact CO).
  assert (C2 : o_class (h_obj h2 o) = ra_class R) by (rewrite EC; exact C1).
  pose proof (rk_setting ct oeq R h2 ST2 o C2 LA h' K2) as ST'.
  assert (RF : refs h' o (ra_field R) = kept_by ct oeq R h o v).
  { rewrite (rk_refs_a ct oeq R h2 ST2 o C2 LA h' true o K2 C2).
    pose proof (C34_operations_take_effect ct oeq getter setter pystr n R _ h1 h2 ST1 OS RN) as TE. cbn [takes_effect] in TE. rewrite TE. exact EW. }
  split; [exact SK |]. split; [exact RF |]. split; [exact ST' |]. split.
  - intros a b N CA. assert (CA1 : o_class (h_obj h1 a) = ra_class R) by (rewrite (rk_class _ _ _ _ K1); exact CA).
    assert (CA2 : o_class (h_obj h2 a) = ra_class R) by (rewrite EC; exact CA1).
    pose proof (C34_nothing_else_changes ct oeq getter setter pystr n R _ h1 h2 ST1 OS RN) as LO. cbn [leaves_others] in LO.
    specialize (LO a b N CA1).
    rewrite (rk_refs_a ct oeq R h2 ST2 o C2 LA h' true a K2 CA2), (rk_refs_a ct oeq R h2 ST2 o C2 LA h' true o K2 C2).
    rewrite (rk_refs_a ct oeq R h ST o CO LA h1 true a K1 CA) in LO. exact LO.
  - intros b I NK. pose proof (refs_class ct oeq R h ST o CO b I) as CB.
    assert (CB1 : o_class (h_obj h1 b) = rb_class R) by (rewrite (rk_class _ _ _ _ K1); exact CB).
    assert (I1 : In b (refs h1 o (ra_field R))) by (rewrite (rk_refs_a ct oeq R h ST o CO LA h1 true o K1 CO); exact I).
    destruct (after_known _ _ _ _ _ _ _ _ _ _ o b ST1 AF C1 CB1 I1) as [I2 | [U1 U2]].
    + exfalso. apply NK. rewrite <- RF, (rk_refs_a ct oeq R h2 ST2 o C2 LA h' true o K2 C2). exact I2.
    + unfold unlinked, recorded in *. rewrite !(rk_unl _ _ _ _ K2). split; assumption.
Qed.
Print Assumptions C101_assigning_keys.

(** Over histories of any length that mix operations on the relation, assignments to its
    stored keys on either side and operations elsewhere, the two sides agree throughout. *)
Theorem C101_histories :
  forall ct oeq getter setter pystr fuel R xs h h',
    setting ct oeq R h ->
    lawful (fun x => run ct oeq getter setter pystr fuel (task_of x)) (link_or_key ct oeq R) xs h ->
    history ct oeq getter setter pystr fuel xs h = (Ok tt, h') ->
    setting ct oeq R h' /\
    forall a b, o_class (h_obj h' a) = ra_class R -> o_class (h_obj h' b) = rb_class R ->
      (In b (refs h' a (ra_field R)) <-> In a (refs h' b (rb_field R))) /\
      NoDup (refs h' a (ra_field R)) /\ NoDup (refs h' b (rb_field R)).
Proof.
  intros ct oeq getter setter pystr fuel R xs h h' ST L H.
  assert (ST' : setting ct oeq R h').
  { revert h ST L H. induction xs as [| x xs IH]; intros h ST L H; [injection H as <-; exact ST |].
    destruct L as [L1 L2]. cbn [history for_st] in H. apply ok_bind in H. destruct H as ([] & h1 & H1 & H).
    refine (IH h1 _ (L2 h1 H1) H). destruct L1 as [LO | [KA | KB]].
    - apply (after_sets ct oeq getter setter pystr R fuel [x] h h1 ST). split; [split; [exact LO | intros; exact Logic.I] |].
      cbn [history for_st]. unfold bind, ret. rewrite H1. reflexivity.
    - destruct x as [o n v | |]; try destruct KA. pose proof (conj H0 H2) as KA0. destruct H2 as (LA & E & KV). subst n.
      destruct (C101_assigning_keys ct oeq getter setter pystr fuel R h h1 o v ST (conj H0 (conj LA (conj eq_refl KV))) H1) as [[-> _] | (_ & _ & S & _)]; assumption.
    - destruct x as [o n v | |]; try destruct KB. destruct H2 as (LA & E & KV). subst n.
      rewrite <- (flip_flip R). apply setting_flip.
      destruct (C101_assigning_keys ct oeq getter setter pystr fuel (flip R) h h1 o v (setting_flip _ _ _ _ ST) (conj H0 (conj LA (conj eq_refl KV))) H1) as [[-> _] | (_ & _ & S & _)];
        [apply setting_flip, ST | exact S]. }
  split; [exact ST' |]. intros a b A B. pose proof (st_consistent _ _ _ _ ST') as C.
  split; [apply (co_sym _ _ C a b A B) |]. split; [apply (sf_once _ _ _ (co_a _ _ C) a A) | apply (sf_once _ _ _ (co_b _ _ C) b B)].
Qed.
Print Assumptions C101_histories.

(** A list that is assigned to stored keys is not watched as the one it replaces is: user 0
    has the groups 6 and 7, with the keys 30 and 31.  After [user.group_ids = [30]] the user
    lists group 6 only.  The object is then marked as unmodified.  Appending a key to
    [user.group_ids] now leaves it unmodified, while appending to the list of keys that the
    assignment replaced would have marked it. *)
Definition key_heap : heap := snd (ex_history 20 [HSet 0 "groups" (VList [VObj 6; VObj 7])] (ex_heap false)).
Theorem C101_unwatched_refuted :
  let clean h := snd (mark_unmodified 0 h) in
  let append h := snd (ex_history 20 [HList 0 "group_ids" [] "group_ids" (LAppend (VInt 31%Z))] (clean h)) in
  let '(r, h1) := ex_history 20 [HSet 0 "group_ids" (VList [VInt 30%Z])] key_heap in
  (r = Ok tt /\ refs h1 0 (ra_field r_groups) = [6]) /\
  (attr (append h1) 0 "group_ids" = Some (VList [VInt 30%Z; VInt 31%Z]) /\
   o_modified (h_obj (append h1) 0) = false /\ o_mfields (h_obj (append h1) 0) = []) /\
  (attr (append key_heap) 0 "group_ids" = Some (VList [VInt 30%Z; VInt 31%Z; VInt 31%Z]) /\
   o_modified (h_obj (append key_heap) 0) = true /\ o_mfields (h_obj (append key_heap) 0) = ["groups"%string]).
Proof. vm_compute. repeat split. Qed.
Print Assumptions C101_unwatched_refuted.

(** None is not the same as no keys: [user.group_ids = None] returns normally and empties the
    list of groups, but then [user.groups.append(group)] raises TypeError, with the group
    linked and its key not stored.  After [user.group_ids = []] it succeeds. *)
Theorem C101_none_refuted :
  let add := HList 0 "groups" [] "groups" (LAppend (VObj 6)) in
  let '(r, h) := ex_history 20 [HSet 0 "group_ids" VNone] key_heap in
  let '(r1, h1) := ex_history 20 [add] h in
  let '(r2, h2) := ex_history 20 [HSet 0 "group_ids" (VList []); add] key_heap in
  (r = Ok tt /\ refs h 0 (ra_field r_groups) = [] /\ attr h 0 "group_ids" = Some VNone) /\
  (r1 = Err ETypeError /\ refs h1 0 (ra_field r_groups) = [6] /\ refs h1 6 (rb_field r_groups) = [0] /\
   attr h1 0 "group_ids" = Some VNone) /\
  (r2 = Ok tt /\ refs h2 0 (ra_field r_groups) = [6] /\ attr h2 0 "group_ids" = Some (VList [VInt 30%Z])).
Proof. vm_compute. repeat split. Qed.
Print Assumptions C101_none_refuted.

(** ** The hypotheses can be met *)

(** The keys of the two groups, in another order, with a key of no listed group. *)
Definition ex_ids : list value := [VInt 31%Z; VInt 99%Z; VInt 30%Z].
Example C101_example_list :
  setting ex_ct ex_oeq r_groups key_heap /\
  key_assignment ex_ct ex_oeq r_groups key_heap (HSet 0 "group_ids" (VList ex_ids)) /\
  let '(r, h) := ex_run 20 (TSet 0 "group_ids" (VList ex_ids)) key_heap in
  r = Ok tt /\ refs h 0 (ra_field r_groups) = [7; 6] /\ attr h 0 "group_ids" = Some (VList ex_ids).
Proof.
  split; [| split].
  - apply (after_sets ex_ct ex_oeq ex_getter ex_setter ex_str r_groups 20
             [HSet 0 "groups"%string (VList [VObj 6; VObj 7])] (ex_heap false)).
    + apply ex_setting; [cbn; tauto | left; reflexivity].
    + apply ex_after_intro; [| vm_compute; reflexivity]. apply lawful_cons; [right; left; ex_on [6; 7] | exact I].
  - split; [vm_compute; reflexivity |]. split; [reflexivity |]. split; [reflexivity |]. intros _. exists ex_ids. split; [reflexivity |].
    split; [repeat constructor | nodup].
  - vm_compute. repeat split.
Qed.

(** Posts are linked, one gets another key, and is linked again. *)
Definition ex_keys : list hop :=
  [ HSet 0 "posts" (VList [VObj 2; VObj 3]); HSet 2 "author_id" (VInt 77%Z); HSet 3 "author" (VObj 1);
    HSet 3 "author_id" VNone; HList 1 "posts" [] "posts" (LAppend (VObj 2)) ]%string.
Example C101_example :
  lawful (fun x => ex_run 20 (task_of x)) (link_or_key ex_ct ex_oeq r_posts) ex_keys (ex_heap false) /\
  let '(r, h) := ex_history 20 ex_keys (ex_heap false) in
  r = Ok tt /\ refs h 0 (ra_field r_posts) = [] /\ refs h 1 (ra_field r_posts) = [2] /\
  attr h 2 "author_id" = Some (VInt 2%Z) /\ attr h 3 "author" = Some VNone /\
  unlinked h 3 (rb_field r_posts) = [0; 1].
Proof.
  split; [| vm_compute; repeat split].
  assert (K : forall h o v, o_class (h_obj h o) = "Post"%string -> key_assignment ex_ct ex_oeq (flip r_posts) h (HSet o "author_id" v)).
  { intros h o v C. split; [exact C |]. split; [reflexivity |]. split; [reflexivity |]. intros L. discriminate L. }
  unfold ex_keys.
  apply lawful_cons; [left; right; left; ex_on [2; 3] |].
  apply lawful_cons; [right; right; apply K; vm_compute; reflexivity |].
  apply lawful_cons; [left; right; right; ex_on [1] |].
  apply lawful_cons; [right; right; apply K; vm_compute; reflexivity |].
  apply lawful_cons; [left; right; left; ex_on [2] | exact I].
Qed.
