(** LinkRun.v -- what linking and unlinking do in the heap model, followed on the
    abstract state of one relation (LinkAbs.v). *)
From Verif Require Import Base Mon PyList PyDict OListModel ODictModel KeypathModel
  Values OGraphModel TypesModel ObjModel ObjSpec ObjTrack OListSpec OListProofs LinkAbs LinkOps.
From Coq Require Import Lia Permutation.
Open Scope nat_scope.

(** ** Values *)
Lemma map_obj_inj (l l' : list nat) : map VObj l = map VObj l' -> l = l'.
Proof. revert l'. induction l as [| x l IH]; intros [| y l'] H; try discriminate H; [reflexivity |]. injection H as -> H. f_equal. apply IH, H. Qed.

Section Run.
  Context (ct : string -> option cdef)
          (oeq : heap -> Values.oid -> Values.oid -> bool)
          (getter : heap -> Values.oid -> string -> res value)
          (setter : Values.oid -> string -> value -> st heap unit)
          (pystr : value -> string).
  Hypothesis wf : wf_classes ct.
  Hypothesis pk_plain : forall c d f, ct c = Some d -> primary_field d = Some f -> is_ref (fl_fdef f) = false.

  Context (cl : bool -> string) (fd : bool -> field) (lst : bool -> bool).
  Hypothesis r_in : forall s, exists d, ct (cl s) = Some d /\ In (fd s) (cd_fields d).
  Hypothesis r_ref : forall s, is_ref (fl_fdef (fd s)) = true.
  Hypothesis r_type : forall s, f_ftype (fl_fdef (fd s)) = Some (if lst s then FTList else FTInstance).
  Hypothesis r_other : forall s, foreign_field ct (cl s) (fd s) = Some (fd (negb s)).
  Hypothesis r_distinct : cl true = cl false -> fl_name (fd true) <> fl_name (fd false).

  (** Whether the stored keys are followed exactly, or only known to be lists *)
  Context (strict : bool).

  Context (h0 : heap).
  Hypothesis typed0 : typed_heap ct h0.
  (** As long as classes and primary keys stay, an object of the relation equals itself
      only. *)
  Definition robj (a : nat) : Prop := exists s, o_class (h_obj h0 a) = cl s.
  Definition same (h : heap) : Prop :=
    (forall z, o_class (h_obj h z) = o_class (h_obj h0 z)) /\ (forall z, id_of ct h z = id_of ct h0 z).
  Hypothesis ident : forall h a b, same h -> robj a \/ robj b -> oeq h a b = Nat.eqb a b.
  Hypothesis keyed : forall s, is_local (fd s) = true -> lst s = true ->
    forall h a b, o_class (h_obj h0 a) = cl (negb s) -> o_class (h_obj h0 b) = cl (negb s) ->
      eqv oeq h (id_of ct h0 a) (id_of ct h0 b) = Nat.eqb a b.

  Notation ofield := (ofield ct).
  Notation run := (run ct oeq getter setter pystr).
  Notation nm s := (fl_name (fd s)).
  Notation rf s := (fl_ref (fd s)).
  Notation cls x := (o_class (h_obj h0 x)).

  (** ** Values *)
  Lemma eqv_obj h a b : same h -> robj a \/ robj b -> eqv oeq h (VObj a) (VObj b) = Nat.eqb a b.
  Proof. intros SM RO. unfold eqv. cbn [veq]. apply ident; assumption. Qed.
  Lemma contains_obj h x l : same h -> robj x -> list_contains (oeq h) (VObj x) (map VObj l) = inb x l.
  Proof.
    intros SM RO. unfold list_contains, inb. induction l as [| y l IH]; [reflexivity |]. cbn [map existsb].
    rewrite IH. cbn [veq]. rewrite ident by auto. reflexivity.
  Qed.
  Lemma remove_obj h x l : same h -> robj x -> In x l -> py_remove (eqv oeq h) (VObj x) (map VObj l) = Ok (map VObj (rm1 x l)).
  Proof.
    intros SM RO. induction l as [| y l IH]; intros H; [destruct H |]. cbn [map py_remove rm1].
    rewrite eqv_obj by auto. destruct (Nat.eqb_spec y x) as [-> | N]; [reflexivity |].
    destruct H as [-> | H]; [congruence |]. rewrite (IH H). reflexivity.
  Qed.
  Lemma remove_obj_absent h x l : same h -> robj x -> ~ In x l -> py_remove (eqv oeq h) (VObj x) (map VObj l) = Err EValueError.
  Proof.
    intros SM RO. induction l as [| y l IH]; intros H; [reflexivity |]. cbn [map py_remove].
    rewrite eqv_obj by auto. destruct (Nat.eqb_spec y x) as [-> | N]; [destruct H; left; reflexivity |].
    rewrite IH; [reflexivity | intros K; apply H; right; exact K].
  Qed.
  Lemma remove_first_obj h x l : same h -> robj x -> remove_first (eqv oeq h) (VObj x) (map VObj l) = map VObj (rm1 x l).
  Proof.
    intros SM RO. unfold remove_first. destruct (in_dec Nat.eq_dec x l) as [H | H].
    - rewrite remove_obj by assumption. reflexivity.
    - rewrite remove_obj_absent by assumption. rewrite rm1_absent by exact H. reflexivity.
  Qed.
  Lemma eqv_list h l l' : same h -> (forall x, In x l -> robj x) ->
    eqv oeq h (VList (map VObj l)) (VList (map VObj l')) = true -> l = l'.
  Proof.
    intros SM. unfold eqv. cbn [veq]. revert l'. induction l as [| x l IH]; intros [| y l'] RO H; try discriminate H; [reflexivity |].
    cbn [map] in H. apply andb_true_iff in H. destruct H as [H1 H2]. cbn [veq] in H1.
    rewrite ident in H1 by (auto; left; apply RO; left; reflexivity).
    apply Nat.eqb_eq in H1. subst. f_equal. apply IH; [intros z Hz; apply RO; right; exact Hz | exact H2].
  Qed.

  (** ** The state of the relation in a heap *)
  Definition shows (s : bool) (v : option value) (l : list nat) : Prop :=
    (v = Some VNone /\ l = []) \/
    (if lst s then v = Some (VList (map VObj l)) else exists b, v = Some (VObj b) /\ l = [b]).

  Definition pool_of (h : heap) (o : nat) (n : string) : list value :=
    match sget n (o_unlinked (h_obj h o)) with Some l => l | None => [] end.

  Record rel_state (h : heap) (r : rst) : Prop := {
    rs_class : forall x, o_class (h_obj h x) = cls x;
    rs_lkeys : forall x, o_lkeys (h_obj h x) = o_lkeys (h_obj h0 x);
    rs_raw : forall x k, In k (o_raw (h_obj h x)) -> ofield h0 x k = None;
    rs_ids : forall z, id_of ct h z = id_of ct h0 z;
    rs_link : forall s o, cls o = cl s -> shows s (attr h o (nm s)) (lk r s o);
    rs_out : forall s o, cls o <> cl s -> lk r s o = [];
    rs_pool : forall s o, cls o = cl s -> pool_of h o (nm s) = map VObj (pl r s o);
    rs_items : forall s o x, In x (lk r s o) -> cls x = cl (negb s);
    rs_tidy : tidy lst r
  }.

  (** The stored key or keys *)
  Definition kat (h : heap) (s : bool) (o : nat) : option value := attr h o (rf s).
  Definition keyval (s : bool) (l : list nat) : value :=
    if lst s then VList (map (id_of ct h0) l)
    else match l with [] => VNone | x :: _ => id_of ct h0 x end.
  Definition kept_key (s : bool) (o : nat) : Prop := is_local (fd s) = true /\ cls o = cl s.
  Definition kok (h : heap) (s : bool) (o : nat) (l : list nat) : Prop :=
    kept_key s o -> exists k, kat h s o = Some k /\ (lst s = true -> exists ks, k = VList ks) /\
                              (strict = true -> k = keyval s l).
  (** Stored keys that stay as they are *)
  Definition kframe (P : bool -> nat -> Prop) (h h' : heap) : Prop :=
    forall s o, kept_key s o -> ~ P s o -> kat h' s o = kat h s o.

  (** References that stay as they are *)
  Definition aframe (P : bool -> nat -> Prop) (h h' : heap) : Prop :=
    forall s o, cls o = cl s -> ~ P s o -> attr h' o (nm s) = attr h o (nm s).
  Definition nowhere (_ : bool) (_ : nat) : Prop := False.
  Definition here (s : bool) (o : nat) (s' : bool) (o' : nat) : Prop := s' = s /\ o' = o.

  (** ** Names *)
  Lemma in_class s o : cls o = cl s -> ofield h0 o (nm s) = Some (fd s).
  Proof.
    intros H. destruct (r_in s) as (d & Hd & Hin). unfold ObjModel.ofield, cdef_of. rewrite H, Hd.
    apply field_named_of; [apply (wf_names _ _ _ (wf _ _ Hd)) | exact Hin].
  Qed.
  Lemma names_differ s : cl s = cl (negb s) -> nm s <> nm (negb s).
  Proof. destruct s; cbn; intros H; [apply r_distinct, H | intros K; apply r_distinct; [symmetry; exact H | symmetry; exact K]]. Qed.
  Lemma ref_not_name s s' o : kept_key s o -> cls o = cl s' -> rf s <> nm s'.
  Proof.
    intros [L C] C'. destruct (r_in s) as (d & Hd & Hin). destruct (r_in s') as (d' & Hd' & Hin').
    assert (d' = d) by congruence. subst d'.
    apply (wf_refname _ _ _ (wf _ _ Hd) (fd s) (fd s')); assumption.
  Qed.
  Lemma refs_differ s o : kept_key s o -> kept_key (negb s) o -> rf s <> rf (negb s).
  Proof.
    intros [L C] [L' C'] E.
    pose proof (th_local _ _ typed0 o (nm s) (fd s) (in_class s o C) L) as A.
    pose proof (th_local _ _ typed0 o _ _ (in_class (negb s) o C') L') as B.
    rewrite <- E, A in B. injection B as B. apply (names_differ s); [congruence | exact B].
  Qed.
  Lemma pk_not_name s o f : cls o = cl s -> primary_field (cdef_of ct h0 o) = Some f -> fl_name f <> nm s.
  Proof.
    intros C P E. destruct (r_in s) as (d & Hd & Hin).
    assert (Dd : cdef_of ct h0 o = d) by (unfold cdef_of; rewrite C, Hd; reflexivity). rewrite Dd in P.
    assert (Hf : In f (cd_fields d)).
    { unfold primary_field in P. apply find_some in P. apply in_rev, (proj1 P). }
    pose proof (field_named_of d f (wf_names _ _ _ (wf _ _ Hd)) Hf) as A.
    pose proof (field_named_of d (fd s) (wf_names _ _ _ (wf _ _ Hd)) Hin) as B.
    rewrite E, B in A. injection A as A. subst f. pose proof (pk_plain _ _ _ Hd P) as K. rewrite r_ref in K. discriminate K.
  Qed.
  Lemma pk_not_ref s o f : kept_key s o -> primary_field (cdef_of ct h0 o) = Some f -> fl_name f <> rf s.
  Proof.
    intros [L C] P E. destruct (r_in s) as (d & Hd & Hin).
    assert (Dd : cdef_of ct h0 o = d) by (unfold cdef_of; rewrite C, Hd; reflexivity). rewrite Dd in P.
    assert (Hf : In f (cd_fields d)).
    { unfold primary_field in P. apply find_some in P. apply in_rev, (proj1 P). }
    apply (wf_refname _ _ _ (wf _ _ Hd) (fd s) f Hin Hf L). symmetry. exact E.
  Qed.

  Lemma rs_cdef h r o : rel_state h r -> cdef_of ct h o = cdef_of ct h0 o.
  Proof. intros R. unfold cdef_of. rewrite (rs_class _ _ R). reflexivity. Qed.
  Lemma rs_same h r : rel_state h r -> same h.
  Proof. intros R. split; [apply (rs_class _ _ R) | apply (rs_ids _ _ R)]. Qed.
  Lemma in_robj s a : cls a = cl s -> robj a.
  Proof. intros C. exists s. exact C. Qed.
  Lemma rs_ofield h r o n : rel_state h r -> ofield h o n = ofield h0 o n.
  Proof. intros R. apply ofield_class. apply (rs_class _ _ R). Qed.
  Lemma rs_req h r r' : req r r' -> rel_state h r -> rel_state h r'.
  Proof.
    intros E [A B C D F G H I T].
    assert (EL : forall s o, lk r s o = lk r' s o) by (intros; apply E).
    assert (EP : forall s o, pl r s o = pl r' s o) by (intros; apply E).
    constructor; [exact A | exact B | exact C | exact D | | | | |].
    - intros s o K. rewrite <- EL. apply F, K.
    - intros s o K. rewrite <- EL. apply G, K.
    - intros s o K. rewrite <- EP. apply H, K.
    - intros s o x. rewrite <- EL. apply I.
    - constructor; intros s' o'; rewrite <- ?EL, <- ?EP; apply T.
  Qed.

  (** ** Changes that leave the relation alone *)
  Definition quiet (h h' : heap) : Prop := forall x,
    o_class (h_obj h' x) = o_class (h_obj h x) /\ o_attr (h_obj h' x) = o_attr (h_obj h x) /\
    o_lkeys (h_obj h' x) = o_lkeys (h_obj h x) /\ o_raw (h_obj h' x) = o_raw (h_obj h x) /\
    o_unlinked (h_obj h' x) = o_unlinked (h_obj h x).
  Lemma quiet_refl h : quiet h h.
  Proof. intros x. repeat split. Qed.
  Lemma quiet_trans h1 h2 h3 : quiet h1 h2 -> quiet h2 h3 -> quiet h1 h3.
  Proof.
    intros A B x. destruct (A x) as (A1 & A2 & A3 & A4 & A5), (B x) as (B1 & B2 & B3 & B4 & B5).
    repeat split; etransitivity; eassumption.
  Qed.
  Lemma quiet_attr h h' o n : quiet h h' -> attr h' o n = attr h o n.
  Proof. intros Q. unfold attr. destruct (Q o) as (_ & -> & _). reflexivity. Qed.
  Lemma quiet_kframe P h h' : quiet h h' -> kframe P h h'.
  Proof. intros Q s o _ _. unfold kat. apply quiet_attr, Q. Qed.
  Lemma quiet_aframe P h h' : quiet h h' -> aframe P h h'.
  Proof. intros Q s o _ _. apply quiet_attr, Q. Qed.
  Lemma quiet_state h h' r : quiet h h' -> rel_state h r -> rel_state h' r.
  Proof.
    intros Q [A B C D F G H I T]. constructor; auto.
    - intros x. destruct (Q x) as (-> & _). apply A.
    - intros x. destruct (Q x) as (_ & _ & -> & _). apply B.
    - intros x k. destruct (Q x) as (_ & _ & _ & -> & _). apply C.
    - intros z. rewrite <- D. unfold id_of, cdef_of, attr. destruct (Q z) as (-> & -> & _). reflexivity.
    - intros s o Ho. rewrite (quiet_attr _ _ _ _ Q). apply F, Ho.
    - intros s o Ho. unfold pool_of. destruct (Q o) as (_ & _ & _ & _ & ->). apply H, Ho.
  Qed.
  Lemma quiet_upd h o g :
    (forall b, o_class (g b) = o_class b /\ o_attr (g b) = o_attr b /\ o_lkeys (g b) = o_lkeys b /\
               o_raw (g b) = o_raw b /\ o_unlinked (g b) = o_unlinked b) -> quiet h (upd o g h).
  Proof.
    intros G x. unfold upd. cbn [h_obj]. destruct (Nat.eqb_spec x o) as [-> | N]; [apply G | repeat split].
  Qed.
  Lemma mark_quiet h o k : quiet h (snd (mark o k h)).
  Proof. unfold mark, updm, modify. cbn [snd]. apply quiet_upd. intros b. destruct (o_new b); repeat split. Qed.
  Lemma mark_local_quiet h o k : quiet h (snd (mark_local o k h)).
  Proof. unfold mark_local, updm, modify. cbn [snd]. apply quiet_upd. intros b. destruct (_ && _); repeat split. Qed.
  Lemma remember_quiet h o n v : quiet h (snd (remember o n v h)).
  Proof. unfold remember, updm, modify. cbn [snd]. apply quiet_upd. intros b. destruct (smem _ _); repeat split. Qed.
  Lemma graph_quiet h g : quiet h (with_graph g h).
  Proof. intros x. repeat split. Qed.

  (** ** One attribute changes *)
  Lemma set_link_state h r s o v l :
    rel_state h r -> cls o = cl s -> shows s (Some v) l -> (forall x, In x l -> cls x = cl (negb s)) ->
    NoDup l ->
    rel_state (upd o (set_attr (nm s) v) h) (stk s o l r) /\
    kframe nowhere h (upd o (set_attr (nm s) v) h) /\ aframe (here s o) h (upd o (set_attr (nm s) v) h).
  Proof.
    intros R Ho Hv Hl Hn. pose proof R as [A B C D F G H I T].
    set (h' := upd o (set_attr (nm s) v) h).
    assert (AT : forall x n, attr h' x n = if Nat.eqb x o && String.eqb n (nm s) then Some v else attr h x n).
    { intros x n. unfold attr, h', upd. cbn [h_obj]. destruct (Nat.eqb_spec x o) as [-> | N]; reflexivity. }
    assert (OB : forall x, o_class (h_obj h' x) = o_class (h_obj h x) /\ o_lkeys (h_obj h' x) = o_lkeys (h_obj h x) /\
                 o_raw (h_obj h' x) = o_raw (h_obj h x) /\ o_unlinked (h_obj h' x) = o_unlinked (h_obj h x)).
    { intros x. unfold h', upd. cbn [h_obj]. destruct (Nat.eqb_spec x o) as [-> | N]; repeat split. }
    clearbody h'. split; [| split].
    - constructor.
      + intros x. destruct (OB x) as (-> & _). apply A.
      + intros x. destruct (OB x) as (_ & -> & _). apply B.
      + intros x k. destruct (OB x) as (_ & _ & -> & _). apply C.
      + intros z. rewrite <- D. unfold id_of. unfold cdef_of. destruct (OB z) as (-> & _). rewrite A.
        fold (cdef_of ct h0 z). destruct (primary_field (cdef_of ct h0 z)) as [f |] eqn:P; [| reflexivity].
        rewrite AT. destruct (Nat.eqb_spec z o) as [-> | N]; [| reflexivity]. cbn [andb].
        destruct (String.eqb_spec (fl_name f) (nm s)) as [E | E]; [| reflexivity].
        destruct (pk_not_name s o f Ho P E).
      + intros s' o' Ho'. rewrite AT. unfold stk. cbn [lk]. unfold put.
        destruct (Nat.eqb_spec o' o) as [-> | N]; [| rewrite andb_false_r; apply F, Ho'].
        rewrite andb_true_r. cbn [andb]. destruct (Bool.bool_dec s' s) as [-> | Ns].
        * rewrite eqb_reflx, String.eqb_refl. exact Hv.
        * rewrite (proj2 (Bool.eqb_false_iff s' s) Ns). apply other_side in Ns. subst s'.
          destruct (String.eqb_spec (nm (negb s)) (nm s)) as [E | E]; [| apply F, Ho'].
          destruct (names_differ s); [congruence | symmetry; exact E].
      + intros s' o' Ho'. unfold stk. cbn [lk]. unfold put.
        destruct (Bool.eqb s' s && Nat.eqb o' o) eqn:E; [| apply G, Ho'].
        apply andb_true_iff in E. destruct E as [E1 E2]. apply eqb_prop in E1. apply Nat.eqb_eq in E2. subst. congruence.
      + intros s' o' Ho'. unfold pool_of. destruct (OB o') as (_ & _ & _ & ->). apply H, Ho'.
      + intros s' o' x. unfold stk. cbn [lk]. unfold put.
        destruct (Bool.eqb s' s && Nat.eqb o' o) eqn:E; [| apply I].
        apply andb_true_iff in E. destruct E as [E1 _]. apply eqb_prop in E1. subst. apply Hl.
      + destruct T as [TL TP TI]. constructor; [| exact TP |]; intros s' y; unfold stk; cbn [lk]; unfold put.
        * destruct (_ && _); [exact Hn | apply TL].
        * destruct (Bool.eqb s' s && Nat.eqb y o) eqn:E; [| auto].
          apply andb_true_iff in E. destruct E as [E _]. apply eqb_prop in E. subst. intros Hs.
          unfold shows in Hv. rewrite Hs in Hv. destruct Hv as [[_ ->] | (b & _ & ->)]; cbn; lia.
    - intros s' o' K _. unfold kat. rewrite AT.
      destruct (Nat.eqb_spec o' o) as [-> | N]; [| reflexivity]. cbn [andb].
      destruct (String.eqb_spec (rf s') (nm s)) as [E | E]; [| reflexivity].
      destruct (ref_not_name s' s o K Ho E).
    - intros s' o' K N. rewrite AT. destruct (Nat.eqb_spec o' o) as [-> | No]; [| reflexivity]. cbn [andb].
      destruct (String.eqb_spec (nm s') (nm s)) as [E | E]; [| reflexivity]. exfalso.
      destruct (Bool.bool_dec s' s) as [-> | Ns]; [apply N; split; reflexivity |]. apply other_side in Ns. subst s'.
      apply (names_differ s); [congruence | symmetry; exact E].
  Qed.

  Lemma set_key_state h r s o v :
    rel_state h r -> kept_key s o ->
    rel_state (upd o (set_attr (rf s) v) h) r /\
    kat (upd o (set_attr (rf s) v) h) s o = Some v /\
    kframe (here s o) h (upd o (set_attr (rf s) v) h) /\ aframe nowhere h (upd o (set_attr (rf s) v) h).
  Proof.
    intros R Ho. pose proof R as [A B C D F G H I T].
    set (h' := upd o (set_attr (rf s) v) h).
    assert (AT : forall x n, attr h' x n = if Nat.eqb x o && String.eqb n (rf s) then Some v else attr h x n).
    { intros x n. unfold attr, h', upd. cbn [h_obj]. destruct (Nat.eqb_spec x o) as [-> | N]; reflexivity. }
    assert (OB : forall x, o_class (h_obj h' x) = o_class (h_obj h x) /\ o_lkeys (h_obj h' x) = o_lkeys (h_obj h x) /\
                 o_raw (h_obj h' x) = o_raw (h_obj h x) /\ o_unlinked (h_obj h' x) = o_unlinked (h_obj h x)).
    { intros x. unfold h', upd. cbn [h_obj]. destruct (Nat.eqb_spec x o) as [-> | N]; repeat split. }
    clearbody h'. split; [| split; [| split]].
    - constructor; auto.
      + intros x. destruct (OB x) as (-> & _). apply A.
      + intros x. destruct (OB x) as (_ & -> & _). apply B.
      + intros x k. destruct (OB x) as (_ & _ & -> & _). apply C.
      + intros z. rewrite <- D. unfold id_of. unfold cdef_of. destruct (OB z) as (-> & _). rewrite A.
        fold (cdef_of ct h0 z). destruct (primary_field (cdef_of ct h0 z)) as [f |] eqn:P; [| reflexivity].
        rewrite AT. destruct (Nat.eqb_spec z o) as [-> | N]; [| reflexivity]. cbn [andb].
        destruct (String.eqb_spec (fl_name f) (rf s)) as [E | E]; [| reflexivity].
        destruct (pk_not_ref s o f Ho P E).
      + intros s' o' Ho'. rewrite AT.
        destruct (Nat.eqb_spec o' o) as [-> | N]; [| apply F, Ho']. cbn [andb].
        destruct (String.eqb_spec (nm s') (rf s)) as [E | E]; [| apply F, Ho'].
        destruct (ref_not_name s s' o Ho Ho'). symmetry. exact E.
      + intros s' o' Ho'. unfold pool_of. destruct (OB o') as (_ & _ & _ & ->). apply H, Ho'.
    - unfold kat. rewrite AT, Nat.eqb_refl, String.eqb_refl. reflexivity.
    - intros s' o' K N. unfold kat. rewrite AT.
      destruct (Nat.eqb_spec o' o) as [-> | No]; [| reflexivity]. cbn [andb].
      destruct (String.eqb_spec (rf s') (rf s)) as [E | E]; [| reflexivity].
      exfalso. assert (NS : s' <> s) by (intros ->; apply N; split; reflexivity). apply other_side in NS. subst s'.
      apply (refs_differ s o Ho K). symmetry. exact E.
    - intros s' o' K _. rewrite AT. destruct (Nat.eqb_spec o' o) as [-> | No]; [| reflexivity]. cbn [andb].
      destruct (String.eqb_spec (nm s') (rf s)) as [E | E]; [| reflexivity].
      destruct (ref_not_name s s' o Ho K). symmetry. exact E.
  Qed.

  (** ** The pools *)
  Lemma set_pool_state h r s o (g : list value -> list value) l :
    rel_state h r -> cls o = cl s -> g (pool_of h o (nm s)) = map VObj l -> NoDup l ->
    let h' := upd o (fun b => set_unlinked (sset (nm s) (g (match sget (nm s) (o_unlinked b) with Some l => l | None => [] end))
                                       (o_unlinked b)) b) h in
    rel_state h' (stp s o l r) /\ kframe nowhere h h' /\ aframe nowhere h h'.
  Proof.
    intros R Ho Hg Hn h'. pose proof R as [A B C D F G H I T].
    assert (OB : forall x, o_class (h_obj h' x) = o_class (h_obj h x) /\ o_lkeys (h_obj h' x) = o_lkeys (h_obj h x) /\
                 o_raw (h_obj h' x) = o_raw (h_obj h x) /\ o_attr (h_obj h' x) = o_attr (h_obj h x)).
    { intros x. unfold h', upd. cbn [h_obj]. destruct (Nat.eqb_spec x o) as [-> | N]; repeat split. }
    assert (AT : forall x n, attr h' x n = attr h x n).
    { intros x n. unfold attr. destruct (OB x) as (_ & _ & _ & ->). reflexivity. }
    assert (PO : forall x n, pool_of h' x n = if Nat.eqb x o && String.eqb n (nm s) then map VObj l else pool_of h x n).
    { intros x n. unfold pool_of at 1, h', upd. cbn [h_obj]. destruct (Nat.eqb_spec x o) as [-> | N]; [| reflexivity].
      cbn [set_unlinked o_unlinked andb]. unfold pool_of in Hg. rewrite Hg. unfold sget, sset.
      destruct (String.eqb_spec n (nm s)) as [-> | N].
      - assert (K : dget String.eqb (nm s) (dset String.eqb (nm s) (map VObj l) (o_unlinked (h_obj h o))) = Some (map VObj l)).
        { generalize (o_unlinked (h_obj h o)). clear. intros d. induction d as [| [k w] d IH]; cbn; [rewrite String.eqb_refl; reflexivity |].
          destruct (String.eqb (nm s) k) eqn:E; cbn; rewrite E; [reflexivity | exact IH]. }
        rewrite K. reflexivity.
      - assert (K : dget String.eqb n (dset String.eqb (nm s) (map VObj l) (o_unlinked (h_obj h o))) = dget String.eqb n (o_unlinked (h_obj h o))).
        { generalize (o_unlinked (h_obj h o)). clear -N. intros d. induction d as [| [k w] d IH]; cbn.
          - destruct (String.eqb_spec n (nm s)); [contradiction | reflexivity].
          - destruct (String.eqb_spec (nm s) k) as [<- | E]; cbn.
            + destruct (String.eqb_spec n (nm s)); [contradiction | reflexivity].
            + destruct (String.eqb n k); [reflexivity | exact IH]. }
        rewrite K. reflexivity. }
    clearbody h'. split; [| split].
    - constructor; auto.
      + intros x. destruct (OB x) as (-> & _). apply A.
      + intros x. destruct (OB x) as (_ & -> & _). apply B.
      + intros x k. destruct (OB x) as (_ & _ & -> & _). apply C.
      + intros z. rewrite <- D. unfold id_of, cdef_of. destruct (OB z) as (-> & _).
        destruct (primary_field _); [rewrite AT |]; reflexivity.
      + intros s' o' Ho'. rewrite AT. apply F, Ho'.
      + intros s' o' Ho'. rewrite PO. unfold stp. cbn [pl]. unfold put.
        destruct (Nat.eqb_spec o' o) as [-> | N]; [| rewrite andb_false_r; apply H, Ho'].
        rewrite andb_true_r. cbn [andb]. destruct (Bool.bool_dec s' s) as [-> | Ns].
        * rewrite eqb_reflx, String.eqb_refl. reflexivity.
        * rewrite (proj2 (Bool.eqb_false_iff s' s) Ns). apply other_side in Ns. subst s'.
          destruct (String.eqb_spec (nm (negb s)) (nm s)) as [E | E]; [| apply H, Ho'].
          destruct (names_differ s); [congruence | symmetry; exact E].
      + destruct T as [TL TP TI]. constructor; [exact TL | | exact TI]. intros s' y. unfold stp. cbn [pl]. unfold put.
        destruct (_ && _); [exact Hn | apply TP].
    - intros s' o' _ _. unfold kat. apply AT.
    - intros s' o' _ _. apply AT.
  Qed.

  Lemma add_unlinked_state h r s o x :
    rel_state h r -> cls o = cl s -> robj x ->
    exists h', add_unlinked oeq o (nm s) (VObj x) h = (Ok tt, h') /\ rel_state h' (addp s o x r) /\ kframe nowhere h h' /\ aframe nowhere h h'.
  Proof.
    intros R Ho RX. pose proof (rs_same _ _ R) as SM. eexists. split; [reflexivity |].
    apply (set_pool_state h r s o (fun l => if list_contains (oeq h) (VObj x) l then l else l ++ [VObj x])); auto.
    - rewrite (rs_pool _ _ R s o Ho), contains_obj by assumption. unfold addl. destruct (inb x _); [reflexivity |].
      rewrite map_app. reflexivity.
    - apply addl_nodup. apply (rs_tidy _ _ R).
  Qed.
  Lemma del_unlinked_state h r s o x :
    rel_state h r -> cls o = cl s -> robj x ->
    exists h', del_unlinked oeq o (nm s) (VObj x) h = (Ok tt, h') /\ rel_state h' (delp s o x r) /\ kframe nowhere h h' /\ aframe nowhere h h'.
  Proof.
    intros R Ho RX. pose proof (rs_same _ _ R) as SM. eexists. split; [reflexivity |].
    apply (set_pool_state h r s o (remove_first (eqv oeq h) (VObj x))); auto.
    - rewrite (rs_pool _ _ R s o Ho). apply remove_first_obj; assumption.
    - apply rm1_nodup. apply (rs_tidy _ _ R).
  Qed.

  (** ** Inversion of runs that return *)
  Lemma ok_bind {A B} (m : st heap A) (k : A -> st heap B) h b h' :
    bind m k h = (Ok b, h') -> exists a h1, m h = (Ok a, h1) /\ k a h1 = (Ok b, h').
  Proof. unfold bind. destruct (m h) as [[a | e] h1]; intros H; [exists a, h1; split; [reflexivity | exact H] | discriminate H]. Qed.

  Lemma no_key s o : cls o = cl s -> sget (nm s) (o_lkeys (h_obj h0 o)) = None.
  Proof.
    intros C. destruct (sget (nm s) (o_lkeys (h_obj h0 o))) as [m |] eqn:E; [| reflexivity].
    destruct (th_keys _ _ typed0 _ _ _ E) as (f & Hf & L & Hr).
    pose proof (ofield_ref ct wf _ _ _ _ Hf L) as K. rewrite Hr in K. rewrite (in_class s o C) in K. discriminate K.
  Qed.
  Lemma key_of s o : kept_key s o -> sget (rf s) (o_lkeys (h_obj h0 o)) = Some (nm s).
  Proof. intros [L C]. apply (th_local _ _ typed0); [apply in_class, C | exact L]. Qed.
  Lemma not_calc s : is_calc (fd s) = false.
  Proof. apply ref_not_calc, r_ref. Qed.
  Lemma get_link h r s o : rel_state h r -> cls o = cl s ->
    getattr ct getter o (nm s) h = (match attr h o (nm s) with Some v => Ok v | None => Err EAttributeError end, h).
  Proof.
    intros R C. unfold getattr. rewrite (rs_ofield _ _ _ _ R), (in_class s o C), not_calc. reflexivity.
  Qed.
  Lemma name_dot s o : cls o = cl s -> initial_keypath (nm s) = nm s.
  Proof. intros C. destruct (r_in s) as (d & Hd & Hin). apply (wf_nodot _ _ _ (wf _ _ Hd) _ Hin). Qed.
  Lemma ref_dot s : initial_keypath (rf s) = rf s.
  Proof. destruct (r_in s) as (d & Hd & Hin). apply (wf_refdot _ _ _ (wf _ _ Hd) _ Hin). Qed.
  Lemma rf_nofield s o : kept_key s o -> ofield h0 o (rf s) = None.
  Proof. intros [L C]. apply (ofield_ref ct wf _ _ _ _ (in_class s o C) L). Qed.

  Lemma olist_will_quiet o lab h h1 : olist_will ct getter o lab h = (Ok tt, h1) -> quiet h h1.
  Proof.
    unfold olist_will, gets, bind at 1. destruct (ofield h o (initial_keypath lab)) as [f |].
    - unfold record_previous, gets. intros H. apply ok_bind in H. destruct H as (a & h2 & E & H).
      injection E as E1 E2; subst h2; clear E1. destruct a; [| injection H as H; subst; apply quiet_refl].
      destruct (has_linked _ _); [injection H as H; subst; apply quiet_refl |].
      apply ok_bind in H. destruct H as (a & h2 & E & H). injection E as E1 E2; subst h2; clear E1.
      destruct a; [injection H as H; subst; apply quiet_refl |].
      assert (K : forall ft, (ft = FTDict \/ ft = FTList) ->
                bind (getattr ct getter o (fl_name f)) (fun v => bind (lift (copy_for f v)) (fun c =>
                  match c with Some c => remember o (fl_name f) c | None => ret tt end)) h = (Ok tt, h1) -> quiet h h1).
      { intros ft _ K. apply ok_bind in K. destruct K as (v & h2 & E & K).
        pose proof (getattr_pure ct getter o (fl_name f) h) as P. rewrite E in P. cbn [snd] in P. subst h2.
        apply ok_bind in K. destruct K as (c & h2 & E2 & K). unfold lift in E2. injection E2 as E2 E3; subst h2.
        destruct c as [c |]; [| injection K as K; subst; apply quiet_refl].
        pose proof (remember_quiet h o (fl_name f) c) as Q. rewrite K in Q. exact Q. }
      destruct (f_ftype (fl_fdef f)) as [[] |]; try (injection H as H; subst; apply quiet_refl); apply (K FTList); auto.
    - intros H. injection H as H. subst. apply quiet_refl.
  Qed.

  Lemma attr_at_nil h o a : attr_at h o a [] = attr h o a.
  Proof. unfold attr_at. destruct (attr h o a); reflexivity. Qed.
  Lemma put_at_nil h o a c v : attr h o a = Some v -> put_at o a [] c h = upd o (set_attr a c) h.
  Proof. intros E. unfold put_at. rewrite E. reflexivity. Qed.

  (** *** A list method on a list of the relation *)
  Lemma op_run n h r s o l op h' :
    rel_state h r -> cls o = cl s -> attr h o (nm s) = Some (VList (map VObj l)) ->
    run (S n) (TOp o (nm s) [] (nm s) op) h = (Ok tt, h') ->
    exists x l' es h1, owned_step (eqv oeq h) op (map VObj l) = (Ok x, l', es) /\ quiet h h1 /\
      for_st es (list_event ct oeq getter (run n) o (nm s) [] (nm s)) (upd o (set_attr (nm s) (VList l')) h1) = (Ok tt, h').
  Proof.
    intros R C E H. cbn [ObjModel.run body] in H. unfold do_list in H. rewrite attr_at_nil, E in H.
    assert (NR : sinb (nm s) (o_raw (h_obj h o)) = false).
    { destruct (sinb (nm s) (o_raw (h_obj h o))) eqn:K; [| reflexivity]. apply sinb_In in K.
      apply (rs_raw _ _ R) in K. rewrite (in_class s o C) in K. discriminate K. }
    rewrite NR in H. destruct (owned_step (eqv oeq h) op (map VObj l)) as [[x l'] es] eqn:OS.
    apply ok_bind in H. destruct H as ([] & h1 & H1 & H).
    assert (Q : quiet h h1).
    { destruct (existsb is_will es); [apply (olist_will_quiet _ _ _ _ H1) | injection H1 as H1; subst; apply quiet_refl]. }
    apply ok_bind in H. destruct H as ([] & h2 & H2 & H). unfold modify in H2. injection H2 as H2.
    rewrite (put_at_nil h1 o (nm s) (VList l') (VList (map VObj l))) in H2 by (rewrite (quiet_attr _ _ _ _ Q); exact E).
    destruct x as [x | e]; [| discriminate H]. exists x, l', es, h1. split; [reflexivity | split; [exact Q |]].
    subst h2. exact H.
  Qed.

  (** *** A list method on the stored keys *)
  Lemma key_run n h r s o ks op h' :
    rel_state h r -> kept_key s o -> kat h s o = Some (VList ks) ->
    run n (TOp o (rf s) [] (rf s) op) h = (Ok tt, h') ->
    (exists x ks', plain_step (eqv oeq h) op ks = (Ok x, ks') /\ h' = upd o (set_attr (rf s) (VList ks')) h) \/
    (exists n' x ks' es, n = S n' /\ owned_step (eqv oeq h) op ks = (Ok x, ks', es) /\
      for_st es (list_event ct oeq getter (run n') o (rf s) [] (rf s)) (upd o (set_attr (rf s) (VList ks')) h) = (Ok tt, h')).
  Proof.
    intros R K E H. destruct n as [| n]; [discriminate H |]. cbn [ObjModel.run body] in H. unfold do_list in H.
    unfold kat in E. rewrite attr_at_nil, E in H. destruct (sinb (rf s) (o_raw (h_obj h o))).
    - left. destruct (plain_step (eqv oeq h) op ks) as [x ks'] eqn:PS.
      apply ok_bind in H. destruct H as ([] & h2 & H2 & H). unfold modify in H2. injection H2 as H2.
      rewrite (put_at_nil _ _ _ _ _ E) in H2. destruct x as [x | e]; [| discriminate H].
      injection H as H. exists x, ks'. split; [reflexivity | congruence].
    - right. destruct (owned_step (eqv oeq h) op ks) as [[x ks'] es] eqn:OS.
      apply ok_bind in H. destruct H as ([] & h1 & H1 & H).
      assert (h1 = h); [| subst h1].
      { destruct (existsb is_will es); [| injection H1 as H1; congruence].
        unfold olist_will, gets, bind in H1. rewrite (rs_ofield _ _ _ _ R), ref_dot, (rf_nofield s o K) in H1.
        injection H1 as H1. congruence. }
      apply ok_bind in H. destruct H as ([] & h2 & H2 & H). unfold modify in H2. injection H2 as H2.
      rewrite (put_at_nil _ _ _ _ _ E) in H2.
      destruct x as [x | e]; [| discriminate H]. exists n, x, ks', es. split; [reflexivity | split; [reflexivity |]].
      subst h2. exact H.
  Qed.

  Lemma shows_list s v l : shows s v l -> lst s = true -> v = Some VNone /\ l = [] \/ v = Some (VList (map VObj l)).
  Proof. unfold shows. intros H E. rewrite E in H. exact H. Qed.
  Lemma shows_inst s v l : shows s v l -> lst s = false -> v = Some VNone /\ l = [] \/ exists b, v = Some (VObj b) /\ l = [b].
  Proof. unfold shows. intros H E. rewrite E in H. exact H. Qed.

  (** removing the key of a removed object *)
  Lemma key_remove n h r s o ks i h' :
    rel_state h r -> kept_key s o -> kat h s o = Some (VList ks) ->
    run n (TOp o (rf s) [] (rf s) (LRemove i)) h = (Ok tt, h') ->
    (forall h2 y, In y (lk r s o) -> eqv oeq h2 (id_of ct h0 y) i = false) ->
    lst s = true ->
    exists ks', py_remove (eqv oeq h) i ks = Ok ks' /\ rel_state h' r /\ kat h' s o = Some (VList ks') /\
      kframe (here s o) h h' /\ aframe nowhere h h'.
  Proof.
    intros R K E H HL Hs. destruct (key_run _ _ _ _ _ _ _ _ R K E H) as [(x & ks' & PS & ->) | (n' & x & ks' & es & -> & OS & HF)].
    - cbn [plain_step] in PS. destruct (py_remove (eqv oeq h) i ks) as [k2 | e]; [| discriminate PS].
      cbn [keep] in PS. injection PS as _ <-. exists k2. split; [reflexivity |].
      apply set_key_state; assumption.
    - cbn [owned_step] in OS. unfold o_remove in OS. destruct (py_remove (eqv oeq h) i ks) as [k2 | e] eqn:ER; [| discriminate OS].
      injection OS as _ <- <-. exists k2. split; [reflexivity |].
      destruct (set_key_state h r s o (VList k2) R K) as (R1 & K1' & F1 & A1).
      cbn [for_st] in HF. apply ok_bind in HF. destruct HF as ([] & h1 & HF1 & HF).
      unfold list_event in HF1. cbn [fst] in HF1. injection HF1 as HF1. subst h1.
      apply ok_bind in HF. destruct HF as ([] & h1 & HF1 & HF). injection HF as HF. subst h1.
      unfold list_event in HF1. cbn [fst] in HF1. unfold olist_del in HF1.
      apply ok_bind in HF1. destruct HF1 as (a & h1 & G1 & HF1). unfold gets in G1. injection G1 as Ga G1. subst h1.
      unfold local_field_of in Ga. rewrite (rs_lkeys _ _ R1), (key_of s o K) in Ga. subst a.
      apply ok_bind in HF1. destruct HF1 as ([] & h1 & G1 & HF1).
      pose proof (mark_local_quiet (upd o (set_attr (rf s) (VList k2)) h) o (nm s)) as Q. rewrite G1 in Q. cbn [snd] in Q.
      pose proof (quiet_state _ _ _ Q R1) as R2.
      assert (K2 : kat h1 s o = Some (VList k2)) by (unfold kat; rewrite (quiet_attr _ _ _ _ Q); exact K1').
      assert (F2 : kframe (here s o) h h1).
      { intros s' o' A B. unfold kat. rewrite (quiet_attr _ _ _ _ Q). apply F1; assumption. }
      assert (A2 : aframe nowhere h h1).
      { intros s' o' A B. rewrite (quiet_attr _ _ _ _ Q). apply A1; assumption. }
      apply ok_bind in HF1. destruct HF1 as (fl & h2 & G2 & HF1).
      rewrite (get_link _ _ _ _ R2 (proj2 K)) in G2.
      destruct (attr h1 o (nm s)) as [w |] eqn:EA; [| discriminate G2]. injection G2 as -> ->.
      pose proof (rs_link _ _ R2 s o (proj2 K)) as SH. rewrite EA in SH. apply shows_list in SH; [| exact Hs].
      assert (h' = h2).
      { destruct SH as [[SH _] | SH]; injection SH as SH; subst fl; [injection HF1; congruence |].
        unfold bind, len_at in HF1. rewrite attr_at_nil in HF1. fold (kat h2 s o) in HF1. rewrite K2 in HF1.
        destruct (zlen (map VObj (lk r s o)) =? zlen k2)%Z; [injection HF1; congruence |].
        assert (FI : forall l, (forall y, In y l -> In y (lk r s o)) ->
                  first_with_id ct oeq i (map VObj l) h2 = (Ok None, h2)).
        { induction l as [| y l IHl]; intros Hl; [reflexivity |]. cbn [map first_with_id]. unfold bind at 1. cbn [vid].
          unfold bind at 1, gets. rewrite (rs_ids _ _ R2), (HL h2 y (Hl y (or_introl eq_refl))).
          apply IHl. intros z Hz. apply Hl. right. exact Hz. }
        rewrite (FI (lk r s o) (fun y H => H)) in HF1. injection HF1. congruence. }
      subst h'. split; [exact R2 | split; [exact K2 | split; [exact F2 | exact A2]]].
  Qed.

  Lemma key_insert n h r s o ks i x h' :
    rel_state h r -> kept_key s o -> kat h s o = Some (VList ks) ->
    run n (TOp o (rf s) [] (rf s) (LInsert i x)) h = (Ok tt, h') ->
    rel_state h' r /\ kat h' s o = Some (VList (py_insert i x ks)) /\
      kframe (here s o) h h' /\ aframe nowhere h h'.
  Proof.
    intros R K E H. destruct (key_run _ _ _ _ _ _ _ _ R K E H) as [(y & ks' & PS & ->) | (n' & y & ks' & es & -> & OS & HF)].
    - cbn [plain_step] in PS. injection PS as _ <-. apply set_key_state; assumption.
    - cbn [owned_step] in OS. unfold o_insert in OS. injection OS as _ <- <-.
      destruct (set_key_state h r s o (VList (py_insert i x ks)) R K) as (R1 & K1' & F1 & A1).
      cbn [for_st] in HF. apply ok_bind in HF. destruct HF as ([] & h1 & HF1 & HF).
      unfold list_event in HF1. cbn [fst] in HF1. injection HF1 as HF1. subst h1.
      apply ok_bind in HF. destruct HF as ([] & h1 & HF1 & HF). injection HF as HF. subst h1.
      unfold list_event in HF1. cbn [fst] in HF1. unfold olist_add in HF1.
      apply ok_bind in HF1. destruct HF1 as (a & h1 & G1 & HF1). unfold gets in G1. injection G1 as Ga G1. subst h1.
      unfold local_field_of in Ga. rewrite (rs_lkeys _ _ R1), (key_of s o K) in Ga. subst a.
      pose proof (mark_local_quiet (upd o (set_attr (rf s) (VList (py_insert i x ks))) h) o (nm s)) as Q. rewrite HF1 in Q. cbn [snd] in Q.
      split; [apply (quiet_state _ _ _ Q R1) |]. split; [unfold kat; rewrite (quiet_attr _ _ _ _ Q); exact K1' |].
      split.
      + intros s' o' A B. unfold kat. rewrite (quiet_attr _ _ _ _ Q). apply F1; assumption.
      + intros s' o' A B. rewrite (quiet_attr _ _ _ _ Q). apply A1; assumption.
  Qed.

  (** *** Unlinking: one item *)
  Definition U_item (n : nat) (s : bool) (o : nat) (x : value) : st heap unit :=
    add_unlinked oeq o (nm s) x >> unlink_item ct oeq getter (run n) o (fd (negb s)) x.

  Lemma unlink_run n h r s o v : rel_state h r -> cls o = cl s ->
    run (S n) (TUnlink o (fd s) v) h = for_st (link_items (fd s) v) (U_item n s o) h.
  Proof.
    intros R C. cbn [ObjModel.run body]. unfold unlink, gets, bind.
    rewrite (rs_class _ _ R), C, r_other. reflexivity.
  Qed.

  Lemma item_attr_run h r s o : rel_state h r -> cls o = cl s ->
    exists v, item_attr ct getter (VObj o) (nm s) h = (Ok v, h) /\ attr h o (nm s) = Some v /\ shows s (Some v) (lk r s o).
  Proof.
    intros R C. cbn [item_attr]. rewrite (get_link _ _ _ _ R C).
    pose proof (rs_link _ _ R s o C) as SH.
    destruct (attr h o (nm s)) as [v |] eqn:E.
    - exists v. repeat split. exact SH.
    - exfalso. destruct SH as [[K _] | K]; [discriminate K |]. destruct (lst s); [discriminate K | destruct K as (b & K & _); discriminate K].
  Qed.

  Lemma unlink_item_run n h r s o x :
    rel_state h r -> cls x = cl (negb s) -> robj o ->
    unlink_item ct oeq getter (run n) o (fd (negb s)) (VObj x) h =
    (if inb o (lk r (negb s) x) then
       if lst (negb s) then
         (run n (TOp x (nm (negb s)) [] (nm (negb s)) (LRemove (VObj o))) >>
          add_unlinked oeq x (nm (negb s)) (VObj o)) h
       else
         (updm x (set_attr (nm (negb s)) VNone) >>
          (if is_local (fd (negb s)) then
             updm x (fun ob => set_mfields (sadd (nm (negb s)) (o_mfields ob)) (set_attr (rf (negb s)) VNone ob))
           else ret tt) >>
          add_unlinked oeq x (nm (negb s)) (VObj o)) h
     else (Ok tt, h)).
  Proof.
    intros R C RO. unfold unlink_item. rewrite r_type.
    destruct (item_attr_run h r (negb s) x R C) as (v & E & _ & SH).
    destruct (lst (negb s)) eqn:EL; unfold bind at 1; rewrite E.
    - apply shows_list in SH; [| exact EL]. destruct SH as [[SH ->] | SH]; injection SH as ->.
      + reflexivity.
      + unfold bind at 1, gets. rewrite contains_obj by (try apply (rs_same _ _ R); assumption). destruct (inb o _); reflexivity.
    - apply shows_inst in SH; [| exact EL]. destruct SH as [[SH ->] | (b & SH & ->)]; injection SH as ->.
      + reflexivity.
      + unfold inb. cbn [existsb]. rewrite orb_false_r. destruct (Nat.eqb_spec b o), (Nat.eqb_spec o b); try congruence; reflexivity.
  Qed.

  Lemma for_one {X} (f : X -> st heap unit) x h h' : for_st [x] f h = (Ok tt, h') -> f x h = (Ok tt, h').
  Proof.
    cbn [for_st]. intros H. apply ok_bind in H. destruct H as ([] & h1 & H1 & H). injection H as H. subst. exact H1.
  Qed.

  (** *** Frames *)
  Definition fr (P Q : bool -> nat -> Prop) (h h' : heap) : Prop := kframe P h h' /\ aframe Q h h'.
  Lemma fr_trans P Q h1 h2 h3 : fr P Q h1 h2 -> fr P Q h2 h3 -> fr P Q h1 h3.
  Proof.
    intros [A B] [C D]. split; intros s o K N.
    - rewrite (C s o K N). apply A; assumption.
    - rewrite (D s o K N). apply B; assumption.
  Qed.
  Lemma fr_weak (P P' Q Q' : bool -> nat -> Prop) h h' :
    (forall s o, P s o -> P' s o) -> (forall s o, Q s o -> Q' s o) -> fr P Q h h' -> fr P' Q' h h'.
  Proof.
    intros W V [A B]. split; intros s o K N; [apply A | apply B]; try exact K; intros X; apply N; auto.
  Qed.
  Lemma fr_none P Q h h' : fr nowhere nowhere h h' -> fr P Q h h'.
  Proof. apply fr_weak; intros s o []. Qed.
  Lemma fr_quiet P Q h h' : quiet h h' -> fr P Q h h'.
  Proof. intros K. split; [apply quiet_kframe | apply quiet_aframe]; exact K. Qed.
  Lemma kok_fr P Q h h' s o l : fr P Q h h' -> ~ P s o -> kok h s o l -> kok h' s o l.
  Proof. intros [F _] N K HK. rewrite (F s o HK N). apply K, HK. Qed.

  (** Nothing to undo on the other side *)
  Lemma U_quiet n h r s o x h' :
    rel_state h r -> cls o = cl s -> cls x = cl (negb s) -> ~ In o (lk r (negb s) x) ->
    U_item n s o (VObj x) h = (Ok tt, h') ->
    rel_state h' (addp s o x r) /\ fr nowhere nowhere h h'.
  Proof.
    intros R C Cx N H. unfold U_item in H. apply ok_bind in H. destruct H as ([] & h1 & H1 & H).
    destruct (add_unlinked_state h r s o x R C (in_robj _ _ Cx)) as (h2 & E & R2 & F2). rewrite E in H1. injection H1 as ->.
    rewrite (unlink_item_run n h1 _ s o x R2 Cx (in_robj _ _ C)) in H. cbn [lk addp stp] in H.
    apply inb_not in N. rewrite N in H. injection H as ->. split; assumption.
  Qed.

  Lemma map_id_remove s x l h : is_local (fd s) = true -> lst s = true -> In x l ->
    (forall y, In y l -> cls y = cl (negb s)) ->
    py_remove (eqv oeq h) (id_of ct h0 x) (map (id_of ct h0) l) = Ok (map (id_of ct h0) (rm1 x l)) /\
    existsb (fun y => eqv oeq h (id_of ct h0 x) y) (map (id_of ct h0) l) = true.
  Proof.
    intros L S Hx Hc. assert (Cx : cls x = cl (negb s)) by (apply Hc, Hx). split.
    - induction l as [| y l IH]; [destruct Hx |]. cbn [map py_remove rm1].
      rewrite (keyed s L S h y x) by (first [apply Hc; left; reflexivity | exact Cx]).
      destruct (Nat.eqb_spec y x) as [-> | N]; [reflexivity |].
      destruct Hx as [-> | Hx]; [congruence |]. rewrite IH; [reflexivity | exact Hx |].
      intros z Hz. apply Hc. right. exact Hz.
    - apply existsb_exists. exists (id_of ct h0 x). split; [apply in_map, Hx |].
      rewrite (keyed s L S h x x Cx Cx). apply Nat.eqb_refl.
  Qed.

  Lemma rm1_length_in x l : In x l -> length l = S (length (rm1 x l)).
  Proof.
    induction l as [| y l IH]; intros H; [destruct H |]. cbn [rm1].
    destruct (Nat.eqb_spec y x) as [-> | N]; [reflexivity |]. cbn [length]. f_equal. apply IH.
    destruct H; [congruence | assumption].
  Qed.

  (** The report of one removed item, when unlinking it leads to [r3] *)
  Lemma event_del n h h' r r3 s o x c lold (P : bool -> nat -> Prop) (W : heap -> Prop) :
    (forall h1 h2, fr (here s o) nowhere h1 h2 -> W h1 -> W h2) ->
    rel_state h r -> cls o = cl s -> lst s = true -> (exists l, attr h o (nm s) = Some (VList l)) ->
    cls x = cl (negb s) ->
    (strict = true -> is_local (fd s) = true ->
       In x lold /\ length (lk r s o) < length lold /\ (forall y, In y lold -> cls y = cl (negb s))) ->
    kok h s o lold ->
    ~ In x (lk r s o) ->
    (forall h3, run n (TUnlink o (fd s) (VList [VObj x])) h = (Ok tt, h3) -> rel_state h3 r3 /\ fr P P h h3 /\ W h3) ->
    ~ P s o -> lk r3 s o = lk r s o ->
    list_event ct oeq getter (run n) o (nm s) [] (nm s) (CDel (Some (VObj x)), c) h = (Ok tt, h') ->
    rel_state h' r3 /\ kok h' s o (rm1 x lold) /\ fr (fun s' o' => P s' o' \/ here s o s' o') P h h' /\ W h'.
  Proof.
    intros HW R C HS HV Cx Hst HK HLe HU NP HL H.
    unfold list_event in H. cbn [fst] in H. unfold olist_del in H.
    apply ok_bind in H. destruct H as (a & h1 & G & H). unfold gets in G. injection G as Ga ->.
    unfold local_field_of in Ga. rewrite (rs_lkeys _ _ R), (no_key s o C) in Ga. subst a.
    apply ok_bind in H. destruct H as (a & h2 & G & H). unfold gets in G. injection G as Ga ->.
    rewrite (rs_ofield _ _ _ _ R), (in_class s o C) in Ga. subst a.
    rewrite r_ref in H. apply ok_bind in H. destruct H as ([] & h4 & H1 & HM).
    pose proof (mark_quiet h4 o (nm s)) as QM. rewrite HM in QM. cbn [snd] in QM. clear HM.
    apply ok_bind in H1. destruct H1 as ([] & h3 & HR & H1).
    destruct (HU h3 HR) as (R3 & F3 & W3).
    assert (G : rel_state h4 r3 /\ kok h4 s o (rm1 x lold) /\ fr (here s o) nowhere h3 h4).
    { destruct (is_local (fd s)) eqn:EL.
      - assert (KK : kept_key s o) by (split; assumption).
        destruct (HK KK) as (k & K3' & KL & KS). destruct (KL HS) as (ks & ->).
        rewrite <- (proj1 F3 s o KK NP) in K3'.
        unfold len_at in H1. unfold bind at 1 in H1. rewrite attr_at_nil in H1. fold (kat h3 s o) in H1.
        rewrite K3' in H1. unfold bind at 1 in H1. rewrite attr_at_nil in H1.
        destruct HV as (l3 & E3). rewrite <- (proj2 F3 s o C NP) in E3.
        pose proof (rs_link _ _ R3 s o C) as SH. rewrite E3 in SH. apply shows_list in SH; [| exact HS].
        destruct SH as [[SH _] | SH]; [discriminate SH |]. injection SH as ->.
        rewrite E3, HL in H1.
        assert (STAY : h4 = h3 -> strict = false ->
                  rel_state h4 r3 /\ kok h4 s o (rm1 x lold) /\ fr (here s o) nowhere h3 h4).
        { intros -> F. split; [exact R3 | split; [| apply fr_quiet, quiet_refl]]. intros _.
          exists (VList ks). split; [exact K3' | split; [eauto | congruence]]. }
        destruct (zlen ks =? zlen (map VObj (lk r s o)))%Z eqn:NE.
        { injection H1 as ->. apply STAY; [reflexivity |]. destruct strict; [exfalso | reflexivity].
          destruct (Hst eq_refl eq_refl) as (_ & HLt & _). specialize (KS eq_refl). unfold keyval in KS. rewrite HS in KS.
          injection KS as ->. apply Z.eqb_eq in NE. unfold zlen in NE. rewrite !map_length in NE. apply Nat2Z.inj in NE.
          unfold Values.oid in *. lia. }
        cbn [is_none] in H1. apply ok_bind in H1. destruct H1 as (i & h5 & G5 & H1).
        unfold vid in G5. injection G5 as <- <-. rewrite (rs_ids _ _ R3) in H1.
        apply ok_bind in H1. destruct H1 as (b & h5 & G5 & H1). unfold gets in G5. injection G5 as Gb <-.
        fold (kat h3 s o) in Gb. rewrite K3' in Gb. destruct b.
        + destruct (key_remove _ _ _ _ _ _ _ _ R3 KK K3' H1) as (ks' & P' & R4 & K4 & F4); [| exact HS |].
          * intros hh y Hy. rewrite (keyed s EL HS hh y x).
            -- apply Nat.eqb_neq. intros ->. apply HLe. rewrite <- HL. exact Hy.
            -- apply (rs_items _ _ R3 s o y Hy).
            -- exact Cx.
          * split; [exact R4 | split; [| exact F4]].
            intros _. exists (VList ks'). split; [exact K4 | split; [eauto |]]. intros ST.
            destruct (Hst ST eq_refl) as (Hx & _ & Hc). specialize (KS ST). unfold keyval in KS. rewrite HS in KS. injection KS as ->.
            destruct (map_id_remove s x lold h3 EL HS Hx Hc) as [PR _]. rewrite PR in P'. injection P' as <-.
            unfold keyval. rewrite HS. reflexivity.
        + injection H1 as ->. apply STAY; [reflexivity |]. destruct strict; [exfalso | reflexivity].
          destruct (Hst eq_refl eq_refl) as (Hx & _ & Hc). specialize (KS eq_refl). unfold keyval in KS. rewrite HS in KS. injection KS as ->.
          destruct (map_id_remove s x lold h4 EL HS Hx Hc) as [_ EX]. rewrite EX in Gb. discriminate Gb.
      - injection H1 as ->. split; [exact R3 | split; [intros [K _]; congruence | apply fr_quiet, quiet_refl]]. }
    destruct G as (R4 & K4 & F4).
    split; [apply (quiet_state _ _ _ QM R4) |]. split.
    - intros KK. unfold kat. rewrite (quiet_attr _ _ _ _ QM). apply K4, KK.
    - split.
      + eapply fr_trans; [eapply fr_weak; [| | exact F3]; auto |].
        eapply fr_trans; [eapply fr_weak; [| | exact F4]; auto; intros ? ? [] | apply fr_quiet, QM].
      + apply (HW h4); [apply fr_quiet, QM |]. apply (HW h3); assumption.
  Qed.

  Lemma items_one s x : lst s = true -> link_items (fd s) (VList [VObj x]) = [VObj x].
  Proof. intros L. unfold link_items. rewrite r_type, L. reflexivity. Qed.
  Lemma unlink_one n h r s o x h' : rel_state h r -> cls o = cl s -> lst s = true ->
    run n (TUnlink o (fd s) (VList [VObj x])) h = (Ok tt, h') -> exists m, U_item m s o (VObj x) h = (Ok tt, h').
  Proof.
    intros R C L H. destruct n as [| n]; [discriminate H |]. rewrite (unlink_run n h _ s o _ R C), (items_one s x L) in H.
    apply for_one in H. exists n. exact H.
  Qed.
  Lemma rmk_at s o x r : lk (rmk s o x r) s o = rm1 x (lk r s o).
  Proof. unfold rmk, stk. cbn [lk]. apply put_same. Qed.
  Lemma rmk_else s o x r s' o' : ~ here s o s' o' -> lk (rmk s o x r) s' o' = lk r s' o'.
  Proof.
    intros N. unfold rmk, stk. cbn [lk]. unfold put. destruct (Bool.eqb s' s && Nat.eqb o' o) eqn:K; [| reflexivity].
    apply andb_true_iff in K. destruct K as [K1' K2]. apply eqb_prop in K1'. apply Nat.eqb_eq in K2. subst.
    destruct N. split; reflexivity.
  Qed.
  Lemma not_here s o x : ~ here (negb s) x s o.
  Proof. intros [E _]. destruct s; discriminate E. Qed.
  Lemma not_here' s o x : ~ here s o (negb s) x.
  Proof. intros [E _]. destruct s; discriminate E. Qed.
  Lemma link_value h r s o : rel_state h r -> cls o = cl s -> lst s = true -> lk r s o <> [] ->
    attr h o (nm s) = Some (VList (map VObj (lk r s o))).
  Proof.
    intros R C L N. pose proof (rs_link _ _ R s o C) as SH. apply shows_list in SH; [| exact L].
    destruct SH as [[_ E] | SH]; [contradiction | exact SH].
  Qed.
  Lemma in_cons {X} (x : X) l : In x l -> l <> [].
  Proof. intros H ->. exact H. Qed.

  (** *** Removing an item from a list of the relation *)
  Lemma remove_run n h r s o x r3 (P : bool -> nat -> Prop) (W : heap -> Prop) h' :
    (forall h1 h2, fr (here s o) nowhere h1 h2 -> W h1 -> W h2) ->
    rel_state h r -> cls o = cl s -> lst s = true -> In x (lk r s o) -> kok h s o (lk r s o) ->
    (forall m h2 h3, rel_state h2 (rmk s o x r) -> fr nowhere (here s o) h h2 ->
       U_item m s o (VObj x) h2 = (Ok tt, h3) -> rel_state h3 r3 /\ fr P P h2 h3 /\ W h3) ->
    ~ P s o -> lk r3 s o = rm1 x (lk r s o) ->
    run n (TOp o (nm s) [] (nm s) (LRemove (VObj x))) h = (Ok tt, h') ->
    rel_state h' r3 /\ kok h' s o (lk r3 s o) /\
    fr (fun s' o' => P s' o' \/ here s o s' o') (fun s' o' => P s' o' \/ here s o s' o') h h' /\ W h'.
  Proof.
    intros HW R C L Hx HK HU NP HL H. destruct n as [| n]; [discriminate H |].
    pose proof (link_value h r s o R C L (in_cons _ _ Hx)) as EA.
    destruct (op_run n h r s o (lk r s o) _ h' R C EA H) as (y & l' & es & h1 & OS & Q & HF).
    cbn [owned_step] in OS. unfold o_remove in OS. rewrite (remove_obj h x _ (rs_same _ _ R) (in_robj _ _ (rs_items _ _ R s o x Hx)) Hx) in OS.
    injection OS as _ El Ee. subst l' es.
    pose proof (quiet_state _ _ _ Q R) as R1.
    destruct (set_link_state h1 r s o (VList (map VObj (rm1 x (lk r s o)))) (rm1 x (lk r s o)) R1 C) as (R2 & K2 & A2).
    { right. rewrite L. reflexivity. }
    { intros z Hz. apply (rs_items _ _ R s o). apply (rm1_incl x _ _ Hz). }
    { apply rm1_nodup. apply (rs_tidy _ _ R). }
    assert (V2 : attr (upd o (set_attr (nm s) (VList (map VObj (rm1 x (lk r s o))))) h1) o (nm s) =
                 Some (VList (map VObj (rm1 x (lk r s o))))).
    { unfold attr, upd. cbn [h_obj]. rewrite Nat.eqb_refl. cbn [set_attr o_attr]. rewrite String.eqb_refl. reflexivity. }
    set (h2 := upd o (set_attr (nm s) (VList (map VObj (rm1 x (lk r s o))))) h1) in *.
    assert (F02 : fr nowhere (here s o) h h2).
    { eapply fr_trans; [apply fr_quiet, Q | split; assumption]. }
    cbn [for_st] in HF. apply ok_bind in HF. destruct HF as ([] & h3 & HF1 & HF).
    unfold list_event in HF1 at 1. cbn [fst] in HF1. injection HF1 as HF1. subst h3.
    apply ok_bind in HF. destruct HF as ([] & h3 & HF1 & HF). injection HF as HF. subst h3.
    change (stk s o (rm1 x (lk r s o)) r) with (rmk s o x r) in R2.
    destruct (event_del n h2 h' (rmk s o x r) r3 s o x (map VObj (rm1 x (lk r s o))) (lk r s o) P W HW R2 C L) with (9 := HF1) as (R4 & K4 & F4 & W4).
    - exists (map VObj (rm1 x (lk r s o))). exact V2.
    - apply (rs_items _ _ R s o x Hx).
    - intros _ _. split; [exact Hx | split].
      + rewrite rmk_at. pose proof (rm1_length_in x _ Hx) as K. unfold Values.oid in *. lia.
      + intros z Hz. apply (rs_items _ _ R s o z Hz).
    - apply (kok_fr _ _ _ _ _ _ _ F02); [intros [] | exact HK].
    - rewrite rmk_at. rewrite rm1_in by apply (rs_tidy _ _ R). intros [_ K]. congruence.
    - intros h3 HR. destruct (unlink_one _ _ _ _ _ _ _ R2 C L HR) as (m & HR'). apply (HU m h2 h3); assumption.
    - exact NP.
    - rewrite HL, rmk_at. reflexivity.
    - rewrite HL. split; [exact R4 | split; [exact K4 | split; [| exact W4]]].
      eapply fr_trans; [eapply fr_weak; [| | exact F02]; [intros ? ? [] | auto] | eapply fr_weak; [| | exact F4]; auto].
  Qed.

  (** ... when the item does not refer back *)
  Lemma remove_alone n h r s o x h' :
    rel_state h r -> cls o = cl s -> lst s = true -> In x (lk r s o) -> kok h s o (lk r s o) ->
    ~ In o (lk r (negb s) x) ->
    run n (TOp o (nm s) [] (nm s) (LRemove (VObj x))) h = (Ok tt, h') ->
    rel_state h' (addp s o x (rmk s o x r)) /\ kok h' s o (rm1 x (lk r s o)) /\ fr (here s o) (here s o) h h'.
  Proof.
    intros R C L Hx HK N H.
    destruct (remove_run n h r s o x (addp s o x (rmk s o x r)) nowhere (fun _ => True) h' (fun _ _ _ _ => I) R C L Hx HK)
      with (4 := H) as (R' & K' & F' & _).
    - intros m h2 h3 R2 F2 HU. rewrite <- and_assoc. split; [| exact I]. apply (U_quiet m h2 _ s o x h3 R2 C (rs_items _ _ R _ _ _ Hx)); [| exact HU].
      rewrite rmk_else by apply not_here'. exact N.
    - intros [].
    - unfold addp, stp. cbn [lk]. apply rmk_at.
    - unfold addp, stp in K'. cbn [lk] in K'. rewrite rmk_at in K'.
      split; [exact R' | split; [exact K' |]]. eapply fr_weak; [| | exact F']; intros s' o' [[] | K]; exact K.
  Qed.

  (** *** Unlinking an item whose back reference is single *)
  Lemma U_inst n h r s o x h' :
    rel_state h r -> cls o = cl s -> cls x = cl (negb s) -> lst (negb s) = false -> In o (lk r (negb s) x) ->
    U_item n s o (VObj x) h = (Ok tt, h') ->
    rel_state h' (addp (negb s) x o (rmk (negb s) x o (addp s o x r))) /\
    kok h' (negb s) x [] /\ fr (here (negb s) x) (here (negb s) x) h h'.
  Proof.
    intros R C Cx L Ho H. unfold U_item in H. apply ok_bind in H. destruct H as ([] & h1 & H1 & H).
    destruct (add_unlinked_state h r s o x R C (in_robj _ _ Cx)) as (h2 & E & R1 & F1). rewrite E in H1. injection H1 as ->.
    rewrite (unlink_item_run n h1 _ s o x R1 Cx (in_robj _ _ C)), L in H. cbn [lk addp stp] in H.
    assert (Ho' := Ho). apply inb_In in Ho'. rewrite Ho' in H. clear Ho'.
    assert (E1 : lk r (negb s) x = [o]).
    { pose proof (td_inst _ _ (rs_tidy _ _ R) (negb s) x L) as K. destruct (lk r (negb s) x) as [| y [| z l]]; [destruct Ho | | cbn in K; lia].
      destruct Ho as [-> | []]. reflexivity. }
    apply ok_bind in H. destruct H as ([] & h2 & H2 & H). unfold updm, modify in H2. injection H2 as H2.
    destruct (set_link_state h1 (addp s o x r) (negb s) x VNone [] R1 Cx) as (R2 & K2 & A2).
    { left. split; reflexivity. } { intros y []. } { constructor. }
    rewrite H2 in R2, K2, A2. clear H2.
    assert (R2' : rel_state h2 (rmk (negb s) x o (addp s o x r))).
    { unfold rmk. cbn [lk addp stp]. rewrite E1. cbn [rm1]. rewrite Nat.eqb_refl. exact R2. }
    apply ok_bind in H. destruct H as ([] & h3 & H3 & H).
    assert (G : rel_state h3 (rmk (negb s) x o (addp s o x r)) /\ kok h3 (negb s) x [] /\ fr (here (negb s) x) (here (negb s) x) h h3).
    { assert (F2 : fr (here (negb s) x) (here (negb s) x) h h2).
      { eapply fr_trans; [apply fr_none; exact F1 | eapply fr_weak; [| | split; [exact K2 | exact A2]]; auto; intros ? ? []]. }
      destruct (is_local (fd (negb s))) eqn:EL.
      - assert (KK : kept_key (negb s) x) by (split; assumption).
        destruct (set_key_state h2 _ (negb s) x VNone R2' KK) as (R3 & K3 & F3 & A3).
        set (h2' := upd x (set_attr (rf (negb s)) VNone) h2) in *.
        assert (Q : quiet h2' h3).
        { unfold updm, modify in H3. injection H3 as <-. intros y. unfold h2', upd. cbn [h_obj].
          destruct (Nat.eqb_spec y x); repeat split. }
        split; [apply (quiet_state _ _ _ Q R3) | split].
        + intros _. exists VNone. unfold kat. rewrite (quiet_attr _ _ _ _ Q). unfold keyval. rewrite L.
          split; [exact K3 | split; [discriminate | reflexivity]].
        + eapply fr_trans; [exact F2 |]. eapply fr_trans; [eapply fr_weak; [| | split; [exact F3 | exact A3]]; auto; intros ? ? [] | apply fr_quiet, Q].
      - injection H3 as ->. split; [exact R2' | split; [intros [K _]; congruence | exact F2]]. }
    destruct G as (R3 & K3 & F3).
    destruct (add_unlinked_state h3 _ (negb s) x o R3 Cx (in_robj _ _ C)) as (h4 & E4 & R4 & F4). rewrite E4 in H. injection H as ->.
    split; [exact R4 | split].
    - apply (kok_fr nowhere nowhere _ _ _ _ _ F4); [intros [] | exact K3].
    - eapply fr_trans; [exact F3 | apply fr_none, F4].
  Qed.

  (** *** Unlinking an item that is no longer listed *)
  Lemma U_gone n h r s o x h' :
    rel_state h r -> cls o = cl s -> cls x = cl (negb s) -> ~ In x (lk r s o) -> kok h (negb s) x (lk r (negb s) x) ->
    U_item n s o (VObj x) h = (Ok tt, h') ->
    rel_state h' (U1 lst s o x r) /\ kok h' (negb s) x (lk (U1 lst s o x r) (negb s) x) /\
    fr (here (negb s) x) (here (negb s) x) h h'.
  Proof.
    intros R C Cx N HK H. destruct (in_dec Nat.eq_dec o (lk r (negb s) x)) as [Ho | Ho].
    2:{ destruct (U_quiet _ _ _ _ _ _ _ R C Cx Ho H) as [R' F'].
        assert (E : U1 lst s o x r = addp s o x r).
        { unfold U1. apply inb_not in Ho. rewrite Ho. reflexivity. }
        rewrite E. split; [exact R' | split; [| apply fr_none, F']].
        apply (kok_fr _ _ _ _ _ _ _ F'); [intros [] | exact HK]. }
    assert (Hb := Ho). apply inb_In in Hb. unfold U1. rewrite Hb.
    destruct (lst (negb s)) eqn:L.
    - unfold U_item in H. apply ok_bind in H. destruct H as ([] & h1 & H1 & H).
      destruct (add_unlinked_state h r s o x R C (in_robj _ _ Cx)) as (h2 & E & R1 & F1). rewrite E in H1. injection H1 as ->.
      rewrite (unlink_item_run n h1 _ s o x R1 Cx (in_robj _ _ C)), L in H. cbn [lk addp stp] in H. rewrite Hb in H.
      apply ok_bind in H. destruct H as ([] & h2 & H2 & H).
      destruct (remove_alone n h1 (addp s o x r) (negb s) x o h2 R1 Cx L Ho) as (R2 & K2 & F2); [ | | exact H2 |].
      { apply (kok_fr nowhere nowhere _ _ _ _ _ F1); [intros [] | exact HK]. }
      { rewrite negb_involutive. exact N. }
      destruct (add_unlinked_state h2 _ (negb s) x o R2 Cx (in_robj _ _ C)) as (h4 & E4 & R4 & F4). rewrite E4 in H. injection H as ->.
      set (r2 := addp (negb s) x o (rmk (negb s) x o (addp s o x r))) in *.
      assert (Q : req (addp (negb s) x o r2) (rmk s o x r2)).
      { apply (req_trans _ r2).
        - apply addp_noop. unfold r2, addp, stp. cbn [pl]. rewrite put_same, addl_in. auto.
        - apply req_sym, rmk_noop. unfold r2, addp, stp. cbn [lk]. rewrite rmk_else by apply not_here. exact N. }
      split; [apply (rs_req _ _ _ Q R4) | split].
      + rewrite rmk_else by apply not_here'. unfold r2. unfold addp at 1, stp at 1. cbn [lk]. rewrite rmk_at. cbn [lk addp stp].
        apply (kok_fr nowhere nowhere _ _ _ _ _ F4); [intros [] | exact K2].
      + eapply fr_trans; [apply fr_none, F1 |]. eapply fr_trans; [exact F2 | apply fr_none, F4].
    - destruct (U_inst _ _ _ _ _ _ _ R C Cx L Ho H) as (R' & K' & F').
      split; [exact R' | split; [| exact F']]. unfold addp at 1, stp at 1. cbn [lk]. rewrite rmk_at. cbn [lk addp stp].
      pose proof (td_inst _ _ (rs_tidy _ _ R) (negb s) x L) as K. destruct (lk r (negb s) x) as [| y [| z l]]; [destruct Ho | | cbn in K; lia].
      destruct Ho as [-> | []]. cbn [rm1]. rewrite Nat.eqb_refl. exact K'.
  Qed.

  Lemma U1_own s o x r : ~ In x (lk r s o) -> lk (U1 lst s o x r) s o = lk r s o.
  Proof.
    intros N. unfold U1. destruct (inb o (lk r (negb s) x)); [| reflexivity].
    destruct (lst (negb s)).
    - rewrite rmk_at. unfold addp, stp. cbn [lk]. rewrite rmk_else by apply not_here. cbn [lk]. apply rm1_absent, N.
    - unfold addp, stp. cbn [lk]. rewrite rmk_else by apply not_here. reflexivity.
  Qed.

  (** *** Removing an item, in general *)
  Lemma remove_item n h r s o x h' :
    rel_state h r -> cls o = cl s -> lst s = true -> In x (lk r s o) -> kok h s o (lk r s o) ->
    kok h (negb s) x (lk r (negb s) x) ->
    run n (TOp o (nm s) [] (nm s) (LRemove (VObj x))) h = (Ok tt, h') ->
    let r3 := U1 lst s o x (rmk s o x r) in
    rel_state h' r3 /\ kok h' s o (lk r3 s o) /\ kok h' (negb s) x (lk r3 (negb s) x) /\
    fr (fun s' o' => here (negb s) x s' o' \/ here s o s' o') (fun s' o' => here (negb s) x s' o' \/ here s o s' o') h h'.
  Proof.
    intros R C L Hx HK HK2 H r3.
    assert (NX : ~ In x (lk (rmk s o x r) s o)).
    { rewrite rmk_at, rm1_in by apply (rs_tidy _ _ R). intros [_ K]. congruence. }
    destruct (remove_run n h r s o x r3 (here (negb s) x) (fun h => kok h (negb s) x (lk r3 (negb s) x)) h')
      with (2 := R) (3 := C) (4 := L) (5 := Hx) (6 := HK) (10 := H) as (R' & K' & F' & W').
    - intros h1 h2 F K. apply (kok_fr _ _ _ _ _ _ _ F); [apply not_here' | exact K].
    - intros m h2 h3 R2 F2 HU.
      destruct (U_gone m h2 _ s o x h3 R2 C (rs_items _ _ R _ _ _ Hx) NX) as (A & K & B); [| exact HU | split; [exact A | split; [exact B | exact K]]].
      rewrite rmk_else by apply not_here'. apply (kok_fr _ _ _ _ _ _ _ F2); [intros [] | exact HK2].
    - apply not_here.
    - unfold r3. rewrite U1_own by exact NX. apply rmk_at.
    - split; [exact R' | split; [exact K' | split; [exact W' | exact F']]].
  Qed.

  Lemma addp_lk s o x r s' o' : lk (addp s o x r) s' o' = lk r s' o'.
  Proof. reflexivity. Qed.

  Definition two (s : bool) (o x : nat) (s' : bool) (o' : nat) : Prop := here (negb s) x s' o' \/ here s o s' o'.
  Lemma two_sym s o x s' o' : two (negb s) x o s' o' <-> two s o x s' o'.
  Proof. unfold two. rewrite negb_involutive. tauto. Qed.
  Lemma fr_two_sym s o x h h' : fr (two (negb s) x o) (two (negb s) x o) h h' -> fr (two s o x) (two s o x) h h'.
  Proof. apply fr_weak; intros s' o'; apply two_sym. Qed.

  (** *** Unlinking an item, in general *)
  Lemma unlink_any n h r s o x h' :
    rel_state h r -> cls o = cl s -> cls x = cl (negb s) ->
    kok h s o (lk r s o) -> kok h (negb s) x (lk r (negb s) x) ->
    U_item n s o (VObj x) h = (Ok tt, h') ->
    let r3 := U1 lst s o x r in
    rel_state h' r3 /\ kok h' s o (lk r3 s o) /\ kok h' (negb s) x (lk r3 (negb s) x) /\ fr (two s o x) (two s o x) h h'.
  Proof.
    intros R C Cx HK HK2 H r3.
    destruct (in_dec Nat.eq_dec x (lk r s o)) as [Hx | Hx].
    2:{ destruct (U_gone _ _ _ _ _ _ _ R C Cx Hx HK2 H) as (R' & K' & F').
        split; [exact R' | split; [| split; [exact K' | eapply fr_weak; [| | exact F']; left; assumption]]].
        unfold r3. rewrite U1_own by exact Hx. apply (kok_fr _ _ _ _ _ _ _ F'); [apply not_here | exact HK]. }
    destruct (in_dec Nat.eq_dec o (lk r (negb s) x)) as [Ho | Ho].
    2:{ destruct (U_quiet _ _ _ _ _ _ _ R C Cx Ho H) as [R' F'].
        assert (E : r3 = addp s o x r).
        { unfold r3, U1. apply inb_not in Ho. rewrite Ho. reflexivity. }
        rewrite E. split; [exact R' | split; [| split; [| apply fr_none, F']]];
          (apply (kok_fr _ _ _ _ _ _ _ F'); [intros [] | assumption]). }
    assert (Hb := Ho). apply inb_In in Hb. destruct (lst (negb s)) eqn:L.
    - pose proof (unlink_back lst s o x r (rs_tidy _ _ R) Ho L) as Q.
      unfold U_item in H. apply ok_bind in H. destruct H as ([] & h1 & H1 & H).
      destruct (add_unlinked_state h r s o x R C (in_robj _ _ Cx)) as (h2 & E & R1 & F1). rewrite E in H1. injection H1 as ->.
      rewrite (unlink_item_run n h1 _ s o x R1 Cx (in_robj _ _ C)), L in H. cbn [lk addp stp] in H. rewrite Hb in H.
      apply ok_bind in H. destruct H as ([] & h2 & H2 & H).
      destruct (remove_item n h1 (addp s o x r) (negb s) x o h2 R1 Cx L Ho) as (R2 & K2 & K2' & F2); [| | exact H2 |].
      { apply (kok_fr nowhere nowhere _ _ _ _ _ F1); [intros [] | exact HK2]. }
      { rewrite negb_involutive. apply (kok_fr nowhere nowhere _ _ _ _ _ F1); [intros [] | exact HK]. }
      destruct (add_unlinked_state h2 _ (negb s) x o R2 Cx (in_robj _ _ C)) as (h4 & E4 & R4 & F4). rewrite E4 in H. injection H as ->.
      rewrite negb_involutive in K2'. fold (two (negb s) x o) in F2. apply fr_two_sym in F2.
      pose proof (rs_req _ _ _ Q R4) as R'. split; [exact R' |].
      assert (Q1 : forall s' o', lk r3 s' o' = lk (U1 lst (negb s) x o (rmk (negb s) x o (addp s o x r))) s' o').
      { intros s' o'. symmetry. apply (Q s' o'). }
      rewrite !Q1. split; [| split].
      + apply (kok_fr nowhere nowhere _ _ _ _ _ F4); [intros [] | exact K2'].
      + apply (kok_fr nowhere nowhere _ _ _ _ _ F4); [intros [] | exact K2].
      + eapply fr_trans; [apply fr_none, F1 |]. eapply fr_trans; [exact F2 | apply fr_none, F4].
    - destruct (U_inst _ _ _ _ _ _ _ R C Cx L Ho H) as (R' & K' & F').
      assert (E : r3 = addp (negb s) x o (rmk (negb s) x o (addp s o x r))).
      { unfold r3, U1. rewrite Hb, L. reflexivity. }
      rewrite E, !addp_lk, rmk_at, addp_lk. rewrite rmk_else by apply not_here. rewrite addp_lk.
      split; [exact R' | split; [| split]].
      + apply (kok_fr _ _ _ _ _ _ _ F'); [apply not_here | exact HK].
      + pose proof (td_inst _ _ (rs_tidy _ _ R) (negb s) x L) as K. destruct (lk r (negb s) x) as [| y [| z l]]; [destruct Ho | | cbn in K; lia].
        destruct Ho as [-> | []]. cbn [rm1]. rewrite Nat.eqb_refl. exact K'.
      + eapply fr_weak; [| | exact F']; left; assumption.
  Qed.

  (** *** The state of all keys but one, and what happens at that one *)
  Definition kx (E : bool -> nat -> Prop) (h : heap) (r : rst) : Prop :=
    forall s o, ~ E s o -> kok h s o (lk r s o).
  Definition still (s : bool) (o : nat) (h h' : heap) : Prop :=
    (kept_key s o -> kat h' s o = kat h s o) /\ (cls o = cl s -> attr h' o (nm s) = attr h o (nm s)).
  Lemma still_fr P Q s o h h' : fr P Q h h' -> ~ P s o -> ~ Q s o -> still s o h h'.
  Proof. intros [A B] N M. split; intros K; [apply A | apply B]; assumption. Qed.
  Lemma still_refl s o h : still s o h h.
  Proof. split; reflexivity. Qed.
  Lemma still_trans s o h1 h2 h3 : still s o h1 h2 -> still s o h2 h3 -> still s o h1 h3.
  Proof. intros [A B] [C D]. split; intros K; [rewrite (C K); apply A, K | rewrite (D K); apply B, K]. Qed.
  Lemma still_quiet s o h h' : quiet h h' -> still s o h h'.
  Proof. intros Q. apply (still_fr nowhere nowhere); [apply fr_quiet, Q | intros [] | intros []]. Qed.
  Lemma still_kok s o h h' l : still s o h h' -> kok h s o l -> kok h' s o l.
  Proof. intros [A _] K KK. rewrite (A KK). apply K, KK. Qed.
  (** Keys outside [P] stay, and what they mirror stays *)
  Lemma kx_fr (E P Q : bool -> nat -> Prop) h h' r r' : fr P Q h h' -> kx E h r ->
    (forall s o, ~ E s o -> ~ P s o -> lk r' s o = lk r s o) ->
    (forall s o, ~ E s o -> P s o -> kok h' s o (lk r' s o)) ->
    (forall s o, P s o \/ ~ P s o) -> kx E h' r'.
  Proof.
    intros F K A B D s o N. destruct (D s o) as [H | H]; [apply B; assumption |].
    rewrite (A s o N H). apply (kok_fr _ _ _ _ _ _ _ F H). apply K, N.
  Qed.
  Lemma kx_req E h r r' : req r r' -> kx E h r -> kx E h r'.
  Proof. intros Q K s o N. rewrite <- (proj1 (Q s o)). apply K, N. Qed.
  Lemma kx_quiet E h h' r : fr nowhere nowhere h h' -> kx E h r -> kx E h' r.
  Proof. intros F K s o N. apply (kok_fr _ _ _ _ _ _ _ F); [intros [] | apply K, N]. Qed.
  Lemma here_dec s o s' o' : here s o s' o' \/ ~ here s o s' o'.
  Proof.
    unfold here. destruct (Bool.bool_dec s' s), (Nat.eq_dec o' o); [left; auto | right; tauto | right; tauto | right; tauto].
  Qed.
  Lemma two_dec s o x s' o' : two s o x s' o' \/ ~ two s o x s' o'.
  Proof. unfold two. destruct (here_dec (negb s) x s' o'), (here_dec s o s' o'); tauto. Qed.

  Lemma U1_off s o x r s' o' : ~ two s o x s' o' -> lk (U1 lst s o x r) s' o' = lk r s' o'.
  Proof.
    intros N. unfold U1. assert (N1 : ~ here s o s' o') by (intros K; apply N; right; exact K).
    assert (N2 : ~ here (negb s) x s' o') by (intros K; apply N; left; exact K).
    destruct (inb o (lk r (negb s) x)); [| reflexivity]. destruct (lst (negb s)).
    - rewrite rmk_else by exact N1. rewrite addp_lk, rmk_else by exact N2. reflexivity.
    - rewrite addp_lk, rmk_else by exact N2. reflexivity.
  Qed.

  Lemma unlink_step n h r s o x h' :
    rel_state h r -> cls o = cl s -> cls x = cl (negb s) -> kx nowhere h r ->
    U_item n s o (VObj x) h = (Ok tt, h') ->
    rel_state h' (U1 lst s o x r) /\ kx nowhere h' (U1 lst s o x r).
  Proof.
    intros R C Cx K H. destruct (unlink_any _ _ _ _ _ _ _ R C Cx (K s o (fun x => x)) (K _ x (fun x => x)) H) as (R' & K1' & K2 & F).
    split; [exact R' |]. apply (kx_fr nowhere _ _ h h' r _ F K).
    - intros s' o' _ N. apply U1_off, N.
    - intros s' o' _ [[-> ->] | [-> ->]]; assumption.
    - apply two_dec.
  Qed.
  Lemma unlink_step_gone n h r s o x h' :
    rel_state h r -> cls o = cl s -> cls x = cl (negb s) -> ~ In x (lk r s o) -> kx (here s o) h r ->
    U_item n s o (VObj x) h = (Ok tt, h') ->
    rel_state h' (U1 lst s o x r) /\ kx (here s o) h' (U1 lst s o x r) /\ still s o h h'.
  Proof.
    intros R C Cx N K H. destruct (U_gone _ _ _ _ _ _ _ R C Cx N (K _ x (not_here' s o x)) H) as (R' & K' & F).
    split; [exact R' | split; [| apply (still_fr _ _ _ _ _ _ F); apply not_here]].
    apply (kx_fr (here s o) _ _ h h' r _ F K).
    - intros s' o' N1 N2. apply U1_off. intros [A | A]; contradiction.
    - intros s' o' N1 [-> ->]. exact K'.
    - apply here_dec.
  Qed.

  (** ** Linking *)
  Definition K_item (n : nat) (s : bool) (o : nat) (x : value) : st heap unit :=
    del_unlinked oeq o (nm s) x >> link_item ct oeq getter (run n) o (fd (negb s)) x >> link_graphs ct pystr o x.

  Lemma link_run n h r s o v : rel_state h r -> cls o = cl s ->
    run (S n) (TLink o (fd s) v) h = for_st (link_items (fd s) v) (K_item n s o) h.
  Proof.
    intros R C. cbn [ObjModel.run body]. unfold link, gets, bind.
    rewrite (rs_class _ _ R), C, r_other. reflexivity.
  Qed.
  Lemma link_graphs_quiet o x h h' : link_graphs ct pystr o (VObj x) h = (Ok tt, h') -> quiet h h'.
  Proof.
    unfold link_graphs. destruct (link_graph _ _ _ _ _) as [q g]. intros H. injection H as _ <-. apply graph_quiet.
  Qed.

  Lemma link_item_run n h r s o x :
    rel_state h r -> cls x = cl (negb s) -> robj o ->
    link_item ct oeq getter (run n) o (fd (negb s)) (VObj x) h =
    (if inb o (lk r (negb s) x) then (Ok tt, h)
     else
       ((if lst (negb s) then
           match attr h x (nm (negb s)) with
           | Some (VList _) => run n (TOp x (nm (negb s)) [] (nm (negb s)) (LAppend (VObj o)))
           | _ => run n (TSet x (nm (negb s)) (VList [VObj o]))
           end
         else run n (TSet x (nm (negb s)) (VObj o))) >>
        del_unlinked oeq x (nm (negb s)) (VObj o)) h).
  Proof.
    intros R C RO. unfold link_item. rewrite r_type.
    destruct (item_attr_run h r (negb s) x R C) as (v & E & EA & SH). rewrite EA.
    destruct (lst (negb s)) eqn:EL; unfold bind at 1; rewrite E.
    - apply shows_list in SH; [| exact EL]. destruct SH as [[SH ->] | SH]; injection SH as ->.
      + reflexivity.
      + unfold bind at 1, gets. rewrite contains_obj by (try apply (rs_same _ _ R); assumption). destruct (inb o _); reflexivity.
    - unfold bind at 1, gets. apply shows_inst in SH; [| exact EL].
      destruct SH as [[SH ->] | (b & SH & ->)]; injection SH as ->.
      + reflexivity.
      + rewrite eqv_obj by (try apply (rs_same _ _ R); auto). unfold inb. cbn [existsb]. rewrite orb_false_r. destruct (Nat.eqb_spec b o), (Nat.eqb_spec o b); try congruence; reflexivity.
  Qed.

  (** the back reference is there already *)
  Lemma K_quiet n h r s o x h' :
    rel_state h r -> cls o = cl s -> cls x = cl (negb s) -> In o (lk r (negb s) x) ->
    K_item n s o (VObj x) h = (Ok tt, h') ->
    rel_state h' (delp s o x r) /\ fr nowhere nowhere h h'.
  Proof.
    intros R C Cx N H. unfold K_item in H. apply ok_bind in H. destruct H as ([] & h1 & H1 & H).
    destruct (del_unlinked_state h r s o x R C (in_robj _ _ Cx)) as (h2 & E & R2 & F2). rewrite E in H1. injection H1 as ->.
    apply ok_bind in H. destruct H as ([] & h2 & H2 & H).
    rewrite (link_item_run n h1 _ s o x R2 Cx (in_robj _ _ C)) in H2. cbn [lk delp stp] in H2.
    apply inb_In in N. rewrite N in H2. injection H2 as ->.
    apply link_graphs_quiet in H. split; [apply (quiet_state _ _ _ H R2) |].
    eapply fr_trans; [exact F2 | apply fr_quiet, H].
  Qed.
  Lemma link_one n h r s o x h' : rel_state h r -> cls o = cl s -> lst s = true ->
    run n (TLink o (fd s) (VList [VObj x])) h = (Ok tt, h') -> exists m, K_item m s o (VObj x) h = (Ok tt, h').
  Proof.
    intros R C L H. destruct n as [| n]; [discriminate H |]. rewrite (link_run n h _ s o _ R C), (items_one s x L) in H.
    apply for_one in H. exists n. exact H.
  Qed.

  Lemma map_insert {X Y} (f : X -> Y) i x l : map f (py_insert i x l) = py_insert i (f x) (map f l).
  Proof.
    unfold py_insert. assert (E : py_insert_pos i (map f l) = py_insert_pos i l).
    { unfold py_insert_pos, norm_idx, zlen. rewrite map_length. reflexivity. }
    rewrite E, map_app, firstn_map. cbn [map]. rewrite skipn_map. reflexivity.
  Qed.

  (** The report of one added item, when linking it leads to [r3] *)
  Lemma event_add n h h' r r3 s o x i c lold (W : heap -> Prop) :
    (forall h1 h2, fr (here s o) nowhere h1 h2 -> W h1 -> W h2) ->
    rel_state h r -> cls o = cl s -> lst s = true -> (exists l, attr h o (nm s) = Some (VList l)) ->
    (strict = true -> is_local (fd s) = true -> length lold < length (lk r s o)) ->
    kok h s o lold ->
    (forall h3, run n (TLink o (fd s) (VList [VObj x])) h = (Ok tt, h3) -> rel_state h3 r3 /\ still s o h h3 /\ W h3) ->
    lk r3 s o = lk r s o ->
    list_event ct oeq getter (run n) o (nm s) [] (nm s) (CAdd i (VObj x), c) h = (Ok tt, h') ->
    rel_state h' r3 /\ kok h' s o (py_insert i x lold) /\ attr h' o (nm s) = attr h o (nm s) /\ W h'.
  Proof.
    intros HW R C HS HV Hst HK HU HL H.
    unfold list_event in H. cbn [fst] in H. unfold olist_add in H.
    apply ok_bind in H. destruct H as (a & h1 & G & H). unfold gets in G. injection G as Ga ->.
    unfold local_field_of in Ga. rewrite (rs_lkeys _ _ R), (no_key s o C) in Ga. subst a.
    apply ok_bind in H. destruct H as (a & h2 & G & H). unfold gets in G. injection G as Ga ->.
    rewrite (rs_ofield _ _ _ _ R), (in_class s o C) in Ga. subst a.
    rewrite r_ref in H. apply ok_bind in H. destruct H as ([] & h4 & H1 & HM).
    apply ok_bind in HM. destruct HM as ([] & h5 & HM1 & HM). injection HM1 as <-.
    pose proof (mark_quiet h4 o (nm s)) as QM. rewrite HM in QM. cbn [snd] in QM. clear HM.
    apply ok_bind in H1. destruct H1 as ([] & h3 & HR & H1).
    destruct (HU h3 HR) as (R3 & S3 & W3).
    assert (G : rel_state h4 r3 /\ kok h4 s o (py_insert i x lold) /\ fr (here s o) nowhere h3 h4).
    { destruct (is_local (fd s)) eqn:EL.
      - assert (KK : kept_key s o) by (split; assumption).
        destruct (HK KK) as (k & K3' & KL & KS). destruct (KL HS) as (ks & ->).
        rewrite <- (proj1 S3 KK) in K3'.
        unfold len_at in H1. unfold bind at 1 in H1. rewrite attr_at_nil in H1. fold (kat h3 s o) in H1.
        rewrite K3' in H1. unfold bind at 1 in H1. rewrite attr_at_nil in H1.
        destruct HV as (l3 & E3). rewrite <- (proj2 S3 C) in E3.
        pose proof (rs_link _ _ R3 s o C) as SH. rewrite E3 in SH. apply shows_list in SH; [| exact HS].
        destruct SH as [[SH _] | SH]; [discriminate SH |]. injection SH as ->.
        rewrite E3, HL in H1.
        destruct (zlen ks =? zlen (map VObj (lk r s o)))%Z eqn:NE.
        { injection H1 as ->. split; [exact R3 | split; [| apply fr_quiet, quiet_refl]]. intros _.
          exists (VList ks). split; [exact K3' | split; [eauto |]]. intros ST. exfalso.
          specialize (Hst ST eq_refl). specialize (KS ST). unfold keyval in KS. rewrite HS in KS.
          injection KS as ->. apply Z.eqb_eq in NE. unfold zlen in NE. rewrite !map_length in NE. apply Nat2Z.inj in NE.
          unfold Values.oid in *. lia. }
        apply ok_bind in H1. destruct H1 as (i' & h5 & G5 & H1).
        unfold vid in G5. injection G5 as <- <-. rewrite (rs_ids _ _ R3) in H1.
        destruct (is_none (id_of ct h0 x)); [discriminate H1 |].
        destruct (key_insert _ _ _ _ _ _ _ _ _ R3 KK K3' H1) as (R4 & K4 & F4).
        split; [exact R4 | split; [| exact F4]].
        intros _. eexists. split; [exact K4 | split; [eauto |]]. intros ST.
        specialize (KS ST). unfold keyval in KS. rewrite HS in KS. injection KS as ->.
        unfold keyval. rewrite HS, map_insert. reflexivity.
      - injection H1 as ->. split; [exact R3 | split; [intros [K _]; congruence | apply fr_quiet, quiet_refl]]. }
    destruct G as (R4 & K4 & F4).
    split; [apply (quiet_state _ _ _ QM R4) |]. split; [| split].
    - intros KK. unfold kat. rewrite (quiet_attr _ _ _ _ QM). apply K4, KK.
    - rewrite (quiet_attr _ _ _ _ QM). rewrite (proj2 F4 s o C (fun x => x)). apply (proj2 S3 C).
    - apply (HW h4); [apply fr_quiet, QM |]. apply (HW h3); assumption.
  Qed.

  Lemma py_insert_len {X} (x : X) l i : i = zlen l -> py_insert i x l = l ++ [x].
  Proof.
    intros ->. unfold py_insert. assert (E : py_insert_pos (zlen l) l = length l).
    { unfold py_insert_pos, clamp, norm_idx, zlen. destruct (Z.ltb_spec (Z.of_nat (length l)) 0); lia. }
    rewrite E, firstn_all, skipn_all. reflexivity.
  Qed.
  Lemma py_insert_end {X} (x : X) l : py_insert (zlen (l ++ [x]) - 1) x l = l ++ [x].
  Proof. apply py_insert_len. unfold zlen. rewrite app_length. cbn [length]. lia. Qed.

  Lemma upd_attr h o n v : attr (upd o (set_attr n v) h) o n = Some v.
  Proof. unfold attr, upd. cbn [h_obj]. rewrite Nat.eqb_refl. cbn [set_attr o_attr]. rewrite String.eqb_refl. reflexivity. Qed.
  Lemma stk_at s o l r : lk (stk s o l r) s o = l.
  Proof. unfold stk. cbn [lk]. apply put_same. Qed.
  Lemma stk_else s o l r s' o' : ~ here s o s' o' -> lk (stk s o l r) s' o' = lk r s' o'.
  Proof.
    intros N. unfold stk. cbn [lk]. unfold put. destruct (Bool.eqb s' s && Nat.eqb o' o) eqn:K; [| reflexivity].
    apply andb_true_iff in K. destruct K as [K1' K2]. apply eqb_prop in K1'. apply Nat.eqb_eq in K2. subst.
    destruct N. split; reflexivity.
  Qed.

  (** *** Appending an item that refers back already *)
  Lemma append_back n h r s o x h' :
    rel_state h r -> cls o = cl s -> cls x = cl (negb s) -> lst s = true ->
    (exists l, attr h o (nm s) = Some (VList l)) -> ~ In x (lk r s o) -> In o (lk r (negb s) x) ->
    kok h s o (lk r s o) ->
    run n (TOp o (nm s) [] (nm s) (LAppend (VObj x))) h = (Ok tt, h') ->
    rel_state h' (delp s o x (stk s o (lk r s o ++ [x]) r)) /\ kok h' s o (lk r s o ++ [x]) /\
    fr (here s o) (here s o) h h'.
  Proof.
    intros R C Cx L (l0 & EA) N Ho HK H. destruct n as [| n]; [discriminate H |].
    pose proof (rs_link _ _ R s o C) as SH. rewrite EA in SH. apply shows_list in SH; [| exact L].
    destruct SH as [[SH _] | SH]; [discriminate SH |]. injection SH as ->.
    destruct (op_run n h r s o (lk r s o) _ h' R C EA H) as (y & l' & es & h1 & OS & Q & HF).
    cbn [owned_step] in OS. unfold o_append in OS. injection OS as _ El Ee. subst l' es.
    assert (EM : map VObj (lk r s o) ++ [VObj x] = map VObj (lk r s o ++ [x])) by (rewrite map_app; reflexivity).
    rewrite EM in HF.
    pose proof (quiet_state _ _ _ Q R) as R1.
    destruct (set_link_state h1 r s o (VList (map VObj (lk r s o ++ [x]))) (lk r s o ++ [x]) R1 C) as (R2 & K2 & A2).
    { right. rewrite L. reflexivity. }
    { intros z Hz. apply in_app_or in Hz. destruct Hz as [Hz | [<- | []]]; [apply (rs_items _ _ R s o z Hz) | exact Cx]. }
    { apply nodup_snoc; [apply (rs_tidy _ _ R) | exact N]. }
    pose proof (upd_attr h1 o (nm s) (VList (map VObj (lk r s o ++ [x])))) as V2.
    set (h2 := upd o (set_attr (nm s) (VList (map VObj (lk r s o ++ [x])))) h1) in *.
    assert (F02 : fr nowhere (here s o) h h2).
    { eapply fr_trans; [apply fr_quiet, Q | split; assumption]. }
    cbn [for_st] in HF. apply ok_bind in HF. destruct HF as ([] & h3 & HF1 & HF).
    unfold list_event in HF1 at 1. cbn [fst] in HF1. injection HF1 as HF1. subst h3.
    apply ok_bind in HF. destruct HF as ([] & h3 & HF1 & HF). injection HF as HF. subst h3.
    set (r2 := stk s o (lk r s o ++ [x]) r) in *.
    rename HF1 into HE. match type of HE with list_event _ _ _ _ _ _ _ _ (CAdd ?i _, ?c) _ = _ =>
      destruct (event_add n h2 h' r2 (delp s o x r2) s o x i c (lk r s o) (fun h3 => fr (here s o) (here s o) h h3))
        with (10 := HE) as (R4 & K4 & A4 & F4) end.
    - intros a b Fab Fa. eapply fr_trans; [exact Fa | eapply fr_weak; [| | exact Fab]; [auto | intros ? ? []]].
    - exact R2.
    - exact C.
    - exact L.
    - eauto.
    - intros _ _. unfold r2. rewrite stk_at, app_length. cbn [length]. lia.
    - apply (kok_fr _ _ _ _ _ _ _ F02); [intros [] | exact HK].
    - intros h3 HR. destruct (link_one _ _ _ _ _ _ _ R2 C L HR) as (m & HR').
      destruct (K_quiet m h2 r2 s o x h3 R2 C Cx) as [R3 F3]; [| exact HR' |].
      { unfold r2. rewrite stk_else by apply not_here'. exact Ho. }
      split; [exact R3 | split; [apply (still_fr _ _ _ _ _ _ F3); intros [] |]].
      eapply fr_trans; [eapply fr_weak; [| | exact F02]; [intros ? ? [] | auto] | apply fr_none, F3].
    - reflexivity.
    - split; [exact R4 | split; [| exact F4]]. 
      assert (EI : zlen (map VObj (lk r s o ++ [x])) = zlen (lk r s o ++ [x])).
      { unfold zlen. rewrite map_length. reflexivity. }
      rewrite EI, py_insert_end in K4. exact K4.
  Qed.

  (** *** Assigning a reference *)
  Lemma set_run n h r s o v h' : rel_state h r -> cls o = cl s ->
    run n (TSet o (nm s) v) h = (Ok tt, h') ->
    exists cur, attr h o (nm s) = Some cur /\
     ((eqv oeq h v cur = true /\ h' = h) \/
      exists n' h1 h2 h4, quiet h h1 /\ run n' (TUnlink o (fd s) cur) h1 = (Ok tt, h2) /\
        store_local ct o (fd s) v (upd o (set_attr (nm s) v) h2) = (Ok tt, h4) /\
        run n' (TLink o (fd s) v) h4 = (Ok tt, h')).
  Proof.
    intros R C H. destruct n as [| n]; [discriminate H |]. cbn [ObjModel.run body] in H. unfold set_attribute in H.
    apply ok_bind in H. destruct H as (a & hh & G & H). unfold gets in G. injection G as Ga ->.
    unfold local_field_of in Ga. rewrite (rs_lkeys _ _ R), (no_key s o C) in Ga. subst a.
    apply ok_bind in H. destruct H as (a & h2 & G & H). unfold gets in G. injection G as Ga ->.
    rewrite (rs_ofield _ _ _ _ R), (in_class s o C) in Ga. subst a.
    unfold set_field in H. rewrite not_calc in H.
    destruct (item_attr_run h2 r s o R C) as (cur & _ & EA & _).
    apply ok_bind in H. destruct H as (a & h3 & G & H). unfold gets in G. injection G as <- <-. rewrite EA in H.
    apply ok_bind in H. destruct H as (a & h3 & G & H). unfold gets in G. injection G as Ga <-.
    exists cur. split; [exact EA |]. destruct a; [left; split; [exact Ga | injection H; congruence] | right].
    apply ok_bind in H. destruct H as (a & h3 & G & H). unfold gets in G. injection G as _ <-.
    apply ok_bind in H. destruct H as ([] & h3 & G & H).
    assert (Q : quiet h2 h3).
    { destruct a; [injection G as ->; apply quiet_refl |].
      apply ok_bind in G. destruct G as ([] & h4 & G1 & G).
      pose proof (mark_quiet h2 o (nm s)) as QM. rewrite G1 in QM. cbn [snd] in QM. apply (quiet_trans _ _ _ QM).
      apply ok_bind in G. destruct G as (q & h5 & G2 & G). unfold gets in G2. injection G2 as _ <-.
      destruct q; [| injection G as ->; apply quiet_refl].
      apply ok_bind in G. destruct G as (q & h5 & G2 & G). unfold gets in G2. injection G2 as _ <-.
      destruct q; [injection G as ->; apply quiet_refl |].
      apply ok_bind in G. destruct G as (q & h5 & G2 & G).
      pose proof (getattr_pure ct getter o (nm s) h4) as P. rewrite G2 in P. cbn [snd] in P. subst h5.
      pose proof (remember_quiet h4 o (nm s) q) as QR. rewrite G in QR. exact QR. }
    rewrite r_ref in H. apply ok_bind in H. destruct H as ([] & h4 & G4 & H).
    apply ok_bind in H. destruct H as ([] & h5 & G5 & H). unfold updm, modify in G5. injection G5 as <-.
    apply ok_bind in H. destruct H as ([] & h6 & G6 & H).
    exists n, h3, h4, h6. auto.
  Qed.

  Lemma keys_of_run h r l : rel_state h r -> keys_of ct (map VObj l) h = (Ok (map (id_of ct h0) l), h).
  Proof.
    intros R. induction l as [| x l IH]; [reflexivity |]. cbn [map keys_of is_none]. unfold bind at 1. cbn [vid].
    unfold bind. rewrite IH. rewrite (rs_ids _ _ R). reflexivity.
  Qed.

  Lemma store_run h r s o v l h' : rel_state h r -> cls o = cl s -> shows s (Some v) l ->
    store_local ct o (fd s) v h = (Ok tt, h') ->
    rel_state h' r /\ kok h' s o l /\ fr (here s o) nowhere h h'.
  Proof.
    intros R C SH H. unfold store_local in H. destruct (is_local (fd s)) eqn:EL.
    2:{ injection H as ->. split; [exact R | split; [intros [K _]; congruence | apply fr_quiet, quiet_refl]]. }
    assert (KK : kept_key s o) by (split; assumption). rewrite r_type in H.
    assert (SK : forall ks, store_keys o (rf s) ks h = (Ok tt, h') ->
              rel_state h' r /\ kat h' s o = Some (VList ks) /\ fr (here s o) nowhere h h').
    { intros ks K. destruct (set_key_state h r s o (VList ks) R KK) as (R1 & K1' & F1 & A1).
      unfold store_keys, updm, modify in K. injection K as <-.
      set (ha := upd o (set_attr (rf s) (VList ks)) h) in *.
      set (hb := upd o (fun b => set_raw _ _) h) in *.
      assert (E : forall x, o_class (h_obj hb x) = o_class (h_obj ha x) /\ o_attr (h_obj hb x) = o_attr (h_obj ha x) /\
                  o_lkeys (h_obj hb x) = o_lkeys (h_obj ha x) /\ o_unlinked (h_obj hb x) = o_unlinked (h_obj ha x) /\
                  (forall k, In k (o_raw (h_obj hb x)) -> In k (o_raw (h_obj ha x)))).
      { intros x. unfold ha, hb, upd. cbn [h_obj]. destruct (Nat.eqb x o); repeat split; auto.
        cbn. intros k Hk. apply filter_In in Hk. apply Hk. }
      clearbody ha hb. destruct R1 as [A B C' D F G HP I T].
      assert (AT : forall x n, attr hb x n = attr ha x n).
      { intros x n. unfold attr. destruct (E x) as (_ & -> & _). reflexivity. }
      split; [| split; [unfold kat; rewrite AT; exact K1' |]].
      - constructor; auto.
        + intros x. destruct (E x) as (-> & _). apply A.
        + intros x. destruct (E x) as (_ & _ & -> & _). apply B.
        + intros x k Hk. destruct (E x) as (_ & _ & _ & _ & Er). apply C', Er, Hk.
        + intros z. rewrite <- D. unfold id_of, cdef_of. destruct (E z) as (-> & _). destruct (primary_field _); [rewrite AT |]; reflexivity.
        + intros s' o' Ho'. rewrite AT. apply F, Ho'.
        + intros s' o' Ho'. unfold pool_of. destruct (E o') as (_ & _ & _ & -> & _). apply HP, Ho'.
      - split; [intros s' o' K N; unfold kat; rewrite AT; apply F1; assumption | intros s' o' K N; rewrite AT; apply A1; assumption]. }
    destruct (lst s) eqn:L.
    - apply shows_list in SH; [| exact L]. destruct SH as [[SH ->] | SH]; injection SH as ->.
      + destruct (SK [] H) as (R' & K' & F'). split; [exact R' | split; [| exact F']]. intros _.
        exists (VList []). split; [exact K' | split; [eauto |]]. unfold keyval. rewrite L. reflexivity.
      + apply ok_bind in H. destruct H as (ks & h1 & G & H). rewrite (keys_of_run h r l R) in G. injection G as <- <-.
        destruct (SK _ H) as (R' & K' & F'). split; [exact R' | split; [| exact F']]. intros _.
        eexists. split; [exact K' | split; [eauto |]]. unfold keyval. rewrite L. reflexivity.
    - apply shows_inst in SH; [| exact L]. destruct SH as [[SH ->] | (b & SH & ->)]; injection SH as ->.
      + unfold updm, modify in H. injection H as <-.
        destruct (set_key_state h r s o VNone R KK) as (R1 & K1' & F1). split; [exact R1 | split; [| exact F1]].
        intros _. eexists. split; [exact K1' | split; [congruence |]]. unfold keyval. rewrite L. reflexivity.
      + apply ok_bind in H. destruct H as (i & h1 & G & H). unfold vid in G. injection G as <- <-.
        rewrite (rs_ids _ _ R) in H. unfold updm, modify in H. injection H as <-.
        destruct (set_key_state h r s o (id_of ct h0 b) R KK) as (R1 & K1' & F1). split; [exact R1 | split; [| exact F1]].
        intros _. eexists. split; [exact K1' | split; [congruence |]]. unfold keyval. rewrite L. reflexivity.
  Qed.

  Lemma delp_lk s o x r s' o' : lk (delp s o x r) s' o' = lk r s' o'.
  Proof. reflexivity. Qed.
  Lemma delp_twice s o x r : tidy lst r -> req (delp s o x (delp s o x r)) (delp s o x r).
  Proof.
    intros T. apply delp_noop. unfold delp, stp. cbn [pl]. rewrite put_same, rm1_in by apply (td_pl _ _ T).
    intros [_ K]. congruence.
  Qed.
  Lemma upd_state h r s o v l : rel_state h r -> cls o = cl s -> shows s (Some v) l ->
    (forall x, In x l -> cls x = cl (negb s)) -> NoDup l ->
    rel_state (upd o (set_attr (nm s) v) h) (stk s o l r) /\ fr nowhere (here s o) h (upd o (set_attr (nm s) v) h).
  Proof. intros R C SH I N. destruct (set_link_state h r s o v l R C SH I N) as (A & B & D). split; [exact A | split; assumption]. Qed.
  Lemma single_of s r o : tidy lst r -> lst s = false -> forall b l, lk r s o = b :: l -> l = [].
  Proof.
    intros T L b l E. pose proof (td_inst _ _ T s o L) as K. rewrite E in K. destruct l; [reflexivity | cbn in K; lia].
  Qed.

  (** *** Assigning to the reference of an object that the item refers to already *)
  Definition one_value (s : bool) (x : nat) : value := if lst s then VList [VObj x] else VObj x.
  Lemma one_shows s x : shows s (Some (one_value s x)) [x].
  Proof. right. unfold one_value. destruct (lst s); [reflexivity | eauto]. Qed.
  Lemma one_items s x : link_items (fd s) (one_value s x) = [VObj x].
  Proof. unfold link_items, one_value. rewrite r_type. destruct (lst s); reflexivity. Qed.

  Lemma set_back n h r s o x h' :
    rel_state h r -> cls o = cl s -> cls x = cl (negb s) -> ~ In x (lk r s o) -> In o (lk r (negb s) x) ->
    kx (here (negb s) x) h r -> (lst s = true -> attr h o (nm s) = Some VNone) ->
    run n (TSet o (nm s) (one_value s x)) h = (Ok tt, h') ->
    let r2 := match lk r s o with y :: _ => U1 lst s o y r | [] => r end in
    let r3 := stk s o [x] r2 in
    tidy lst r3 /\ rel_state h' (delp s o x r3) /\ kx (here (negb s) x) h' r3 /\ still (negb s) x h h'.
  Proof.
    intros R C Cx N Ho K HV H r2 r3.
    destruct (set_run n h r s o _ h' R C H) as (cur & EA & [[EQ ->] | (n' & h1 & h2 & h4 & Q & HU & HS & HL)]).
    { exfalso. pose proof (rs_link _ _ R s o C) as SH. rewrite EA in SH. unfold one_value in EQ. destruct (lst s) eqn:L.
      - rewrite (HV eq_refl) in EA. injection EA as <-. discriminate EQ.
      - apply shows_inst in SH; [| exact L]. destruct SH as [[SH _] | (b & SH & SL)]; injection SH as ->; [discriminate EQ |].
        rewrite eqv_obj in EQ by (try apply (rs_same _ _ R); left; apply (in_robj _ _ Cx)). apply Nat.eqb_eq in EQ. subst b. apply N. rewrite SL. left. reflexivity. }
    assert (Kh1 : kx (here (negb s) x) h1 r) by (apply (kx_quiet _ h); [apply fr_quiet, Q | exact K]).
    pose proof (quiet_state _ _ _ Q R) as R1.
    assert (ST : rel_state h2 r2 /\ kx (here (negb s) x) h2 r2 /\ still (negb s) x h1 h2 /\ In o (lk r2 (negb s) x)).
    { pose proof (rs_link _ _ R s o C) as SH. rewrite EA in SH. destruct n' as [| n']; [discriminate HU |].
      rewrite (unlink_run n' h1 r s o cur R1 C) in HU. unfold r2.
      assert (D : cur = VNone /\ lk r s o = [] \/ exists b, lst s = false /\ cur = VObj b /\ lk r s o = [b]).
      { destruct (lst s) eqn:L.
        - rewrite (HV eq_refl) in EA. injection EA as <-. left. split; [reflexivity |].
          apply shows_list in SH; [| exact L]. destruct SH as [[_ SH] | SH]; [exact SH | discriminate SH].
        - apply shows_inst in SH; [| exact L]. destruct SH as [[SH SL] | (b & SH & SL)]; injection SH as ->; [auto |].
          right. exists b. auto. }
      destruct D as [[-> ->] | (b & L & -> & EL)].
      - assert (E0 : link_items (fd s) VNone = []) by (unfold link_items; rewrite r_type; destruct (lst s); reflexivity).
        rewrite E0 in HU. injection HU as ->. split; [exact R1 | split; [exact Kh1 | split; [apply still_refl | exact Ho]]].
      - rewrite EL. assert (E0 : link_items (fd s) (VObj b) = [VObj b]) by (unfold link_items; rewrite r_type, L; reflexivity).
        rewrite E0 in HU. apply for_one in HU.
        assert (Hb : In b (lk r s o)) by (rewrite EL; left; reflexivity).
        assert (Nb : b <> x) by (intros ->; contradiction).
        assert (NT : ~ two s o b (negb s) x) by (intros [[_ A] | [A _]]; [congruence | destruct s; discriminate A]).
        destruct (unlink_any n' h1 r s o b h2 R1 C (rs_items _ _ R _ _ _ Hb)) as (R2 & Ka & Kb & F2); [| | exact HU |].
        { apply Kh1. apply not_here. }
        { apply Kh1. intros [_ A]. congruence. }
        split; [exact R2 | split; [| split]].
        + apply (kx_fr (here (negb s) x) _ _ h1 h2 r _ F2 Kh1).
          * intros s' o' _ A. apply U1_off, A.
          * intros s' o' _ [[-> ->] | [-> ->]]; assumption.
          * apply two_dec.
        + apply (still_fr _ _ _ _ _ _ F2); exact NT.
        + rewrite U1_off by exact NT. exact Ho. }
    destruct ST as (R2 & K2 & S2 & Ho2).
    destruct (upd_state h2 r2 s o (one_value s x) [x] R2 C (one_shows s x)) as [R3 F3].
    { intros z [<- | []]. exact Cx. } { constructor; [intros [] | constructor]. }
    destruct (store_run _ _ s o _ [x] h4 R3 C (one_shows s x) HS) as (R4 & K4 & F4).
    destruct n' as [| n']; [discriminate HL |]. rewrite (link_run n' h4 _ s o _ R4 C), one_items in HL. apply for_one in HL.
    destruct (K_quiet n' h4 _ s o x h' R4 C Cx) as [R5 F5]; [| exact HL |].
    { rewrite stk_else by apply not_here'. exact Ho2. }
    split; [apply (rs_tidy _ _ R4) | split; [exact R5 | split]].
    - apply (kx_quiet _ h4 _ _ F5). unfold r3. intros s' o' N'. destruct (here_dec s o s' o') as [[-> ->] | NH].
      + rewrite stk_at. exact K4.
      + rewrite stk_else by exact NH. apply (kok_fr _ _ _ _ _ _ _ F4 NH). apply (kok_fr _ _ _ _ _ _ _ F3); [intros [] |].
        apply K2, N'.
    - apply (still_trans _ _ _ h1); [apply still_quiet, Q |]. apply (still_trans _ _ _ h2); [exact S2 |].
      apply (still_trans _ _ _ _ _ (still_fr _ _ _ _ _ _ F3 (fun x => x) (not_here' s o x))).
      apply (still_trans _ _ _ h4); [apply (still_fr _ _ _ _ _ _ F4); [apply not_here' | intros []] |].
      apply (still_fr _ _ _ _ _ _ F5); intros [].
  Qed.

  (** *** Linking an item that the object refers to *)
  Lemma link_step n h r s o x h' :
    rel_state h r -> cls o = cl s -> cls x = cl (negb s) -> In x (lk r s o) -> kx (here s o) h r ->
    K_item n s o (VObj x) h = (Ok tt, h') ->
    rel_state h' (K1 lst s o x r) /\ kx (here s o) h' (K1 lst s o x r) /\ still s o h h'.
  Proof.
    intros R C Cx Hx K H. destruct (in_dec Nat.eq_dec o (lk r (negb s) x)) as [Ho | Ho].
    { destruct (K_quiet _ _ _ _ _ _ _ R C Cx Ho H) as [R' F'].
      assert (E : K1 lst s o x r = delp s o x r) by (unfold K1; apply inb_In in Ho; rewrite Ho; reflexivity).
      rewrite E. split; [exact R' | split; [| apply (still_fr _ _ _ _ _ _ F'); intros []]].
      apply (kx_quiet _ _ _ _ F'). exact K. }
    unfold K_item in H. apply ok_bind in H. destruct H as ([] & h1 & H1 & H).
    destruct (del_unlinked_state h r s o x R C (in_robj _ _ Cx)) as (h2 & E & R1 & F1). rewrite E in H1. injection H1 as ->.
    apply ok_bind in H. destruct H as ([] & h2 & H2 & HG). apply link_graphs_quiet in HG.
    rewrite (link_item_run n h1 _ s o x R1 Cx (in_robj _ _ C)) in H2. cbn [lk delp stp] in H2.
    unfold K1. apply inb_not in Ho. rewrite Ho in H2 |- *. apply inb_not in Ho.
    apply ok_bind in H2. destruct H2 as ([] & h3 & H3 & H2).
    assert (K1' : kx (here s o) h1 (delp s o x r)) by (apply (kx_quiet _ _ _ _ F1), K).
    assert (S1 : still s o h h1) by (apply (still_fr nowhere nowhere); [exact F1 | intros [] | intros []]).
    set (r1 := delp s o x r) in *.
    (* it is enough to follow the assignment or append *)
    assert (FIN : forall r3, tidy lst r3 -> rel_state h3 (delp (negb s) x o r3) -> kx (here s o) h3 r3 -> still s o h1 h3 ->
              rel_state h' (delp (negb s) x o r3) /\ kx (here s o) h' (delp (negb s) x o r3) /\ still s o h h').
    { intros r3 T3 R3 K3 S3.
      destruct (del_unlinked_state h3 _ (negb s) x o R3 Cx (in_robj _ _ C)) as (h4 & E4 & R4 & F4). rewrite E4 in H2. injection H2 as ->.
      split; [| split].
      - apply (quiet_state _ _ _ HG). apply (rs_req _ _ _ (delp_twice _ _ _ _ T3) R4).
      - apply (kx_quiet _ h2); [apply fr_quiet, HG |]. apply (kx_quiet _ h3); [exact F4 | exact K3].
      - apply (still_trans _ _ _ h1 _ S1). apply (still_trans _ _ _ h3 _ S3).
        apply (still_trans _ _ _ h2); [apply (still_fr nowhere nowhere); [exact F4 | intros [] | intros []] | apply still_quiet, HG]. }
    assert (Hx1 : In x (lk r1 (negb (negb s)) o)) by (rewrite negb_involutive; exact Hx).
    assert (BACK : run n (TSet x (nm (negb s)) (one_value (negb s) o)) h1 = (Ok tt, h3) ->
              (lst (negb s) = true -> attr h1 x (nm (negb s)) = Some VNone) ->
              let r3 := stk (negb s) x [o] (match lk r (negb s) x with y :: _ => U1 lst (negb s) x y r1 | [] => r1 end) in
              rel_state h' (delp (negb s) x o r3) /\ kx (here s o) h' (delp (negb s) x o r3) /\ still s o h h').
    { intros HS HV r3.
      destruct (set_back n h1 r1 (negb s) x o h3 R1 Cx) with (6 := HS) as (T & R3 & K3 & S3).
      - rewrite negb_involutive. exact C.
      - exact Ho.
      - exact Hx1.
      - rewrite negb_involutive. exact K1'.
      - exact HV.
      - rewrite negb_involutive in K3, S3. apply FIN; assumption. }
    destruct (lst (negb s)) eqn:L.
    - pose proof (rs_link _ _ R1 (negb s) x Cx) as SH. apply shows_list in SH; [| exact L].
      destruct SH as [[SH SL] | SH]; rewrite SH in H3.
      + assert (SL' : lk r (negb s) x = []) by exact SL. rewrite SL' in BACK |- *. cbn [app].
        apply BACK; [| intros _; exact SH]. unfold one_value. rewrite L. exact H3.
      + destruct (append_back n h1 r1 (negb s) x o h3 R1 Cx) with (7 := H3) as (R3 & K3 & F3).
        * rewrite negb_involutive. exact C.
        * exact L.
        * eauto.
        * exact Ho.
        * exact Hx1.
        * apply K1'. apply not_here'.
        * assert (TT : tidy lst (stk (negb s) x (lk r1 (negb s) x ++ [o]) r1)).
          { destruct (rs_tidy _ _ R1) as [A B D]. constructor; [| exact B |]; intros s' o'; unfold stk; cbn [lk]; unfold put.
            - destruct (_ && _); [apply nodup_snoc; [apply A | exact Ho] | apply A].
            - intros Ls. destruct (Bool.eqb s' (negb s) && Nat.eqb o' x) eqn:EE; [| apply D, Ls].
              apply andb_true_iff in EE. destruct EE as [E1 _]. apply eqb_prop in E1. congruence. }
          apply FIN; [exact TT | exact R3 | | apply (still_fr _ _ _ _ _ _ F3); apply not_here].
          apply (kx_fr (here s o) _ _ h1 h3 r1 _ F3 K1').
          -- intros s' o' _ NH. apply stk_else, NH.
          -- intros s' o' _ [-> ->]. rewrite stk_at. exact K3.
          -- apply here_dec.
    - apply BACK; [| discriminate]. unfold one_value. rewrite L. exact H3.
  Qed.

  Lemma K1_own s o x r : tidy lst r -> lk (K1 lst s o x r) s o = lk r s o.
  Proof. intros T. destruct (K1_facts lst s o r x T) as (_ & K & _). exact K. Qed.

  (** ** Whole operations *)
  Lemma kok_any h s o l l' : (strict = true -> is_local (fd s) = true -> l = l') -> kok h s o l -> kok h s o l'.
  Proof.
    intros E K KK. destruct (K KK) as (k & A & B & D). exists k. split; [exact A | split; [exact B |]].
    intros ST. rewrite <- (E ST (proj1 KK)). apply D, ST.
  Qed.
  Lemma kx_drop s o h r : kx (here s o) h r -> kok h s o (lk r s o) -> kx nowhere h r.
  Proof.
    intros K K' s' o' _. destruct (here_dec s o s' o') as [[-> ->] | N]; [exact K' | apply K, N].
  Qed.

  Lemma unlink_all n xs : forall h r s o h', rel_state h r -> kx nowhere h r -> cls o = cl s ->
    (forall x, In x xs -> cls x = cl (negb s)) ->
    for_st (map VObj xs) (U_item n s o) h = (Ok tt, h') ->
    rel_state h' (Us lst s o xs r) /\ kx nowhere h' (Us lst s o xs r).
  Proof.
    induction xs as [| x xs IH]; intros h r s o h' R K C I H; cbn [map for_st] in H.
    - injection H as ->. split; assumption.
    - apply ok_bind in H. destruct H as ([] & h1 & H1 & H).
      destruct (unlink_step n h r s o x h1 R C (I x (or_introl eq_refl)) K H1) as [R1 K1'].
      apply (IH h1 _ s o h' R1 K1' C); [intros z Hz; apply I; right; exact Hz | exact H].
  Qed.
  Lemma link_all n xs : forall h r s o h', rel_state h r -> kx (here s o) h r -> cls o = cl s ->
    (forall x, In x xs -> In x (lk r s o)) ->
    for_st (map VObj xs) (K_item n s o) h = (Ok tt, h') ->
    rel_state h' (Ks lst s o xs r) /\ kx (here s o) h' (Ks lst s o xs r) /\ still s o h h' /\
    lk (Ks lst s o xs r) s o = lk r s o.
  Proof.
    induction xs as [| x xs IH]; intros h r s o h' R K C I H; cbn [map for_st] in H.
    - injection H as ->. split; [assumption | split; [assumption | split; [apply still_refl | reflexivity]]].
    - apply ok_bind in H. destruct H as ([] & h1 & H1 & H).
      pose proof (I x (or_introl eq_refl)) as Hx.
      destruct (link_step n h r s o x h1 R C (rs_items _ _ R _ _ _ Hx) Hx K H1) as (R1 & K1' & S1).
      pose proof (K1_own s o x r (rs_tidy _ _ R)) as OW.
      destruct (IH h1 _ s o h' R1 K1' C) as (R2 & K2 & S2 & OW2); [intros z Hz; rewrite OW; apply I; right; exact Hz | exact H |].
      split; [exact R2 | split; [exact K2 | split]].
      + apply (still_trans _ _ _ _ _ S1 S2).
      + change (lk (Ks lst s o xs (K1 lst s o x r)) s o = lk r s o). rewrite OW2. exact OW.
  Qed.
  Lemma items_shown s v l : shows s (Some v) l -> link_items (fd s) v = map VObj l.
  Proof.
    unfold shows, link_items. rewrite r_type. destruct (lst s); intros [[E ->] | E].
    - injection E as ->. reflexivity.
    - injection E as ->. reflexivity.
    - injection E as ->. reflexivity.
    - destruct E as (b & E & ->). injection E as ->. reflexivity.
  Qed.
  Lemma shows_inj s h v l v' l' : same h -> (forall x, In x l -> robj x) -> shows s (Some v) l -> shows s (Some v') l' -> eqv oeq h v v' = true -> l = l'.
  Proof.
    unfold shows. intros SM RO A B E. destruct (lst s).
    - destruct A as [[A ->] | A], B as [[B ->] | B]; injection A as ->; injection B as ->; try reflexivity; try discriminate E.
      apply (eqv_list h _ _ SM RO E).
    - destruct A as [[A ->] | (a & A & ->)], B as [[B ->] | (b & B & ->)]; injection A as ->; injection B as ->; try reflexivity; try discriminate E.
      rewrite eqv_obj in E by (auto; left; apply RO; left; reflexivity). apply Nat.eqb_eq in E. subst. reflexivity.
  Qed.

  (** *** Assigning a reference field *)
  Lemma assign_run n h r s o v new h' :
    rel_state h r -> kx nowhere h r -> cls o = cl s -> shows s (Some v) new -> NoDup new ->
    (forall x, In x new -> cls x = cl (negb s)) ->
    run n (TSet o (nm s) v) h = (Ok tt, h') ->
    (new = lk r s o /\ h' = h) \/ (rel_state h' (SetA lst s o new r) /\ kx nowhere h' (SetA lst s o new r)).
  Proof.
    intros R K C SH N I H.
    destruct (set_run n h r s o v h' R C H) as (cur & EA & [[EQ ->] | (n' & h1 & h2 & h4 & Q & HU & HS & HL)]).
    { left. split; [| reflexivity]. pose proof (rs_link _ _ R s o C) as SH'. rewrite EA in SH'.
      apply (shows_inj s h _ _ _ _ (rs_same _ _ R) (fun x Hx => in_robj _ _ (I x Hx)) SH SH' EQ). }
    right. destruct n' as [| n']; [discriminate HU |].
    pose proof (quiet_state _ _ _ Q R) as R1. pose proof (kx_quiet _ _ _ _ (fr_quiet nowhere nowhere _ _ Q) K) as Kh1.
    rewrite (unlink_run n' h1 r s o cur R1 C) in HU.
    pose proof (rs_link _ _ R s o C) as SH'. rewrite EA in SH'. rewrite (items_shown _ _ _ SH') in HU.
    destruct (unlink_all n' (lk r s o) h1 r s o h2 R1 Kh1 C) with (2 := HU) as [R2 K2].
    { intros x Hx. apply (rs_items _ _ R s o x Hx). }
    destruct (upd_state h2 _ s o v new R2 C SH I N) as [R3 F3].
    destruct (store_run _ _ s o _ new h4 R3 C SH HS) as (R4 & K4 & F4).
    rewrite (link_run n' h4 _ s o _ R4 C), (items_shown _ _ _ SH) in HL.
    assert (KX4 : kx (here s o) h4 (stk s o new (Us lst s o (lk r s o) r))).
    { intros s' o' NH. rewrite stk_else by exact NH. apply (kok_fr _ _ _ _ _ _ _ F4 NH).
      apply (kok_fr _ _ _ _ _ _ _ F3); [intros [] |]. apply K2. intros []. }
    destruct (link_all n' new h4 _ s o h' R4 KX4 C) with (2 := HL) as (R5 & K5 & S5 & OW).
    { intros x Hx. rewrite stk_at. exact Hx. }
    split; [exact R5 |]. apply (kx_drop s o); [exact K5 |].
    change (kok h' s o (lk (Ks lst s o new (stk s o new (Us lst s o (lk r s o) r))) s o)). rewrite OW, stk_at.
    apply (still_kok s o h4 _ _ S5 K4).
  Qed.

  (** *** The reports of a list method *)
  Definition absev (es : list (ev value)) : list (bool * nat) :=
    flat_map (fun e => match fst e with
                       | CDel (Some (VObj x)) => [(false, x)]
                       | CAdd _ (VObj x) => [(true, x)]
                       | _ => []
                       end) es.
  Definition obj_ev (e : ev value) : Prop :=
    match fst e with
    | CWill | CSor => True
    | CDel (Some (VObj _)) => True
    | CAdd _ (VObj _) => True
    | _ => False
    end.
  Lemma rmf_obj h x l : same h -> robj x -> rmf (eqv oeq h) (VObj x) (map VObj l) = map VObj (rm1 x l).
  Proof. exact (remove_first_obj h x l). Qed.

  Lemma events_run n es : forall h r s o hq lold h', same hq ->
    rel_state h r -> kx (here s o) h r -> cls o = cl s -> lst s = true ->
    attr h o (nm s) = Some (VList (map VObj (lk r s o))) ->
    kok h s o lold -> (forall y, In y lold -> cls y = cl (negb s)) ->
    Forall obj_ev es ->
    (forall x, In (false, x) (absev es) -> ~ In x (lk r s o) /\ cls x = cl (negb s)) ->
    (forall x, In (true, x) (absev es) -> In x (lk r s o)) ->
    (strict = true -> is_local (fd s) = true -> follows (eqv oeq hq) es (map VObj lold) (map VObj (lk r s o))) ->
    for_st es (list_event ct oeq getter (run n) o (nm s) [] (nm s)) h = (Ok tt, h') ->
    rel_state h' (Es lst s o (absev es) r) /\ kx nowhere h' (Es lst s o (absev es) r).
  Proof.
    induction es as [| e es IH]; intros h r s o hq lold h' SQ R K C L EA KO CO OE HD HA FO H; cbn [for_st] in H.
    { injection H as ->. cbn [absev flat_map Es fold_left]. split; [exact R |]. apply (kx_drop s o); [exact K |].
      apply (kok_any h' s o lold); [| exact KO]. intros ST LC. apply map_obj_inj. exact (FO ST LC). }
    apply ok_bind in H. destruct H as ([] & h1 & H1 & H). inversion OE as [| ? ? OE1 OE2]; subst.
    assert (SKIP : quiet h h1 -> absev (e :: es) = absev es ->
              (strict = true -> is_local (fd s) = true -> follows (eqv oeq hq) es (map VObj lold) (map VObj (lk r s o))) ->
              rel_state h' (Es lst s o (absev (e :: es)) r) /\ kx nowhere h' (Es lst s o (absev (e :: es)) r)).
    { intros Q AE FO'. rewrite AE in *. apply (IH h1 r s o hq lold h'); auto.
      - apply (quiet_state _ _ _ Q R).
      - apply (kx_quiet _ _ _ _ (fr_quiet nowhere nowhere _ _ Q) K).
      - rewrite (quiet_attr _ _ _ _ Q). exact EA.
      - apply (kok_fr nowhere nowhere h); [apply fr_quiet, Q | intros [] | exact KO]. }
    destruct e as [[| i v | v | ] c].
    - injection H1 as ->. apply SKIP; [apply quiet_refl | reflexivity | exact FO].
    - destruct v as [| | | | | | | | | | x |]; try contradiction OE1.
      assert (Hx : In x (lk r s o)) by (apply HA; left; reflexivity).
      destruct (event_add n h h1 r (K1 lst s o x r) s o x i c lold (fun h => kx (here s o) h (K1 lst s o x r)))
        with (2 := R) (3 := C) (4 := L) (7 := KO) (10 := H1) as (R1 & KO1 & EA1 & K1').
      + intros ha hb F Ka s' o' NH. apply (kok_fr _ _ _ _ _ _ _ F NH), Ka, NH.
      + eauto.
      + intros ST LC. destruct (FO ST LC) as [LT _]. rewrite !map_length in LT. exact LT.
      + intros h3 HL. destruct (link_one n h r s o x h3 R C L HL) as (m & HK).
        destruct (link_step m h r s o x h3 R C (rs_items _ _ R _ _ _ Hx) Hx K HK) as (A & B & D). auto.
      + apply K1_own, R.
      + change (rel_state h' (Es lst s o (absev es) (K1 lst s o x r)) /\ kx nowhere h' (Es lst s o (absev es) (K1 lst s o x r))).
        pose proof (K1_own s o x r (rs_tidy _ _ R)) as OW.
        apply (IH h1 _ s o hq (py_insert i x lold) h'); auto.
        * rewrite OW, EA1. exact EA.
        * intros y Hy. apply (Permutation_in y (py_insert_perm i x lold)) in Hy. destruct Hy as [<- | Hy]; [apply (rs_items _ _ R _ _ _ Hx) | apply CO, Hy].
        * intros z Hz. rewrite OW. apply HD. right. exact Hz.
        * intros z Hz. rewrite OW. apply HA. right. exact Hz.
        * intros ST LC. rewrite OW, map_insert. destruct (FO ST LC) as [_ FF]. exact FF.
    - destruct v as [[| | | | | | | | | | x |] |]; try contradiction OE1.
      destruct (HD x (or_introl eq_refl)) as [Nx Cx].
      destruct (event_del n h h1 r (U1 lst s o x r) s o x c lold (here (negb s) x) (fun h => kx (here s o) h (U1 lst s o x r)))
        with (2 := R) (3 := C) (4 := L) (6 := Cx) (8 := KO) (9 := Nx) (13 := H1) as (R1 & KO1 & F1 & K1').
      + intros ha hb F Ka s' o' NH. apply (kok_fr _ _ _ _ _ _ _ F NH), Ka, NH.
      + eauto.
      + intros ST LC. destruct (FO ST LC) as (Hin & LT & _). rewrite !map_length in LT. split; [| split; [exact LT | exact CO]].
        apply in_map_iff in Hin. destruct Hin as (z & Ez & Hz). injection Ez as ->. exact Hz.
      + intros h3 HU. destruct (unlink_one n h r s o x h3 R C L HU) as (m & HK).
        destruct (U_gone m h r s o x h3 R C Cx Nx (K _ x (not_here' s o x)) HK) as (_ & _ & F).
        destruct (unlink_step_gone m h r s o x h3 R C Cx Nx K HK) as (A & B & D). auto.
      + apply not_here.
      + apply U1_own, Nx.
      + change (rel_state h' (Es lst s o (absev es) (U1 lst s o x r)) /\ kx nowhere h' (Es lst s o (absev es) (U1 lst s o x r))).
        pose proof (U1_own s o x r Nx) as OW.
        apply (IH h1 _ s o hq (rm1 x lold) h'); auto.
        * rewrite OW. rewrite (proj2 F1 s o C (not_here s o x)). exact EA.
        * intros y Hy. apply CO. apply (rm1_incl x lold y Hy).
        * intros z Hz. rewrite OW. apply HD. right. exact Hz.
        * intros z Hz. rewrite OW. apply HA. right. exact Hz.
        * intros ST LC. rewrite OW, <- (rmf_obj hq) by (auto; apply (in_robj _ _ Cx)). destruct (FO ST LC) as (_ & _ & FF). exact FF.
    - unfold list_event, olist_sor in H1. cbn [fst] in H1. pose proof (mark_quiet h o (nm s)) as QM. rewrite H1 in QM.
      apply SKIP; [exact QM | reflexivity |]. intros ST LC. destruct (FO ST LC).
  Qed.

  (** *** A list method on a list of the relation *)
  Lemma eqv_VObj h a v : same h -> robj a -> eqv oeq h (VObj a) v = true -> v = VObj a.
  Proof.
    intros SM RO. unfold eqv. destruct v; cbn [veq]; intros H; try discriminate H. rewrite ident in H by auto. apply Nat.eqb_eq in H. subst. reflexivity.
  Qed.
  Definition isobj (v : value) : Prop := exists x, v = VObj x.
  Lemma isobj_map l : Forall isobj (map VObj l).
  Proof. apply Forall_forall. intros v H. apply in_map_iff in H. destruct H as (x & <- & _). exists x. reflexivity. Qed.
  Lemma isobj_list l : Forall isobj l -> exists xs, l = map VObj xs.
  Proof.
    induction l as [| v l IH]; intros H; [exists []; reflexivity |]. inversion H as [| ? ? (x & ->) H']; subst.
    destruct (IH H') as (xs & ->). exists (x :: xs). reflexivity.
  Qed.
  Lemma in_map_obj x l : In (VObj x) (map VObj l) <-> In x l.
  Proof.
    split; [| apply in_map]. intros H. apply in_map_iff in H. destruct H as (y & E & H). injection E as ->. exact H.
  Qed.
  Lemma nodup_map_obj l : NoDup l <-> NoDup (map VObj l).
  Proof.
    split; [apply FinFun.Injective_map_NoDup; intros a b E; congruence | apply NoDup_map_inv].
  Qed.
  Lemma absev_removed es x : Forall obj_ev es -> (In (false, x) (absev es) <-> In (VObj x) (removed es)).
  Proof.
    intros F. induction F as [| [c q] es OE F IH]; [reflexivity |].
    unfold absev, removed in *. cbn [flat_map fst]. unfold obj_ev in OE. cbn [fst] in OE.
    destruct c as [| i v | [v |] |]; cbn [app]; try exact IH; destruct v; try contradiction OE; cbn [app].
    - cbn [In]. rewrite IH. split; [intros [K | K]; [discriminate K | exact K] | auto].
    - cbn [In]. rewrite IH. split; (intros [K | K]; [left; injection K as ->; reflexivity | right; exact K]).
  Qed.
  Lemma absev_added es x : Forall obj_ev es -> (In (true, x) (absev es) <-> In (VObj x) (added es)).
  Proof.
    intros F. induction F as [| [c q] es OE F IH]; [reflexivity |].
    unfold absev, added in *. cbn [flat_map fst]. unfold obj_ev in OE. cbn [fst] in OE.
    destruct c as [| i v | [v |] |]; cbn [app]; try exact IH; destruct v; try contradiction OE; cbn [app].
    - cbn [In]. rewrite IH. split; (intros [K | K]; [left; injection K as ->; reflexivity | right; exact K]).
    - cbn [In]. rewrite IH. split; [intros [K | K]; [discriminate K | exact K] | auto].
  Qed.
  Lemma obj_events es : Forall named es -> Forall isobj (removed es) -> Forall isobj (added es) -> Forall obj_ev es.
  Proof.
    induction es as [| [c q] es IH]; intros N R A; [constructor |]. inversion N as [| ? ? N1 N2]; subst.
    unfold removed, added in *. cbn [flat_map fst] in R, A. apply Forall_app in R, A. destruct R as [R1 R2], A as [A1 A2].
    constructor; [| apply IH; assumption]. unfold obj_ev, named in *. cbn [fst] in *.
    destruct c as [| i v | [v |] |]; try exact I; try contradiction.
    - inversion A1 as [| ? ? (x & ->) _]; subst. exact I.
    - inversion R1 as [| ? ? (x & ->) _]; subst. exact I.
  Qed.

  Lemma op_rel n h r s o op ins h' :
    rel_state h r -> kx nowhere h r -> symm lst r -> cls o = cl s -> lst s = true ->
    loud op -> inserts op (map VObj (lk r s o)) = map VObj ins -> NoDup (lk r s o ++ ins) ->
    (forall x, In x ins -> cls x = cl (negb s)) ->
    (strict = true -> is_local (fd s) = true -> mirrored op = true) ->
    run n (TOp o (nm s) [] (nm s) op) h = (Ok tt, h') ->
    exists r', rel_state h' r' /\ kx nowhere h' r' /\ symm lst r' /\ (forall y z, known s r y z -> known s r' y z) /\
      Permutation (lk r' s o ++ filter (fun x => negb (inb x (lk r' s o))) (lk r s o)) (lk r s o ++ ins) /\
      (exists x es, owned_step (eqv oeq h) op (map VObj (lk r s o)) = (Ok x, map VObj (lk r' s o), es)) /\
      (forall y z, y <> o -> (In z (lk r' s y) -> In z (lk r s y)) /\
         (In z (lk r s y) -> In z (lk r' s y) \/ (In z (lk r' s o) /\ lst (negb s) = false))).
  Proof.
    intros R K SY C L LO INS ND CI MI H.
    destruct n as [| n]; [discriminate H |].
    assert (EA : attr h o (nm s) = Some (VList (map VObj (lk r s o)))).
    { pose proof (rs_link _ _ R s o C) as SH. apply shows_list in SH; [| exact L].
      destruct SH as [[SH _] | SH]; [| exact SH]. cbn [ObjModel.run body] in H. unfold do_list in H.
      rewrite attr_at_nil, SH in H. discriminate H. }
    destruct (op_run n h r s o _ op h' R C EA H) as (x & l' & es & h1 & OS & Q & HE).
    set (l := lk r s o) in *.
    assert (RM : match op with LRemove x => forall z, In z (map VObj l) -> eqv oeq h z x = true -> z = x | _ => True end).
    { destruct op; try exact I. intros z Hz Ez. apply in_map_iff in Hz. destruct Hz as (a & <- & Ha).
      symmetry. apply (eqv_VObj h); [apply (rs_same _ _ R) | apply (in_robj _ _ (rs_items _ _ R s o a Ha)) | exact Ez]. }
    assert (DUP : forall m : list nat, NoDup (m ++ m) -> m = []).
    { intros [| a m] N; [reflexivity |]. exfalso. inversion N; subst. apply H2. apply in_or_app. right. left. reflexivity. }
    assert (SELF : ins = l -> map VObj l = []).
    { intros ->. rewrite (DUP l ND). reflexivity. }
    assert (IS : match op with LExtend ItSelf | LIAdd ItSelf | LSetSlice _ ItSelf => map VObj l = [] | _ => True end).
    { destruct op as [v|[]|i v|v|le| |i| |[]|k|i v|sl []| |i|sl| ]; try exact I; cbn in INS; apply SELF; symmetry; apply map_obj_inj, INS. }
    destruct (step_perm (eqv oeq h) op _ x l' es LO IS RM OS) as (HP & AD & NA). rewrite INS in HP, AD. rewrite <- map_app in HP.
    assert (RO := removed_old (eqv oeq h) op _ x l' es RM OS).
    assert (FO : Forall isobj (l' ++ removed es)).
    { apply Forall_forall. intros v Hv. apply (Permutation_in v HP) in Hv.
      pose proof (isobj_map (l ++ ins)) as F. rewrite Forall_forall in F. apply F, Hv. }
    apply Forall_app in FO. destruct FO as [F1 F2]. destruct (isobj_list _ F1) as (k' & ->).
    destruct (isobj_list _ F2) as (rem & ER). rewrite ER in HP, RO. rewrite <- map_app in HP.
    assert (OE : Forall obj_ev es) by (apply obj_events; [exact NA | exact F2 | rewrite AD; apply isobj_map]).
    assert (HPn : Permutation (k' ++ rem) (l ++ ins)).
    { apply Permutation_map_inv in HP. destruct HP as (m & Em & Pm). apply map_obj_inj in Em. subst m. symmetry. exact Pm. }
    assert (ND' : NoDup (k' ++ rem)) by (apply (Permutation_NoDup (Permutation_sym HPn) ND)).
    assert (NK : NoDup k') by (apply (nodup_app_l _ _ ND')).
    assert (DJ : forall z, In z k' -> ~ In z rem).
    { clear -ND'. intros z. induction k' as [| y k' IH]; intros H1 H2; [destruct H1 |]. inversion ND' as [| ? ? Ny N]; subst.
      destruct H1 as [-> | H1]; [apply Ny, in_or_app; right; exact H2 | apply (IH N H1 H2)]. }
    assert (DI : forall z, In z l -> ~ In z ins).
    { clear -ND. intros z. induction l as [| y k IH]; intros H1 H2; [destruct H1 |]. inversion ND as [| ? ? Ny N]; subst.
      destruct H1 as [-> | H1]; [apply Ny, in_or_app; right; exact H2 | apply (IH N H1 H2)]. }
    assert (RL : forall z, In z rem -> In z l) by (intros z Hz; apply in_map_obj, RO, in_map, Hz).
    assert (IFF : forall z, In z k' \/ In z rem <-> In z l \/ In z ins).
    { intros z. rewrite <- !in_app_iff. split; apply Permutation_in; [exact HPn | symmetry; exact HPn]. }
    assert (INK : forall z, In z ins -> In z k').
    { intros z Hz. destruct (proj2 (IFF z) (or_intror Hz)) as [A | A]; [exact A |]. exfalso. apply (DI z (RL z A) Hz). }
    assert (CK : forall z, In z k' -> cls z = cl (negb s)).
    { intros z Hz. destruct (proj1 (IFF z) (or_introl Hz)) as [A | A]; [apply (rs_items _ _ R s o z A) | apply CI, A]. }
    assert (AF : forall z, In (false, z) (absev es) <-> In z rem).
    { intros z. rewrite (absev_removed es z OE), ER. apply in_map_obj. }
    assert (AT : forall z, In (true, z) (absev es) <-> In z ins).
    { intros z. rewrite (absev_added es z OE), AD. apply in_map_obj. }
    pose proof (quiet_state _ _ _ Q R) as R1.
    destruct (upd_state h1 r s o (VList (map VObj k')) k' R1 C) as [R2 FR]; [right; rewrite L; reflexivity | exact CK | exact NK |].
    assert (OW : lk (stk s o k' r) s o = k') by apply stk_at.
    destruct (events_run n es _ _ s o h l h' (rs_same _ _ R) R2) with (11 := HE) as [R3 K3].
    - intros s' o' NH. rewrite stk_else by exact NH. apply (kok_fr _ _ _ _ _ _ _ FR); [intros [] |].
      apply (kok_fr nowhere nowhere h); [apply fr_quiet, Q | intros [] |]. apply K. intros [].
    - exact C.
    - exact L.
    - rewrite OW. apply upd_attr.
    - apply (kok_fr _ _ _ _ _ _ _ FR); [intros [] |].
      apply (kok_fr nowhere nowhere h); [apply fr_quiet, Q | intros [] |]. apply K. intros [].
    - intros y Hy. apply (rs_items _ _ R s o y Hy).
    - exact OE.
    - intros z Hz. apply AF in Hz. rewrite OW. split; [intros A; apply (DJ z A Hz) | apply (rs_items _ _ R s o z (RL z Hz))].
    - intros z Hz. apply AT in Hz. rewrite OW. apply INK, Hz.
    - intros ST LC. rewrite OW.
      pose proof (rs_same _ _ R) as SM.
      assert (RLI : forall z, In z (l ++ ins) -> robj z).
      { intros z Hz. apply in_app_or in Hz. destruct Hz as [Hz | Hz]; [apply (in_robj _ _ (rs_items _ _ R s o z Hz)) | apply (in_robj _ _ (CI z Hz))]. }
      apply (step_follows (eqv oeq h) (fun v => exists z, v = VObj z /\ robj z)) with (op := op) (y := x).
      + intros a b (a' & -> & Ra) (b' & -> & Rb). rewrite eqv_obj by auto. rewrite Nat.eqb_eq. split; [intros ->; reflexivity | intros E; congruence].
      + apply MI; assumption.
      + rewrite INS, <- map_app. apply nodup_map_obj in ND. exact ND.
      + rewrite INS, <- map_app. apply Forall_forall. intros v Hv. apply in_map_iff in Hv. destruct Hv as (z & <- & Hz). exists z. auto.
      + destruct op; try exact I. cbn in OS. unfold o_remove in OS.
        destruct (py_remove (eqv oeq h) x0 (map VObj l)) as [kk | e] eqn:E; [| discriminate OS].
        assert (RL' : forall z, In z l -> robj z) by (intros z Hz; apply RLI, in_or_app; left; exact Hz).
        clear -E ident SM RL'. revert kk E. induction l as [| a l IH]; intros kk E; cbn [map py_remove] in E; [discriminate E |].
        destruct (eqv oeq h (VObj a) x0) eqn:EV.
        { apply eqv_VObj in EV; [| exact SM | apply RL'; left; reflexivity]. exists a. split; [exact EV | apply RL'; left; reflexivity]. }
        destruct (py_remove _ _ _); [eapply IH; [intros z Hz; apply RL'; right; exact Hz | reflexivity] | discriminate E].
      + exact OS.
    - destruct (op_symm lst s o k' (absev es) r SY NK) as (S' & OW' & KN).
      + congruence.
      + intros z Hz. apply AF in Hz. intros A. apply (DJ z A Hz).
      + intros z Hz. apply AT in Hz. apply INK, Hz.
      + intros z Hz. rewrite AT. apply IFF. left. exact Hz.
      + intros z Hz. rewrite AF. destruct (proj2 (IFF z) (or_introl Hz)); auto.
      + exists (Es lst s o (absev es) (stk s o k' r)). split; [exact R3 | split; [exact K3 | split; [exact S' | split; [exact KN |]]]].
        rewrite OW'. split; [| split; [exists x, es; exact OS |]].
        2:{ intros y z NY. destruct (Es_others lst s o (absev es) (stk s o k' r) y z NY) as [A B].
            rewrite stk_else in A, B by (intros [_ E]; congruence). split; [exact A |].
            intros HZ. destruct (B HZ) as [Q1 | [Q1 LG]]; [left; exact Q1 | right; split; [apply INK, AT, Q1 | exact LG]]. }
        rewrite <- HPn. apply Permutation_app_head.
        apply NoDup_Permutation.
        * apply NoDup_filter. apply (nodup_app_l _ _ ND).
        * apply (nodup_app_l rem k'). apply (Permutation_NoDup (Permutation_app_comm _ _) ND').
        * intros z. rewrite filter_In, negb_true_iff, inb_not. split.
          -- intros [A B]. destruct (proj2 (IFF z) (or_introl A)); [contradiction | assumption].
          -- intros A. split; [apply RL, A | intros B; apply (DJ z B A)].
  Qed.

  Lemma known_flip s r y x : symm lst r -> known s r y x <-> known (negb s) r x y.
  Proof.
    intros SY. unfold known. rewrite negb_involutive. rewrite (sy_sym _ _ SY (negb s) x y), negb_involutive. tauto.
  Qed.
End Run.
