(** OutRun.v -- the output of a graph of objects, by induction on the fuel: it changes
    nothing, gives values of the kind [R], and does not run out of fuel. *)
From Verif Require Import Base Mon PyList PyDict StrDict KeypathModel Values OGraphModel MGraphModel ChainModel
  TypesModel TypesSpec TypesProofs ObjModel IoModel IoBase Sound ObjSound LeafSound TameSpec Keep TameProofs GraphSpec GraphProofs OutSpec OutProofs.
From Verif Require LeafModel.
Open Scope list_scope.

(** A modifier that is not about parts and does not replace the value gives it, or one
    without objects. *)
Lemma keeps_the_value P n m c w v w' : about_parts m = false -> replaces m = false ->
  m_tojson (interp P n m) c w = (Ok v, w') -> v = c_val c \/ forall x, ~ occurs x v.
Proof.
  intros N M E. destruct n as [| n]; [discriminate E |]. cbn [interp modif_of m_tojson] in E.
  assert (K : forall s (w1 w2 : world), (@Ok value (VStr s), w1) = (Ok v, w2) -> v = c_val c \/ forall x, ~ occurs x v).
  { intros s w1 w2 H. inversion H. right. intros x X. inversion X. }
  assert (L : forall u (w1 w2 : world), u = c_val c -> (Ok u, w1) = (Ok v, w2) -> v = c_val c \/ forall x : oid, ~ occurs x v).
  { intros u w1 w2 -> H. inversion H. left. reflexivity. }
  destruct m; try discriminate N; try discriminate M; cbn [tojson_of] in E; try (apply (L _ _ _ eq_refl E)).
  - destruct l; cbn [LeafModel.leaf_tojson] in E; try (apply (L _ _ _ eq_refl E)).
    destruct k; try (apply (L _ _ _ eq_refl E)); destruct (c_val c) eqn:Ev; try discriminate E;
      try (apply (K _ _ _ E)); (inversion E; left; reflexivity).
  - assert (N0 : forall w1 w2 : world, (@Ok value VNone, w1) = (Ok v, w2) -> v = c_val c \/ forall x : oid, ~ occurs x v).
    { intros w1 w2 H. inversion H. right. intros x X. inversion X. }
    unfold canr_tojson in E. destruct (is_none (c_operator c)); [apply (N0 _ _ E) |]. destruct p; try discriminate E.
    unfold checked, bind in E. destruct (t_transform (interp P n) ts c w) as [[tv | e] w1]; [| discriminate E].
    destruct (on_validation _ _ w1) as [[b | e] w2]; [| discriminate E]. destruct b; [apply (L _ _ _ eq_refl E) | apply (N0 _ _ E)].
Qed.

Lemma in_order_split pre m post : in_order (pre ++ m :: post) ->
  forall y, In y post -> about_parts y = true -> about_parts m = false /\ replaces m = false.
Proof.
  induction pre as [| a pre IH]; cbn [app in_order]; intros [H1 H2]; [exact H1 | apply IH, H2].
Qed.
Lemma in_order_snoc ts m : in_order ts -> about_parts m = false -> in_order (ts ++ [m]).
Proof.
  induction ts as [| a ts IH]; cbn [app in_order]; intros H Hm; [split; [intros y [] | exact H] |].
  destruct H as [H1 H2]. split; [| apply IH; assumption].
  intros y Hy Py. apply in_app_iff in Hy. destruct Hy as [Hy | [<- | []]]; [apply (H1 y Hy Py) | congruence].
Qed.

(** ** How far output may still go *)
Section Measure.
  Context (U : list string) (M : nat) (rk : oid -> nat).
  Definition left_of (chain : list string) : nat := length (filter (fun k => negb (sinb k chain)) U).
  Definition mu (chain : list string) (o : oid) : nat := (left_of chain * S M + rk o)%nat.
  Definition fits (c : ctx) (q : nat) : Prop := forall y, occurs y (c_val c) -> (mu (c_idchain c) y < q)%nat.

  Lemma sinb_snoc k k' l : sinb k (l ++ [k']) = sinb k l || String.eqb k k'.
  Proof. unfold sinb. rewrite existsb_app. cbn [existsb]. rewrite Bool.orb_false_r. reflexivity. Qed.
  Lemma left_same chain k : sinb k chain = true -> left_of (chain ++ [k]) = left_of chain.
  Proof.
    intros H. unfold left_of. f_equal. apply filter_ext. intros a. rewrite sinb_snoc.
    destruct (String.eqb_spec a k) as [-> | E]; [rewrite H; reflexivity | rewrite Bool.orb_false_r; reflexivity].
  Qed.
  Lemma left_less chain k : In k U -> sinb k chain = false -> (left_of (chain ++ [k]) < left_of chain)%nat.
  Proof.
    intros Hk H. unfold left_of.
    assert (Le : forall l, (length (filter (fun a => negb (sinb a (chain ++ [k]))) l) <= length (filter (fun a => negb (sinb a chain)) l))%nat).
    { induction l as [| a l IH]; cbn [filter]; [lia |]. rewrite sinb_snoc. destruct (sinb a chain); cbn [orb negb]; [exact IH |].
      destruct (String.eqb a k); cbn [negb length]; lia. }
    revert Hk. induction U as [| a l IH]; [contradiction |]. intros [-> | Hk]; cbn [filter]; rewrite sinb_snoc.
    - rewrite H, String.eqb_refl. cbn [orb negb length]. specialize (Le l). lia.
    - specialize (IH Hk). destruct (sinb a chain); cbn [orb negb]; [exact IH |]. destruct (String.eqb a k); cbn [negb length]; lia.
  Qed.
End Measure.

Section Manner.
Context {spk : manner}.
Lemma modes : speak = Ending \/ speak <> Ending.
Proof. destruct speak; auto; right; discriminate. Qed.

Section Run.
  Context (P : program) (h : heap) (x : oid -> ext) (D : nat).
  Hypothesis C : calm P.
  Hypothesis TC : tame_classes D P.
  Hypothesis getter_ok : forall h o n, louder (p_getter P h o n).
  Hypothesis arith_ok : forall op a b, louder (p_arith P op a b).
  Hypothesis call_ok : forall f c args h, louder (fst (p_call P f c args h)).
  Hypothesis finite : speak = Ending -> finite_graph P h.
  Notation yields := (yields (same h x)).

  (** The values [R], whether write-only fields are shown, and the modifiers [W] that are used *)
  Context (R : value -> Prop) (ig : bool) (W : mdf -> Prop).
  Hypothesis R_none : R VNone.
  Hypothesis R_dict : forall m, (forall k v, In (k, v) m -> R v) -> R (VDict m).
  Hypothesis R_list : forall l, (forall v, In v l -> R v) -> R (VList l).
  Hypothesis R_of_list : forall l v, R (VList l) -> In v l -> R v.
  Hypothesis R_of_dict : forall m k v, R (VDict m) -> In (k, v) m -> R v.
  Hypothesis W_part : forall m ts y, W m -> In ts (parts_of m) -> In y ts -> W y.
  Hypothesis W_req : W MRequired.
  Hypothesis W_class : forall cls d f m, p_ct P cls = Some d -> In f (cd_fields d) -> In m (fl_types f) -> W m.
  Hypothesis R_flat : forall n m c w v w', W m -> about_parts m = false -> R (c_val c) -> same h x w ->
    m_tojson (interp P n m) c w = (Ok v, w') -> R v.
  Hypothesis R_key : forall o d f k, p_ct P (o_class (h_obj h o)) = Some d -> In f (cd_fields d) -> is_local f = true ->
    picked (x o) (fl_name f) = true -> reads P h o (fl_ref f) k -> R k.
  Hypothesis R_field : forall o d f v, p_ct P (o_class (h_obj h o)) = Some d -> In f (cd_fields d) ->
    (f_read_rule (fl_fdef f) = NoRead -> ig = true) -> f_fstore (fl_fdef f) <> Temp -> picked (x o) (fl_name f) = true ->
    reads P h o (fl_name f) v -> R v.

  (** What termination needs *)
  Context (U : list string) (M : nat) (rk : oid -> nat).
  Hypothesis ends : speak = Ending -> orderly_classes P /\ classes_named P U /\ embedding P h rk M.
  Definition ready (n d : nat) (ts : types) (c : ctx) (q : nat) : Prop :=
    speak <> Ending \/ (orderly ts /\ fits U M rk c q /\ (vdepth h D D + q * S (S D) + S d <= n)%nat).

  Definition tamish (d : nat) (m : mdf) : Prop := tame d m \/ flat 1 m.

  Lemma ready_enough n d ts c q k : (k <= S d)%nat -> ready n d ts c q -> enough k n.
  Proof. intros L [E | (_ & _ & E)]; [left; exact E | right; lia]. Qed.

  Lemma items_tamish d ts us y : (forall z, In z ts -> tamish (S d) z) -> item_types (fdef_of ts) = Some us -> In y us -> tamish d y.
  Proof.
    intros T E Hy. unfold item_types in E. destruct (f_item (fdef_of ts)) as [it |] eqn:Ei; [| discriminate E].
    assert (Ti : forall z, In z it -> tame d z).
    { intros z Hz. destruct (item_from ts it Ei) as [X | X]; destruct (T _ X) as [Y | Y]; try contradiction Y; apply (Y z Hz). }
    assert (us = it \/ us = it ++ [MRequired]) as [-> | ->] by (destruct (f_item_null (fdef_of it)); inversion E; auto).
    - left. apply Ti, Hy.
    - apply in_app_iff in Hy. destruct Hy as [Hy | [<- | []]]; [left; apply Ti, Hy | right; cbn; intros ? []].
  Qed.
  Lemma items_part ts us : item_types (fdef_of ts) = Some us ->
    exists m it, In m ts /\ In it (parts_of m) /\ (us = it \/ us = it ++ [MRequired]).
  Proof.
    intros E. unfold item_types in E. destruct (f_item (fdef_of ts)) as [it |] eqn:Ei; [| discriminate E].
    destruct (item_from ts it Ei) as [X | X]; (eexists; exists it; split; [exact X |]; split; [left; reflexivity |];
      destruct (f_item_null (fdef_of it)); inversion E; auto).
  Qed.

  Lemma col_items_in b v its kv : col_items b v = Some its -> In kv its ->
    (exists l, v = VList l /\ In (snd kv) l) \/ (exists m k, v = VDict m /\ In (k, snd kv) m).
  Proof.
    intros E Hin. destruct v; try (destruct b; discriminate E); cbn in E.
    - destruct b; inversion E; subst. left. exists l. split; [reflexivity |]. clear - Hin. revert Hin. generalize 0%Z.
      induction l as [| v l IH]; intros z Hin; [contradiction |]. destruct Hin as [<- | Hin]; [left; reflexivity | right; apply (IH _ Hin)].
    - destruct b; inversion E; subst. right. unfold enum_dict in Hin. apply in_map_iff in Hin. destruct Hin as ([k v] & <- & Hin).
      exists d, k. split; [reflexivity | exact Hin].
  Qed.

  Lemma out_ok n : forall d ts c q, (forall y, In y ts -> tamish d y) -> (forall y, In y ts -> W y) ->
    c_fdef c = fdef_of ts -> (d <= S D)%nat -> R (c_val c) -> g_ignore_writeonly (c_cfg c) = ig -> ready n d ts c q ->
    yields R (t_tojson (interp P n) ts c).
  Proof.
    induction n as [| n IH]; intros d ts c q T Tw Ec Ld Rc Eg Rd.
    - unfold t_tojson, chain_tojson. apply (y_fold_map (same h x) (fun _ => R)); [| exact Rc].
      intros pre a post b _ _. apply y_throw. destruct Rd as [E | (_ & _ & E)]; [| lia].
      split; [intros _; discriminate | intros X; contradiction (E X)].
    - unfold t_tojson, chain_tojson.
      apply y_weak with (R := fun b => R b /\ (speak = Ending -> (exists y, In y (@nil mdf) /\ about_parts y = true) -> fits U M rk (nval c b) q));
        [intros b [Hb _]; exact Hb |].
      apply (y_fold_map (same h x) (fun rest b => R b /\ (speak = Ending -> (exists y, In y rest /\ about_parts y = true) -> fits U M rk (nval c b) q)));
        [| split; [exact Rc | intros E _; destruct Rd as [X | (_ & X & _)]; [contradiction (X E) | exact X]]].
      intros pre m post b Ets [Rb Fb]. assert (Hm : In m ts) by (rewrite Ets; apply in_elt).
      assert (Tm := T m Hm). assert (Wm := Tw m Hm).
      assert (Pre : speak = Ending -> (exists y, In y post /\ about_parts y = true) -> about_parts m = false /\ replaces m = false).
      { intros E (y & Hy & Py). destruct Rd as [X | (X & _)]; [contradiction (X E) |].
        destruct X as [X _]. rewrite Ets in X. apply (in_order_split pre m post X y Hy Py). }
      destruct (about_parts m) eqn:Np.
      + (* a modifier about parts *)
        apply y_weak with (R := R);
          [intros v Rv; split; [exact Rv | intros E X; destruct (Pre E X) as [X1 _]; discriminate X1] |].
        assert (Fm : speak = Ending -> fits U M rk (nval c b) q).
        { intros E. apply (Fb E). exists m. split; [left; reflexivity | exact Np]. }
        assert (Tm' : tame d m) by (destruct Tm as [Tm | Tm]; [exact Tm | destruct m; try discriminate Np; contradiction Tm]).
        destruct d as [| d]; [contradiction Tm' |].
        assert (Hcol : forall z, yields R (col_out P (t_tojson (interp P n)) z (nval c b))).
        { intros z. apply y_col_out; try assumption.
          - intros v <-. exact Rb.
          - intros us kv its Eu Ei Hkv. change (c_fdef (nval c b)) with (c_fdef c) in Eu. change (c_val (nval c b)) with b in *. rewrite Ec in Eu.
            apply (IH d us _ q).
            + intros y Hy. apply (items_tamish d ts us y T Eu Hy).
            + destruct (items_part ts us Eu) as (m0 & it & Hm0 & Hit & [-> | ->]); intros y Hy.
              * apply (W_part m0 it y (Tw m0 Hm0) Hit Hy).
              * apply in_app_iff in Hy. destruct Hy as [Hy | [<- | []]]; [apply (W_part m0 it y (Tw m0 Hm0) Hit Hy) | exact W_req].
            + reflexivity.
            + lia.
            + cbn. destruct (col_items_in z b its kv Ei Hkv) as [(l & -> & Hl) | (l & k & -> & Hl)];
                [apply (R_of_list l _ Rb Hl) | apply (R_of_dict l k _ Rb Hl)].
            + exact Eg.
            + destruct modes as [E | E]; [| left; exact E]. right. destruct Rd as [X | (Or & _ & Fu)]; [contradiction (X E) |].
              split; [| split].
              * destruct (items_part ts us Eu) as (m0 & it & Hm0 & Hit & [-> | ->]); destruct Or as [_ Or]; pose proof (Or m0 it Hm0 Hit) as Oi.
                -- exact Oi.
                -- destruct Oi as [O1 O2]. split; [apply in_order_snoc; [exact O1 | reflexivity] |].
                   intros m1 vs Hm1 Hvs. apply in_app_iff in Hm1. destruct Hm1 as [Hm1 | [<- | []]]; [apply (O2 m1 vs Hm1 Hvs) | contradiction Hvs].
              * intros y Hy. apply (Fm E). cbn in *. destruct (col_items_in z b its kv Ei Hkv) as [(l & -> & Hl) | (l & k & -> & Hl)];
                  [apply occurs_list with (snd kv) | apply occurs_dict with k (snd kv)]; assumption.
              * lia. }
        destruct m; try discriminate Np; cbn [interp modif_of m_tojson tojson_of]; try apply Hcol.
        * (* objects *)
          apply y_inst_tojson with (h := h) (x := x); try assumption.
          intros o cd f Ho Hcd Hf. change (c_val (nval c b)) with b in Ho. subst b.
          split; [intros k Hl Hp Hr; apply (R_key o cd f k); assumption |].
          intros v e Hs Hr.
          assert (Hcf : c_fdef (child h (nval c (VObj o)) o cd f v e) = fdef_of (fl_types f)) by (unfold child; destruct (is_inst_field f); reflexivity).
          assert (Hcv : c_val (child h (nval c (VObj o)) o cd f v e) = v) by (unfold child; destruct (is_inst_field f); reflexivity).
          assert (Hcg : c_cfg (child h (nval c (VObj o)) o cd f v e) = c_cfg c) by (unfold child; destruct (is_inst_field f); reflexivity).
          assert (Hci : c_idchain (child h (nval c (VObj o)) o cd f v e) = c_idchain c ++ [cd_name cd]) by (unfold child; destruct (is_inst_field f); reflexivity).
          unfold shown in Hs. repeat (apply andb_prop in Hs; destruct Hs as [Hs ?]).
          apply Bool.negb_true_iff in Hs. apply Bool.negb_true_iff in H0. apply Bool.negb_true_iff in H1.
          change (c_cfg (nval c (VObj o))) with (c_cfg c) in H1. rewrite Eg in H1.
          assert (HT : f_fstore (fl_fdef f) <> Temp) by (intros X; rewrite X in H0; discriminate H0).
          apply (IH D (fl_types f) _ (mu U M rk (c_idchain c) o)).
          -- intros y Hy. left. apply (TC _ cd f y Hcd Hf Hy).
          -- intros y Hy. apply (W_class _ cd f y Hcd Hf Hy).
          -- exact Hcf.
          -- lia.
          -- rewrite Hcv. apply (R_field o cd f v Hcd Hf); try assumption.
             intros X. rewrite X in H1. apply Bool.negb_false_iff. exact H1.
          -- rewrite Hcg. exact Eg.
          -- destruct modes as [E | E]; [| left; exact E]. right. destruct (ends E) as (Oc & Un & (Bd & Em)). split; [apply (Oc _ _ f Hcd Hf) |].
             specialize (Fm E). assert (Lo : (mu U M rk (c_idchain c) o < q)%nat) by (apply Fm; constructor).
             split; [| destruct Rd as [X | (_ & _ & Fu)]; [contradiction (X E) |]; nia].
             intros y Hy. rewrite Hcv in Hy. rewrite Hci. change (c_idchain (nval c (VObj o))) with (c_idchain c) in *. unfold mu.
             destruct (sinb (cd_name cd) (c_idchain c)) eqn:Ein.
             ++ rewrite (left_same U (c_idchain c) (cd_name cd) Ein). rewrite Bool.orb_true_r, Bool.andb_true_r in Hs.
                pose proof (Em o cd f v y Hcd Hf Hs HT Hr Hy). lia.
             ++ pose proof (left_less U M rk (c_idchain c) (cd_name cd) (Un _ _ Hcd) Ein) as L. pose proof (Bd y). nia.
        * (* unions *)
          apply y_union_out; [assumption |]. intros us Hus. change (c_fdef (nval c b)) with (c_fdef c) in Hus. rewrite Ec in Hus.
          destruct (union_from ts us Hus) as (vs & Hvs & Hin).
          assert (Tu : forall y, In y us -> tame d y).
          { intros y Hy. destruct (T _ Hvs) as [Y | Y]; [apply (Y us y Hin Hy) | contradiction Y]. }
          split.
          -- apply k_chain_validate. intros z Hz. apply in_map_iff in Hz. destruct Hz as (y & <- & Hy).
             apply (same_validate P h x D) with (d := d) (ts := us); try assumption; [apply Tu, Hy | reflexivity |].
             destruct Rd as [E | (_ & _ & E)]; [left; exact E | right]. unfold vdepth, vfuel in *. lia.
          -- apply (IH d us _ q).
             ++ intros y Hy. left. apply Tu, Hy.
             ++ intros y Hy. apply (W_part _ us y (Tw _ Hvs) Hin Hy).
             ++ reflexivity.
             ++ lia.
             ++ exact Rb.
             ++ exact Eg.
             ++ destruct modes as [E | E]; [| left; exact E]. right. destruct Rd as [X | (Or & _ & Fu)]; [contradiction (X E) |].
                split; [destruct Or as [_ Or]; apply (Or _ us Hvs Hin) |]. split; [exact (Fm E) | lia].
      + (* a modifier about the value itself *)
        assert (K : keeps (same h x) (m_tojson (interp P (S n) m) (nval c b))).
        { destruct Tm as [Tm | Tm].
          - apply (same_flat P h x C getter_ok arith_ok call_ok (S n) d); [| apply (ready_enough _ d ts c q); [lia | exact Rd]].
            destruct d; [contradiction Tm |]. destruct m; try discriminate Np; exact Tm.
          - apply (same_flat P h x C getter_ok arith_ok call_ok (S n) 1 m); [exact Tm |]. apply (ready_enough _ d ts c q); [lia | exact Rd]. }
        apply y_and; [exact K |]. intros w v w' Hw E. split; [apply (R_flat (S n) m (nval c b) w v w'); assumption |].
        intros En X. destruct (Pre En X) as [_ M'].
        destruct (keeps_the_value P (S n) m (nval c b) w v w' Np M' E) as [-> | No].
        * apply (Fb En). destruct X as (y & Hy & Py). exists y. split; [right; exact Hy | exact Py].
        * intros y Hy. contradiction (No y Hy).
  Qed.
End Run.
End Manner.
