(** ReachProofs.v -- lemmas for C79: validation of a graph of objects leaves out none. *)
From Verif Require Import Base Mon PyList PyDict StrDict KeypathModel Values OGraphModel MGraphModel MGraphProofs ChainModel ChainSpec ChainProofs
  ODictSpec ODictProofs TypesModel TypesSpec TypesProofs ObjModel IoModel IoBase Sound ObjSound LeafSound IoSound IoEffects CivilSpec TameSpec Keep TameProofs GraphSpec GraphProofs
  ValidateSpec ValidateProofs CollectionProofs ReachSpec.
From Verif Require LeafModel.
Open Scope list_scope.

(** ** Which modifiers of a chain take part in validation *)
Lemma nth_checks ts m : checks ts m <-> exists i, nth_error ts i = Some m /\
  (forall j x, (i < j)%nat -> nth_error ts j = Some x -> kind_of x <> KEager) /\
  (forall j x, (j <= i)%nat -> nth_error ts j = Some x -> kind_of x <> KPreserialize).
Proof.
  split.
  - intros (a & b & -> & He & Hp). exists (length a). split; [| split].
    + rewrite nth_error_app2, Nat.sub_diag; [reflexivity | lia].
    + intros j x L E. apply He. rewrite nth_error_app2 in E by lia.
      destruct (j - length a)%nat as [| k] eqn:Ek; [lia |]. cbn in E. exact (nth_error_In _ _ E).
    + intros j x L E. apply Hp. apply in_app_iff. destruct (Nat.eq_dec j (length a)) as [-> | N].
      * rewrite nth_error_app2, Nat.sub_diag in E by lia. cbn in E. inversion E; subst. right. left. reflexivity.
      * rewrite nth_error_app1 in E by lia. left. exact (nth_error_In _ _ E).
  - intros (i & E & He & Hp). destruct (nth_error_split _ _ E) as (a & b & -> & L). exists a, b. split; [reflexivity |]. split.
    + intros x Hx. destruct (In_nth_error _ _ Hx) as [j Ej]. apply (He (length a + S j)%nat); [lia |].
      rewrite nth_error_app2 by lia. replace (length a + S j - length a)%nat with (S j) by lia. exact Ej.
    + intros x Hx. apply in_app_iff in Hx. destruct Hx as [Hx | [<- | []]].
      * destruct (In_nth_error _ _ Hx) as [j Ej]. assert (j < length a)%nat by (apply nth_error_Some; rewrite Ej; discriminate).
        apply (Hp j); [lia |]. rewrite nth_error_app1 by assumption. exact Ej.
      * apply (Hp i); [lia |]. exact E.
Qed.

Lemma nth_slice {X} (l : list X) lo k m : In m (firstn k (skipn lo l)) <-> exists i, nth_error l i = Some m /\ (lo <= i < lo + k)%nat.
Proof.
  split.
  - intros H. destruct (In_nth_error _ _ H) as [j Ej].
    assert (Hj : (j < k)%nat).
    { destruct (Nat.lt_ge_cases j k) as [L | L]; [exact L |]. exfalso.
      assert (nth_error (firstn k (skipn lo l)) j = None) by (apply nth_error_None; rewrite firstn_length; lia). congruence. }
    exists (lo + j)%nat. split; [| lia].
    clear H.
    assert (E : nth_error (skipn lo l) j = Some m).
    { revert Ej Hj. generalize (skipn lo l) as q. revert k. induction j as [| j IH]; intros [| k] [| x q] E L; cbn in *; try lia; try discriminate E; [exact E |].
      apply (IH k q E). lia. }
    revert E. clear. revert l. induction lo as [| lo IH]; intros [| x l] E; cbn in *; try (destruct j; discriminate E); first [exact E | apply IH, E].
  - intros (i & E & L). revert l E L. revert k i. induction lo as [| lo IH]; intros k i l E L.
    + cbn [skipn]. revert i l E L. induction k as [| k IHk]; intros i l E L; [lia |].
      destruct l as [| x l]; [destruct i; discriminate E |]. cbn [firstn]. destruct i as [| i]; cbn in E; [inversion E; left; reflexivity |].
      right. apply (IHk i l E). lia.
    + destruct l as [| x l]; [destruct i; discriminate E |]. cbn [skipn]. destruct i as [| i]; [lia |]. apply (IH k i l E). lia.
Qed.

Lemma kind_interp' P n m : kind (interp P n m) = kind_of m.
Proof. destruct n; reflexivity. Qed.

Lemma nvs_checks P n ts : exists us, nvs (map (interp P n) ts) = map (interp P n) us /\ forall m, In m us <-> checks ts m.
Proof.
  unfold nvs. cbv zeta. set (lo := match levidx (map (interp P n) ts) with Some i => i | None => 0%nat end).
  set (hi := match fpvidx (map (interp P n) ts) with Some i => i | None => length (map (interp P n) ts) end).
  exists (firstn (hi - lo) (skipn lo ts)). rewrite skipn_map, firstn_map. split; [reflexivity |].
  assert (Hlo : forall i, (forall j x, (i < j)%nat -> nth_error ts j = Some x -> kind_of x <> KEager) <-> (lo <= i)%nat).
  { intros i. unfold lo, levidx. destruct (last_vidx_spec KEager (map (interp P n) ts)) as [[-> Hn] | (a & m & b & E & Hk & Hn & ->)].
    - split; [lia |]. intros _ j x _ Ex. rewrite <- (kind_interp' P n x). apply Hn, in_map, (nth_error_In _ _ Ex).
    - split.
      + intros H. destruct (Nat.le_gt_cases (length a) i) as [L | L]; [exact L |]. exfalso.
        assert (X : nth_error (map (interp P n) ts) (length a) = Some m) by (rewrite E, nth_error_app2, Nat.sub_diag by lia; reflexivity).
        rewrite nth_error_map in X. destruct (nth_error ts (length a)) as [x |] eqn:Ex; [| discriminate X]. cbn in X. inversion X; subst m.
        apply (H (length a) x L Ex). rewrite <- (kind_interp' P n x). exact Hk.
      + intros L j x Lj Ex. rewrite <- (kind_interp' P n x). apply Hn.
        assert (X : nth_error (map (interp P n) ts) j = Some (interp P n x)) by (rewrite nth_error_map, Ex; reflexivity).
        rewrite E, nth_error_app2 in X by lia. destruct (j - length a)%nat as [| k] eqn:Ek; [lia |]. cbn in X. exact (nth_error_In _ _ X). }
  assert (Hhi : forall i m0, nth_error ts i = Some m0 ->
    ((forall j x, (j <= i)%nat -> nth_error ts j = Some x -> kind_of x <> KPreserialize) <-> (i < hi)%nat)).
  { intros i m0 Ei. unfold hi, fpvidx. destruct (first_vidx_spec KPreserialize (map (interp P n) ts)) as [[-> Hn] | (a & m & b & E & Hk & Hn & ->)].
    - split; [intros _; rewrite map_length; apply nth_error_Some; rewrite Ei; discriminate |].
      intros _ j x _ Ex. rewrite <- (kind_interp' P n x). apply Hn, in_map, (nth_error_In _ _ Ex).
    - split.
      + intros H. destruct (Nat.lt_ge_cases i (length a)) as [L | L]; [exact L |]. exfalso.
        assert (X : nth_error (map (interp P n) ts) (length a) = Some m) by (rewrite E, nth_error_app2, Nat.sub_diag by lia; reflexivity).
        rewrite nth_error_map in X. destruct (nth_error ts (length a)) as [x |] eqn:Ex; [| discriminate X]. cbn in X. inversion X; subst m.
        apply (H (length a) x L Ex). rewrite <- (kind_interp' P n x). exact Hk.
      + intros L j x Lj Ex. rewrite <- (kind_interp' P n x). apply Hn.
        assert (X : nth_error (map (interp P n) ts) j = Some (interp P n x)) by (rewrite nth_error_map, Ex; reflexivity).
        rewrite E, nth_error_app1 in X by lia. exact (nth_error_In _ _ X). }
  intros m. rewrite nth_slice, nth_checks. split.
  - intros (i & E & L). exists i. split; [exact E |]. split; [apply Hlo; lia | apply (Hhi i m E); lia].
  - intros (i & E & A & B). exists i. split; [exact E |]. apply Hlo in A. apply (Hhi i m E) in B. lia.
Qed.

(** A chain that accepts: each of those modifiers accepts, one after the other. *)
Lemma chain_all P n ts c w w' : civil P -> t_validate (interp P n) ts c w = (Ok tt, w') ->
  exists us, (forall m, In m us <-> checks ts m) /\ all_accept c (map (interp P n) us) w w'.
Proof.
  intros C H. destruct (nvs_checks P n ts) as (us & E & Hus). exists us. split; [exact Hus |].
  unfold t_validate, chain_validate in H. rewrite E in H. unfold bind in H.
  destruct (chain_validate_loop all_on (map (interp P n) us) c [] w) as [[msgs | e] w1] eqn:L; [| discriminate H].
  unfold raise_collected in H. destruct msgs; [| discriminate H]. inversion H; subst w1.
  apply (ChainProofs.validate_loop_ok all_on (map (interp P n) us) c [] w w' (all_speak P n us C)). auto.
Qed.

(** ** Chains with a requirement added *)
Lemma checks_snoc ts m : m <> MRequired -> (checks (ts ++ [MRequired]) m <-> checks ts m).
Proof.
  intros N. rewrite !nth_checks. split; intros (i & E & He & Hp); exists i.
  - assert (L : (i < length ts)%nat).
    { assert (i < length (ts ++ [MRequired]))%nat by (apply nth_error_Some; rewrite E; discriminate). rewrite app_length in H. cbn in H.
      destruct (Nat.eq_dec i (length ts)) as [-> | Q]; [| lia]. rewrite nth_error_app2, Nat.sub_diag in E by lia. inversion E; subst. contradiction N; reflexivity. }
    rewrite nth_error_app1 in E by exact L. split; [exact E |]. split; intros j x Lj Ej.
    + apply (He j x Lj). rewrite nth_error_app1; [exact Ej |]. apply nth_error_Some. rewrite Ej. discriminate.
    + apply (Hp j x Lj). rewrite nth_error_app1; [exact Ej |]. apply nth_error_Some. rewrite Ej. discriminate.
  - assert (L : (i < length ts)%nat) by (apply nth_error_Some; rewrite E; discriminate).
    split; [rewrite nth_error_app1; assumption |]. split; intros j x Lj Ej.
    + destruct (Nat.lt_ge_cases j (length ts)) as [Q | Q]; [rewrite nth_error_app1 in Ej by exact Q; apply (He j x Lj Ej) |].
      rewrite nth_error_app2 in Ej by exact Q. destruct (j - length ts)%nat as [| k]; cbn in Ej; [inversion Ej; subst; discriminate |].
      destruct k; discriminate Ej.
    + rewrite nth_error_app1 in Ej by lia. apply (Hp j x Lj Ej).
Qed.
Definition collects (m : mdf) : option types := match m with MListOf it | MDictOf it => Some it | _ => None end.
Lemma items_fdef ts it : items ts it <-> f_item (fdef_of ts) = Some it.
Proof.
  induction ts as [| m ts IH] using rev_ind.
  - split; [intros (a & m & b & E & _); destruct a; discriminate E | discriminate].
  - rewrite fdef_snoc, TameProofs.item_step. split.
    + intros (a & x & b & E & Hx & Hb). destruct b as [| y b] using rev_ind.
      * apply app_inj_tail in E. destruct E as [_ ->]. destruct Hx as [-> | ->]; reflexivity.
      * clear IHb. change (a ++ x :: b ++ [y]) with (a ++ (x :: b) ++ [y]) in E. rewrite app_assoc in E. apply app_inj_tail in E.
        destruct E as [-> ->].
        assert (Ny : TameProofs.item_mark y = None) by (specialize (Hb y ltac:(apply in_app_iff; right; left; reflexivity)); destruct y; try reflexivity; contradiction).
        rewrite Ny. apply IH. exists a, x, b. split; [reflexivity |]. split; [exact Hx |]. intros z Hz. apply Hb, in_app_iff. left. exact Hz.
    + intros H. destruct (TameProofs.item_mark m) as [o |] eqn:Em.
      * exists ts, m, []. split; [reflexivity |]. split; [| intros x []]. subst o. destruct m; try discriminate Em; inversion Em; auto.
      * apply IH in H. destruct H as (a & x & b & -> & Hx & Hb). exists a, x, (b ++ [m]).
        split; [rewrite <- app_assoc; reflexivity |]. split; [exact Hx |]. intros z Hz. apply in_app_iff in Hz. destruct Hz as [Hz | [<- | []]]; [apply Hb, Hz |].
        destruct m; try exact Logic.I; discriminate Em.
Qed.
Lemma items_snoc ts it : items (ts ++ [MRequired]) it <-> items ts it.
Proof. rewrite !items_fdef, fdef_snoc, TameProofs.item_step. reflexivity. Qed.
Lemma held_snoc ts v y : held (ts ++ [MRequired]) v y <-> held ts v y.
Proof.
  split; intros H; inversion H; subst.
  - eapply held_obj. apply checks_snoc; [discriminate | eassumption].
  - eapply held_list; [apply checks_snoc; [discriminate | eassumption] | apply items_snoc; eassumption | eassumption | assumption].
  - eapply held_dict; [apply checks_snoc; [discriminate | eassumption] | apply items_snoc; eassumption | eassumption | assumption].
  - eapply held_obj. apply checks_snoc; [discriminate | eassumption].
  - eapply held_list; [apply checks_snoc; [discriminate | eassumption] | apply items_snoc; eassumption | eassumption | assumption].
  - eapply held_dict; [apply checks_snoc; [discriminate | eassumption] | apply items_snoc; eassumption | eassumption | assumption].
Qed.
Lemma item_types_held ts it it' : items ts it -> item_types (fdef_of ts) = Some it' -> forall u y, held it' u y <-> held it u y.
Proof.
  intros H E u y. apply items_fdef in H. unfold item_types in E. rewrite H in E. destruct (f_item_null (fdef_of it)); inversion E; subst; try reflexivity. apply held_snoc.
Qed.

(** What a single modifier of the chain [ts] meets in [v] *)
Definition meets (ts : types) (m : mdf) (v : value) (y : oid) : Prop :=
  match m with
  | MInstance _ => v = VObj y
  | MListOf _ => exists it l u, items ts it /\ v = VList l /\ In u l /\ held it u y
  | MDictOf _ => exists it l k u, items ts it /\ v = VDict l /\ In (k, u) l /\ held it u y
  | _ => False
  end.
Lemma held_meets ts v y : held ts v y <-> exists m, checks ts m /\ meets ts m v y.
Proof.
  split.
  - intros H. inversion H; subst; (eexists; split; [eassumption |]).
    + reflexivity.
    + exists it, l, u. auto.
    + exists it, l, k, u. auto.
  - intros (m & Hc & Hm). destruct m; cbn in Hm; try contradiction.
    + subst v. eapply held_obj; eassumption.
    + destruct Hm as (it & l & u & A & -> & B & D). eapply held_list; eassumption.
    + destruct Hm as (it & l & k & u & A & -> & B & D). eapply held_dict; eassumption.
Qed.

(** ** The loop over items, when it ends without a message *)
Inductive runs {X} (pre : X -> st world (option (st world unit))) : list X -> world -> world -> Prop :=
| ru_nil w : runs pre [] w w
| ru_skip x l w w1 w' : pre x w = (Ok None, w1) -> runs pre l w1 w' -> runs pre (x :: l) w w'
| ru_run x l w m w1 w2 w' : pre x w = (Ok (Some m), w1) -> m w1 = (Ok tt, w2) -> runs pre l w2 w' -> runs pre (x :: l) w w'.
Lemma receive_nonnil l : forall x : list (string * string), x <> [] -> receive x l <> [].
Proof.
  unfold receive, dupdate. induction l as [| y l IH]; intros x Hx; [exact Hx |]. cbn. apply IH.
  destruct x as [| [k v] x]; cbn; [contradiction |]. destruct (String.eqb _ _); discriminate.
Qed.
Lemma collect_nonnil {X} all (pre : X -> st world (option (st world unit))) l : forall msgs w r w', msgs <> [] ->
  collect all pre l msgs w = (Ok r, w') -> r <> [].
Proof.
  induction l as [| x l IH]; intros msgs w r w' Hm H; cbn [collect] in H; [inversion H; subst; exact Hm |].
  unfold bind in H. destruct (pre x w) as [[[m |] | e] w1]; try discriminate H; [| exact (IH _ _ _ _ Hm H)].
  destruct (m w1) as [[u | e] w2]; [exact (IH _ _ _ _ Hm H) |]. destruct e; try discriminate H.
  destruct all; [| discriminate H]. exact (IH _ _ _ _ (receive_nonnil _ _ Hm) H).
Qed.
Lemma collect_runs {X} all (pre : X -> st world (option (st world unit))) l :
  (forall x m w w1 w2 e, pre x w = (Ok (Some m), w1) -> m w1 = (Err (EValidation e), w2) -> e <> []) ->
  forall w w', collect all pre l [] w = (Ok [], w') -> runs pre l w w'.
Proof.
  intros Sp. induction l as [| x l IH]; intros w w' H; cbn [collect] in H; [inversion H; constructor |].
  unfold bind in H. destruct (pre x w) as [[[m |] | e] w1] eqn:E; try discriminate H; [| eapply ru_skip; [exact E | exact (IH _ _ H)]].
  destruct (m w1) as [[[] | e] w2] eqn:Em; [eapply ru_run; [exact E | exact Em | exact (IH _ _ H)] |]. destruct e; try discriminate H.
  destruct all; [| discriminate H]. exfalso. eapply (collect_nonnil true pre l); [| exact H | reflexivity].
  apply receive_nil_keys. exact (Sp _ _ _ _ _ _ E Em).
Qed.

(** ** Marks *)
Lemma has_put_inv cname o pk x pkx m : m_has cname x pkx (m_put cname o pk m) = true ->
  m_has cname x pkx m = true \/ (cname x = cname o /\ (x = o \/ exists k, pkx = Some k /\ pk = Some k)).
Proof.
  unfold m_has, m_put. rewrite table_sset. destruct (String.eqb_spec (cname x) (cname o)) as [E | E]; [| auto].
  rewrite E. unfold t_has, t_put. destruct pk as [p |]; cbn [by_key by_id t_putp].
  - destruct pkx as [q |]; [| auto]. rewrite sget_sset. destruct (String.eqb_spec q p) as [-> | N]; [| auto].
    intros _. right. split; [reflexivity |]. right. exists p. auto.
  - destruct (match pkx with Some q => sget q (by_key (m_table (cname o) m)) | None => None end); [auto |].
    rewrite (dget_dset _ nat_equivb). destruct (Nat.eqb_spec x o) as [-> | N]; [| auto]. intros _. right. auto.
Qed.

Section Reach.
  Context (P : program) (D : nat) (w0 : world) (root : oid).
  Hypothesis CA : calm P.
  Hypothesis CI : civil P.
  Hypothesis PC : plain_classes D P.
  Hypothesis TA : told_apart P w0 root.
  Let h := w_heap w0.
  Let R := reaches P w0 root.
  Instance silent : manner := Silent.
  Lemma any_loud' e : loud e.
  Proof. split; intros X; discriminate X. Qed.
  Lemma any_louder' {A} (r : res A) : louder r.
  Proof. intros e _. apply any_loud'. Qed.
  Let Q (g : cbid) : Prop := True.

  (** *** Inert types mark nothing *)
  Definition still (g : mgraph) (w : world) : Prop := w_heap w = h /\ w_mg w = g.
  Lemma still_call g k f c args : keeps (still g) (call P k f c args).
  Proof. intros w H. rewrite (call_eq P k f c args w CA). cbn [fst snd]. split; [exact H | apply any_louder']. Qed.
  Lemma flat_still g n d m c : flat d m -> keeps (still g) (m_validate (interp P n m) c).
  Proof.
    intros F. apply (flat_ok P (still g) Q) with (d := d); try (intros; apply any_louder').
    - intros. apply still_call.
    - split; [exact F | intros; exact Logic.I].
    - left. discriminate.
  Qed.
  Definition parts_in (p : mdf -> Prop) (c : ctx) : Prop :=
    exists ts, c_fdef c = fdef_of ts /\ forall x, In x ts -> part x = true -> p x.
  Lemma item_chain_in (p : mdf -> Prop) ts it x : item_types (fdef_of ts) = Some it ->
    (forall l y, (In (MListOf l) ts \/ In (MDictOf l) ts) -> In y l -> p y) -> In x it -> flat 1 x \/ p x.
  Proof.
    intros E H Hx. unfold item_types in E. destruct (f_item (fdef_of ts)) as [l |] eqn:Ei; [| discriminate E].
    apply item_from in Ei. assert (it = l \/ it = l ++ [MRequired]) as [-> | ->] by (destruct (f_item_null (fdef_of l)); inversion E; auto).
    - right. apply (H l x Ei Hx).
    - apply in_app_iff in Hx. destruct Hx as [Hx | [<- | []]]; [right; apply (H l x Ei Hx) | left; cbn; intros xs []].
  Qed.
  Lemma flat_not_part d m : flat d m -> part m = false.
  Proof. destruct d; [contradiction |]. destruct m; cbn; try reflexivity; contradiction. Qed.

  Lemma inert_still g n : forall d m c, inert d m -> parts_in (inert d) c -> keeps (still g) (m_validate (interp P n m) c).
  Proof.
    induction n as [| n IH]; intros d m c Hm Hc; [apply k_throw, any_loud' |]. destruct d as [| d]; [contradiction |].
    assert (Hcol : forall b, keeps (still g) (col_validate P (interp P n) b c)).
    { intros b. apply (k_col_validate P (fun _ => still g) n 0). intros it c' Et Ec x Hx. destruct Hc as (ts & Hf & Hts). rewrite Hf in Et.
      assert (Hit : forall x, In x it -> flat 1 x \/ inert d x).
      { intros y Hy. apply (item_chain_in (inert d) ts it y Et); [| exact Hy]. intros l z [Hl | Hl] Hz; specialize (Hts _ Hl eq_refl); cbn in Hts; auto. }
      destruct (Hit x Hx) as [F | F]; [apply (flat_still g n 1 x c' F) |].
      apply (IH d x c' F). exists it. split; [exact Ec |]. intros y Hy Np. destruct (Hit y Hy) as [F' | F']; [rewrite (flat_not_part _ _ F') in Np; discriminate Np | exact F']. }
    destruct (part m) eqn:Np.
    - destruct m; try discriminate Np; cbn [interp modif_of m_validate validate_of]; [contradiction Hm | apply Hcol | apply Hcol |].
      apply (k_union_validate P (fun _ => still g) n 0). intros us' Hu x Hx. destruct Hc as (ts' & Hf & Hts). rewrite Hf in Hu.
      destruct (union_from ts' us' Hu) as (vs & Hv & Hus). specialize (Hts _ Hv eq_refl). cbn in Hts.
      apply (IH d x _ (Hts us' x Hus Hx)). exists us'. split; [reflexivity |]. intros y Hy _. apply (Hts us' y Hus Hy).
    - apply (flat_still g (S n) (S d) m c). destruct m; try discriminate Np; exact Hm.
  Qed.

  (** *** What a piece of validation may do to the marks *)
  Definition seen (w : world) (x : oid) : Prop := m_has (cname_of w) x (pk_of P w x) (w_mg w) = true.
  Definition done (x : oid) : Prop := forall f v, due_field P w0 x f v -> exists fuel c, accepted P w0 x f v fuel c.
  Record good (w w' : world) : Prop := {
    g_heap : w_heap w' = h;
    g_mono : forall x, seen w x -> seen w' x;
    g_new : forall x, R x -> seen w' x -> seen w x \/ (done x /\ forall y, refers P w0 x y -> seen w' y)
  }.
  Lemma good_refl w : w_heap w = h -> good w w.
  Proof. intros H. constructor; auto. Qed.
  Lemma good_trans w w1 w2 : good w w1 -> good w1 w2 -> good w w2.
  Proof.
    intros [A1 A2 A3] [B1 B2 B3]. constructor; [exact B1 | auto |]. intros x Rx Sx.
    destruct (B3 x Rx Sx) as [S1 | N]; [| right; exact N]. destruct (A3 x Rx S1) as [S0 | [N1 N2]]; [left; exact S0 |].
    right. split; [exact N1 |]. intros y Hy. apply B2, N2, Hy.
  Qed.
  Lemma good_still w w' : still (w_mg w) w' -> w_heap w = h -> good w w'.
  Proof.
    intros [E1 E2] H. assert (K : forall x, seen w x <-> seen w' x).
    { intros x. unfold seen, cname_of, pk_of. rewrite E1, E2, H. reflexivity. }
    constructor; [exact E1 | intros x; apply K | intros x _ S; left; apply K, S].
  Qed.
  Lemma keeps_good {A} (m : st world A) w r w' : (forall g, keeps (still g) m) -> w_heap w = h -> m w = (r, w') -> good w w'.
  Proof.
    intros K H E. apply good_still; [| exact H]. destruct (K (w_mg w) w (conj H eq_refl)) as [X _]. rewrite E in X. exact X.
  Qed.

  Definition owner_ok (c : ctx) : Prop := (exists x, c_owner c = VObj x) \/ c_owner c = c_val c.
  Definition orig_ok (c : ctx) : Prop := c_original c = VNone \/ c_original c = c_val c.

  (** The contexts in which chains are run *)
  Record fit (d : nat) (ts : types) (c : ctx) : Prop := {
    fit_def : c_fdef c = fdef_of ts;
    fit_types : forall x, In x ts -> flat 1 x \/ plain d x;
    fit_owner : owner_ok c;
    fit_orig : orig_ok c;
    fit_reach : forall y, held ts (c_val c) y -> R y
  }.
  Definition modifier_good (n : nat) : Prop := forall d ts m c w w', fit d ts c -> checks ts m -> w_heap w = h ->
    m_validate (interp P n m) c w = (Ok tt, w') -> good w w' /\ forall y, meets ts m (c_val c) y -> seen w' y.
  Lemma checks_In ts m : checks ts m -> In m ts.
  Proof. intros (a & b & -> & _). apply in_elt. Qed.

  Lemma chain_good n : modifier_good n -> forall d ts c w w', fit d ts c -> w_heap w = h ->
    t_validate (interp P n) ts c w = (Ok tt, w') -> good w w' /\ (forall y, held ts (c_val c) y -> seen w' y) /\
      forall m, checks ts m -> exists w1 w2, w_heap w1 = h /\ m_validate (interp P n m) c w1 = (Ok tt, w2).
  Proof.
    intros M d ts c w w' F Hw H. destruct (chain_all P n ts c w w' CI H) as (us & Hus & A). clear H.
    assert (G : good w w' /\ forall m, In m us -> (forall y, meets ts m (c_val c) y -> seen w' y) /\
      exists w1 w2, w_heap w1 = h /\ m_validate (interp P n m) c w1 = (Ok tt, w2)).
    { assert (Hs : forall m, In m us -> checks ts m) by (intros m; apply Hus). clear Hus.
      remember (map (interp P n) us) as vs eqn:Ev. revert us Ev Hs Hw. induction A as [w | v vs w w1 w2 Hv A IH]; intros us Ev Hs Hw.
      - destruct us; [| discriminate Ev]. split; [apply good_refl, Hw | intros m []].
      - destruct us as [| m us]; [discriminate Ev |]. inversion Ev; subst v vs. clear Ev.
        destruct (M d ts m c w w1 F (Hs m (or_introl eq_refl)) Hw Hv) as [G1 S1].
        destruct (IH us eq_refl (fun x Hx => Hs x (or_intror Hx)) (g_heap _ _ G1)) as [G2 S2].
        split; [exact (good_trans _ _ _ G1 G2) |]. intros x [<- | Hx]; [| exact (S2 x Hx)].
        split; [intros y Hy; apply (g_mono _ _ G2), (S1 y Hy) | exists w, w1; split; assumption]. }
    destruct G as [G S]. split; [exact G |]. split.
    - intros y Hy. apply held_meets in Hy. destruct Hy as (m & Hm & Hy). apply (S m); [apply Hus, Hm | exact Hy].
    - intros m Hm. apply (S m), Hus, Hm.
  Qed.

  (** *** Lists and dicts *)
  Lemma col_good n d ts (b : bool) i c w w' : modifier_good n -> fit (S d) ts c -> checks ts (if b then MDictOf i else MListOf i) -> w_heap w = h ->
    col_validate P (interp P n) b c w = (Ok tt, w') ->
    good w w' /\ (c_val c = VNone \/ exists its, col_items b (c_val c) = Some its /\ forall it, items ts it ->
      forall k u y, In (k, u) its -> held it u y -> seen w' y).
  Proof.
    intros M F Hi Hw H. unfold col_validate in H.
    assert (X : c_val c <> VNone -> (match col_items b (c_val c) with
          | None => raise_vexc c (if b then "value is not dict" else "value is not list")
          | Some its =>
              do* d <- cdef_v P (c_owner c);
              let all := match g_all (c_cfg c) with Some b => b | None => cd_validate_all d end in
              do* msgs <- collect all (fun kv =>
                  do* ts <- items_of c;
                  ret (Some (t_validate (interp P n) ts (colval c (snd kv) (fst kv) (fdef_of ts) (c_val c))))) its [];
              raise_collected msgs
          end : st world unit) w = (Ok tt, w')).
    { intros N. destruct (c_val c); try exact H. contradiction N; reflexivity. }
    destruct (is_none (c_val c)) eqn:En.
    { destruct (c_val c); try discriminate En. inversion H; subst. split; [apply good_refl, Hw | left; reflexivity]. }
    specialize (X ltac:(intros E; rewrite E in En; discriminate En)). clear H.
    destruct (col_items b (c_val c)) as [its |] eqn:Ei; [| discriminate X].
    apply bind_ok in X. destruct X as (cd & w1 & Hcd & X). cbn zeta in X.
    assert (w1 = w /\ exists x, c_owner c = VObj x) as [-> [x Hx]].
    { unfold cdef_v, the_obj, bind, getW, ret, throw in Hcd. destruct (c_owner c); inversion Hcd; subst. split; [reflexivity | eexists; reflexivity]. }
    apply bind_ok in X. destruct X as (msgs & w2 & G & X). unfold raise_collected in X. destruct msgs; [| discriminate X]. inversion X; subst w2. clear X.
    apply collect_runs in G.
    2:{ intros kv m v1 v2 v3 e E Em. unfold bind, items_of in E. destruct (item_types (c_fdef c)) as [it |]; [| discriminate E].
        inversion E; subst. exact (t_validate_speaks _ _ _ _ _ _ _ CI Em). }
    assert (K : good w w' /\ forall it, items ts it -> forall k u y, In (k, u) its -> held it u y -> seen w' y).
    2:{ destruct K as [K1 K2]. split; [exact K1 |]. right. exists its. split; [reflexivity | exact K2]. }
    assert (Hits : forall k u, In (k, u) its -> forall it y, items ts it -> held it u y -> held ts (c_val c) y).
    { intros k u Hin it y Hit Hy. destruct b; cbn in Ei; destruct (c_val c) as [| | | | | | | | l | l | |]; try discriminate Ei.
      - inversion Ei; subst its. unfold enum_dict in Hin. apply in_map_iff in Hin. destruct Hin as ([s v] & Es & Hin). inversion Es; subst.
        eapply held_dict; [exact Hi | exact Hit | exact Hin | exact Hy].
      - eapply held_list; [exact Hi | exact Hit | | exact Hy]. inversion Ei; subst its. revert Hin. clear. generalize 0%Z.
        induction l as [| v l IH]; intros z Hin; cbn in Hin; [contradiction |]. destruct Hin as [Hin | Hin]; [inversion Hin; left; reflexivity | right; exact (IH _ Hin)]. }
    clear Ei. revert Hits. clear Hcd. induction G as [w | kv l w w1 w' E G IH | kv l w m w1 w2 w' E Em G IH]; intros Hits.
    - split; [apply good_refl, Hw | intros it _ k u y []].
    - exfalso. unfold bind, items_of in E. destruct (item_types (c_fdef c)); discriminate E.
    - unfold bind, items_of in E. destruct (item_types (c_fdef c)) as [it' |] eqn:Et; [| discriminate E]. cbn in E. inversion E; subst m w1. clear E.
      rewrite (fit_def _ _ _ F) in Et.
      assert (exists it, items ts it) as [it Hit].
      { unfold item_types in Et. destruct (f_item (fdef_of ts)) as [it |] eqn:Ef; [| discriminate Et]. exists it. apply items_fdef, Ef. }
      pose proof (item_types_held ts it it' Hit Et) as Hh.
      assert (F' : fit d it' (colval c (snd kv) (fst kv) (fdef_of it') (c_val c))).
      { constructor.
        - reflexivity.
        - intros z Hz. apply (item_chain_in (plain d) ts it' z Et); [| exact Hz].
          intros l0 y Hl Hy. assert (T : plain (S d) (MListOf l0) \/ plain (S d) (MDictOf l0)).
          { destruct Hl as [Hl | Hl]; [left | right]; (destruct (fit_types _ _ _ F _ Hl) as [T | T]; [contradiction T | exact T]). }
          destruct T as [T | T]; apply (T y Hy).
        - left. exists x. exact Hx.
        - left. reflexivity.
        - intros y Hy. cbn in Hy. apply Hh in Hy. apply (fit_reach _ _ _ F). destruct kv as [k u]. apply (Hits k u (or_introl eq_refl) it y Hit Hy). }
      destruct (chain_good n M d it' _ w w2 F' Hw Em) as [G1 [S1 _]]. cbn [c_val colval] in S1.
      destruct (IH (g_heap _ _ G1)) as [G2 S2].
      { intros k u Hin. apply (Hits k u). right. exact Hin. }
      split; [exact (good_trans _ _ _ G1 G2) |]. intros it2 Hit2 k u y [Hin | Hin] Hy; [| exact (S2 it2 Hit2 k u y Hin Hy)].
      subst kv. apply (g_mono _ _ G2), S1, Hh. apply items_fdef in Hit, Hit2. rewrite Hit in Hit2. inversion Hit2; subst it2. exact Hy.
  Qed.

  (** *** Objects *)
  Lemma due_heap w x f : w_heap w = h -> (due w x f <-> due w0 x f).
  Proof. intros H. unfold due, wobj. rewrite H. reflexivity. Qed.
  Lemma value_heap w x n v : w_heap w = h -> (value_of P w x n v <-> value_of P w0 x n v).
  Proof.
    intros H. unfold value_of, getattr, liftH, ObjModel.getattr. fold h. rewrite H.
    destruct w as [hh e g l]; cbn in H; subst hh. destruct w0 as [h0 e0 g0 l0]. cbn in h. subst h. cbn.
    destruct (ofield (p_ct P) h0 x n) as [f |]; [destruct (is_calc f) |]; cbn.
    - split; intros E; inversion E; reflexivity.
    - destruct (attr h0 x n); cbn; split; intros E; inversion E; reflexivity.
    - destruct (attr h0 x n); cbn; split; intros E; inversion E; reflexivity.
  Qed.

  Lemma sweep_good n c o fs w l w' : modifier_good n -> R o -> c_val c = VObj o -> orig_ok c -> (forall f, In f fs -> exists d, p_ct P (wclass w0 o) = Some d /\ In f (cd_fields d)) ->
    w_heap w = h -> sweep P (due w0 o) n c o fs w l w' -> all_passed l ->
    good w w' /\ forall f v, In f fs -> due w0 o f -> value_of P w0 o (fl_name f) v -> (exists fuel c, accepted P w0 o f v fuel c) /\ forall y, held (fl_types f) v y -> seen w' y.
  Proof.
    intros M Ro Vc Oc Hfs Hw S. revert Hfs Hw. induction S as [w | f fs w v l w' H V Hs IH | f fs w w1 l w' H Rf Hs IH | f fs w w1 e l w' H Rf Hs IH];
      intros Hfs Hw A.
    - split; [apply good_refl, Hw | intros f v []].
    - destruct (IH (fun g Hg => Hfs g (or_intror Hg)) Hw A) as [G1 S1]. split; [exact G1 |].
      intros g v' [<- | Hg] Dg; [contradiction | exact (S1 g v' Hg Dg)].
    - inversion A as [| ? ? _ A']; subst. destruct Rf as (v & e & V & K & T).
      assert (V0 : value_of P w0 o (fl_name f) v) by (apply (value_heap w); assumption).
      assert (DF : due_field P w0 o f v) by (constructor; [apply Hfs; left; reflexivity | exact H | exact V0]).
      assert (E1 : c_fdef (field_ctx c o f (wclass w o) v e) = fdef_of (fl_types f) /\ c_val (field_ctx c o f (wclass w o) v e) = v /\
                     owner_ok (field_ctx c o f (wclass w o) v e) /\ (is_inst_field f = false -> c_owner (field_ctx c o f (wclass w o) v e) = VObj o) /\ c_original (field_ctx c o f (wclass w o) v e) = VNone).
      { assert (Ow : match c_original c with VNone => VObj o | x => x end = VObj o) by (destruct Oc as [-> | ->]; [| rewrite Vc]; reflexivity).
        unfold field_ctx. rewrite Ow. destruct (is_inst_field f); repeat apply conj; try reflexivity; try discriminate.
        - right. reflexivity.
        - left. exists o. reflexivity. }
      destruct E1 as (E1 & E2 & E3 & E5 & E4).
      assert (F : fit D (fl_types f) (field_ctx c o f (wclass w o) v e)).
      { constructor.
        - exact E1.
        - intros x Hx. right. destruct (Hfs f (or_introl eq_refl)) as (d & Hd & Hf). apply (PC _ d f x Hd Hf Hx).
        - exact E3.
        - left. exact E4.
        - rewrite E2. intros y Hy. apply (re_step P w0 root o y Ro). exists f, v. split; assumption. }
      destruct (chain_good n M D _ _ w w1 F Hw T) as [G1 [S1 T1]]. rewrite E2 in S1.
      destruct (IH (fun g Hg => Hfs g (or_intror Hg)) (g_heap _ _ G1) A') as [G2 S2].
      split; [exact (good_trans _ _ _ G1 G2) |]. intros g v' [<- | Hg] Dg Vg; [| exact (S2 g v' Hg Dg Vg)].
      assert (v' = v) as -> by (unfold value_of in V0, Vg; rewrite V0 in Vg; inversion Vg; reflexivity).
      split.
      + exists n, (field_ctx c o f (wclass w o) v e). constructor; try assumption. exists w, w1. auto.
      + intros y Hy. apply (g_mono _ _ G2), S1, Hy.
    - inversion A as [| ? ? X _]; subst. discriminate X.
  Qed.

  Lemma inst_good n d ts cls c w w' : modifier_good n -> fit d ts c -> checks ts (MInstance cls) -> w_heap w = h ->
    inst_validate P (interp P n) c w = (Ok tt, w') -> good w w' /\ forall y, c_val c = VObj y -> seen w' y.
  Proof.
    intros M F Hc Hw H. destruct (c_val c) as [| | | | | | | | | | o |] eqn:Ev.
    11:{ rewrite (inst_validate_obj P _ _ _ _ Ev) in H. destruct (m_has (cname_of w) o (pk_of P w o) (w_mg w)) eqn:Hm.
      { inversion H; subst. split; [apply good_refl, Hw |]. intros y E. inversion E; subst. exact Hm. }
      assert (Ro : R o) by (apply (fit_reach _ _ _ F); rewrite Ev; eapply held_obj, Hc).
      assert (exists cd, fresh_visit P c o cd w) as [cd FV].
      { unfold inst_rest in H. apply bind_ok in H. destruct H as (k & w1 & H1 & H). apply bind_ok in H. destruct H as (cd & w2 & H2 & H).
        cbn zeta in H. unfold bind at 1, getW at 1 in H.
        unfold inst_cls in H1. destruct (f_inst (c_fdef c)) as [k' |] eqn:Ei; [| discriminate H1]. inversion H1; subst k w1.
        unfold class_named in H2. destruct (p_ct P k') as [cd' |] eqn:Ec; [| discriminate H2]. inversion H2; subst cd' w2.
        match type of H with context [negb ?b] => destruct b eqn:Eb end; [| discriminate H].
        exists cd. constructor.
        - exact Ev.
        - exact Hm.
        - destruct (fit_owner _ _ _ F) as [O | O]; [exact O | exists o; rewrite O; exact Ev].
        - exists k'. auto. }
      assert (V : m_validate (interp P (S n) (MInstance (match f_inst (c_fdef c) with Some x => x | None => EmptyString end))) c w = (Ok tt, w')).
      { cbn [interp modif_of m_validate validate_of]. rewrite (inst_validate_obj P _ _ _ _ Ev), Hm. exact H. }
      apply (visit_ends P n c o cd w (Ok tt) w' CI FV) in V. remember (Ok tt) as r eqn:Er. destruct V as [l w' Sw Al | ? ? ? ? ? e ? | ? ? ? ? ? e ?]; try discriminate Er.
      assert (Ap : all_passed l) by (apply verdict_passed, Er). clear Er Al H.
      assert (Sw' : sweep P (due w0 o) n c o (cd_fields (wcdef P w o)) (marked P w o) l w') by (eapply sweep_iff; [| exact Sw]; intros f; apply due_heap, Hw).
      destruct (sweep_good n c o (cd_fields (wcdef P w o)) (marked P w o) l w' M Ro Ev (fit_orig _ _ _ F)) as [G S]; try assumption.
      { intros f Hf. unfold wcdef, cdef_of in Hf. unfold wclass, wobj. fold h. rewrite Hw in Hf.
        destruct (p_ct P (o_class (h_obj h o))) as [d' |]; [exists d'; auto | contradiction Hf]. }
      assert (So : seen (marked P w o) o).
      { unfold seen, marked. cbn [w_mg set_mg]. change (cname_of (set_mg _ w)) with (cname_of w). change (pk_of P (set_mg _ w)) with (pk_of P w). apply has_put_same. }
      split; [| intros y E; inversion E; subst y; apply (g_mono _ _ G), So].
      assert (Sm : forall x, seen w x -> seen (marked P w o) x).
      { intros x Sx. unfold seen, marked in *. cbn [w_mg set_mg]. change (cname_of (set_mg _ w)) with (cname_of w). change (pk_of P (set_mg _ w)) with (pk_of P w). apply has_put_mono, Sx. }
      constructor; [exact (g_heap _ _ G) | intros x Sx; apply (g_mono _ _ G), Sm, Sx |].
      intros x Rx Sx. destruct (g_new _ _ G x Rx Sx) as [S1 | N]; [| right; exact N].
      unfold seen, marked in S1. cbn [w_mg set_mg] in S1. change (cname_of (set_mg _ w)) with (cname_of w) in S1. change (pk_of P (set_mg _ w)) with (pk_of P w) in S1.
      apply has_put_inv in S1. destruct S1 as [S1 | [Ec Ex]]; [left; exact S1 |]. right.
      assert (x = o) as ->.
      { destruct Ex as [Ex | (k & K1 & K2)]; [exact Ex |]. apply (TA x o k Rx Ro).
        - unfold wclass, wobj, cname_of in *. fold h. rewrite <- Hw. exact Ec.
        - unfold pk_of in *. fold h. rewrite <- Hw. exact K1.
        - unfold pk_of in *. fold h. rewrite <- Hw. exact K2. }
      assert (Ef : forall f v, due_field P w0 o f v -> In f (cd_fields (wcdef P w o))).
      { intros f v [(d' & Hd & Hf) _ _]. unfold wcdef, cdef_of. rewrite Hw. unfold wclass, wobj in Hd. fold h in Hd. rewrite Hd. exact Hf. }
      split.
      - intros f v DF. apply (S f v (Ef f v DF) (df_due _ _ _ _ _ DF) (df_value _ _ _ _ _ DF)).
      - intros y (f & v & DF & Hy). apply (S f v (Ef f v DF) (df_due _ _ _ _ _ DF) (df_value _ _ _ _ _ DF)). exact Hy. }
    { unfold inst_validate in H. rewrite Ev in H. inversion H; subst. split; [apply good_refl, Hw | discriminate]. }
    all: unfold inst_validate in H; rewrite Ev in H; discriminate H.
  Qed.

  Lemma all_good n : modifier_good n.
  Proof.
    induction n as [| n IH]; intros d ts m c w w' F Hc Hw H; [discriminate H |].
    assert (Hfl : (exists d', flat d' m) -> good w w' /\ forall y, meets ts m (c_val c) y -> seen w' y).
    { intros [d' Fl]. split; [apply (keeps_good _ w _ w' (fun g => flat_still g (S n) d' m c Fl) Hw H) |].
      pose proof (flat_not_part _ _ Fl) as Np. intros y Hy. destruct m; try discriminate Np; contradiction Hy. }
    destruct (fit_types _ _ _ F m (checks_In _ _ Hc)) as [Fl | Pl]; [apply Hfl; exists 1%nat; exact Fl |].
    destruct d as [| d]; [contradiction Pl |].
    destruct (part m) eqn:Np; [| apply Hfl; exists (S d); destruct m; try discriminate Np; exact Pl]. clear Hfl.
    destruct m; try discriminate Np.
    - apply (inst_good n _ ts _ c w w' IH F Hc Hw) in H. exact H.
    - destruct (col_good n d ts false _ c w w' IH F Hc Hw H) as [G S]. split; [exact G |].
      intros y (it & l & u & Hit & Ev & Hu & Hy). rewrite Ev in S. destruct S as [S | (its & Ei & S)]; [discriminate S |].
      cbn in Ei. inversion Ei; subst its. assert (exists k, In (k, u) (enum_list 0 l)) as [k Hk].
      { revert Hu. clear. generalize 0%Z. induction l as [| v l IH]; intros z [] ; [subst; exists (KInt z); left; reflexivity |].
        destruct (IH (z + 1)%Z H) as [k Hk]. exists k. right. exact Hk. }
      exact (S it Hit k u y Hk Hy).
    - destruct (col_good n d ts true _ c w w' IH F Hc Hw H) as [G S]. split; [exact G |].
      intros y (it & l & k & u & Hit & Ev & Hu & Hy). rewrite Ev in S. destruct S as [S | (its & Ei & S)]; [discriminate S |].
      cbn in Ei. inversion Ei; subst its. apply (S it Hit (KStr k) u y); [| exact Hy].
      unfold enum_dict. apply in_map_iff. exists (k, u). auto.
    - split; [| intros y []]. eapply (keeps_good _ w _ w' _ Hw H). Unshelve. intros g. cbn [interp modif_of m_validate validate_of].
      apply (k_union_validate P (fun _ => still g) n 0). intros us0 Hu x Hx. rewrite (fit_def _ _ _ F) in Hu.
      destruct (union_from ts us0 Hu) as (vs & Hv & Hus).
      assert (T : inert (S d) (MUnion vs)).
      { destruct (fit_types _ _ _ F _ Hv) as [T | T]; [contradiction T | exact T]. }
      cbn in T. apply (inert_still g n d x _ (T us0 x Hus Hx)). exists us0. split; [reflexivity |]. intros y Hy _. apply (T us0 y Hus Hy).
  Qed.
End Reach.
