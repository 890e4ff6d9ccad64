(** TameProofs.v -- validation of a graph of objects in the logic of Keep.v. *)
From Verif Require Import Base Mon PyList PyDict KeypathModel Values OGraphModel MGraphModel MGraphProofs ChainModel
  TypesModel TypesSpec TypesProofs ObjModel IoModel IoBase Sound ObjSound LeafSound TameSpec Keep.
From Verif Require LeafModel.
Open Scope list_scope.

(** ** Where the parts of a definition come from *)
Lemma fdef_snoc ts m : fdef_of (ts ++ [m]) = define m (fdef_of ts).
Proof. unfold fdef_of. rewrite fold_left_app. reflexivity. Qed.

Definition item_mark (m : mdf) : option (option types) :=
  match m with MListOf it | MDictOf it => Some (Some it) | _ => None end.
Lemma item_step : forall m d, f_item (define m d) = match item_mark m with Some x => x | None => f_item d end.
Proof. crush_define. Qed.
Definition union_mark (m : mdf) : option (list types) := match m with MUnion us => Some us | _ => None end.
Lemma union_step : forall m d, f_union (define m d) = match union_mark m with Some x => x | None => f_union d end.
Proof. crush_define. Qed.

Lemma item_from ts it : f_item (fdef_of ts) = Some it -> In (MListOf it) ts \/ In (MDictOf it) ts.
Proof.
  induction ts as [| m ts IH] using rev_ind; [discriminate |]. rewrite fdef_snoc, item_step. intros H.
  destruct m; cbn [item_mark] in H; try (destruct (IH H); [left | right]; apply in_or_app; left; assumption);
    inversion H; subst; [left | right]; apply in_or_app; right; left; reflexivity.
Qed.
Lemma union_from ts u : In u (f_union (fdef_of ts)) -> exists us, In (MUnion us) ts /\ In u us.
Proof.
  induction ts as [| m ts IH] using rev_ind; [contradiction |]. rewrite fdef_snoc, union_step. intros H.
  destruct m; cbn [union_mark] in H; try (destruct (IH H) as (us & A & B); exists us; split; [apply in_or_app; left; exact A | exact B]).
  eexists. split; [apply in_or_app; right; left; reflexivity | exact H].
Qed.

(** ** Tame types and contexts, which use only the callables of [Q] *)
Section Q.
  Context (Q : cbid -> Prop).
  Definition tameQ (d : nat) (m : mdf) : Prop := tame d m /\ forall f, uses d f m -> Q f.
  Definition tames (d : nat) (ts : types) : Prop := forall x, In x ts -> tameQ d x.
  Definition tame_ctx (d : nat) (c : ctx) : Prop :=
    exists ts, c_fdef c = fdef_of ts /\ forall x, In x ts -> part x = true -> tameQ d x.

  Lemma flat_tame d m : flatQ Q d m -> tameQ d m.
  Proof. intros [H HQ]. split; [| exact HQ]. destruct d; [contradiction |]. destruct m; cbn; auto; contradiction. Qed.
  Lemma required_flat d : flatQ Q (S d) MRequired.
  Proof. split; [cbn; intros ts [] |]. intros f [[] | (ts & x & [] & _)]. Qed.
  Lemma tame_flat d m : tameQ (S d) m -> part m = false -> flatQ Q (S d) m.
  Proof. intros [H HQ] N. split; [| exact HQ]. destruct m; try discriminate N; exact H. Qed.

  Lemma list_items d it m : (m = MListOf it \/ m = MDictOf it) -> tameQ (S d) m -> tames d it.
  Proof.
    intros E [H HQ] x Hx. split; [destruct E; subst m; apply (H x Hx) |].
    intros f U. apply HQ. right. exists it, x. split; [destruct E; subst m; left; reflexivity | split; assumption].
  Qed.

  Lemma items_tame d c ts x : tame_ctx (S d) c -> item_types (c_fdef c) = Some ts -> In x ts ->
    flatQ Q 1 x \/ (tameQ d x /\ tames d ts).
  Proof.
    intros (us & -> & H) E Hx. unfold item_types in E. destruct (f_item (fdef_of us)) as [it |] eqn:Ei; [| discriminate E].
    assert (T : tames d it).
    { destruct (item_from us it Ei) as [X | X]; (apply (list_items d it _ ltac:(auto)), (H _ X)); reflexivity. }
    assert (ts = it \/ ts = it ++ [MRequired]) as [-> | ->].
    { destruct (f_item_null (fdef_of it)); inversion E; auto. }
    - right. split; [apply T, Hx | exact T].
    - apply in_app_iff in Hx. destruct Hx as [Hx | [<- | []]]; [| left; apply required_flat].
      right. split; [apply T, Hx |]. intros y Hy. apply in_app_iff in Hy. destruct Hy as [Hy | [<- | []]]; [apply T, Hy |].
      destruct d as [| d]; [contradiction (proj1 (T x Hx)) |]. apply flat_tame, required_flat.
  Qed.
  Lemma union_tame d c u : tame_ctx (S d) c -> In u (f_union (c_fdef c)) -> tames d u.
  Proof.
    intros (us & -> & H) E. destruct (union_from us u E) as (vs & A & B). intros x Hx.
    destruct (H _ A eq_refl) as [T HQ]. split; [apply (T u x B Hx) |].
    intros f U. apply HQ. right. exists u, x. split; [exact B | split; assumption].
  Qed.
  Lemma own_ctx d ts c : c_fdef c = fdef_of ts -> tames d ts -> tame_ctx d c.
  Proof. intros E H. exists ts. split; [exact E | intros x Hx _; apply H, Hx]. Qed.
End Q.

Section Manner.
Context {spk : manner}.

Lemma k_getW_bind {A B} (I : world -> Prop) (q : world -> A) (k : A -> st world B) :
  (forall w, I w -> keeps I (k (q w))) -> keeps I (bind (getW q) k).
Proof. intros H w Hw. exact (H w Hw w Hw). Qed.

Section Io.
  Context (P : program) (Q : cbid -> Prop) (D : nat).
  Hypothesis getter_ok : forall h o n, louder (p_getter P h o n).
  Hypothesis arith_ok : forall op a b, louder (p_arith P op a b).
  (** An invariant with a budget *)
  Context (I : nat -> world -> Prop).
  Hypothesis I_call : forall j k f c args, k = KField \/ k = KValidate -> Q f -> keeps (I j) (call P k f c args).

  (** What is left of the validation of [o] once it is marked *)
  Definition inst_rest (rec : mdf -> modifier value ctx world) (c : ctx) (o : oid) : st world unit :=
    do* cls <- inst_cls c;
    do* d <- class_named P cls;
    let all := match g_all (c_cfg c) with Some b => b | None => cd_validate_all d end in
    do* ok <- getW (fun w => p_isa P (wclass w o) cls);
    if negb ok then raise_vexc c ("value is not instance of " ++ cls)%string
    else
      do* b <- getW (fun w => wobj w o);
      let only_modified := negb (o_new b) in
      let modified := if only_modified then initial_keypaths (o_mfields b) else [] in
      do* fs <- getW (fun w => cd_fields (wcdef P w o));
      do* msgs <- collect all (field_check P rec c o only_modified modified) fs [];
      raise_collected msgs.
  Lemma inst_validate_obj rec c o w : c_val c = VObj o ->
    inst_validate P rec c w =
      if m_has (cname_of w) o (pk_of P w o) (w_mg w) then (Ok tt, w)
      else inst_rest rec c o (set_mg (m_put (cname_of w) o (pk_of P w o) (w_mg w)) w).
  Proof.
    intros E. unfold inst_validate. rewrite E. unfold mg_has, the_obj, bind, getW, ret. cbv beta iota.
    destruct (m_has (cname_of w) o (pk_of P w o) (w_mg w)); reflexivity.
  Qed.

  Section Rec.
    Context (n : nat).
    Notation rec := (interp P n).

    Lemma k_tames j (ts : types) c : (forall m, In m ts -> keeps (I j) (m_validate (rec m) c)) -> keeps (I j) (t_validate rec ts c).
    Proof. intros H. apply k_chain_validate. intros v Hv. apply in_map_iff in Hv. destruct Hv as (m & <- & Hm). apply H, Hm. Qed.

    Lemma k_col_validate j b c : (forall ts c', item_types (c_fdef c) = Some ts -> c_fdef c' = fdef_of ts ->
        forall m, In m ts -> keeps (I j) (m_validate (rec m) c')) ->
      keeps (I j) (col_validate P rec b c).
    Proof.
      intros H. unfold col_validate.
      assert (X : forall v, keeps (I j) (match col_items b v with
          | None => raise_vexc c (if b then "value is not dict" else "value is not list")
          | Some its =>
              do* d <- cdef_v P (c_owner c);
              let all := match g_all (c_cfg c) with Some b => b | None => cd_validate_all d end in
              do* msgs <- collect all (fun kv =>
                  do* ts <- items_of c;
                  ret (Some (t_validate rec ts (colval c (snd kv) (fst kv) (fdef_of ts) v)))) its [];
              raise_collected msgs
          end)).
      { intros v. destruct (col_items b v) as [its |]; [| apply k_throw, loud_vexc].
        apply k_bind; [apply k_cdef_v | intros d]. cbn zeta. apply k_bind; [| intros; apply k_collected].
        apply k_collect.
        - intros kv _. apply k_bind; [apply k_items | intros; apply k_ret].
        - intros kv m w w' _ _ E. unfold bind, items_of in E.
          destruct (item_types (c_fdef c)) as [ts |] eqn:Et; [| discriminate E]. inversion E; subst. clear E.
          apply k_tames. intros m Hm. apply (H ts); [reflexivity | reflexivity | exact Hm]. }
      destruct (c_val c); try apply X. apply k_ret.
    Qed.
    Lemma k_union_validate j c : (forall ts, In ts (f_union (c_fdef c)) ->
        forall m, In m ts -> keeps (I j) (m_validate (rec m) (alterfdef c (fdef_of ts)))) ->
      keeps (I j) (union_validate rec c).
    Proof.
      intros H. unfold union_validate.
      assert (X : keeps (I j) (union_validate_loop rec (f_union (c_fdef c)) c)).
      { revert H. generalize (f_union (c_fdef c)). intros us. induction us as [| ts us IH]; intros H; cbn [union_validate_loop].
        - apply k_throw, loud_vexc.
        - apply k_on_validation; [apply k_tames; apply H; left; reflexivity |].
          intros _. apply IH. intros t Ht. apply H. right. exact Ht. }
      destruct (c_val c); try exact X. apply k_ret.
    Qed.
  End Rec.

  Lemma enough_le a b n : (b <= a)%nat -> enough a n -> enough b n.
  Proof. intros L [E | E]; [left; exact E | right; lia]. Qed.
  Lemma enough_pred a n : enough (S a) (S n) -> enough a n.
  Proof. intros [E | E]; [left; exact E | right; lia]. Qed.

  (** The fuel that validation needs with budget [k] at depth [d] *)
  Definition vfuel (k d : nat) : nat := (S d + k * S (S D))%nat.

  (** The object [o], which is not marked, is visited. *)
  Hypothesis I_inst : forall n k o c w, I k w -> m_has (cname_of w) o (pk_of P w o) (w_mg w) = false ->
    enough (vfuel k 1) (S n) ->
    (forall k' m c', tameQ Q D m -> tame_ctx Q D c' -> enough (vfuel k' D) n -> keeps (I k') (m_validate (interp P n m) c')) ->
    let r := inst_rest (interp P n) c o (set_mg (m_put (cname_of w) o (pk_of P w o) (w_mg w)) w) in
    I k (snd r) /\ louder (fst r).

  Lemma tame_validate n : forall k d m c, tameQ Q d m -> tame_ctx Q d c -> enough (vfuel k d) n ->
    keeps (I k) (m_validate (interp P n m) c).
  Proof.
    induction n as [| n IH]; intros k d m c Hm Hc E; (destruct d as [| d]; [contradiction (proj1 Hm) |]).
    - apply k_throw. destruct E as [E | E]; [split; [intros _; discriminate | intros X; contradiction (E X)] | unfold vfuel in E; lia].
    - assert (Hflat : flatQ Q (S d) m -> keeps (I k) (m_validate (interp P (S n) m) c)).
      { intros F. apply (flat_ok P (I k) Q (I_call k) getter_ok arith_ok (S n) (S d) m c F).
        eapply enough_le; [| exact E]. unfold vfuel. lia. }
      assert (Hitem : forall b, keeps (I k) (col_validate P (interp P n) b c)).
      { intros b. apply k_col_validate. intros ts c' Et Ec x Hx.
        destruct (items_tame Q d c ts x Hc Et Hx) as [F | [Tx T]].
        - apply (flat_ok P (I k) Q (I_call k) getter_ok arith_ok n 1 x c' F).
          apply enough_pred. eapply enough_le; [| exact E]. unfold vfuel. lia.
        - apply (IH k d x c' Tx); [apply (own_ctx Q _ ts); assumption |]. apply enough_pred. exact E. }
      destruct (part m) eqn:Np; [| apply Hflat, tame_flat; assumption]. clear Hflat.
      destruct m; try discriminate Np; cbn [interp modif_of m_validate validate_of]; try apply Hitem.
      + (* objects *)
        destruct (c_val c) eqn:Ev; try (unfold inst_validate; rewrite Ev; apply k_bind; [apply k_mg_has | intros b0]; destruct b0;
          [apply k_ret | apply k_throw; loudly]).
        { unfold inst_validate. rewrite Ev. apply k_ret. }
        intros w Hw. rewrite (inst_validate_obj _ _ _ _ Ev).
        destruct (m_has (cname_of w) o (pk_of P w o) (w_mg w)) eqn:Hh; [split; [exact Hw | apply louder_ok] |].
        apply I_inst; [exact Hw | exact Hh | |].
        * eapply enough_le; [| exact E]. unfold vfuel. lia.
        * intros k' x c' Tx Tc E'. apply (IH k' D x c' Tx Tc E').
      + (* unions *)
        apply k_union_validate. intros us Ht x Hx. pose proof (union_tame Q d c us Hc Ht) as T.
        apply (IH k d x _ (T x Hx)); [apply (own_ctx Q _ us); [reflexivity | exact T] |]. apply enough_pred. exact E.
  Qed.
End Io.

(** ** Fixed classes and a budget of objects *)
Section Heap.
  Context (P : program) (h : heap) (D : nat).
  Hypothesis TC : tame_classes D P.
  Hypothesis getter_ok : forall h o n, louder (p_getter P h o n).
  Hypothesis arith_ok : forall op a b, louder (p_arith P op a b).
  Context (I : nat -> world -> Prop).
  Hypothesis I_class : forall k w, I k w -> forall o, o_class (h_obj (w_heap w) o) = o_class (h_obj h o).
  Hypothesis I_mono : forall k k' w, (k <= k')%nat -> I k w -> I k' w.
  Hypothesis I_call : forall j k f c args, k = KField \/ k = KValidate -> keeps (I j) (call P k f c args).
  (** Marking an object that is not marked uses some of the budget,
      if it is of a known class and running out of fuel matters. *)
  Hypothesis I_mark : forall k o w, I k w -> m_has (cname_of w) o (pk_of P w o) (w_mg w) = false ->
    exists k', (k' <= k)%nat /\ ((k' < k)%nat \/ speak <> Ending \/ p_ct P (wclass w o) = None) /\
               I k' (set_mg (m_put (cname_of w) o (pk_of P w o) (w_mg w)) w).
  Let Q (f : cbid) : Prop := True.

  Lemma heap_inst n k o c w : I k w -> m_has (cname_of w) o (pk_of P w o) (w_mg w) = false ->
    enough (vfuel D k 1) (S n) ->
    (forall k' m c', tameQ Q D m -> tame_ctx Q D c' -> enough (vfuel D k' D) n -> keeps (I k') (m_validate (interp P n m) c')) ->
    let r := inst_rest P (interp P n) c o (set_mg (m_put (cname_of w) o (pk_of P w o) (w_mg w)) w) in
    I k (snd r) /\ louder (fst r).
  Proof.
    intros Hw Hh E H. cbn zeta. destruct (I_mark k o w Hw Hh) as (k' & Lk & Hk & Hw').
    assert (K : keeps (I k') (inst_rest P (interp P n) c o));
      [| destruct (K _ Hw') as [H1 H2]; split; [eapply I_mono; eassumption | exact H2]].
    unfold inst_rest. apply k_bind; [apply k_inst_cls | intros cls].
    apply k_bind; [apply k_class_named | intros d]. cbn zeta. apply k_bind; [apply k_getW | intros ok].
    destruct (negb ok); [apply k_throw, loud_vexc |]. apply k_bind; [apply k_getW | intros b].
    apply k_getW_bind. intros w0 Hw0. unfold wcdef, cdef_of. rewrite (I_class _ _ Hw0).
    destruct (p_ct P (o_class (h_obj h o))) as [cd |] eqn:Ec; [| apply k_bind; [apply k_ret | intros; apply k_collected]].
    apply k_bind; [| intros; apply k_collected].
    apply k_collect.
    - intros f Hf. unfold field_check. apply k_bind; [apply k_getW | intros]. apply k_bind; [apply k_getattr, getter_ok | intros].
      match goal with |- keeps _ (if ?b then _ else _) => destruct b end; apply k_ret.
    - intros f m w1 w2 Hf _ Ef. unfold field_check, bind, getW in Ef.
      destruct (getattr P o (fl_name f) w1) as [[fv | e] w3] eqn:G; [| discriminate Ef].
      match type of Ef with (if ?b then _ else _) _ = _ => destruct b end; inversion Ef; subst. clear Ef.
      apply k_bind; [apply k_ekey | intros e].
      assert (T : tames Q D (fl_types f)) by (intros x Hx; split; [apply (TC _ _ f x Ec Hf Hx) | intros; exact Logic.I]).
      assert (E' : enough (vfuel D k' D) n).
      { destruct E as [E | E]; [left; exact E |]. destruct Hk as [Hk | [Hk | Hk]]; [| left; exact Hk |].
        - right. unfold vfuel in *. nia.
        - exfalso. unfold wclass, wobj in Hk. rewrite (I_class _ _ Hw), Ec in Hk. discriminate Hk. }
      destruct (is_inst_field f); apply k_tames; intros m Hm; (apply H; [apply T, Hm | | exact E']);
        (apply (own_ctx Q D (fl_types f)); [reflexivity | exact T]).
  Qed.

  Lemma heap_validate n k d m c ts : tame d m -> (c_fdef c = fdef_of ts) -> (forall x, In x ts -> tame d x) ->
    enough (vfuel D k d) n -> keeps (I k) (m_validate (interp P n m) c).
  Proof.
    intros Hm Hc Ht. apply (tame_validate P Q D getter_ok arith_ok I); [intros; apply I_call; assumption | exact heap_inst | |].
    - split; [exact Hm | intros; exact Logic.I].
    - exists ts. split; [exact Hc | intros x Hx _; split; [apply Ht, Hx | intros; exact Logic.I]].
  Qed.
End Heap.
End Manner.
