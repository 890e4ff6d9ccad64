(** CalcProofs.v -- lemmas for PropCalcField.v *)
From Coq Require Import Lia.
From Verif Require Import Base Mon Values TypesModel ObjModel ObjTrack IoModel IoBase OwnModel CalcModel CalcSpec.
Open Scope string_scope.
Open Scope list_scope.

Lemma fst_snd_eq {A B} (p : A * B) a b : fst p = a -> snd p = b -> p = (a, b).
Proof. destruct p; simpl; intros; subst; reflexivity. Qed.

(** ** Assigning plain data *)
Section Set_.
  Context (P : program).
  Notation ct := (p_ct P).
  Notation oeq := (p_oeq P).
  Notation getter := (p_getter P).
  Notation setter := (p_setter P).

  Lemma ofield_name h o b f : ofield ct h o b = Some f -> fl_name f = b.
  Proof. unfold ofield. intros H. apply field_named_in in H. tauto. Qed.

  Lemma data_set pystr L h o b r :
    data_field P h o b ->
    exists h', run ct oeq getter setter pystr (Datatypes.S L) (TSet o b r) h = (Ok tt, h')
               /\ assigned P h o b r h'.
  Proof.
    intros [[f [Ef [Ec Er]]] Et Ek].
    pose proof (ofield_name _ _ _ _ Ef) as En.
    cbn [run body]. unfold set_attribute, bind, gets. rewrite Ek, Ef.
    unfold set_field, bind, gets. rewrite Ec, Er, En.
    destruct (attr h o b) as [cur|] eqn:Ea.
    - destruct (eqv oeq h r cur) eqn:Eq.
      + exists h. split; [reflexivity|].
        assert (Hh : holds P h o b r) by (exists cur; auto).
        constructor; try tauto; intros; tauto.
      + assert (Hn : ~ holds P h o b r).
        { intros [c [E1 E2]]. rewrite Ea in E1. injection E1 as <-. congruence. }
        destruct (o_new (h_obj h o)) eqn:Enew.
        * eexists. split; [reflexivity|].
          constructor; unfold attr, modify; rewrite ?upd_same; cbn [o_attr o_new o_class o_lkeys o_mfields o_modified set_attr];
            rewrite ?String.eqb_refl; auto; try tauto.
          -- intros a Hne. rewrite ?upd_same. cbn [o_attr set_attr]. apply String.eqb_neq in Hne. rewrite Hne. reflexivity.
          -- intros x Hx. rewrite upd_other by exact Hx. reflexivity.
          -- intros a. split; [auto|]. intros [K|[_ [K _]]]; [exact K|congruence].
          -- split; [auto|]. intros [K|[K _]]; [exact K|congruence].
        * unfold mark, updm, modify.
          set (h1 := upd o _ h).
          assert (Eh1 : h_obj h1 o = set_mfields (sadd b (o_mfields (h_obj h o))) (set_modified true (h_obj h o))).
          { unfold h1. rewrite upd_same, Enew. reflexivity. }
          assert (Ho1 : forall x, x <> o -> h_obj h1 x = h_obj h x).
          { intros x Hx. unfold h1. rewrite upd_other by exact Hx. reflexivity. }
          assert (G : forall h2,
            (forall x, x <> o -> h_obj h2 x = h_obj h x) ->
            o_attr (h_obj h2 o) = o_attr (h_obj h o) ->
            o_new (h_obj h2 o) = false ->
            o_class (h_obj h2 o) = o_class (h_obj h o) ->
            o_lkeys (h_obj h2 o) = o_lkeys (h_obj h o) ->
            o_mfields (h_obj h2 o) = sadd b (o_mfields (h_obj h o)) ->
            o_modified (h_obj h2 o) = true ->
            assigned P h o b r (upd o (set_attr b r) h2)).
          { intros h2 K1 K2 K3 K6 K7 K4 K5.
            constructor; unfold attr; rewrite ?upd_same; cbn [o_attr o_new o_class o_lkeys o_mfields o_modified set_attr];
              rewrite ?String.eqb_refl; auto; try tauto.
            - intros a Hne. rewrite ?upd_same. cbn [o_attr set_attr].
              apply String.eqb_neq in Hne. rewrite Hne, K2. reflexivity.
            - intros x Hx. rewrite upd_other by exact Hx. auto.
            - congruence.
            - intros a. rewrite K4, in_sadd. tauto. }
          assert (Er1 : ofield ct h1 o b = Some f).
          { unfold ofield, cdef_of in *. rewrite Eh1. exact Ef. }
          destruct (resettable ct h1 o f).
          -- destruct (smem b (o_prev (h_obj h1 o))) eqn:Em.
             ++ eexists. split; [reflexivity|]. apply G; auto; rewrite Eh1; auto.
             ++ unfold ObjModel.getattr. rewrite Er1, Ec. unfold attr. rewrite Eh1.
                cbn [o_attr set_mfields set_modified]. unfold attr in Ea. rewrite Ea.
                unfold remember, updm, modify. eexists. split; [reflexivity|].
                apply G.
                ** intros x Hx. rewrite upd_other by exact Hx. auto.
                ** rewrite upd_same, Em, Eh1. reflexivity.
                ** rewrite upd_same, Em, Eh1. exact Enew.
                ** rewrite upd_same, Em, Eh1. reflexivity.
                ** rewrite upd_same, Em, Eh1. reflexivity.
                ** rewrite upd_same, Em, Eh1. reflexivity.
                ** rewrite upd_same, Em, Eh1. reflexivity.
          -- eexists. split; [reflexivity|]. apply G; auto; rewrite Eh1; auto.
    - destruct (Et eq_refl).
  Qed.
End Set_.

Section Knot.
  Context (B : program) (n : nat) (getters : string -> string -> option getdef)
          (setters : string -> string -> option setdef).
  Notation Q := (calc_prog B n getters setters).

  Lemma ct_k k : p_ct (Q k) = p_ct B. Proof. destruct k; reflexivity. Qed.
  Lemma oeq_k k : p_oeq (Q k) = p_oeq B. Proof. destruct k; reflexivity. Qed.
  Lemma lim_k k : p_lim (Q k) = p_lim B. Proof. destruct k; reflexivity. Qed.

  Lemma calc_is h o b s : calc_field B h o b s -> exists f, ofield (p_ct B) h o b = Some f /\ is_calc f = true.
  Proof.
    intros [[f [E1 [E2 _]]] _]. exists f. split; [exact E1|]. unfold is_calc. rewrite E2. reflexivity.
  Qed.

  Lemma pipe_fix P c : forall ps u w,
    (fix pipe (ps : list pstep) (u : value) : st world value :=
       match ps with [] => ret u | s :: r => do* u' <- run_step P n s c u; pipe r u' end) ps u w
    = run_pipe P n ps c u w.
  Proof.
    induction ps as [|s r IH]; intros u w; [reflexivity|]. cbn [run_pipe]. unfold bind.
    destruct (run_step P n s c u w) as [[u'|e] w1]; [apply IH|reflexivity].
  Qed.

  (** ** Assignments *)
  Definition setctx (k : nat) (h : heap) (o : oid) (name : string) (v : value) : ctx :=
    rootctxp (class_fdef h o) (o_operator (h_obj h o)) o name (cd_outkey (cdef_of (p_ct (Q k)) h o) name) v.

  Lemma calc_set k o name v w ps :
    p_lim B <> O -> calc_field B (w_heap w) o name true ->
    setters (o_class (h_obj (w_heap w) o)) name = Some (SPipe ps) ->
    setattr (Q (S k)) o name v w =
    let '(r, w') := run_pipe (Q k) n ps (setctx k (w_heap w) o name v) VNone (world_of (w_heap w)) in
    (match r with Ok _ => Ok tt | Err e => Err e end, set_heap (w_heap w') w).
  Proof.
    intros HL Hc Hs. destruct (calc_is _ _ _ _ Hc) as [f [Ef Ec]].
    pose proof (ofield_name B _ _ _ _ Ef) as En.
    destruct Hc as [[f' [Ef' [_ Hs']]] Hk]. rewrite Ef in Ef'. injection Ef' as <-.
    unfold setattr, liftH.
    replace (p_lim (Q (S k))) with (p_lim B) by (symmetry; apply lim_k).
    destruct (p_lim B) as [|L]; [destruct (HL eq_refl)|].
    cbn [run body]. unfold set_attribute, bind, gets. rewrite Hk.
    rewrite ct_k, Ef. unfold set_field. rewrite Ec, En.
    destruct (f_setter (fl_fdef f)); [|destruct Hs' as [Hs' _]; specialize (Hs' eq_refl); discriminate Hs'].
    cbn [p_setter calc_prog with_calc]. unfold setter_in. rewrite Hs. unfold set_calc, setctx.
    rewrite ct_k.
    match goal with |- context [run_pipe ?a ?b ?c ?d ?e ?f] => destruct (run_pipe a b c d e f) as [[?|?] ?] end;
      reflexivity.
  Qed.

  Lemma readonly k o name v w :
    p_lim B <> O -> calc_field B (w_heap w) o name false ->
    setattr (Q k) o name v w = (Err EReadonlyCalc, w).
  Proof.
    intros HL Hc. destruct (calc_is _ _ _ _ Hc) as [f [Ef Ec]].
    destruct Hc as [[f' [Ef' [_ Hs']]] Hk]. rewrite Ef in Ef'. injection Ef' as <-.
    unfold setattr, liftH. rewrite lim_k.
    destruct (p_lim B) as [|L]; [destruct (HL eq_refl)|].
    cbn [run body]. unfold set_attribute, bind, gets. rewrite Hk.
    rewrite ct_k, Ef. unfold set_field. rewrite Ec.
    destruct Hs' as [_ Hs']. rewrite (Hs' eq_refl). unfold throw. destruct w; reflexivity.
  Qed.

  (** [this.assign(b, a)] where [a] is a value, or made by steps that start from [passin] *)
  Lemma this_step P c v w : n <> O -> run_step P n (PMod MThis) c v w = (Ok (c_owner c), w).
  Proof. intros Hn. destruct n; [destruct (Hn eq_refl)|]. reflexivity. Qed.
  Lemma passin_step P c v w : n <> O -> run_step P n (PMod MPassin) c v w = (Ok (c_passin c), w).
  Proof. intros Hn. destruct n; [destruct (Hn eq_refl)|]. reflexivity. Qed.

  Lemma assign_step P b ps c v w :
    run_step P n (PAssign b (APipe ps)) c v w =
    (do* x <- run_pipe P n ps c v; match v with VObj o => setattr P o b x >> ret v | _ => throw EAttributeError end) w.
  Proof. cbn [run_step]. unfold bind at 1 3. rewrite (pipe_fix P c). reflexivity. Qed.

  Lemma setattr_heap P o b r h w :
    setattr P o b r (set_heap h w) = (fst (setattr P o b r (world_of h)), set_heap (w_heap (snd (setattr P o b r (world_of h)))) w).
  Proof.
    unfold setattr, liftH. cbn [w_heap set_heap world_of].
    destruct (run _ _ _ _ _ _ _ h) as [x y]. destruct w. reflexivity.
  Qed.

  Lemma assign_run k o name v w b qs c :
    n <> O -> c_owner c = VObj o -> c_passin c = v ->
    run_pipe (Q k) n [PMod MThis; PAssign b (APipe (PMod MPassin :: qs))] c name w =
    (do* r <- run_pipe (Q k) n qs c v; setattr (Q k) o b r >> ret (VObj o)) w.
  Proof.
    intros Hn Ho Hp. cbn [run_pipe].
    rewrite (bind_eq (run_step (Q k) n (PMod MThis) c name) _ w (VObj o) w)
      by (rewrite this_step by exact Hn; rewrite Ho; reflexivity).
    unfold bind. rewrite assign_step. cbn [run_pipe].
    unfold bind. rewrite passin_step by exact Hn. rewrite Hp.
    destruct (run_pipe (Q k) n qs c v w) as [[r|e] w1]; [|reflexivity].
    destruct (setattr (Q k) o b r w1) as [[r'|e'] w2]; reflexivity.
  Qed.

  Lemma calc_assign k o name v w b qs r :
    n <> O -> p_lim B <> O -> calc_field B (w_heap w) o name true ->
    setters (o_class (h_obj (w_heap w) o)) name = Some (SPipe [PMod MThis; PAssign b (APipe (PMod MPassin :: qs))]) ->
    computes (Q k) n qs v r ->
    setattr (Q (S k)) o name v w = setattr (Q k) o b r w.
  Proof.
    intros Hn HL Hc Hs Hq. rewrite (calc_set _ _ _ _ _ _ HL Hc Hs).
    rewrite (assign_run k o VNone v) by (exact Hn || reflexivity).
    unfold bind. rewrite Hq.
    replace (setattr (Q k) o b r w) with (setattr (Q k) o b r (set_heap (w_heap w) w)) by (destruct w; reflexivity).
    rewrite setattr_heap.
    destruct (setattr (Q k) o b r (world_of (w_heap w))) as [[[]|e] w1]; reflexivity.
  Qed.

  Lemma calc_assign_err k o name v w b qs e :
    n <> O -> p_lim B <> O -> calc_field B (w_heap w) o name true ->
    setters (o_class (h_obj (w_heap w) o)) name = Some (SPipe [PMod MThis; PAssign b (APipe (PMod MPassin :: qs))]) ->
    raises (Q k) n qs v e ->
    setattr (Q (S k)) o name v w = (Err e, w).
  Proof.
    intros Hn HL Hc Hs Hq. rewrite (calc_set _ _ _ _ _ _ HL Hc Hs).
    rewrite (assign_run k o VNone v) by (exact Hn || reflexivity).
    unfold bind. rewrite Hq. destruct w; reflexivity.
  Qed.

  Lemma data_set_k k o b r w :
    p_lim B <> O -> data_field B (w_heap w) o b ->
    exists h', setattr (Q k) o b r w = (Ok tt, set_heap h' w) /\ assigned B (w_heap w) o b r h'.
  Proof.
    intros HL Hd. unfold setattr, liftH. rewrite lim_k.
    destruct (p_lim B) as [|L]; [destruct (HL eq_refl)|].
    assert (Hd' : data_field (Q k) (w_heap w) o b).
    { destruct Hd as [H1 H2 H3]. constructor; auto. rewrite ct_k. exact H1. }
    match goal with |- context [run _ _ _ _ ?ps _ _] =>
      destruct (data_set (Q k) ps L (w_heap w) o b r Hd') as [h' [E A]] end.
    exists h'. rewrite E. split; [reflexivity|].
    destruct A as [A1 A2 A3 A4 A5 A6 A7 A8 A9].
    unfold holds in *. rewrite oeq_k in *. constructor; auto.
  Qed.

  (** ** Reading *)
  Lemma calc_get k o name w ps :
    (exists s, calc_field B (w_heap w) o name s) ->
    getters (o_class (h_obj (w_heap w) o)) name = Some (GPipe ps) ->
    getattr (Q (S k)) o name w =
    (fst (run_pipe (Q k) n ps (rootctx (class_fdef (w_heap w) o) (o_operator (h_obj (w_heap w) o)) o cfg0 (VObj o))
            (VObj o) (world_of (w_heap w))), w).
  Proof.
    intros [s Hc] Hg. destruct (calc_is _ _ _ _ Hc) as [f [Ef Ec]].
    unfold getattr, liftH, ObjModel.getattr. rewrite ct_k, Ef, Ec.
    cbn [p_getter calc_prog with_calc]. unfold getter_in. rewrite Hg. unfold get_calc.
    destruct w; reflexivity.
  Qed.

  Lemma fval_field P o b h f :
    ofield (p_ct P) h o b = Some f -> f_fstore (fl_fdef f) <> LocalKey ->
    fval (p_ct P) (p_getter P) b (VObj o) h =
    match ObjModel.getattr (p_ct P) (p_getter P) o b h with
    | (Ok x, h') => (Ok (IVal x), h')
    | (Err e, h') => (Err e, h')
    end.
  Proof.
    intros Ef Hl. unfold fval, bind, gets. rewrite Ef.
    destruct (ObjModel.getattr _ _ o b h) as [[y|e] h']; [|reflexivity].
    destruct (f_fstore (fl_fdef f)); try reflexivity. destruct (Hl eq_refl).
  Qed.

  Lemma getattr_same P o b w : getattr P o b w = (fst (ObjModel.getattr (p_ct P) (p_getter P) o b (w_heap w)), w).
  Proof.
    unfold getattr, liftH, ObjModel.getattr.
    destruct (ofield (p_ct P) (w_heap w) o b) as [f|]; [destruct (is_calc f)|]; destruct w; reflexivity.
  Qed.
  Lemma getattr_heap P o b h : ObjModel.getattr (p_ct P) (p_getter P) o b h = (fst (getattr P o b (world_of h)), h).
  Proof.
    rewrite getattr_same. cbn [fst world_of w_heap]. unfold ObjModel.getattr.
    destruct (ofield (p_ct P) h o b) as [f|]; [destruct (is_calc f)|]; reflexivity.
  Qed.
  Lemma getattr_world P o b w w' : w_heap w = w_heap w' -> fst (getattr P o b w) = fst (getattr P o b w').
  Proof. intros E. rewrite !getattr_same, E. reflexivity. Qed.

  (** [this.fval(b)] and further steps *)
  Lemma read_run k o b w f c v rest :
    n <> O -> c_owner c = VObj o -> ofield (p_ct B) (w_heap w) o b = Some f -> f_fstore (fl_fdef f) <> LocalKey ->
    run_pipe (Q k) n (PMod MThis :: PFval b :: rest) c v w =
    (do* x <- getattr (Q k) o b; run_pipe (Q k) n rest c x) w.
  Proof.
    intros Hn Ho Ef Hl. cbn [run_pipe].
    rewrite (bind_eq (run_step (Q k) n (PMod MThis) c v) _ w (VObj o) w)
      by (rewrite this_step by exact Hn; rewrite Ho; reflexivity).
    cbn [run_step]. unfold bind. unfold liftH at 1.
    rewrite (fval_field (Q k) o b (w_heap w) f) by (rewrite ?ct_k; assumption).
    rewrite getattr_heap, (getattr_same (Q k) o b w), (getattr_same (Q k) o b (world_of _)).
    cbn [fst world_of w_heap].
    destruct (fst (ObjModel.getattr (p_ct (Q k)) (p_getter (Q k)) o b (w_heap w))) as [x|e];
      unfold ret; destruct w; reflexivity.
  Qed.

  Lemma calc_read k o name w b rest x r f :
    n <> O -> (exists s, calc_field B (w_heap w) o name s) ->
    getters (o_class (h_obj (w_heap w) o)) name = Some (GPipe (PMod MThis :: PFval b :: rest)) ->
    ofield (p_ct B) (w_heap w) o b = Some f -> f_fstore (fl_fdef f) <> LocalKey ->
    getattr (Q k) o b w = (Ok x, w) -> computes (Q k) n rest x r ->
    getattr (Q (S k)) o name w = (Ok r, w).
  Proof.
    intros Hn Hc Hg Ef Hl Hx Hr. rewrite (calc_get _ _ _ _ _ Hc Hg).
    rewrite (read_run k o b _ f) by (assumption || reflexivity).
    unfold bind. rewrite (getattr_same (Q k) o b (world_of _)).
    rewrite getattr_same in Hx. injection Hx as Hx. cbn [world_of w_heap]. rewrite Hx.
    rewrite Hr. reflexivity.
  Qed.
  Lemma calc_read_err k o name w b rest e f :
    n <> O -> (exists s, calc_field B (w_heap w) o name s) ->
    getters (o_class (h_obj (w_heap w) o)) name = Some (GPipe (PMod MThis :: PFval b :: rest)) ->
    ofield (p_ct B) (w_heap w) o b = Some f -> f_fstore (fl_fdef f) <> LocalKey ->
    getattr (Q k) o b w = (Err e, w) ->
    getattr (Q (S k)) o name w = (Err e, w).
  Proof.
    intros Hn Hc Hg Ef Hl Hx. rewrite (calc_get _ _ _ _ _ Hc Hg).
    rewrite (read_run k o b _ f) by (assumption || reflexivity).
    unfold bind. rewrite (getattr_same (Q k) o b (world_of _)).
    rewrite getattr_same in Hx. injection Hx as Hx. cbn [world_of w_heap]. rewrite Hx.
    reflexivity.
  Qed.

  (** ** Circles and ranks *)
  Lemma circle_ends : n <> O -> forall k o w names, circle B getters (w_heap w) o names ->
    forall a, names a -> getattr (Q k) o a w = (Err ERecursion, w).
  Proof.
    intros Hn. induction k as [|k IH]; intros o w names Hci a Ha; destruct (Hci a Ha) as [Hc [b [rest [Hg Hb]]]].
    - destruct (calc_is _ _ _ _ Hc) as [f [Ef Ec]]. rewrite getattr_same.
      unfold ObjModel.getattr. rewrite ct_k, Ef, Ec. reflexivity.
    - destruct (Hci b Hb) as [[[f [Ef [Es _]]] _] _].
      eapply calc_read_err; eauto. congruence.
  Qed.

  Lemma pipe_settles rank k : ranked B n getters setters rank ->
    (forall h o a, (rank a < k)%nat -> fst (getattr (Q k) o a (world_of h)) <> Err ERecursion) ->
    forall ps, (forall s, In s ps -> settles B n getters setters s /\ forall a, reads s = Some a -> (rank a < k)%nat) ->
    forall c v w, fst (run_pipe (Q k) n ps c v w) <> Err ERecursion.
  Proof.
    intros HR HG. induction ps as [|s r IH]; intros Hps c v w; [intros K; discriminate K|].
    cbn [run_pipe]. unfold bind.
    assert (Hr : forall s', In s' r -> settles B n getters setters s' /\ forall a, reads s' = Some a -> (rank a < k)%nat)
      by (intros; apply Hps; right; assumption).
    assert (Hs : fst (run_step (Q k) n s c v w) <> Err ERecursion).
    { destruct (Hps s (or_introl eq_refl)) as [Hs Ha]. destruct s as [m|name|name a]; [| |destruct Hs].
      - cbn [run_step]. apply Hs.
      - specialize (Ha name eq_refl). cbn [run_step]. unfold bind, liftH, fval.
        destruct v; try (intros K; discriminate K).
        unfold bind, gets. rewrite ct_k. set (h := w_heap w).
        destruct (ofield (p_ct B) h o name) as [f|] eqn:Ef; [|intros K; discriminate K].
        replace (p_ct B) with (p_ct (Q k)) by apply ct_k.
        rewrite getattr_heap. specialize (HG h o name Ha).
        destruct (fst (getattr (Q k) o name (world_of h))) as [x|e]; [|intros K; injection K as K; congruence].
        destruct (f_fstore (fl_fdef f)) eqn:El; try (intros K; discriminate K).
        destruct x; try (intros K; discriminate K).
        destruct (f_ftype (fl_fdef f)) as [[]|]; try (intros K; discriminate K).
        destruct (foreign_class f) as [cl|]; try (intros K; discriminate K).
        rewrite ct_k. destruct (p_ct B cl); try (intros K; discriminate K).
        unfold ObjModel.getattr. destruct (ofield (p_ct B) h o (fl_ref f)) as [g|] eqn:Eg.
        + rewrite (ra_keys _ _ _ _ _ HR _ _ _ _ _ Ef El Eg).
          destruct (attr h o (fl_ref f)) as [[]|]; intros K; discriminate K.
        + destruct (attr h o (fl_ref f)) as [[]|]; intros K; discriminate K. }
    destruct (run_step (Q k) n s c v w) as [[u|e] w1]; [apply IH; exact Hr|].
    cbn [fst] in *. intros K. apply Hs. injection K as ->. reflexivity.
  Qed.

  Lemma ranked_ends rank : ranked B n getters setters rank ->
    forall k h o a, (rank a < k)%nat -> fst (getattr (Q k) o a (world_of h)) <> Err ERecursion.
  Proof.
    intros HR. induction k as [|k IH]; intros h o a Hk; [inversion Hk|].
    rewrite getattr_same. cbn [fst world_of w_heap]. unfold ObjModel.getattr. rewrite ct_k.
    destruct (ofield (p_ct B) h o a) as [f|]; [destruct (is_calc f)|];
      try (cbn [fst]; destruct (attr h o a); intros K; discriminate K).
    cbn [p_getter calc_prog with_calc fst]. unfold getter_in.
    pose proof (ra_getters _ _ _ _ _ HR (o_class (h_obj h o)) a) as Hg.
    destruct (getters (o_class (h_obj h o)) a) as [[g|ps]|]; [| |intros K; discriminate K].
    - apply Hg.
    - unfold get_calc. apply (pipe_settles rank); auto.
      intros s Hs. destruct (Hg s Hs) as [H1 H2]. split; [exact H1|].
      intros a' Ha'. specialize (H2 a' Ha'). lia.
  Qed.

  (** ** Chains of setters and getters *)
  Lemma comes_to_set k o w : n <> O -> p_lim B <> O ->
    forall name v b r, comes_to B n getters setters (w_heap w) o k name v b r ->
    exists h', setattr (Q k) o name v w = (Ok tt, set_heap h' w) /\ assigned B (w_heap w) o b r h'.
  Proof.
    intros Hn HL name v b r H. induction H as [k b r Hd|k name v next qs u b r Hc Hs Hq H IH].
    - apply data_set_k; assumption.
    - rewrite (calc_assign k o name v w next qs u) by assumption. exact IH.
  Qed.

  Lemma comes_field h o k name u b x : comes_from B n getters setters h o k name u b x ->
    exists f, ofield (p_ct B) h o name = Some f /\ f_fstore (fl_fdef f) <> LocalKey.
  Proof.
    intros [k' b' x' [[f [E1 [E2 E3]]] _ _]|k' name' u' b' x' next qs y [s [[f [E1 [E2 _]]] _]] _ _ _].
    - exists f. split; [exact E1|]. intros K. unfold is_ref in E3. rewrite K in E3. discriminate E3.
    - exists f. split; [exact E1|]. congruence.
  Qed.

  Lemma comes_from_get k o w : n <> O ->
    forall name u b x, comes_from B n getters setters (w_heap w) o k name u b x ->
    attr (w_heap w) o b = Some x ->
    getattr (Q k) o name w = (Ok u, w).
  Proof.
    intros Hn name u b x H. induction H as [k b x Hd|k name u b x next qs y Hc Hg H IH Hq]; intros Hx.
    - rewrite getattr_same. unfold ObjModel.getattr. rewrite ct_k.
      destruct Hd as [[f [E1 [E2 _]]] _ _]. rewrite E1, E2, Hx. reflexivity.
    - destruct (comes_field _ _ _ _ _ _ _ H) as [f [Ef Hl]].
      apply (calc_read k o name w next qs y u f); auto.
  Qed.

  (** an assignment of plain data leaves fields what they are *)
  Lemma same_data h h' o b : o_class (h_obj h' o) = o_class (h_obj h o) ->
    o_lkeys (h_obj h' o) = o_lkeys (h_obj h o) -> (forall a, attr h o a <> None -> attr h' o a <> None) ->
    data_field B h o b -> data_field B h' o b.
  Proof.
    intros E1 E2 E3 [[f [H1 H2]] H3 H4]. constructor.
    - exists f. split; [|exact H2]. rewrite <- H1. unfold ofield, cdef_of. rewrite E1. reflexivity.
    - auto.
    - unfold local_field_of in *. rewrite E2. exact H4.
  Qed.
  Lemma same_calc h h' o b s : o_class (h_obj h' o) = o_class (h_obj h o) ->
    o_lkeys (h_obj h' o) = o_lkeys (h_obj h o) -> calc_field B h o b s -> calc_field B h' o b s.
  Proof.
    intros E1 E2 [[f [H1 H2]] H4]. constructor.
    - exists f. split; [|exact H2]. rewrite <- H1. unfold ofield, cdef_of. rewrite E1. reflexivity.
    - unfold local_field_of in *. rewrite E2. exact H4.
  Qed.
  Lemma same_from h h' o : o_class (h_obj h' o) = o_class (h_obj h o) ->
    o_lkeys (h_obj h' o) = o_lkeys (h_obj h o) -> (forall a, attr h o a <> None -> attr h' o a <> None) ->
    forall k name u b x, comes_from B n getters setters h o k name u b x ->
    comes_from B n getters setters h' o k name u b x.
  Proof.
    intros E1 E2 E3 k name u b x H. induction H as [k b x Hd|k name u b x next qs y [s Hc] Hg H IH Hq].
    - apply cf_here. apply (same_data h h'); assumption.
    - apply (cf_next _ _ _ _ _ _ k name u b x next qs y); auto.
      + exists s. apply (same_calc h h'); assumption.
      + rewrite E1. exact Hg.
  Qed.
End Knot.
