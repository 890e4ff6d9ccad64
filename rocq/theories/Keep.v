(** Keep.v -- a small logic like that of Sound.v, for an invariant: [keeps I m] says that
    [m], started where [I] holds, ends where [I] holds, whether it raises or not, and
    raises nothing that the manner forbids.  Then the modifiers that look at one value. *)
From Verif Require Import Base Mon PyList PyDict OListModel ODictModel KeypathModel PyStr
  Values OGraphModel MGraphModel ChainModel TypesModel ObjModel IoModel IoBase Sound ObjSound LeafSound TameSpec.
From Verif Require LeafModel CalModel.
Open Scope list_scope.

Section Manner.
Context {spk : manner}.

Definition keeps {S A} (I : S -> Prop) (m : st S A) : Prop :=
  forall s, I s -> I (snd (m s)) /\ louder (fst (m s)).

Section Keep.
  Context {S : Type} (I : S -> Prop).
  Notation keeps := (keeps I).

  Lemma k_ret {A} (a : A) : keeps (ret a).
  Proof. intros s H. split; [exact H | apply louder_ok]. Qed.
  Lemma k_throw {A} e : loud e -> keeps (@throw S A e).
  Proof. intros L s H. split; [exact H | apply louder_err, L]. Qed.
  Lemma k_lift {A} (r : res A) : louder r -> keeps (@lift S A r).
  Proof. intros L s H. split; [exact H | exact L]. Qed.
  Lemma k_ext {A} (m m' : st S A) : (forall s, m s = m' s) -> keeps m' -> keeps m.
  Proof. intros E H s. rewrite E. apply H. Qed.
  Lemma k_get {A B} (q : S -> A) (k : A -> st S B) : (forall a, keeps (k a)) -> keeps (fun s => k (q s) s).
  Proof. intros H s. apply H. Qed.
  Lemma k_try {A B} (m : st S A) (k : res A -> st S B) :
    keeps m -> (forall r, louder r -> keeps (k r)) -> keeps (fun s => k (fst (m s)) (snd (m s))).
  Proof. intros Hm Hk s Hs. destruct (Hm s Hs) as [I1 L1]. apply (Hk _ L1 _ I1). Qed.
  Lemma k_bind {A B} (m : st S A) (k : A -> st S B) : keeps m -> (forall a, keeps (k a)) -> keeps (bind m k).
  Proof.
    intros Hm Hk. apply k_ext with (fun s => (match fst (m s) with Ok a => k a | Err e => throw e end) (snd (m s))).
    - intros s. unfold bind. destruct (m s) as [[a | e] s1]; reflexivity.
    - apply (k_try m (fun r => match r with Ok a => k a | Err e => throw e end)); [exact Hm |].
      intros [a | e] L; [apply Hk | apply k_throw, (L e eq_refl)].
  Qed.
  Lemma k_for {A} (l : list A) (f : A -> st S unit) : (forall x, In x l -> keeps (f x)) -> keeps (for_st l f).
  Proof.
    induction l as [| x l IH]; intros H; cbn [for_st]; [apply k_ret |].
    apply k_bind; [apply H; left; reflexivity |]. intros _. apply IH. intros y Hy. apply H. right. exact Hy.
  Qed.
  Lemma k_fold {A B} (f : B -> A -> st S B) (l : list A) :
    (forall b x, In x l -> keeps (f b x)) -> forall b, keeps (fold_st f l b).
  Proof.
    induction l as [| x l IH]; intros H b; cbn [fold_st]; [apply k_ret |].
    apply k_bind; [apply H; left; reflexivity |]. intros b'. apply IH. intros b0 y Hy. apply H. right. exact Hy.
  Qed.
  Lemma k_collected msgs : keeps (raise_collected msgs).
  Proof. destruct msgs; [apply k_ret | apply k_throw; loudly]. Qed.

  Section Leaf.
    Context {P : Type} (oeq : oid -> oid -> bool) (other_str : value -> string)
            (farith : LeafModel.arith -> value -> value -> res value) (resolve : P -> st S value) (vexc : string -> exn).
    Hypothesis farith_ok : forall op a b, louder (farith op a b).
    Hypothesis vexc_ok : forall msg, loud (vexc msg).
    Import LeafModel CalModel.

    Ltac lr := repeat (cbn zeta; match goal with
         | |- louder (Ok _) => apply louder_ok
         | |- louder (Err _) => apply louder_err
         | |- loud _ => loudly
         | |- louder (rbind _ _) => apply loud_rbind; [| intros]
         | |- louder (py_cmp _ _ _) => apply loud_cmp
         | |- louder (mk_date _ _ _) => apply loud_mk_date
         | |- louder (mk_datetime _ _ _ _ _ _ _ _) => apply loud_mk_datetime
         | |- louder (next_day _) => apply loud_next_day
         | |- louder (dt_plus _ _ _ _ _) => apply loud_dt_plus
         | |- louder (match ?x with _ => _ end) => destruct x
         end).
    Ltac go :=
      repeat (cbn zeta;
        match goal with
        | |- keeps (ret _) => apply k_ret
        | |- keeps (throw (vexc _)) => apply k_throw, vexc_ok
        | |- keeps (throw _) => apply k_throw; try loudly
        | |- keeps (fail _ _) => apply k_throw, vexc_ok
        | |- keeps (bind _ _) => apply k_bind; [| intros]
        | H : forall p, In p _ -> keeps (resolve p) |- keeps (resolve _) =>
            apply H; cbn; repeat match goal with |- context [match ?x with _ => _ end] => destruct x end; cbn; auto; fail
        | |- keeps (lift _) => apply k_lift; unfold gtb, geb, py_lt, py_le, tonextday, tonexthour,
            tonextmin, tonextsec, tonextmon, tonextyear, py_in, py_len, val_take, val_drop, integral, py_arith, padding, str_split; lr;
              try first [apply farith_ok | apply loud_dt_le | apply loud_as_index | apply loud_float]
        | |- keeps (match ?x with _ => _ end) => destruct x
        end).

    Lemma k_leaf_validate l v : (forall p, In p (leaf_params l) -> keeps (resolve p)) -> keeps (leaf_validate oeq resolve vexc l v).
    Proof.
      intros resolve_ok. destruct l; cbn [leaf_validate];
        unfold v_min, v_max, v_range, v_gt, v_lt, v_positive, v_negative, v_nonpositive, v_nonnegative, v_even, v_odd,
          v_length, v_minlength, v_maxlength, v_oneof, v_eq, v_neq, v_hasprefix, v_hassuffix, v_isprefixof, v_issuffixof,
          v_chars, v_type, v_before, v_after, const_check, bound_check; go.
    Qed.
    Lemma k_leaf_transform l v : (forall p, In p (leaf_params l) -> keeps (resolve p)) -> keeps (leaf_transform other_str farith resolve vexc l v).
    Proof.
      intros resolve_ok. destruct l; cbn [leaf_transform];
        unfold t_lowerbond, t_upperbond, t_arith, t_truncate, t_padstart, t_padend, t_append, t_prepend, t_insertat,
          t_split, t_join, t_replace; try (go; fail).
      - unfold t_type. destruct k, v; try (go; fail).
        + pose proof (loud_read_date s) as L. destruct (read_date s) as [d | e]; [go |]. pose proof (L _ eq_refl). destruct e; go; assumption.
        + pose proof (loud_read_datetime s) as L. destruct (read_datetime s) as [d | e]; [go |]. pose proof (L _ eq_refl). destruct e; go; assumption.
    Qed.
    Lemma k_leaf_tojson l v : keeps (@leaf_tojson S P l v).
    Proof. destruct l; cbn [leaf_tojson]; go. Qed.
  End Leaf.

  Section Chain.
    Context {V C : Type} (cval : C -> V) (nval : C -> V -> C) (all_fields : C -> bool).
    Notation modif := (modifier V C S).
    Implicit Types vs : list modif.

    Lemma k_validate_loop vs c : (forall v, In v vs -> keeps (m_validate v c)) ->
      forall msgs, keeps (chain_validate_loop all_fields vs c msgs).
    Proof.
      intros H. induction vs as [| v vs IH]; intros msgs; cbn [chain_validate_loop]; [apply k_ret |].
      pose (k := fun r : res unit => match r with
        | Ok _ => chain_validate_loop all_fields vs c msgs
        | Err (EValidation e) => if all_fields c then chain_validate_loop all_fields vs c (receive msgs e)
                                 else ret (receive msgs e)
        | Err e => throw e end).
      apply k_ext with (fun s => k (fst (m_validate v c s)) (snd (m_validate v c s))).
      { intros s. unfold k. destruct (m_validate v c s) as [[a | []] s1]; cbn; try reflexivity. destruct (all_fields c); reflexivity. }
      assert (IH' : forall msgs, keeps (chain_validate_loop all_fields vs c msgs)).
      { apply IH. intros x Hx. apply H. right. exact Hx. }
      apply (k_try _ k); [apply H; left; reflexivity |].
      intros [a | e] L; unfold k; [apply IH' |]. pose proof (L _ eq_refl) as Le.
      destruct e; try (apply k_throw; exact Le).
      destruct (all_fields c); [apply IH' | apply k_ret].
    Qed.
    Lemma k_chain_validate vs c : (forall v, In v vs -> keeps (m_validate v c)) -> keeps (chain_validate all_fields vs c).
    Proof.
      intros H. unfold chain_validate. apply k_bind; [| intros; apply k_collected].
      apply k_validate_loop. intros v Hv. apply H, nvs_in, Hv.
    Qed.
    Lemma k_chain_transform vs c : (forall v x, In v vs -> keeps (m_validate v (nval c x))) ->
      (forall v x, In v vs -> keeps (m_transform v (nval c x))) ->
      (forall c x y, nval (nval c x) y = nval c y) -> keeps (chain_transform cval nval vs c).
    Proof.
      intros H K N. unfold chain_transform. apply k_bind; [| intros v1].
      - apply k_fold. intros b v Hv. unfold vt. apply k_bind; [apply K, tvs_in, Hv |].
        intros a. apply k_bind; [rewrite N; apply H, tvs_in, Hv | intros; apply k_ret].
      - apply k_fold. intros b v Hv. apply K, nvs_in, Hv.
    Qed.
    Lemma k_chain_tojson vs c : (forall v x, In v vs -> keeps (m_tojson v (nval c x))) -> keeps (chain_tojson cval nval vs c).
    Proof. intros H. unfold chain_tojson. apply k_fold. intros b v Hv. apply H, Hv. Qed.
  End Chain.
End Keep.

Section Io.
  Context (P : program) (I : world -> Prop) (Q : cbid -> Prop).
  Hypothesis call_ok : forall k f c args, k = KField \/ k = KValidate -> Q f -> keeps I (call P k f c args).
  Hypothesis getter_ok : forall h o n, louder (p_getter P h o n).
  Hypothesis arith_ok : forall op a b, louder (p_arith P op a b).
  Notation keeps := (keeps I).

  Lemma loud_vexc c msg : loud (vexc c msg).
  Proof. loudly. Qed.
  Lemma loud_last {A} (l : list A) : louder (last_of l).
  Proof. unfold last_of. loudness. Qed.
  Lemma loud_first {A} (l : list A) : louder (first_of l).
  Proof. unfold first_of. loudness. Qed.

  Lemma k_getW {A} (q : world -> A) : keeps (getW q).
  Proof. intros w H. split; [exact H | apply louder_ok]. Qed.
  Lemma k_getattr o n : keeps (getattr P o n).
  Proof.
    intros w H. unfold getattr, liftH, ObjModel.getattr. destruct w as [h x m l]. cbn [w_heap w_ext w_mg w_log].
    destruct (ofield (p_ct P) h o n) as [f |]; [destruct (is_calc f) |]; cbn [set_heap w_ext w_mg w_log fst snd];
      (split; [exact H |]); [apply getter_ok | |]; loudness.
  Qed.
  Lemma k_on_validation {A} (m : st world A) k : keeps m -> (forall e, keeps (k e)) -> keeps (on_validation m k).
  Proof.
    intros Hm Hk. unfold on_validation.
    pose (j := fun r : res A => match r with Ok a => ret a | Err (EValidation e) => k e | Err e => throw e end).
    apply k_ext with (fun s => j (fst (m s)) (snd (m s))).
    { intros s. unfold j. destruct (m s) as [[a | []] s1]; reflexivity. }
    apply (k_try I m j Hm). intros [a | e] L; unfold j; [apply k_ret |].
    pose proof (L _ eq_refl) as Le. destruct e; try (apply k_throw; exact Le). apply Hk.
  Qed.
  Lemma k_on_any {A} (m : st world A) k : keeps m -> keeps k -> keeps (on_any m k).
  Proof.
    intros Hm Hk. unfold on_any. pose (j := fun r : res A => match r with Ok a => ret a | Err _ => k end).
    apply k_ext with (fun s => j (fst (m s)) (snd (m s))).
    { intros s. unfold j. destruct (m s) as [[a | e] s1]; reflexivity. }
    apply (k_try I m j Hm). intros [a | e] L; unfold j; [apply k_ret | exact Hk].
  Qed.
  Lemma k_collect {X} all (pre : X -> st world (option (st world unit))) l :
    (forall x, In x l -> keeps (pre x)) ->
    (forall x m w w', In x l -> I w -> pre x w = (Ok (Some m), w') -> keeps m) ->
    forall msgs, keeps (collect all pre l msgs).
  Proof.
    induction l as [| x l IH]; intros H K msgs; cbn [collect]; [apply k_ret |].
    assert (IH' : forall msgs, keeps (collect all pre l msgs)).
    { apply IH; [intros y Hy; apply H; right; exact Hy |]. intros y m w w' Hy. apply (K y). right. exact Hy. }
    intros w Hw. unfold bind. destruct (H x (or_introl eq_refl) w Hw) as [H1 H2].
    destruct (pre x w) as [[[m |] | e] w'] eqn:Ep; cbn [fst snd] in *.
    - pose proof (K x m w w' (or_introl eq_refl) Hw Ep) as Hm. destruct (Hm w' H1) as [M1 M2].
      destruct (m w') as [[u | e] w2]; cbn [fst snd] in *.
      + apply (IH' msgs w2 M1).
      + pose proof (M2 _ eq_refl) as L.
        destruct e; try (split; [exact M1 | apply louder_err, L]).
        destruct all; [| split; [exact M1 | apply louder_err, L]].
        apply (IH' (receive msgs msgs0) w2 M1).
    - apply (IH' msgs w' H1).
    - split; [exact H1 | apply louder_err, (H2 _ eq_refl)].
  Qed.

  Ltac prep := first [ apply k_getW | apply k_getattr | apply k_collected ].
  Ltac go :=
    repeat (cbn zeta;
      match goal with
      | |- keeps (ret _) => apply k_ret
      | |- keeps (raise_vexc _ _) => apply k_throw, loud_vexc
      | |- keeps (throw _) => apply k_throw; try loudly
      | |- keeps (bind _ _) => apply k_bind; [| intros]
      | |- keeps (on_validation _ _) => apply k_on_validation; [| intros]
      | |- keeps (on_any _ _) => apply k_on_any
      | |- keeps (for_st _ _) => apply k_for; intros
      | |- keeps (fold_st _ _ _) => apply k_fold; intros
      | |- keeps (lift _) => apply k_lift; try first [apply loud_last | apply loud_first]; loudness
      | |- keeps (call _ _ _ _ _) => apply call_ok; auto; fail
      | |- keeps (match ?x with _ => _ end) => destruct x
      | |- keeps _ => prep
      | H : _ |- keeps _ => apply H
      end).

  Lemma k_getattr_v v n : keeps (getattr_v P v n).
  Proof. unfold getattr_v. go. Qed.
  Lemma k_the_obj v : keeps (the_obj v).
  Proof. unfold the_obj. go. Qed.
  Lemma k_cdef_v v : keeps (cdef_v P v).
  Proof. unfold cdef_v. go. apply k_the_obj. Qed.
  Lemma k_class_named c : keeps (class_named P c).
  Proof. unfold class_named. go. Qed.
  Lemma k_inst_cls c : keeps (inst_cls c).
  Proof. unfold inst_cls. go. Qed.
  Lemma k_named d n : keeps (named d n).
  Proof. unfold named. go. Qed.
  Lemma k_ekey c k : keeps (ekey P c k).
  Proof. unfold ekey. go. apply k_cdef_v. Qed.
  Lemma k_mg_has v : keeps (mg_has P v).
  Proof. unfold mg_has. go. apply k_the_obj. Qed.
  Lemma k_members e : keeps (members P e).
  Proof. unfold members. go. Qed.
  Lemma k_items c : keeps (items_of c).
  Proof. unfold items_of. go. Qed.

  (** ** The modifiers that look at one value, over the flat modifiers in their arguments *)
  Section Rec.
    Context (rec : mdf -> modifier value ctx world) (F : mdf -> Prop).
    Hypothesis FV : forall m c, F m -> keeps (m_validate (rec m) c).
    Hypothesis FT : forall m c, F m -> keeps (m_transform (rec m) c).
    Definition fp (p : param) : Prop :=
      match p with PTypes ts => forall x, In x ts -> F x | PCall f => Q f | _ => True end.

    Lemma k_t_validate ts c : (forall x, In x ts -> F x) -> keeps (t_validate rec ts c).
    Proof.
      intros H. apply k_chain_validate. intros v Hv. apply in_map_iff in Hv. destruct Hv as (m & <- & Hm). apply FV, H, Hm.
    Qed.
    Lemma k_t_transform ts c : (forall x, In x ts -> F x) -> keeps (t_transform rec ts c).
    Proof.
      intros H. apply k_chain_transform; [| | intros; reflexivity]; intros v x Hv; apply in_map_iff in Hv;
        destruct Hv as (m & <- & Hm); [apply FV | apply FT]; apply H, Hm.
    Qed.
    Lemma k_resolve c p : fp p -> keeps (resolve P rec c p).
    Proof. intros H. unfold resolve. destruct p; go. apply k_t_transform, H. Qed.
    Lemma k_checked {A} ts c (good bad : st world A) : (forall x, In x ts -> F x) -> keeps good -> keeps bad ->
      keeps (checked rec ts c good bad).
    Proof. intros H G B. unfold checked. go; first [apply k_t_transform, H | apply k_t_validate, H]. Qed.
    Lemma k_required c : keeps (required_validate P c).
    Proof.
      unfold required_validate. destruct (f_fstore (c_fdef c)); try (go; fail).
      destruct (c_val c); try (go; fail). go; try apply k_cdef_v; try apply k_named; try apply k_the_obj.
      match goal with |- keeps (fun w => match getattr P ?o ?n w with _ => _ end) =>
        pose (k := fun r : res value => match r with
          | Ok v => if is_none v then raise_vexc c "value required" else ret tt
          | Err EAttributeError => raise_vexc c "value required"
          | Err e => throw e end);
        apply k_ext with (fun s => k (fst (getattr P o n s)) (snd (getattr P o n s)))
      end.
      { intros s. unfold k. match goal with |- context [getattr P ?o ?n s] => destruct (getattr P o n s) as [[v | []] s1] end;
          cbn; try reflexivity. destruct (is_none v); reflexivity. }
      apply (k_try I _ k); [apply k_getattr |]. intros [v | e] L; unfold k; [go |].
      pose proof (L _ eq_refl) as Le. destruct e; go; exact Le.
    Qed.
    Lemma k_referred c k : keeps (referred P c k).
    Proof.
      unfold referred. pose (j := fun r : res value => match r return st world value with Err EAttributeError => throw EValueError
        | Ok v => ret v | Err e => throw e end).
      apply k_ext with (fun s => j (fst (getattr_v P (c_owner c) k s)) (snd (getattr_v P (c_owner c) k s))).
      { intros s. unfold j. destruct (getattr_v P (c_owner c) k s) as [[v | []] s1]; reflexivity. }
      apply (k_try I _ j); [apply k_getattr_v |]. intros [v | e] L; unfold j; [apply k_ret |].
      pose proof (L _ eq_refl) as Le. destruct e; go; exact Le.
    Qed.
    Lemma k_presentwithout ks c : keeps (presentwithout_validate P ks c).
    Proof.
      unfold presentwithout_validate. destruct (is_none (c_val c)); [| go].
      induction ks as [| k ks IH]; cbn [presentwithout_loop]; go. apply k_referred.
    Qed.
    Lemma k_oneisvalid ps c : (forall p, In p ps -> fp p) -> keeps (oneisvalid_loop rec ps c).
    Proof.
      induction ps as [| p ps IH]; intros H; cbn [oneisvalid_loop]; [go |].
      assert (IH' : keeps (oneisvalid_loop rec ps c)) by (apply IH; intros q Hq; apply H; right; exact Hq).
      destruct p; try exact IH'. apply k_checked; [| apply k_ret | exact IH'].
      apply (H (PTypes ts) (or_introl eq_refl)).
    Qed.
    Lemma k_filter p c l : fp p -> keeps (filter_loop P rec p c l).
    Proof.
      intros H. induction l as [| v l IH]; cbn [filter_loop]; go; try first [apply k_t_transform | apply k_t_validate]; apply H; reflexivity.
    Qed.
    Lemma k_map p c l : fp p -> keeps (map_loop P rec p c l).
    Proof. intros H. induction l as [| v l IH]; cbn [map_loop]; go. apply k_t_transform, H. Qed.

    Definition part (m : mdf) : bool :=
      match m with MInstance _ | MListOf _ | MDictOf _ | MUnion _ => true | _ => false end.

    Ltac alls := repeat (go; first [ apply k_resolve | apply k_checked | apply k_t_transform | apply k_t_validate
      | apply k_members | apply k_cdef_v | apply k_the_obj | apply k_named | apply k_ret ]).

    Lemma k_flat_validate m c : part m = false -> (forall p, In p (params_of m) -> fp p) -> (forall f, In f (own_calls m) -> Q f) -> keeps (validate_of P rec m c).
    Proof.
      intros N H HQ. destruct m; try discriminate N; cbn [validate_of params_of] in *; try (go; fail);
        try (assert (Hp : fp p) by (apply H; left; reflexivity)).
      - apply (k_get I (leaf_oeq P) (fun q => LeafModel.leaf_validate q (resolve P rec c) (vexc c) l (c_val c))).
        intros q. apply k_leaf_validate; [intros; apply loud_vexc |]. intros p Hp. apply k_resolve, H, Hp.
      - unfold enum_validate. go; apply k_members.
      - apply k_required.
      - unfold present_validate. go.
      - unfold presentwith_validate. go. apply k_referred.
      - apply k_presentwithout.
      - unfold validate_validate. destruct p; go. apply k_checked; [| go | go]. apply Hp.
      - unfold compare_validate. assert (Q f) by (apply HQ; left; reflexivity). go; apply k_the_obj.
      - apply k_oneisvalid, H.
      - unfold canw_validate. destruct when_new; go; try apply k_the_obj; (apply k_checked; [| go | go]); apply Hp.
      - unfold isthis_validate. go.
      - unfold isobjof_validate. go.
      - unfold asop_validate. go; try apply k_the_obj; try apply k_cdef_v; apply k_named.
    Qed.
    Lemma k_flat_transform m c : part m = false -> (forall p, In p (params_of m) -> fp p) -> (forall f, In f (own_calls m) -> Q f) -> keeps (transform_of P rec m c).
    Proof.
      intros N H HQ. destruct m; try discriminate N; cbn [transform_of params_of] in *; try (go; fail);
        try (assert (Hp : fp p) by (apply H; left; reflexivity)).
      - apply k_leaf_transform; [exact arith_ok | intros; apply loud_vexc |]. intros p Hp. apply k_resolve, H, Hp.
      - unfold enum_transform. go; apply k_members.
      - unfold default_transform. destruct (c_val c); try (go; fail). destruct p; try (go; fail); apply k_resolve, Hp.
      - unfold transform_transform. destruct p; try (go; fail). apply k_t_transform, Hp.
      - unfold filter_transform. destruct (c_val c); go. apply k_filter, Hp.
      - unfold map_transform. destruct (c_val c); go. apply k_map, Hp.
      - unfold at_transform. go; apply k_resolve, Hp.
    Qed.
    Lemma k_flat_tojson m c : part m = false -> (forall p, In p (params_of m) -> fp p) -> (forall f, In f (own_calls m) -> Q f) -> keeps (tojson_of P rec m c).
    Proof.
      intros N H HQ. destruct m; try discriminate N; cbn [tojson_of params_of] in *; try (go; fail);
        try (assert (Hp : fp p) by (apply H; left; reflexivity)).
      - apply k_leaf_tojson.
      - unfold enum_tojson. go; apply k_members.
      - unfold fmt_tojson. destruct p; try (go; fail). apply k_t_transform, Hp.
      - unfold canr_tojson. go. apply k_checked; [| go | go]. apply Hp.
    Qed.
  End Rec.

  Lemma flat_part d m : flat d m -> part m = false.
  Proof. destruct d; [contradiction |]. destruct m; cbn; try reflexivity; contradiction. Qed.
  (** A flat modifier that uses only the callables of [Q] *)
  Definition flatQ (d : nat) (m : mdf) : Prop := flat d m /\ forall f, uses d f m -> Q f.
  Lemma flat_params d m p : flatQ (S d) m -> In p (params_of m) -> fp (flatQ d) p.
  Proof.
    intros [H HQ] Hp. destruct p; cbn; try exact Logic.I.
    - apply HQ. left. apply in_or_app. left. apply in_flat_map. exists (PCall f). split; [exact Hp | left; reflexivity].
    - intros x Hx. split; [destruct m; cbn in H; try contradiction; apply (H ts Hp x Hx) |].
      intros f U. apply HQ. right. exists ts, x. split; [| split; assumption].
      apply in_or_app. left. apply in_flat_map. exists (PTypes ts). split; [exact Hp | left; reflexivity].
  Qed.

  (** The fuel suffices, or running out of it is allowed. *)
  Definition enough (d n : nat) : Prop := speak <> Ending \/ (d <= n)%nat.

  Lemma loud_out n d : enough d n -> (n < d)%nat -> loud ERecursion.
  Proof. intros [E | E] L; [split; [intros _; discriminate | intros X; contradiction (E X)] | lia]. Qed.

  Lemma flat_ok n : forall d m c, flatQ d m -> enough d n ->
    keeps (m_validate (interp P n m) c) /\ keeps (m_transform (interp P n m) c) /\ keeps (m_tojson (interp P n m) c).
  Proof.
    induction n as [| n IH]; intros d m c H E; (destruct d as [| d]; [contradiction (proj1 H) |]).
    - assert (L : loud ERecursion) by (eapply loud_out; [exact E | lia]).
      split; [| split]; apply k_throw, L.
    - cbn [interp modif_of m_validate m_transform m_tojson]. pose proof (flat_part _ _ (proj1 H)) as N.
      assert (E' : enough d n) by (destruct E as [E | E]; [left; exact E | right; lia]).
      assert (FV : forall m c, flatQ d m -> keeps (m_validate (interp P n m) c)) by (intros x c' Hx; apply (IH d x c' Hx E')).
      assert (FT : forall m c, flatQ d m -> keeps (m_transform (interp P n m) c)) by (intros x c' Hx; apply (IH d x c' Hx E')).
      assert (HQ : forall f, In f (own_calls m) -> Q f) by (intros f Hf; apply (proj2 H); left; exact Hf).
      split; [| split]; [apply (k_flat_validate _ (flatQ d)) | apply (k_flat_transform _ (flatQ d)) | apply (k_flat_tojson _ (flatQ d))];
        try assumption; intros p Hp; apply (flat_params d m p H Hp).
  Qed.
End Io.
End Manner.
