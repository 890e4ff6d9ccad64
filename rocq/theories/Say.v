(** Say.v -- a small logic like that of Sound.v, for reports: [tells m] says that every
    validation error that [m] raises has only keypaths of [K] in it.  Then the modifiers
    that look at one value: they report under the keypath of that value. *)
From Verif Require Import Base Mon PyList PyDict OListModel ODictModel KeypathModel PyStr
  Values OGraphModel MGraphModel CalModel ChainModel TypesModel ObjModel IoModel IoBase LeafSound TameSpec.
From Verif Require LeafModel.
Open Scope list_scope.

Section Say.
Context (K : string -> Prop).
Definition quiet (e : exn) : Prop :=
  match e with EValidation l => Forall (fun kv => K (fst kv)) l | _ => True end.
Definition says {A} (r : res A) : Prop := forall e, r = Err e -> quiet e.

Lemma says_ok {A} (a : A) : says (Ok a).
Proof. intros e H. discriminate H. Qed.
Lemma says_err {A} e : quiet e -> @says A (Err e).
Proof. intros L e' H. inversion H; subst. exact L. Qed.
Ltac quietly := exact Logic.I.
Ltac quietness :=
  repeat match goal with
         | |- says (Ok _) => apply says_ok
         | |- says (Err _) => apply says_err
         | |- quiet _ => quietly
         | |- says (match ?x with _ => _ end) => destruct x
         | |- says (if ?x then _ else _) => destruct x
         end.
Lemma q_rbind {A B} (m : res A) (k : A -> res B) : says m -> (forall a, says (k a)) -> says (rbind m k).
Proof. intros H L. destruct m as [a | e]; cbn; [apply L | apply says_err, (H e eq_refl)]. Qed.

Section Leaves.
Import LeafModel.
Open Scope Z_scope.
Lemma q_cmp c a b : says (py_cmp c a b).
Proof. unfold py_cmp. quietness. Qed.
Lemma q_mk_date y m d : says (mk_date y m d).
Proof. unfold mk_date. cbn zeta. quietness. Qed.
Lemma q_mk_datetime y m d h mi s us tz : says (mk_datetime y m d h mi s us tz).
Proof. unfold mk_datetime. apply q_rbind; [apply q_mk_date | intros]. quietness. Qed.
Lemma q_next_day d : says (next_day d).
Proof. unfold next_day. destruct d. quietness. Qed.
Lemma q_add_days n : forall d, says (add_days n d).
Proof.
  induction n as [| n IH]; intros d; cbn [add_days]; [apply says_ok |].
  apply q_rbind; [apply q_next_day | exact IH].
Qed.
Lemma q_dt_plus a b c d t : says (dt_plus a b c d t).
Proof. unfold dt_plus. cbn zeta. apply q_rbind; [apply q_add_days | intros; apply says_ok]. Qed.
Ltac lr :=
  repeat match goal with
         | |- says (rbind _ _) => apply q_rbind; [| intros]
         | |- says (dt_plus _ _ _ _ _) => apply q_dt_plus
         | |- says (next_day _) => apply q_next_day
         | |- says (mk_date _ _ _) => apply q_mk_date
         | |- says (mk_datetime _ _ _ _ _ _ _ _) => apply q_mk_datetime
         | |- says (py_cmp _ _ _) => apply q_cmp
         | |- says (Ok _) => apply says_ok
         | |- says (Err _) => apply says_err
         | |- quiet _ => quietly
         | |- says (match ?x with _ => _ end) => destruct x
         end.
Lemma q_date_fromiso l : says (date_fromiso l).
Proof. unfold date_fromiso. lr. Qed.
Lemma q_two a b : says (two a b).
Proof. unfold two. lr. Qed.
Lemma q_fraction l : says (parse_fraction l).
Proof. unfold parse_fraction. lr. Qed.
Lemma q_clock l : says (parse_clock l).
Proof. unfold parse_clock. lr; first [apply q_two | apply q_fraction]. Qed.
Lemma q_offset b l : says (parse_offset b l).
Proof. unfold parse_offset. destruct (_ || _ || _)%bool; lr. apply q_clock. Qed.
Lemma q_datetime_fromiso l : says (datetime_fromiso l).
Proof.
  unfold datetime_fromiso. apply q_rbind; [apply q_date_fromiso | intros d].
  destruct (skipn 10 l) as [| x r]; [lr |]. destruct (split_offset r) as [c [[]|]]; lr; first [apply q_clock | apply q_offset].
Qed.
Lemma q_read_date s : says (read_date s).
Proof. apply q_date_fromiso. Qed.
Lemma q_read_datetime s : says (read_datetime s).
Proof. unfold read_datetime. lr. apply q_datetime_fromiso. Qed.
Lemma q_float z : says (float_of_Z z).
Proof. unfold float_of_Z. cbn zeta. lr. Qed.
Lemma q_dt_le a b : says (dt_le a b).
Proof. unfold dt_le, py_le. lr. Qed.
Lemma q_as_index v : says (as_index v).
Proof. unfold as_index. lr. Qed.

End Leaves.

Definition tells {S A} (m : st S A) : Prop := forall s, says (fst (m s)).

Section Tell.
  Context {S : Type}.
  Notation tells := (@tells S _).

  Lemma y_ret {A} (a : A) : tells (ret a).
  Proof. intros s. apply says_ok. Qed.
  Lemma y_throw {A} e : quiet e -> tells (@throw S A e).
  Proof. intros L s. apply says_err, L. Qed.
  Lemma y_lift {A} (r : res A) : says r -> tells (@lift S A r).
  Proof. intros L s. exact L. Qed.
  Lemma y_ext {A} (m m' : st S A) : (forall s, m s = m' s) -> tells m' -> tells m.
  Proof. intros E H s. rewrite E. apply H. Qed.
  Lemma y_get {A B} (q : S -> A) (k : A -> st S B) : (forall a, tells (k a)) -> tells (fun s => k (q s) s).
  Proof. intros H s. apply H. Qed.
  Lemma y_try {A B} (m : st S A) (k : res A -> st S B) :
    tells m -> (forall r, says r -> tells (k r)) -> tells (fun s => k (fst (m s)) (snd (m s))).
  Proof. intros Hm Hk s. apply (Hk _ (Hm s)). Qed.
  Lemma y_bind {A B} (m : st S A) (k : A -> st S B) : tells m -> (forall a, tells (k a)) -> tells (bind m k).
  Proof.
    intros Hm Hk. apply y_ext with (fun s => (match fst (m s) with Ok a => k a | Err e => throw e end) (snd (m s))).
    - intros s. unfold bind. destruct (m s) as [[a | e] s1]; reflexivity.
    - apply (y_try m (fun r => match r with Ok a => k a | Err e => throw e end)); [exact Hm |].
      intros [a | e] L; [apply Hk | apply y_throw, (L e eq_refl)].
  Qed.
  Lemma y_fold {A B} (f : B -> A -> st S B) (l : list A) :
    (forall b x, In x l -> tells (f b x)) -> forall b, tells (fold_st f l b).
  Proof.
    induction l as [| x l IH]; intros H b; cbn [fold_st]; [apply y_ret |].
    apply y_bind; [apply H; left; reflexivity |]. intros b'. apply IH. intros b0 y Hy. apply H. right. exact Hy.
  Qed.

  Section Leaf.
    Context {P : Type} (oeq : oid -> oid -> bool) (other_str : value -> string)
            (farith : LeafModel.arith -> value -> value -> res value) (resolve : P -> st S value) (vexc : string -> exn).
    Hypothesis farith_ok : forall op a b, says (farith op a b).
    Hypothesis vexc_ok : forall msg, quiet (vexc msg).
    Import LeafModel CalModel.

    Ltac lr := repeat (cbn zeta; match goal with
         | |- says (Ok _) => apply says_ok
         | |- says (Err _) => apply says_err
         | |- quiet _ => quietly
         | |- says (rbind _ _) => apply q_rbind; [| intros]
         | |- says (py_cmp _ _ _) => apply q_cmp
         | |- says (mk_date _ _ _) => apply q_mk_date
         | |- says (mk_datetime _ _ _ _ _ _ _ _) => apply q_mk_datetime
         | |- says (next_day _) => apply q_next_day
         | |- says (dt_plus _ _ _ _ _) => apply q_dt_plus
         | |- says (match ?x with _ => _ end) => destruct x
         end).
    Ltac go :=
      repeat (cbn zeta;
        match goal with
        | |- tells (ret _) => apply y_ret
        | |- tells (throw (vexc _)) => apply y_throw, vexc_ok
        | |- tells (throw _) => apply y_throw; try quietly
        | |- tells (fail _ _) => apply y_throw, vexc_ok
        | |- tells (bind _ _) => apply y_bind; [| intros]
        | H : forall p, In p _ -> tells (resolve p) |- tells (resolve _) =>
            apply H; cbn; repeat match goal with |- context [match ?x with _ => _ end] => destruct x end; cbn; auto; fail
        | |- tells (lift _) => apply y_lift; unfold gtb, geb, py_lt, py_le, tonextday, tonexthour,
            tonextmin, tonextsec, tonextmon, tonextyear, py_in, py_len, val_take, val_drop, integral, py_arith, padding, str_split; lr;
              try first [apply farith_ok | apply q_dt_le | apply q_as_index | apply q_float]
        | |- tells (match ?x with _ => _ end) => destruct x
        end).

    Lemma y_leaf_validate l v : (forall p, In p (leaf_params l) -> tells (resolve p)) -> tells (leaf_validate oeq resolve vexc l v).
    Proof.
      intros resolve_ok. destruct l; cbn [leaf_validate];
        unfold v_min, v_max, v_range, v_gt, v_lt, v_positive, v_negative, v_nonpositive, v_nonnegative, v_even, v_odd,
          v_length, v_minlength, v_maxlength, v_oneof, v_eq, v_neq, v_hasprefix, v_hassuffix, v_isprefixof, v_issuffixof,
          v_chars, v_type, v_before, v_after, const_check, bound_check; go.
    Qed.
    Lemma y_leaf_transform l v : (forall p, In p (leaf_params l) -> tells (resolve p)) -> tells (leaf_transform other_str farith resolve vexc l v).
    Proof.
      intros resolve_ok. destruct l; cbn [leaf_transform];
        unfold t_lowerbond, t_upperbond, t_arith, t_truncate, t_padstart, t_padend, t_append, t_prepend, t_insertat,
          t_split, t_join, t_replace; try (go; fail).
      - unfold t_type. destruct k, v; try (go; fail).
        + pose proof (q_read_date s) as L. destruct (read_date s) as [d | e]; [go |]. pose proof (L _ eq_refl). destruct e; go; assumption.
        + pose proof (q_read_datetime s) as L. destruct (read_datetime s) as [d | e]; [go |]. pose proof (L _ eq_refl). destruct e; go; assumption.
    Qed.
  End Leaf.

  (** Collected messages *)
  Definition allK (msgs : list (string * string)) : Prop := Forall (fun kv => K (fst kv)) msgs.
  Lemma dset_allK k v msgs : K k -> allK msgs -> allK (dset String.eqb k v msgs).
  Proof.
    intros Hk H. induction H as [| [k' v'] l Hx Hl IH]; cbn; [constructor; [exact Hk | constructor] |].
    destruct (String.eqb k k'); constructor; try exact Hl; try exact Hx; exact IH.
  Qed.
  Lemma receive_allK e : allK e -> forall msgs, allK msgs -> allK (receive msgs e).
  Proof.
    unfold receive, dupdate. intros He. induction He as [| [k v] e Hk He IH]; intros msgs H; cbn [fold_left]; [exact H |].
    apply IH, dset_allK; [exact Hk | exact H].
  Qed.
  Lemma y_collected msgs : allK msgs -> tells (raise_collected msgs).
  Proof. intros H. destruct msgs; [apply y_ret | apply y_throw, H]. Qed.
  (** [tells] and in the end only messages of [K] *)
  Definition gathers (m : st S (list (string * string))) : Prop :=
    forall s, says (fst (m s)) /\ forall l, fst (m s) = Ok l -> allK l.

  Section Chain.
    Context {V C : Type} (cval : C -> V) (nval : C -> V -> C) (all_fields : C -> bool).
    Notation modif := (modifier V C S).
    Implicit Types vs : list modif.

    Lemma y_validate_loop vs c : (forall v, In v vs -> tells (m_validate v c)) ->
      forall msgs, allK msgs -> gathers (chain_validate_loop all_fields vs c msgs).
    Proof.
      intros H. induction vs as [| v vs IH]; intros msgs Hm s; cbn [chain_validate_loop].
      - split; [apply says_ok |]. intros l E. inversion E; subst. exact Hm.
      - assert (IH' : forall msgs, allK msgs -> gathers (chain_validate_loop all_fields vs c msgs)).
        { apply IH. intros x Hx. apply H. right. exact Hx. }
        pose proof (H v (or_introl eq_refl) s) as Hv. destruct (m_validate v c s) as [[a | e] s1]; cbn [fst] in Hv; [apply IH', Hm |].
        pose proof (Hv e eq_refl) as Q. destruct e; try (split; [apply says_err, Q | intros l E; discriminate E]).
        assert (R : allK (receive msgs msgs0)) by (apply receive_allK; assumption).
        destruct (all_fields c); [apply IH', R |]. split; [apply says_ok |]. intros l E. inversion E; subst. exact R.
    Qed.
    Lemma y_gather (m : st S (list (string * string))) : gathers m -> tells (bind m raise_collected).
    Proof.
      intros H s. destruct (H s) as [H1 H2]. unfold bind. destruct (m s) as [[l | e] s1]; cbn [fst] in *.
      - apply (y_collected l (H2 l eq_refl)).
      - apply says_err, (H1 e eq_refl).
    Qed.
    Lemma y_chain_validate vs c : (forall v, In v vs -> tells (m_validate v c)) -> tells (chain_validate all_fields vs c).
    Proof.
      intros H. unfold chain_validate. apply y_gather, y_validate_loop; [| constructor]. intros v Hv. apply H, nvs_in, Hv.
    Qed.
    Lemma y_chain_transform vs c : (forall v x, In v vs -> tells (m_validate v (nval c x))) ->
      (forall v x, In v vs -> tells (m_transform v (nval c x))) ->
      (forall c x y, nval (nval c x) y = nval c y) -> tells (chain_transform cval nval vs c).
    Proof.
      intros H L N. unfold chain_transform. apply y_bind; [| intros v1].
      - apply y_fold. intros b v Hv. unfold vt. apply y_bind; [apply L, tvs_in, Hv |].
        intros a. apply y_bind; [rewrite N; apply H, tvs_in, Hv | intros; apply y_ret].
      - apply y_fold. intros b v Hv. apply L, nvs_in, Hv.
    Qed.
  End Chain.
End Tell.

Section Io.
  Context (P : program).
  Hypothesis call_ok : forall k f c args, tells (call P k f c args).
  Hypothesis getter_ok : forall h o n, says (p_getter P h o n).
  Hypothesis arith_ok : forall op a b, says (p_arith P op a b).
  Notation tells := (@tells world _).
  Definition here (c : ctx) : Prop := K (skp (c_fkr c)).

  Lemma q_vexc c msg : here c -> quiet (vexc c msg).
  Proof. intros H. constructor; [exact H | constructor]. Qed.
  Lemma q_last {A} (l : list A) : says (last_of l).
  Proof. unfold last_of. quietness. Qed.
  Lemma q_first {A} (l : list A) : says (first_of l).
  Proof. unfold first_of. quietness. Qed.
  Lemma y_getW {A} (q : world -> A) : tells (getW q).
  Proof. intros w. apply says_ok. Qed.
  Lemma y_getattr o n : tells (getattr P o n).
  Proof.
    intros w. unfold getattr, liftH, ObjModel.getattr. destruct w as [h x m l]. cbn [w_heap w_ext w_mg w_log].
    destruct (ofield (p_ct P) h o n) as [f |]; [destruct (is_calc f) |]; cbn [set_heap w_ext w_mg w_log fst snd];
      [apply getter_ok | |]; quietness.
  Qed.
  Lemma y_on_validation {A} (m : st world A) k : tells m -> (forall e, tells (k e)) -> tells (on_validation m k).
  Proof.
    intros Hm Hk. unfold on_validation.
    pose (j := fun r : res A => match r with Ok a => ret a | Err (EValidation e) => k e | Err e => throw e end).
    apply y_ext with (fun s => j (fst (m s)) (snd (m s))).
    { intros s. unfold j. destruct (m s) as [[a | []] s1]; reflexivity. }
    apply (y_try m j Hm). intros [a | e] L; unfold j; [apply y_ret |].
    pose proof (L _ eq_refl) as Le. destruct e; try (apply y_throw; exact Le). apply Hk.
  Qed.
  Lemma y_on_any {A} (m : st world A) k : tells k -> tells (on_any m k).
  Proof.
    intros Hk s. unfold on_any. destruct (m s) as [[a | e] s1]; [apply says_ok | apply Hk].
  Qed.

  Ltac prep := first [ apply y_getW | apply y_getattr ].
  Ltac go :=
    repeat (cbn zeta;
      match goal with
      | |- tells (ret _) => apply y_ret
      | |- tells (raise_vexc _ _) => apply y_throw, q_vexc; assumption
      | |- tells (throw _) => apply y_throw; try quietly
      | |- tells (bind _ _) => apply y_bind; [| intros]
      | |- tells (on_validation _ _) => apply y_on_validation; [| intros]
      | |- tells (on_any _ _) => apply y_on_any
      | |- tells (fold_st _ _ _) => apply y_fold; intros
      | |- tells (lift _) => apply y_lift; try first [apply q_last | apply q_first]; quietness
      | |- tells (call _ _ _ _ _) => apply call_ok
      | |- tells (match ?x with _ => _ end) => destruct x
      | |- tells _ => prep
      | H : _ |- tells _ => apply H
      end).

  Lemma y_getattr_v v n : tells (getattr_v P v n).
  Proof. unfold getattr_v. go. Qed.
  Lemma y_the_obj v : tells (the_obj v).
  Proof. unfold the_obj. go. Qed.
  Lemma y_cdef_v v : tells (cdef_v P v).
  Proof. unfold cdef_v. go. apply y_the_obj. Qed.
  Lemma y_named d n : tells (named d n).
  Proof. unfold named. go. Qed.
  Lemma y_members e : tells (members P e).
  Proof. unfold members. go. Qed.

  Section Rec.
    Context (rec : mdf -> modifier value ctx world) (F : mdf -> Prop).
    Hypothesis FV : forall m c, F m -> here c -> tells (m_validate (rec m) c).
    Hypothesis FT : forall m c, F m -> here c -> tells (m_transform (rec m) c).
    Definition fp (p : param) : Prop := match p with PTypes ts => forall x, In x ts -> F x | _ => True end.

    Lemma y_t_validate ts c : here c -> (forall x, In x ts -> F x) -> tells (t_validate rec ts c).
    Proof.
      intros Hc H. apply y_chain_validate. intros v Hv. apply in_map_iff in Hv. destruct Hv as (m & <- & Hm). apply FV; [apply H, Hm | exact Hc].
    Qed.
    Lemma y_t_transform ts c : here c -> (forall x, In x ts -> F x) -> tells (t_transform rec ts c).
    Proof.
      intros Hc H. apply y_chain_transform; [| | intros; reflexivity]; intros v x Hv; apply in_map_iff in Hv;
        destruct Hv as (m & <- & Hm); [apply FV | apply FT]; try exact Hc; apply H, Hm.
    Qed.
    Lemma y_resolve c p : here c -> fp p -> tells (resolve P rec c p).
    Proof. intros Hc H. unfold resolve. destruct p; go. apply y_t_transform; [exact Hc | apply H]. Qed.
    Lemma y_checked {A} ts c (good bad : st world A) : here c -> (forall x, In x ts -> F x) -> tells good -> tells bad ->
      tells (checked rec ts c good bad).
    Proof. intros Hc H G B. unfold checked. go; first [apply y_t_transform | apply y_t_validate]; assumption. Qed.
    Lemma y_required c : here c -> tells (required_validate P c).
    Proof.
      intros Hc. unfold required_validate. destruct (f_fstore (c_fdef c)); try (go; fail).
      destruct (c_val c); try (go; fail). go; try apply y_cdef_v; try apply y_named; try apply y_the_obj.
      match goal with |- tells (fun w => match getattr P ?o ?n w with _ => _ end) =>
        pose (k := fun r : res value => match r with
          | Ok v => if is_none v then raise_vexc c "value required" else ret tt
          | Err EAttributeError => raise_vexc c "value required"
          | Err e => throw e end);
        apply y_ext with (fun s => k (fst (getattr P o n s)) (snd (getattr P o n s)))
      end.
      { intros s. unfold k. match goal with |- context [getattr P ?o ?n s] => destruct (getattr P o n s) as [[v | []] s1] end;
          cbn; try reflexivity. destruct (is_none v); reflexivity. }
      apply (y_try _ k); [apply y_getattr |]. intros [v | e] L; unfold k; [go |].
      pose proof (L _ eq_refl) as Le. destruct e; go; exact Le.
    Qed.
    Lemma y_referred c k : tells (referred P c k).
    Proof.
      unfold referred. pose (j := fun r : res value => match r return st world value with Err EAttributeError => throw EValueError
        | Ok v => ret v | Err e => throw e end).
      apply y_ext with (fun s => j (fst (getattr_v P (c_owner c) k s)) (snd (getattr_v P (c_owner c) k s))).
      { intros s. unfold j. destruct (getattr_v P (c_owner c) k s) as [[v | []] s1]; reflexivity. }
      apply (y_try _ j); [apply y_getattr_v |]. intros [v | e] L; unfold j; [apply y_ret |].
      pose proof (L _ eq_refl) as Le. destruct e; go; exact Le.
    Qed.
    Lemma y_presentwithout ks c : here c -> tells (presentwithout_validate P ks c).
    Proof.
      intros Hc. unfold presentwithout_validate. destruct (is_none (c_val c)); [| go].
      induction ks as [| k ks IH]; cbn [presentwithout_loop]; go. apply y_referred.
    Qed.
    Lemma y_oneisvalid ps c : here c -> (forall p, In p ps -> fp p) -> tells (oneisvalid_loop rec ps c).
    Proof.
      intros Hc. induction ps as [| p ps IH]; intros H; cbn [oneisvalid_loop]; [go |].
      assert (IH' : tells (oneisvalid_loop rec ps c)) by (apply IH; intros q Hq; apply H; right; exact Hq).
      destruct p; try exact IH'. apply y_checked; [exact Hc | | apply y_ret | exact IH'].
      apply (H (PTypes ts) (or_introl eq_refl)).
    Qed.
    Lemma y_filter p c l : here c -> fp p -> tells (filter_loop P rec p c l).
    Proof.
      intros Hc H. induction l as [| v l IH]; cbn [filter_loop]; go. apply y_t_transform; [exact Hc | apply H].
    Qed.
    Lemma y_map p c l : here c -> fp p -> tells (map_loop P rec p c l).
    Proof. intros Hc H. induction l as [| v l IH]; cbn [map_loop]; go. apply y_t_transform; [exact Hc | apply H]. Qed.

    Definition ofpart (m : mdf) : bool :=
      match m with MInstance _ | MListOf _ | MDictOf _ | MUnion _ => true | _ => false end.

    Lemma y_flat_validate m c : here c -> ofpart m = false -> (forall p, In p (params_of m) -> fp p) -> tells (validate_of P rec m c).
    Proof.
      intros Hc N H. destruct m; try discriminate N; cbn [validate_of params_of] in *; try (go; fail);
        try (assert (Hp : fp p) by (apply H; left; reflexivity)).
      - apply (y_get (leaf_oeq P) (fun q => LeafModel.leaf_validate q (resolve P rec c) (vexc c) l (c_val c))).
        intros q. apply y_leaf_validate; [intros; apply q_vexc, Hc |]. intros p Hp. apply y_resolve; [exact Hc | apply H, Hp].
      - unfold enum_validate. go; apply y_members.
      - apply y_required, Hc.
      - unfold present_validate. go.
      - unfold presentwith_validate. go. apply y_referred.
      - apply y_presentwithout, Hc.
      - unfold validate_validate. destruct p; go. apply y_checked; [exact Hc | | go | go]. apply Hp.
      - unfold compare_validate. go; apply y_the_obj.
      - apply y_oneisvalid; [exact Hc | apply H].
      - unfold canw_validate. destruct when_new; go; try apply y_the_obj; (apply y_checked; [exact Hc | | go | go]); apply Hp.
      - unfold isthis_validate. go.
      - unfold isobjof_validate. go.
      - unfold asop_validate. go; try apply y_the_obj; try apply y_cdef_v; apply y_named.
    Qed.
    Lemma y_flat_transform m c : here c -> ofpart m = false -> (forall p, In p (params_of m) -> fp p) -> tells (transform_of P rec m c).
    Proof.
      intros Hc N H. destruct m; try discriminate N; cbn [transform_of params_of] in *; try (go; fail);
        try (assert (Hp : fp p) by (apply H; left; reflexivity)).
      - apply y_leaf_transform; [exact arith_ok | intros; apply q_vexc, Hc |]. intros p Hp. apply y_resolve; [exact Hc | apply H, Hp].
      - unfold enum_transform. go; apply y_members.
      - unfold default_transform. destruct (c_val c); try (go; fail). destruct p; try (go; fail); (apply y_resolve; [exact Hc | apply Hp]).
      - unfold transform_transform. destruct p; try (go; fail). apply y_t_transform; [exact Hc | apply Hp].
      - unfold filter_transform. destruct (c_val c); go. apply y_filter; [exact Hc | apply Hp].
      - unfold map_transform. destruct (c_val c); go. apply y_map; [exact Hc | apply Hp].
      - unfold at_transform. go; (apply y_resolve; [exact Hc | apply Hp]).
    Qed.
  End Rec.

  Lemma flat_tells n : forall d m c, flat d m -> here c ->
    tells (m_validate (interp P n m) c) /\ tells (m_transform (interp P n m) c).
  Proof.
    induction n as [| n IH]; intros d m c H Hc; [split; apply y_throw; exact Logic.I |].
    destruct d as [| d]; [contradiction H |]. cbn [interp modif_of m_validate m_transform].
    assert (N : ofpart m = false) by (destruct m; cbn in H; try reflexivity; contradiction).
    assert (Hp : forall p, In p (params_of m) -> fp (flat d) p).
    { intros p Hp. destruct p; cbn; try exact Logic.I. intros x Hx. destruct m; cbn in H; try contradiction; apply (H ts Hp x Hx). }
    split; [apply (y_flat_validate _ (flat d)) | apply (y_flat_transform _ (flat d))]; try assumption;
      intros x c' Hx Hc'; apply (IH d x c' Hx Hc').
  Qed.
End Io.
End Say.
