(** LeafSound.v -- the simple modifiers and the chain, in the logic of Sound.v. *)
From Verif Require Import Base Mon PyList PyDict KeypathModel Values PyStr CalModel LeafModel ChainModel ObjSound Sound.
Open Scope list_scope.
Open Scope Z_scope.

Section Manner.
Context {spk : manner}.

Lemma loud_cmp c a b : louder (py_cmp c a b).
Proof. unfold py_cmp. loudness. Qed.
Lemma loud_mk_date y m d : louder (mk_date y m d).
Proof. unfold mk_date. cbn zeta. loudness. Qed.
Lemma loud_mk_datetime y m d h mi s us tz : louder (mk_datetime y m d h mi s us tz).
Proof. unfold mk_datetime. apply loud_rbind; [apply loud_mk_date | intros]. loudness. Qed.
Lemma loud_next_day d : louder (next_day d).
Proof. unfold next_day. destruct d. loudness. Qed.
Lemma loud_add_days n : forall d, louder (add_days n d).
Proof.
  induction n as [| n IH]; intros d; cbn [add_days]; [apply louder_ok |].
  apply loud_rbind; [apply loud_next_day | exact IH].
Qed.
Lemma loud_dt_plus a b c d t : louder (dt_plus a b c d t).
Proof. unfold dt_plus. cbn zeta. apply loud_rbind; [apply loud_add_days | intros; apply louder_ok]. Qed.
Ltac lr :=
  repeat match goal with
         | |- louder (rbind _ _) => apply loud_rbind; [| intros]
         | |- louder (dt_plus _ _ _ _ _) => apply loud_dt_plus
         | |- louder (next_day _) => apply loud_next_day
         | |- louder (mk_date _ _ _) => apply loud_mk_date
         | |- louder (mk_datetime _ _ _ _ _ _ _ _) => apply loud_mk_datetime
         | |- louder (py_cmp _ _ _) => apply loud_cmp
         | |- louder (Ok _) => apply louder_ok
         | |- louder (Err _) => apply louder_err
         | |- loud _ => loudly
         | |- louder (match ?x with _ => _ end) => destruct x
         end.
Lemma loud_date_fromiso l : louder (date_fromiso l).
Proof. unfold date_fromiso. lr. Qed.
Lemma loud_two a b : louder (two a b).
Proof. unfold two. lr. Qed.
Lemma loud_fraction l : louder (parse_fraction l).
Proof. unfold parse_fraction. lr. Qed.
Lemma loud_clock l : louder (parse_clock l).
Proof. unfold parse_clock. lr; first [apply loud_two | apply loud_fraction]. Qed.
Lemma loud_offset b l : louder (parse_offset b l).
Proof. unfold parse_offset. destruct (_ || _ || _)%bool; lr. apply loud_clock. Qed.
Lemma loud_datetime_fromiso l : louder (datetime_fromiso l).
Proof.
  unfold datetime_fromiso. apply loud_rbind; [apply loud_date_fromiso | intros d].
  destruct (skipn 10 l) as [| x r]; [lr |]. destruct (split_offset r) as [c [[]|]]; lr; first [apply loud_clock | apply loud_offset].
Qed.
Lemma loud_read_date s : louder (read_date s).
Proof. apply loud_date_fromiso. Qed.
Lemma loud_read_datetime s : louder (read_datetime s).
Proof. unfold read_datetime. lr. apply loud_datetime_fromiso. Qed.
Lemma loud_float z : louder (float_of_Z z).
Proof. unfold float_of_Z. cbn zeta. lr. Qed.
Lemma loud_dt_le a b : louder (dt_le a b).
Proof. unfold dt_le, py_le. lr. Qed.
Lemma loud_as_index v : louder (as_index v).
Proof. unfold as_index. lr. Qed.

Section S.
  Context {S : Type} (R : S -> S -> Prop).
  Hypothesis refl : forall s, R s s.
  Hypothesis trans : forall a b c, R a b -> R b c -> R a c.
  Notation sound := (sound R).

  Section Leaf.
    Context {P : Type} (oeq : oid -> oid -> bool) (other_str : value -> string)
            (farith : arith -> value -> value -> res value) (resolve : P -> st S value) (vexc : string -> exn).
    Hypothesis farith_ok : forall op a b, louder (farith op a b).
    Hypothesis vexc_ok : forall msg, loud (vexc msg).

    Ltac go :=
      repeat (cbn zeta;
        match goal with
        | |- sound (ret _) => apply s_ret; exact refl
        | |- sound (throw (vexc _)) => apply s_throw; [exact refl | apply vexc_ok]
        | |- sound (throw _) => apply s_throw; [exact refl | try (loudly)]
        | |- sound (fail _ _) => apply s_throw; [exact refl | apply vexc_ok]
        | |- sound (bind _ _) => apply s_bind; [exact refl | exact trans | | intros]
        | H : forall p, In p _ -> sound (resolve p) |- sound (resolve _) => apply H; cbn; repeat match goal with |- context [match ?x with _ => _ end] => destruct x end; cbn; auto; fail
        | |- sound (lift _) => apply s_lift; [exact refl | unfold gtb, geb, py_lt, py_le, tonextday, tonexthour,
            tonextmin, tonextsec, tonextmon, tonextyear, py_in, py_len, val_take, val_drop, integral, py_arith, padding, str_split; lr;
              try first [apply farith_ok | apply loud_dt_le | apply loud_as_index | apply loud_float] ]
        | |- sound (match ?x with _ => _ end) => destruct x
        end).

    Lemma leaf_validate_ok l v : (forall p, In p (leaf_params l) -> sound (resolve p)) -> sound (leaf_validate oeq resolve vexc l v).
    Proof.
      intros resolve_ok. destruct l; cbn [leaf_validate];
        unfold v_min, v_max, v_range, v_gt, v_lt, v_positive, v_negative, v_nonpositive, v_nonnegative, v_even, v_odd,
          v_length, v_minlength, v_maxlength, v_oneof, v_eq, v_neq, v_hasprefix, v_hassuffix, v_isprefixof, v_issuffixof,
          v_chars, v_type, v_before, v_after, const_check, bound_check; go.
    Qed.
    Lemma leaf_transform_ok l v : (forall p, In p (leaf_params l) -> sound (resolve p)) -> sound (leaf_transform other_str farith resolve vexc l v).
    Proof.
      intros resolve_ok. destruct l; cbn [leaf_transform];
        unfold t_lowerbond, t_upperbond, t_arith, t_truncate, t_padstart, t_padend, t_append, t_prepend, t_insertat,
          t_split, t_join, t_replace; try (go; fail).
      - unfold t_type. destruct k, v; try (go; fail).
        + pose proof (loud_read_date s) as L. destruct (read_date s) as [d | e]; [go |]. pose proof (L _ eq_refl). destruct e; go; assumption.
        + pose proof (loud_read_datetime s) as L. destruct (read_datetime s) as [d | e]; [go |]. pose proof (L _ eq_refl). destruct e; go; assumption.
    Qed.
    Lemma leaf_tojson_ok l v : sound (@leaf_tojson S P l v).
    Proof. destruct l; cbn [leaf_tojson]; go. Qed.
  End Leaf.

  (** Collected messages: once there is one there always is. *)
  Lemma receive_ne msgs e : msgs <> [] -> receive msgs e <> [].
  Proof.
    unfold receive, dupdate. revert msgs. induction e as [| [k v] e IH]; intros msgs H; cbn [fold_left]; [exact H |].
    apply IH. destruct msgs as [| [k' v'] l]; [contradiction H; reflexivity |]. cbn. destruct (String.eqb k k'); discriminate.
  Qed.
  Lemma receive_new msgs e : e <> [] -> receive msgs e <> [].
  Proof.
    destruct e as [| [k v] e]; [intros H; contradiction H; reflexivity | intros _].
    unfold receive, dupdate. cbn [fold_left]. apply (receive_ne _ e).
    destruct msgs as [| [k' v'] l]; [discriminate |]. cbn. destruct (String.eqb k k'); discriminate.
  Qed.

  Lemma raise_collected_ok msgs : sound (raise_collected msgs).
  Proof.
    destruct msgs as [| x msgs]; cbn [raise_collected]; [apply s_ret; exact refl |].
    apply s_throw; [exact refl |]. loudly.
  Qed.

  Section Chain.
    Context {V C : Type} (cval : C -> V) (nval : C -> V -> C) (all_fields : C -> bool)
            (write_parent : C -> V -> st S unit).
    Notation modif := (modifier V C S).
    Implicit Types vs : list modif.

    Lemma validate_loop_ok vs c : (forall v, In v vs -> forall c, sound (m_validate v c)) ->
      forall msgs, sound (chain_validate_loop all_fields vs c msgs).
    Proof.
      intros H. induction vs as [| v vs IH]; intros msgs; cbn [chain_validate_loop]; [apply s_ret; exact refl |].
      pose (k := fun r : res unit => match r with
        | Ok _ => chain_validate_loop all_fields vs c msgs
        | Err (EValidation e) => if all_fields c then chain_validate_loop all_fields vs c (receive msgs e)
                                 else ret (receive msgs e)
        | Err e => throw e end).
      apply s_ext with (fun s => k (fst (m_validate v c s)) (snd (m_validate v c s))).
      { intros s. unfold k. destruct (m_validate v c s) as [[a | []] s1]; cbn; try reflexivity. destruct (all_fields c); reflexivity. }
      assert (IH' : forall msgs, sound (chain_validate_loop all_fields vs c msgs)).
      { apply IH. intros x Hx. apply H. right. exact Hx. }
      apply (s_try R trans _ k); [apply H; left; reflexivity |].
      intros [a | e] L; unfold k; [apply IH' |]. pose proof (L _ eq_refl) as Le.
      destruct e; try (apply s_throw; [exact refl | exact Le]).
      destruct (all_fields c); [apply IH' | apply s_ret; exact refl].
    Qed.

    Lemma skipn_in {A} n (x : A) : forall l, In x (skipn n l) -> In x l.
    Proof. induction n as [| n IH]; intros [| a l]; cbn; auto. Qed.
    Lemma firstn_in {A} n (x : A) : forall l, In x (firstn n l) -> In x l.
    Proof. induction n as [| n IH]; intros [| a l]; cbn; intros H; auto; try tauto. destruct H as [H | H]; auto. Qed.
    Lemma nvs_in v vs : In v (nvs vs) -> In v vs.
    Proof. unfold nvs. intros H. apply firstn_in in H. apply skipn_in in H. exact H. Qed.
    Lemma tvs_in v vs : In v (tvs vs) -> In v vs.
    Proof. unfold tvs. destruct (levidx vs); [apply firstn_in | intros []]. Qed.
    Lemma pvs_in v vs : In v (pvs vs) -> In v vs.
    Proof. unfold pvs. destruct (fpvidx vs); [apply skipn_in | intros []]. Qed.

    Lemma chain_validate_ok vs c : (forall v, In v vs -> forall c, sound (m_validate v c)) ->
      sound (chain_validate all_fields vs c).
    Proof.
      intros H. unfold chain_validate. apply s_bind; [exact refl | exact trans | | intros; apply raise_collected_ok].
      apply validate_loop_ok. intros v Hv. apply H, nvs_in, Hv.
    Qed.
    Lemma chain_transform_ok vs c : (forall v, In v vs -> forall c, sound (m_validate v c)) ->
      (forall v, In v vs -> forall c, sound (m_transform v c)) -> sound (chain_transform cval nval vs c).
    Proof.
      intros H K. unfold chain_transform. apply s_bind; [exact refl | exact trans | | intros v1].
      - apply s_fold; [exact refl | exact trans |]. intros b v Hv. unfold vt. apply s_bind; [exact refl | exact trans | apply K, tvs_in, Hv |].
        intros a. apply s_bind; [exact refl | exact trans | apply H, tvs_in, Hv | intros; apply s_ret; exact refl].
      - apply s_fold; [exact refl | exact trans |]. intros b v Hv. apply K, nvs_in, Hv.
    Qed.
    Lemma chain_tojson_ok vs c : (forall v, In v vs -> forall c, sound (m_tojson v c)) -> sound (chain_tojson cval nval vs c).
    Proof. intros H. unfold chain_tojson. apply s_fold; [exact refl | exact trans |]. intros b v Hv. apply H, Hv. Qed.
    Lemma chain_serialize_ok vs c : (forall v, In v vs -> forall c, sound (m_validate v c)) ->
      (forall v, In v vs -> forall c, sound (m_serialize v c)) -> (forall c v, sound (write_parent c v)) ->
      sound (chain_serialize cval nval write_parent vs c).
    Proof.
      intros H K W. unfold chain_serialize.
      apply s_bind; [exact refl | exact trans | | intros v1; apply s_bind; [exact refl | exact trans | | intros v2]];
        (apply s_fold; [exact refl | exact trans |]); intros b v Hv.
      - apply K, tvs_in, Hv.
      - apply K, nvs_in, Hv.
      - unfold sv. apply s_bind; [exact refl | exact trans | apply K, pvs_in, Hv | intros x].
        apply s_bind; [exact refl | exact trans | apply H, pvs_in, Hv | intros _].
        apply s_bind; [exact refl | exact trans | apply W | intros _; apply s_ret; exact refl].
    Qed.
  End Chain.
End S.
End Manner.
