(** ValidateProofs.v -- validation of one object. *)
From Verif Require Import Base Mon KeypathModel KeypathProofs Values MGraphModel ChainModel ChainSpec ChainProofs TypesModel ObjModel IoModel IoBase
  ValidateSpec CivilSpec Sound ObjSound LeafSound IoSound IoEffects.
Open Scope list_scope.

Section Validate.
  Context (P : program).

  Lemma fstore_eqb_eq a b : fstore_eqb a b = true <-> a = b.
  Proof. destruct a, b; cbn; split; intros H; try reflexivity; discriminate H. Qed.
  Lemma sinb_true n l : sinb n l = true <-> In n l.
  Proof.
    unfold sinb. rewrite existsb_exists. split.
    - intros (x & H & E). apply String.eqb_eq in E. subst. exact H.
    - intros H. exists n. split; [exact H | apply String.eqb_refl].
  Qed.

  Lemma split_head (k : string) : exists rest, k = (initial_keypath k ++ rest)%string /\ (rest = EmptyString \/ exists r, rest = String "." r).
  Proof.
    unfold initial_keypath. induction k as [| a k (r & E & D)]; [exists EmptyString; split; [reflexivity | left; reflexivity] |].
    cbn [split_on]. destruct (is_dot a) eqn:Da.
    - exists (String a k). split; [reflexivity |]. right. exists k. apply Ascii.eqb_eq in Da. subst. reflexivity.
    - destruct (split_on is_dot k) as [| x l] eqn:Es; [exfalso; exact (split_on_nonnil _ _ Es) |].
      exists r. cbn [hd] in E |- *. split; [cbn; f_equal; exact E | exact D].
  Qed.
  Lemma initial_below n k : no_char is_dot n ->
    (initial_keypath k = n <-> k = n \/ exists rest, k = (n ++ "." ++ rest)%string).
  Proof.
    intros H. split.
    - intros <-. destruct (split_head k) as (rest & E & [-> | (r & ->)]).
      + left. rewrite E at 1. clear. induction (initial_keypath k) as [| a x IH]; [reflexivity | cbn; f_equal; exact IH].
      + right. exists r. exact E.
    - intros [-> | (rest & ->)]; unfold initial_keypath.
      + rewrite (split_on_plain _ _ H). reflexivity.
      + cbn [append]. rewrite (split_on_sep is_dot "." n rest eq_refl), (split_on_plain _ _ H). reflexivity.
  Qed.
  Lemma due_below w o f : ~ In "."%char (list_ascii_of_string (fl_name f)) ->
    (due w o f <-> o_new (wobj w o) = true \/ f_fstore (fl_fdef f) <> Embedded \/
       (In (fl_name f) (o_mfields (wobj w o)) \/ exists rest, In (fl_name f ++ "." ++ rest)%string (o_mfields (wobj w o)))).
  Proof.
    intros Hd. assert (N : no_char is_dot (fl_name f)).
    { unfold no_char. intros c Hc. unfold is_dot. destruct (Ascii.eqb_spec c "."); [subst; contradiction | reflexivity]. }
    unfold due. apply or_iff_compat_l, or_iff_compat_l. split.
    - intros (k & Hk & E). apply (initial_below _ _ N) in E. destruct E as [-> | (rest & ->)]; [left; exact Hk | right; exists rest; exact Hk].
    - intros [H | (rest & H)].
      + exists (fl_name f). split; [exact H | apply (initial_below _ _ N); left; reflexivity].
      + eexists. split; [exact H |]. apply (initial_below _ _ N). right. exists rest. reflexivity.
  Qed.

  (** The test the code makes says whether the field is due. *)
  Lemma skip_iff w o f :
    let om := negb (o_new (wobj w o)) in
    let md := if om then initial_keypaths (o_mfields (wobj w o)) else [] in
    (fstore_eqb (f_fstore (fl_fdef f)) Embedded && om && negb (sinb (fl_name f) md))%bool = true <-> ~ due w o f.
  Proof.
    cbn zeta. unfold due. destruct (o_new (wobj w o)); cbn [negb].
    - rewrite andb_false_r. cbn. split; [discriminate | intros H; exfalso; apply H; left; reflexivity].
    - rewrite andb_true_r, andb_true_iff, fstore_eqb_eq, negb_true_iff, <- not_true_iff_false, sinb_true, initial_keypaths_in.
      split.
      + intros [H1 H2] [H | [H | H]]; [discriminate H | apply H; exact H1 | apply H2; exact H].
      + intros H. split.
        * destruct (f_fstore (fl_fdef f)); try reflexivity; exfalso; apply H; right; left; discriminate.
        * intros K. apply H. right. right. exact K.
  Qed.

  Lemma getattr_ok o n w v w' : getattr P o n w = (Ok v, w') -> w' = w.
  Proof.
    unfold getattr, liftH, ObjModel.getattr. destruct w as [h x m l]. cbn [w_heap].
    destruct (ofield (p_ct P) h o n) as [f |]; [destruct (is_calc f) |]; cbn; intros H.
    - inversion H; reflexivity.
    - destruct (attr h o n); inversion H; reflexivity.
    - destruct (attr h o n); inversion H; reflexivity.
  Qed.

  Section Sweep.
    Context (fuel : nat) (c : ctx) (o : oid) (om : bool) (md : list string).
    Let isdue f := (fstore_eqb (f_fstore (fl_fdef f)) Embedded && om && negb (sinb (fl_name f) md))%bool = false.
    Notation pre := (field_check P (interp P fuel) c o om md).
    Notation sweep := (sweep P isdue fuel c o).

    Lemma pre_skip f w v : ~ isdue f -> value_of P w o (fl_name f) v -> pre f w = (Ok None, w).
    Proof.
      intros H V. unfold field_check, bind, getW. unfold value_of in V. rewrite V. unfold isdue in H.
      destruct (_ && _ && _)%bool; [reflexivity | contradiction H; reflexivity].
    Qed.
    Lemma pre_due f w v : isdue f -> value_of P w o (fl_name f) v ->
      pre f w = (Ok (Some (do* e <- ekey P c (fl_name f);
        t_validate (interp P fuel) (fl_types f) (field_ctx c o f (wclass w o) v e))), w).
    Proof.
      intros H V. unfold field_check. unfold bind at 1, getW. unfold bind at 1. unfold value_of in V. rewrite V.
      unfold isdue in H. rewrite H. reflexivity.
    Qed.

    Lemma collect_passed all fs : forall w l w' msgs, sweep fs w l w' -> all_passed l -> forall rest,
      collect all pre (fs ++ rest) msgs w = collect all pre rest msgs w'.
    Proof.
      intros w l w' msgs H A rest. induction H as [w | f fs w v l w' H V Hs IH | f fs w w1 l w' H R Hs IH | f fs w w1 e l w' H R Hs IH].
      - reflexivity.
      - cbn [collect app]. unfold bind at 1. rewrite (pre_skip f w v H V). apply IH, A.
      - inversion A; subst. destruct R as (v & e & V & K & R). cbn [collect app]. unfold bind at 1.
        rewrite (pre_due f w v H V). unfold bind at 1. rewrite K, R. apply IH. assumption.
      - inversion A as [| x y Ha Hb]. discriminate Ha.
    Qed.
    Lemma ekey_ok k w e w' : ekey P c k w = (Ok e, w') -> w' = w.
    Proof.
      unfold ekey, cdef_v, the_obj, bind, getW, ret, throw. destruct (c_owner c); intros H; inversion H; reflexivity.
    Qed.
    Lemma ekey_owner k w x : c_owner c = VObj x -> exists e, ekey P c k w = (Ok e, w).
    Proof. intros E. unfold ekey, cdef_v, the_obj, bind, getW, ret, throw. rewrite E. eexists. reflexivity. Qed.

    Definition due_dec f : {isdue f} + {~ isdue f}.
    Proof. unfold isdue. destruct (_ && _ && _)%bool; [right; discriminate | left; reflexivity]. Defined.

    (** the loop over the rest of the fields, some having been gone through *)
    Lemma sweep_app fs1 fs2 w l1 w1 l2 w2 : sweep fs1 w l1 w1 -> sweep fs2 w1 l2 w2 -> sweep (fs1 ++ fs2) w (l1 ++ l2) w2.
    Proof.
      intros H1 H2. induction H1; cbn [app]; [exact H2 | | |].
      - eapply sw_skip; eauto.
      - eapply sw_pass; eauto.
      - eapply sw_fail; eauto.
    Qed.
    Lemma reports_app l1 l2 : reports (l1 ++ l2) = reports l1 ++ reports l2.
    Proof. apply flat_map_app. Qed.
    Lemma passed_reports l : all_passed l -> reports l = [].
    Proof. induction 1 as [| x l H _ IH]; [reflexivity |]. cbn. rewrite H. exact IH. Qed.

    (** the state of the loop after [before] *)
    Definition got (l : list (field * option (list (string * string)))) : list (string * string) := fold_left receive (reports l) [].

    Lemma collect_runs all before rest : forall w l w1, sweep before w l w1 -> (all = false -> all_passed l) ->
      collect all pre (before ++ rest) [] w = collect all pre rest (got l) w1.
    Proof.
      destruct all.
      - intros w l w1 H _. unfold got. generalize (@nil (string * string)). induction H; intros msgs; cbn [collect app].
        + reflexivity.
        + unfold bind at 1. erewrite pre_skip by eassumption. apply IHsweep.
        + destruct H0 as (v & e & V & K & R). unfold bind at 1. erewrite pre_due by eassumption. unfold bind at 1. rewrite K, R. apply IHsweep.
        + destruct H0 as (v & e' & V & K & R). unfold bind at 1. erewrite pre_due by eassumption. unfold bind at 1. rewrite K, R. apply IHsweep.
      - intros w l w1 H A. specialize (A eq_refl). unfold got. rewrite (passed_reports l A). cbn [fold_left].
        exact (collect_passed false before w l w1 [] H A rest).
    Qed.

    Hypothesis own : exists x, c_owner c = VObj x.
    Hypothesis speaking : forall ts c w w' e, t_validate (interp P fuel) ts c w = (Err (EValidation e), w') -> e <> [].

    Lemma sweep_speaks fs w l w' : sweep fs w l w' -> Forall (fun e => e <> []) (reports l).
    Proof.
      induction 1 as [w | f fs w v l w' H V Hs IH | f fs w w1 l w' H R Hs IH | f fs w w1 e l w' H R Hs IH]; cbn; auto.
      constructor; [| exact IH]. destruct R as (v & k & _ & _ & R). exact (speaking _ _ _ _ _ R).
    Qed.
    Lemma verdict_got l (w : world) : Forall (fun e => e <> []) (reports l) -> raise_collected (got l) w = (verdict l, w).
    Proof.
      intros H. unfold verdict.
      assert (HE : got l = dict_of String.eqb (concat (reports l))).
      { unfold got, dict_of. generalize (@nil (string * string)). clear. induction (reports l) as [|e rs IH]; intros d; simpl.
        - reflexivity.
        - rewrite IH. unfold dupdate, receive, dupdate. rewrite fold_left_app. reflexivity. }
      rewrite HE. destruct (reports l) as [| e rs]; [reflexivity |].
      assert (Hn : dict_of String.eqb (concat (e :: rs)) <> []).
      { inversion H; subst. simpl. apply receive_nil_keys. destruct e; [contradiction|]. discriminate. }
      unfold raise_collected. destruct (dict_of _ _); [contradiction |]. reflexivity.
    Qed.

    Lemma loop_ends all fs w r w' :
      (do* msgs <- collect all pre fs []; raise_collected msgs) w = (r, w') <-> ends P isdue fuel c o all fs w r w'.
    Proof.
      split.
      - intros H.
        assert (G : forall rest before l w1, fs = before ++ rest -> sweep before w l w1 -> (all = false -> all_passed l) ->
          (do* msgs <- collect all pre rest (got l); raise_collected msgs) w1 = (r, w') -> ends P isdue fuel c o all fs w r w').
        { clear H. induction rest as [| f rest IH]; intros before l w1 E Hs Hl H.
          - rewrite app_nil_r in E. subst before. unfold bind in H. cbn [collect] in H. unfold ret at 1 in H.
            rewrite (verdict_got l w1 (sweep_speaks _ _ _ _ Hs)) in H. inversion H; subst. apply en_done; assumption.
          - destruct (getattr P o (fl_name f) w1) as [[v | e] w2] eqn:V.
            2:{ unfold bind in H. cbn [collect] in H. unfold bind, field_check, bind, getW in H. rewrite V in H. inversion H; subst.
                eapply en_unreadable; [reflexivity | eassumption | assumption | exact V]. }
            pose proof (getattr_ok _ _ _ _ _ V). subst w2.
            assert (E' : fs = (before ++ [f]) ++ rest) by (rewrite <- app_assoc; exact E).
            destruct (due_dec f) as [D | D].
            + unfold bind at 1 in H. cbn [collect] in H. unfold bind at 1 in H. rewrite (pre_due f w1 v D V) in H.
              destruct own as [x Ox]. destruct (ekey_owner (fl_name f) w1 x Ox) as [k K]. unfold bind at 1 in H. rewrite K in H.
              destruct (t_validate _ _ _ w1) as [[u | e] w2] eqn:T.
              * apply (IH (before ++ [f]) (l ++ [(f, None)]) w2 E').
                -- eapply sweep_app; [exact Hs |]. eapply sw_pass; [exact D | | constructor]. exists v, k. destruct u. auto.
                -- intros A. apply Forall_app. split; [exact (Hl A) | constructor; [reflexivity | constructor]].
                -- unfold got. rewrite reports_app. cbn [reports flat_map snd app]. rewrite app_nil_r. exact H.
              * assert (R : field_result P fuel c o f w1 (Err e) w2) by (exists v, k; auto).
                assert (Hst : (all = true -> forall msgs, e <> EValidation msgs) -> r = Err e /\ w' = w2 -> ends P isdue fuel c o all fs w r w').
                { intros A [-> ->]. eapply en_fails; [exact E | exact Hs | exact Hl | exact D | exact R | exact A]. }
                destruct e; try (apply Hst; [discriminate | inversion H; auto]; fail).
                destruct all; [| apply Hst; [discriminate | inversion H; auto]].
                apply (IH (before ++ [f]) (l ++ [(f, Some msgs)]) w2 E').
                -- eapply sweep_app; [exact Hs |]. eapply sw_fail; [exact D | exact R | constructor].
                -- discriminate.
                -- unfold got. rewrite reports_app. cbn [reports flat_map snd app]. rewrite fold_left_app. exact H.
            + apply (IH (before ++ [f]) l w1 E').
              * rewrite <- (app_nil_r l). eapply sweep_app; [exact Hs |]. eapply sw_skip; [exact D | exact V | constructor].
              * exact Hl.
              * unfold bind at 1 in H. cbn [collect] in H. unfold bind at 1 in H. rewrite (pre_skip f w1 v D V) in H. exact H. }
        apply (G fs [] [] w eq_refl); [constructor | intros _; constructor | exact H].
      - intros H. destruct H as [l w' Hs Hl | before f after l w1 e w' -> Hs Hl Hg | before f after l w1 e w' -> Hs Hl Hd R Hn].
        + unfold bind. pose proof (collect_runs all fs [] w l w' Hs Hl) as C. rewrite app_nil_r in C. rewrite C. cbn [collect]. unfold ret at 1.
          apply verdict_got. exact (sweep_speaks _ _ _ _ Hs).
        + unfold bind. rewrite (collect_runs all before (f :: after) w l w1 Hs Hl). cbn [collect]. unfold bind, field_check, bind, getW. rewrite Hg. reflexivity.
        + destruct R as (v & k & V & K & R). unfold bind at 1. rewrite (collect_runs all before (f :: after) w l w1 Hs Hl).
          cbn [collect]. unfold bind at 1. rewrite (pre_due f w1 v Hd V). unfold bind at 1. rewrite K, R.
          destruct e; try reflexivity. destruct all; [exfalso; exact (Hn eq_refl msgs eq_refl) | reflexivity].
    Qed.
  End Sweep.

  Lemma sweep_iff (d1 d2 : field -> Prop) fuel c o fs w l w' :
    (forall f, d1 f <-> d2 f) -> sweep P d1 fuel c o fs w l w' -> sweep P d2 fuel c o fs w l w'.
  Proof.
    intros E H. induction H.
    - constructor.
    - eapply sw_skip; [rewrite <- E; assumption | eassumption | assumption].
    - eapply sw_pass; [rewrite <- E; assumption | eassumption | assumption].
    - eapply sw_fail; [rewrite <- E; assumption | eassumption | assumption].
  Qed.

  Lemma ends_iff (d1 d2 : field -> Prop) fuel c o all fs w r w' :
    (forall f, d1 f <-> d2 f) -> ends P d1 fuel c o all fs w r w' -> ends P d2 fuel c o all fs w r w'.
  Proof.
    intros E H. destruct H as [l w' Hs Hl | before f after l w1 e w' Ef Hs Hl Hg | before f after l w1 e w' Ef Hs Hl Hd R Hn].
    - apply en_done; [eapply sweep_iff; eassumption | exact Hl].
    - eapply en_unreadable; [exact Ef | eapply sweep_iff; eassumption | exact Hl | exact Hg].
    - eapply en_fails; [exact Ef | eapply sweep_iff; eassumption | exact Hl | apply E; exact Hd | exact R | exact Hn].
  Qed.

  (** What a visit amounts to. *)
  Lemma visit_unfold fuel c o d w : fresh_visit P c o d w ->
    let w0 := marked P w o in
    let om := negb (o_new (wobj w o)) in
    let md := if om then initial_keypaths (o_mfields (wobj w o)) else [] in
    m_validate (interp P (S fuel) (MInstance (match f_inst (c_fdef c) with Some x => x | None => EmptyString end))) c w
    = (do* msgs <- collect (wants_all c d) (field_check P (interp P fuel) c o om md) (cd_fields (wcdef P w o)) [];
       raise_collected msgs) w0.
  Proof.
    intros [Hv Hn _ (cls & Hi & Hd & Ha)] w0 om md. cbn [interp modif_of m_validate validate_of]. unfold inst_validate. rewrite Hv.
    unfold bind at 1. unfold mg_has, bind at 1, the_obj, ret. unfold getW at 1. rewrite Hn.
    unfold bind at 1. unfold bind at 1. unfold mg_put, modW. fold (marked P w o). fold w0.
    unfold bind at 1. unfold inst_cls. rewrite Hi. unfold ret. unfold bind at 1. unfold class_named. rewrite Hd. unfold ret.
    unfold bind at 1. unfold getW at 1.
    assert (E : wclass w0 o = wclass w o) by reflexivity. rewrite E, Ha. cbn [negb].
    unfold bind at 1, getW at 1. unfold bind at 1, getW at 1. reflexivity.
  Qed.

  Lemma visit_ends fuel c o d w r w' : civil P -> fresh_visit P c o d w ->
    (m_validate (interp P (S fuel) (MInstance (match f_inst (c_fdef c) with Some x => x | None => EmptyString end))) c w = (r, w')
     <-> ends P (due w o) fuel c o (wants_all c d) (cd_fields (wcdef P w o)) (marked P w o) r w').
  Proof.
    intros C F. rewrite (visit_unfold fuel c o d w F). cbn zeta.
    rewrite loop_ends; [| exact (fv_owner _ _ _ _ _ F) | intros ts c' w1 w2 e; apply t_validate_speaks, C].
    assert (E : forall f, (fstore_eqb (f_fstore (fl_fdef f)) Embedded && negb (o_new (wobj w o)) &&
       negb (sinb (fl_name f) (if negb (o_new (wobj w o)) then initial_keypaths (o_mfields (wobj w o)) else [])))%bool = false <-> due w o f).
    { intros f. pose proof (skip_iff w o f) as K. cbn zeta in K. destruct (_ && _ && _)%bool; split; intros H; try reflexivity; try discriminate H.
      - exfalso. apply (proj1 K eq_refl). exact H.
      - unfold due. destruct (o_new (wobj w o)) eqn:En; [left; reflexivity |].
        destruct (fstore_eqb (f_fstore (fl_fdef f)) Embedded) eqn:Ef.
        + right. right. destruct (in_dec string_dec (fl_name f) (initial_keypaths (o_mfields (wobj w o)))) as [Hi | Hi].
          * apply initial_keypaths_in. exact Hi.
          * exfalso. assert (Q : false = true); [| discriminate Q]. apply K. intros D. apply Hi.
            unfold due in D. rewrite En in D. destruct D as [D | [D | D]]; [discriminate D | | apply initial_keypaths_in; exact D].
            exfalso. apply D. apply fstore_eqb_eq. exact Ef.
        + right. left. intros Q. apply fstore_eqb_eq in Q. rewrite Q in Ef. discriminate Ef. }
    split; intros H; (eapply ends_iff; [| exact H]); [exact E | intros f; symmetry; apply E].
  Qed.

  Lemma call_visit o mode w d : of_class P w o d -> fresh_visit P (call_ctx o mode w) o d (set_mg [] w).
  Proof.
    intros [Hd Hi]. constructor.
    - reflexivity.
    - cbn [w_mg set_mg]. unfold m_has, m_table. cbn. unfold t_has. destruct (pk_of P (set_mg [] w) o); reflexivity.
    - exists o. reflexivity.
    - exists (wclass w o). repeat split; assumption.
  Qed.
  Lemma call_ends fuel o mode w d r w' : civil P -> of_class P w o d ->
    (validate P (S fuel) o mode w = (r, w') <->
     exists w1, ends P (due w o) fuel (call_ctx o mode w) o (call_all mode d) (cd_fields d) (call_start P o w) r w1 /\
                w' = set_mg (w_mg w) w1).
  Proof.
    intros C Hd. pose proof (visit_ends fuel (call_ctx o mode w) o d (set_mg [] w)) as K.
    assert (E : cd_fields (wcdef P (set_mg [] w) o) = cd_fields d).
    { unfold wcdef, cdef_of. cbn [w_heap set_mg]. destruct Hd as [Hd _]. unfold wclass, wobj in Hd. rewrite Hd. reflexivity. }
    rewrite E in K.
    unfold validate, bind, getW, with_new_mgraph, self_mod. fold (call_ctx o mode w). split.
    - intros H. destruct (m_validate _ (call_ctx o mode w) (set_mg [] w)) as [r1 w1] eqn:M. inversion H; subst.
      exists w1. split; [| reflexivity]. apply (K r w1 C (call_visit o mode w d Hd)). first [exact M | reflexivity].
    - intros (w1 & H & ->). apply (K r w1 C (call_visit o mode w d Hd)) in H. cbn in H.
      match goal with |- (let '(_, _) := ?t in _) = _ => replace t with (r, w1) end. reflexivity.
  Qed.

  (** the outcome list holds the due fields, in order *)
  Lemma sweep_fields (isdue : field -> Prop) fuel c o fs w l w' : sweep P isdue fuel c o fs w l w' ->
    (forall f, In f (map fst l) <-> In f fs /\ isdue f).
  Proof.
    induction 1 as [w | f fs w v l w' H V Hs IH | f fs w w1 l w' H R Hs IH | f fs w w1 e l w' H R Hs IH]; intros g.
    - cbn. tauto.
    - rewrite IH. cbn [In]. split; [tauto |]. intros [[-> | K] D]; [contradiction | tauto].
    - cbn [map fst In]. rewrite IH. split; [intros [<- | K]; tauto | tauto].
    - cbn [map fst In]. rewrite IH. split; [intros [<- | K]; tauto | tauto].
  Qed.
  Lemma passed_verdict l : all_passed l -> verdict l = Ok tt.
  Proof. intros H. unfold verdict. rewrite (passed_reports l H). reflexivity. Qed.
  Lemma verdict_passed l : verdict l = Ok tt -> all_passed l.
  Proof.
    unfold verdict. destruct (reports l) as [| e rs] eqn:E; [intros _ | discriminate].
    induction l as [| [f [m |]] l IH]; [constructor | discriminate E | constructor; [reflexivity | apply IH; exact E]].
  Qed.

  Lemma chain_accepts fuel c o f w w' : civil P -> well_marked (map (interp P fuel) (fl_types f)) ->
    (field_result P fuel c o f w (Ok tt) w' <-> field_accepts P fuel c o f w w').
  Proof.
    intros C Hw. unfold field_result, field_accepts. pose proof (chain_phases _ Hw) as Hp. split.
    - intros (v & e & V & K & R). exists v, e. do 3 eexists. split; [exact V |]. split; [exact K |]. split; [exact Hp |].
      unfold t_validate in R. apply (validate_ok _ _ _ _ _ _ _ _ Hw Hp (all_speak P fuel _ C)) in R. exact R.
    - intros (v & e & t & n & p & V & K & Q & A). exists v, e. split; [exact V |]. split; [exact K |].
      unfold t_validate. apply (validate_ok _ _ _ _ _ _ _ _ Hw Q (all_speak P fuel _ C)). exact A.
  Qed.
End Validate.
