(** OutFormProofs.v -- lemmas for C82: tojson writes the form of every value. *)
From Verif Require Import Base Mon PyList PyDict StrDict KeypathModel Values CalModel OGraphModel MGraphModel ChainModel
  TypesModel TypesSpec TypesProofs ObjModel IoModel IoBase Sound ObjSound LeafSound TameSpec Keep TameProofs GraphSpec GraphProofs
  CivilSpec IoEffects OutSpec OutProofs OutRun OutTop OutFormSpec.
From Verif Require LeafModel ReachSpec ReachProofs.
Open Scope list_scope.

Definition enum_out_mark (m : mdf) : option enumoutput :=
  match m with MOutputName => Some OutName | MOutputValue => Some OutValue | MOutputLname => Some OutLname | _ => None end.
Definition enum_type (m : mdf) : bool := match m with MEnum _ => true | _ => false end.
Lemma enum_out_step : forall m d, (if enum_type m then enum_out_mark m else f_enum_output (define m d))
  = match enum_out_mark m with Some o => Some o | None => if enum_type m then None else f_enum_output d end.
Proof. crush_define. Qed.
Lemma enum_out ts e : In (MEnum e) ts -> f_enum_output (fdef_of ts) <> None.
Proof.
  assert (K : forall e' d, f_enum_output (define (MEnum e') d) <> None).
  { intros e' d. cbn. destruct (f_enum_input d) eqn:E1; cbn; destruct (f_enum_output d) eqn:E2; cbn; rewrite ?E2; discriminate. }
  induction ts as [| m ts IH] using rev_ind; intros H; [contradiction |].
  rewrite fdef_snoc. apply in_app_iff in H. destruct H as [H | [-> | []]]; [| apply K].
  specialize (IH H). pose proof (enum_out_step m (fdef_of ts)) as E. destruct (enum_type m) eqn:Et; [destruct m; try discriminate Et; apply K |].
  rewrite E. destruct (enum_out_mark m); [discriminate | exact IH].
Qed.
Lemma has_items ts it : In (MListOf it) ts \/ In (MDictOf it) ts -> item_types (fdef_of ts) <> None.
Proof.
  intros H. unfold item_types. enough (f_item (fdef_of ts) <> None) by (destruct (f_item (fdef_of ts)); [discriminate | contradiction]).
  revert H. induction ts as [| m ts IH] using rev_ind; intros H; [destruct H; contradiction |].
  rewrite fdef_snoc, TameProofs.item_step.
  assert (K : item_mark m <> None \/ (In (MListOf it) ts \/ In (MDictOf it) ts)).
  { destruct H as [H | H]; apply in_app_iff in H; destruct H as [H | [-> | []]]; auto; left; discriminate. }
  destruct (item_mark m) as [o |] eqn:Em; [| destruct K as [K | K]; [contradiction K; reflexivity | apply IH, K]].
  destruct m; inversion Em; discriminate.
Qed.

Lemma as_dict_app es es' : as_dict (es ++ es') = fold_left (fun acc kv => sset (fst kv) (snd kv) acc) es' (as_dict es).
Proof. apply fold_left_app. Qed.
Lemma as_dict_snoc es k v : as_dict (es ++ [(k, v)]) = sset k v (as_dict es).
Proof. apply as_dict_app. Qed.
Lemma as_dict_entry es (on : bool) k v : (if on || negb (is_none v) then sset k v (as_dict es) else as_dict es) = as_dict (es ++ entry on k v).
Proof. unfold entry. destruct (on || negb (is_none v)); [symmetry; apply as_dict_snoc | rewrite app_nil_r; reflexivity]. Qed.
Lemma as_dict_distinct es : NoDup (map fst es) -> as_dict es = es.
Proof.
  induction es as [| [k v] es IH] using rev_ind; intros N; [reflexivity |]. rewrite as_dict_snoc. rewrite map_app in N. cbn [map fst] in N.
  rewrite IH by (apply NoDup_app_l in N; exact N). apply sset_new. apply NoDup_remove_2 in N. rewrite app_nil_r in N. exact N.
Qed.

Section Silence.
  Context (P : program) (h : heap) (x : oid -> ext) (D : nat).
  Context (op : value) (ig rv : bool) (on : option bool).
  Hypothesis C : calm P.
  Hypothesis TC : tame_classes D P.
  Local Instance quiet : manner := Silent.
  Notation yields := (yields (same h x)).
  Notation form := (form P h x op ig rv on).
  Notation steps := (steps P h x op ig rv on).
  Notation step := (step P h x op ig rv on).
  Notation items := (items P h x op ig rv on).
  Notation entries := (entries P h x op ig rv on).
  Notation fields := (fields P h x op ig rv on).

  Definition place_of (c : ctx) : place := {| pl_classes := c_idchain c; pl_path := c_kr c; pl_field := c_tag c |}.
  Definition options (c : ctx) : Prop :=
    g_ignore_writeonly (c_cfg c) = ig /\ g_reverse (c_cfg c) = rv /\ g_output_null (c_cfg c) = on /\ c_operator c = op.

  Lemma hushed {A} (r : res A) : louder r.
  Proof. intros e _. split; intros X; discriminate X. Qed.

  (** One modifier that is not about the parts *)
  Lemma flat_step n m c ts w v w' : about_parts m = false -> In m ts -> c_fdef c = fdef_of ts -> options c ->
    m_tojson (interp P n m) c w = (Ok v, w') -> step (place_of c) (c_fdef c) m (c_val c) v.
  Proof.
    intros N Hin Ec Op E. destruct (inert m) eqn:I.
    { rewrite (inert_same P n m c w v w' I E). apply s_inert, I. }
    assert (Ans : answers P op m (c_val c) v) by (exists n, c, w, w'; split; [reflexivity |]; split; [apply Op | exact E]).
    destruct n as [| n]; [discriminate E |]. cbn [interp modif_of m_tojson] in E.
    destruct m; try discriminate N; try discriminate I; cbn [tojson_of] in E.
    - destruct l; try discriminate I. destruct k; try discriminate I; cbn [LeafModel.leaf_tojson] in E;
        destruct (c_val c) eqn:Ev; try discriminate E; inversion E; subst; try (apply s_none; right; reflexivity); constructor.
    - unfold enum_tojson in E. rewrite Ec in E. pose proof (enum_out ts _ Hin) as Eo.
      destruct (f_enum_output (fdef_of ts)) as [eo |] eqn:Ef; [| contradiction Eo; reflexivity].
      destruct (c_val c) eqn:Ev; try discriminate E.
      + inversion E; subst. apply s_none. right. reflexivity.
      + destruct eo; unfold bind, members in E.
        * inversion E; subst. apply s_name. rewrite Ec. exact Ef.
        * destruct (p_enums P cls) as [ms |] eqn:Em; [| discriminate E]. unfold ret in E. destruct (sget name ms) as [u |] eqn:Es; [| discriminate E].
          inversion E; subst. apply s_value with ms; [rewrite Ec; exact Ef | exact Em | exact Es].
        * inversion E; subst. apply s_lname. rewrite Ec. exact Ef.
    - apply s_format, Ans.
    - unfold canr_tojson in E. destruct (is_none (c_operator c)) eqn:Eop; [inversion E; subst v; apply s_withheld, Ans |].
      assert (No : op <> VNone) by (intros X; destruct Op as (_ & _ & _ & Y); rewrite Y, X in Eop; discriminate Eop).
      destruct p; try discriminate E.
      unfold checked, bind in E. destruct (t_transform (interp P n) ts0 c w) as [[tv | e] w1]; [| discriminate E].
      destruct (on_validation _ _ w1) as [[b | e] w2]; [| discriminate E]. destruct b; inversion E; subst v w'; [apply s_shown; assumption | apply s_withheld, Ans].
  Qed.

  (** Lists and dicts *)
  Lemma y_col use b c : item_types (c_fdef c) <> None ->
    (forall ts kv its, item_types (c_fdef c) = Some ts -> col_items b (c_val c) = Some its -> In kv its ->
       yields (form (at_item (place_of c) (fst kv)) ts (snd kv)) (use ts (colval c (snd kv) (fst kv) (fdef_of ts) (c_val c)))) ->
    forall raw, yields (step (place_of c) (c_fdef c) (if b then MDictOf raw else MListOf raw) (c_val c)) (col_out P use b c).
  Proof.
    intros Some_types Hu raw. unfold col_out.
    assert (X : yields (step (place_of c) (c_fdef c) (if b then MDictOf raw else MListOf raw) (c_val c)) (match col_items b (c_val c) with
        | None => ret (c_val c)
        | Some its => fold_st (fun acc kv => do* ts <- items_of c; col_item P use c (c_val c) ts acc kv) its (empty_col b) end)).
    { destruct (col_items b (c_val c)) as [its |] eqn:Ei.
      - destruct (item_types (c_fdef c)) as [ts |] eqn:Et.
        + set (goes := fun (rest : list (karg * value)) (acc : value) =>
            match c_val c, acc with
            | VList l, VList a => b = false /\ exists i, forall js, rest = enum_list (Z.of_nat i) (map snd rest) /\
                (items (place_of c) ts i (map snd rest) js -> items (place_of c) ts 0 l (a ++ js))
            | VDict m, VDict a => b = true /\ exists es0, a = as_dict es0 /\ forall m' es, rest = enum_dict m' ->
                entries (place_of c) ts m' es -> entries (place_of c) ts m (es0 ++ es)
            | _, _ => False
            end).
          apply y_weak with (R := goes []).
          { intros a Ha. unfold goes in Ha. destruct (c_val c) eqn:Ev; try contradiction; destruct a; try contradiction.
            - destruct Ha as (-> & i & Ha). destruct (Ha []) as [_ H1]. rewrite app_nil_r in H1. apply s_list with ts; [exact Et |]. apply H1. constructor.
            - destruct Ha as (-> & es & -> & Ha). apply s_dict with ts; [exact Et |]. specialize (Ha [] [] eq_refl (en_nil _ _ _ _ _ _ _ _ _)). rewrite app_nil_r in Ha. exact Ha. }
          apply (y_fold (same h x) goes).
          * intros pre kv post acc Ep Ha. unfold items_of. rewrite Et. unfold bind at 1, ret at 1. unfold col_item.
            assert (Hin : In kv its) by (rewrite Ep; apply in_elt).
            apply y_bind with (R := form (at_item (place_of c) (fst kv)) ts (snd kv)); [apply (Hu ts kv its); auto |]. intros v Rv.
            apply y_pre; [apply k_cdef_v | intros _]. apply y_ret. unfold goes in *. unfold append_value.
            destruct (c_val c) eqn:Ev; try contradiction; destruct acc; try contradiction.
            -- destruct Ha as (-> & i & Ha). split; [reflexivity |]. exists (Datatypes.S i). intros js.
               destruct (Ha (v :: js)) as [H1 H2]. destruct kv as [k u]. cbn [map snd enum_list fst] in *. injection H1 as Hk Hp. subst k.
               split; [rewrite Nat2Z.inj_succ; exact Hp |].
               intros Hi. rewrite <- app_assoc. apply H2. constructor; [exact Rv | exact Hi].
            -- destruct Ha as (-> & es0 & -> & Ha). destruct kv as [k u]. cbn [fst snd] in *.
               assert (exists s, k = KStr s) as [s ->].
               { injection Ei as Ei. rewrite <- Ei in Hin. unfold enum_dict in Hin. apply in_map_iff in Hin. destruct Hin as (kv & E & _). inversion E. eexists. reflexivity. }
               split; [reflexivity |]. exists (es0 ++ [(s, v)]). split; [symmetry; apply as_dict_snoc |].
               intros m' es -> He. rewrite <- app_assoc. cbn [app]. apply (Ha ((s, u) :: m')); [reflexivity |]. constructor; [exact Rv | exact He].
          * unfold goes. destruct (c_val c) eqn:Ev; try discriminate Ei; destruct b; try discriminate Ei; cbn in Ei; inversion Ei; subst; cbn [empty_col].
            -- split; [reflexivity |]. exists 0%nat. intros js.
               assert (Es : forall l i, map snd (enum_list i l) = l) by (clear; induction l as [| v l IH]; intros i; cbn; [reflexivity | rewrite IH; reflexivity]).
               rewrite Es. split; [reflexivity | trivial].
            -- split; [reflexivity |]. exists []. split; [reflexivity |]. intros m' es Em He.
               assert (m' = d) as ->; [| exact He]. clear - Em. unfold enum_dict in Em. revert m' Em. induction d as [| [k v] d IH]; intros [| [k' v'] m'] Em; try discriminate Em; [reflexivity |].
               cbn in Em. inversion Em; subst. f_equal. apply IH. assumption.
        + contradiction (Some_types eq_refl).
      - apply y_ret. destruct b; [apply s_no_dict; intros m Em | apply s_no_list; intros l El]; [rewrite Em in Ei | rewrite El in Ei]; discriminate Ei. }
    destruct (c_val c); exact X.
  Qed.

  (** Unions *)
  Lemma y_union n c us :
    (forall ts, In ts (f_union (c_fdef c)) ->
      keeps (same h x) (t_validate (interp P n) ts (alterfdef c (fdef_of ts))) /\
      yields (form (at_member (place_of c)) ts (c_val c)) (t_tojson (interp P n) ts (alterfdef c (fdef_of ts)))) ->
    yields (step (place_of c) (c_fdef c) (MUnion us) (c_val c)) (union_out (interp P n) (t_tojson (interp P n)) c).
  Proof.
    intros H. unfold union_out.
    assert (X : yields (step (place_of c) (c_fdef c) (MUnion us) (c_val c)) (union_out_loop (interp P n) (t_tojson (interp P n)) (f_union (c_fdef c)) c)).
    { assert (G : forall pre post, f_union (c_fdef c) = pre ++ post -> Forall (fun t => declines P t (c_val c)) pre ->
        yields (step (place_of c) (c_fdef c) (MUnion us) (c_val c)) (union_out_loop (interp P n) (t_tojson (interp P n)) post c));
        [| apply (G [] _ eq_refl), Forall_nil].
      intros pre post. revert pre. induction post as [| ts post IH]; intros pre E F; cbn [union_out_loop].
      - apply y_ret. rewrite app_nil_r in E. apply s_no_member. rewrite E. exact F.
      - cbv zeta. destruct (H ts) as [H1 H2]; [rewrite E; apply in_elt |]. set (nc := alterfdef c (fdef_of ts)) in *.
        intros w Hw. unfold on_validation.
        destruct ((t_validate (interp P n) ts nc >> t_tojson (interp P n) ts nc) w) as [[j | e] w1] eqn:Er.
        + pose proof Er as Er0. unfold bind in Er. destruct (H1 w Hw) as [V1 _]. destruct (t_validate (interp P n) ts nc w) as [[u | e] w0] eqn:Ev; [| discriminate Er].
          cbn [snd] in V1. destruct (H2 w0 V1) as [[J1 _] J2]. rewrite Er in J1, J2. cbn [fst snd] in *.
          split; [split; [exact J1 | apply hushed] |]. intros a Ha. inversion Ha; subst a. destruct u.
          apply s_union with (before := pre) (ts := ts) (after := post); [exact E | exact F | | apply J2; reflexivity].
          exists n, nc, w, w0. split; [reflexivity |]. split; [reflexivity | exact Ev].
        + assert (Sw : same h x w1).
          { unfold bind in Er. destruct (H1 w Hw) as [V1 _]. destruct (t_validate (interp P n) ts nc w) as [[u | e1] w0]; cbn [snd] in V1.
            - destruct (H2 w0 V1) as [[J1 _] _]. rewrite Er in J1. exact J1.
            - inversion Er; subst. exact V1. }
          assert (Stop : forall e', e = e' -> (same h x (snd (@Err value e', w1)) /\ louder (fst (@Err value e', w1))) /\
            forall a, fst (@Err value e', w1) = Ok a -> step (place_of c) (c_fdef c) (MUnion us) (c_val c) a)
            by (intros e' _; split; [split; [exact Sw | apply hushed] | discriminate]).
          destruct e; try (apply Stop; reflexivity).
          apply (IH (pre ++ [ts])); [rewrite <- app_assoc; exact E | | exact Sw].
          apply Forall_app. split; [exact F |]. constructor; [| constructor]. exists n, nc, w, w1, msgs. split; [reflexivity |]. split; [reflexivity | exact Er]. }
    destruct (c_val c) eqn:Ev; try exact X. apply y_ret. apply s_none. left. reflexivity.
  Qed.

  (** Objects *)
  Lemma back_spec c cls f : options c -> is_way_back P c cls f = true <-> leads_back P rv (place_of c) cls f.
  Proof.
    intros (_ & Er & _). unfold is_way_back, leads_back. rewrite Er. destruct rv; [split; [discriminate | intros [X _]; discriminate X] |].
    destruct (foreign_field (p_ct P) cls f) as [g |]; [| split; [discriminate | intros (_ & g & X & _); discriminate X]].
    rewrite Bool.orb_true_iff.
    assert (A : match c_tag c, foreign_class f with Some (tc, tn), Some fc => String.eqb tc fc && String.eqb tn (fl_name g) | _, _ => false end = true
      <-> exists fc, foreign_class f = Some fc /\ pl_field (place_of c) = Some (fc, fl_name g)).
    { cbn [place_of pl_field]. destruct (c_tag c) as [[tc tn] |]; [| split; [discriminate | intros (fc & _ & X); discriminate X]].
      destruct (foreign_class f) as [fc |]; [| split; [discriminate | intros (fc & X & _); discriminate X]].
      rewrite Bool.andb_true_iff, !String.eqb_eq. split; [intros [-> ->]; exists fc; auto | intros (fc' & X & Y)]. inversion X; inversion Y; subst; auto. }
    assert (B : match rev (c_kr c) with _ :: KStr k :: _ => String.eqb (fl_name g) k | _ => false end = true
      <-> exists before last, pl_path (place_of c) = before ++ [KStr (fl_name g); last]).
    { cbn [place_of pl_path]. split.
      - destruct (rev (c_kr c)) as [| a [| [s | i] r]] eqn:E; try discriminate. rewrite String.eqb_eq. intros <-.
        exists (rev r), a. rewrite <- (rev_involutive (c_kr c)), E. cbn [rev]. rewrite <- app_assoc. reflexivity.
      - intros (before & last & E). rewrite E, rev_app_distr. cbn. apply String.eqb_refl. }
    rewrite A, B. split.
    - intros X. split; [reflexivity |]. exists g. split; [reflexivity | exact X].
    - intros (_ & g' & X & Y). inversion X; subst. exact Y.
  Qed.

  Lemma sinb_spec k l : sinb k l = true <-> In k l.
  Proof.
    unfold sinb. rewrite existsb_exists. split; [intros (y & Hy & E); apply String.eqb_eq in E; subst; exact Hy | intros H; exists k; split; [exact H | apply String.eqb_refl]].
  Qed.

  Lemma y_one_field n c o all f post es0 :
    options c ->
    (visible ig (x o) f = true -> forall v e, reads P h o (fl_name f) v ->
       yields (form (at_field (place_of c) (class_of P h o) (o_class (h_obj h o)) f) (fl_types f) v)
         (t_tojson (interp P n) (fl_types f) (child h c o (class_of P h o) f v e))) ->
    (forall es, fields (place_of c) o (f :: post) es -> fields (place_of c) o all (es0 ++ es)) ->
    yields (fun acc => exists es1, acc = as_dict es1 /\ forall es, fields (place_of c) o post es -> fields (place_of c) o all (es1 ++ es))
      (json_field P (interp P n) c o (nulls on (class_of P h o)) (as_dict es0) f).
  Proof.
    intros Op Hv Go. pose proof Op as (Eg & Er & Eo & _). unfold json_field.
    apply y_getW. intros w Hw. unfold wclass, wobj. rewrite (proj1 Hw). clear w Hw.
    apply y_getW. intros w Hw. unfold wcdef, cdef_of. rewrite (proj1 Hw). fold (class_of P h o). clear w Hw.
    apply y_getW. intros w Hw. rewrite (proj2 Hw). clear w Hw.
    apply y_bind with (fun v => reads P h o (fl_name f) v); [apply y_getattr; [intros; apply hushed | auto] |]. intros fv Hfv. cbv zeta.
    destruct (is_local f && negb (picked (x o) (fl_name f))) eqn:Elp.
    { apply y_ret. apply andb_prop in Elp. destruct Elp as [_ Ep]. apply Bool.negb_true_iff in Ep.
      exists es0. split; [reflexivity |]. intros es He. apply Go.
      assert (Es : es = stored P h x on o f ++ es) by (unfold stored; rewrite Ep, Bool.andb_false_r; reflexivity).
      rewrite Es. apply fi_hidden; [| exact He]. left. unfold visible. rewrite Ep. apply Bool.andb_false_r. }
    apply y_bind with (fun a => a = as_dict (es0 ++ stored P h x on o f)).
    { unfold stored. destruct (is_local f) eqn:El; cbn [andb] in *.
      - apply Bool.negb_false_iff in Elp. rewrite Elp. apply y_bind with (fun k => value_at P h o (fl_ref f) = k).
        + apply y_getattr; [intros; apply hushed |]. intros v Rv. unfold reads in Rv. unfold value_at. rewrite Rv. reflexivity.
        + intros k <-. apply y_ret. apply as_dict_entry.
      - apply y_ret. rewrite app_nil_r. reflexivity. }
    intros acc1 ->.
    assert (Left : is_ref (fl_fdef f) && (is_way_back P c (o_class (h_obj h o)) f || sinb (cd_name (class_of P h o)) (c_idchain c)) = true
      <-> left_out P h rv (place_of c) o f).
    { unfold left_out. rewrite Bool.andb_true_iff, Bool.orb_true_iff, (back_spec c _ f Op), sinb_spec. reflexivity. }
    assert (Hid : visible ig (x o) f = false \/ left_out P h rv (place_of c) o f ->
      exists es1, as_dict (es0 ++ stored P h x on o f) = as_dict es1 /\ forall es, fields (place_of c) o post es -> fields (place_of c) o all (es1 ++ es)).
    { intros X. exists (es0 ++ stored P h x on o f). split; [reflexivity |]. intros es He. rewrite <- app_assoc. apply Go. apply fi_hidden; assumption. }
    destruct (is_ref (fl_fdef f) && (is_way_back P c (o_class (h_obj h o)) f || sinb (cd_name (class_of P h o)) (c_idchain c))) eqn:Eb.
    { apply y_ret, Hid. right. apply Left. reflexivity. }
    rewrite Eg.
    assert (Vis : visible ig (x o) f = negb (match f_read_rule (fl_fdef f) with NoRead => negb ig | _ => false end) &&
       negb (fstore_eqb (f_fstore (fl_fdef f)) Temp) && picked (x o) (fl_name f)) by reflexivity.
    destruct (match f_read_rule (fl_fdef f) with NoRead => negb ig | _ => false end); [apply y_ret, Hid; auto |].
    destruct (fstore_eqb (f_fstore (fl_fdef f)) Temp); [apply y_ret, Hid; auto |].
    destruct (picked (x o) (fl_name f)); cbn [negb andb] in Vis |- *; [| apply y_ret, Hid; auto].
    apply y_pre; [apply k_ekey | intros e].
    apply y_bind with (R := form (at_field (place_of c) (class_of P h o) (o_class (h_obj h o)) f) (fl_types f) fv); [apply (Hv Vis fv e Hfv) |].
    intros j Hj. apply y_ret. exists (es0 ++ stored P h x on o f ++ entry (nulls on (class_of P h o)) (fl_json f) j).
    split; [rewrite app_assoc; apply as_dict_entry |].
    intros es He. rewrite <- !app_assoc. apply Go. apply fi_shown with fv; try assumption. intros X. apply Left in X. discriminate X.
  Qed.

  Lemma y_object n c cls : options c ->
    (forall o f v e, c_val c = VObj o -> In f (cd_fields (class_of P h o)) -> visible ig (x o) f = true -> reads P h o (fl_name f) v ->
       yields (form (at_field (place_of c) (class_of P h o) (o_class (h_obj h o)) f) (fl_types f) v)
         (t_tojson (interp P n) (fl_types f) (child h c o (class_of P h o) f v e))) ->
    yields (step (place_of c) (c_fdef c) (MInstance cls) (c_val c)) (inst_tojson P (interp P n) c).
  Proof.
    intros Op H. unfold inst_tojson. destruct (c_val c) as [| | | | | | | | | | o |] eqn:Ev; try (cbn [the_obj]; apply y_throw; split; intros X; discriminate X).
    { apply y_ret. apply s_none. left. reflexivity. }
    cbn [the_obj]. unfold bind at 1. unfold ret at 1. cbv beta iota.
    apply y_getW. intros w Hw. unfold wcdef, cdef_of. rewrite (proj1 Hw). fold (class_of P h o). clear w Hw. cbv zeta.
    rewrite (proj1 (proj2 (proj2 Op))). fold (nulls on (class_of P h o)).
    apply y_bind with (fun m => exists es, m = as_dict es /\ fields (place_of c) o (cd_fields (class_of P h o)) es);
      [| intros m (es & -> & F); apply y_ret, s_object, F].
    apply y_weak with (R := fun acc => exists es1, acc = as_dict es1 /\
      forall es, fields (place_of c) o [] es -> fields (place_of c) o (cd_fields (class_of P h o)) (es1 ++ es)).
    { intros m (es & -> & F). exists es. split; [reflexivity |]. specialize (F [] (fi_nil _ _ _ _ _ _ _ _ _)). rewrite app_nil_r in F. exact F. }
    apply (y_fold (same h x) (fun rest acc => exists es1, acc = as_dict es1 /\
      forall es, fields (place_of c) o rest es -> fields (place_of c) o (cd_fields (class_of P h o)) (es1 ++ es))).
    - intros pre f post acc E (es0 & -> & Go). apply y_one_field; [exact Op | | exact Go].
      intros Vis v e Rv. apply H; try assumption; [reflexivity |]. rewrite E. apply in_elt.
    - exists []. split; [reflexivity | trivial].
  Qed.

  (** The run *)
  Lemma form_ok n : forall d ts c, (forall y, In y ts -> tamish d y) ->
    c_fdef c = fdef_of ts -> (d <= S D)%nat -> options c ->
    yields (form (place_of c) ts (c_val c)) (t_tojson (interp P n) ts c).
  Proof.
    induction n as [| n IH]; intros d ts c T Ec Ld Op.
    all: apply y_weak with (R := steps (place_of c) (fdef_of ts) ts (c_val c)); [intros j; apply fo_chain |].
    all: unfold t_tojson, chain_tojson;
      apply y_weak with (R := fun b => forall j, steps (place_of c) (fdef_of ts) [] b j -> steps (place_of c) (fdef_of ts) ts (c_val c) j);
      [intros b H; apply H, st_nil |];
      apply (y_fold_map (same h x) (fun rest b => forall j, steps (place_of c) (fdef_of ts) rest b j -> steps (place_of c) (fdef_of ts) ts (c_val c) j));
      [| trivial]; intros pre m post b Ets Go.
    - apply y_throw. split; intros X; discriminate X.
    - assert (Hm : In m ts) by (rewrite Ets; apply in_elt). assert (Tm := T m Hm).
      apply y_weak with (R := step (place_of (nval c b)) (c_fdef (nval c b)) m (c_val (nval c b))).
      { intros u Hu j Hj. apply Go. apply st_cons with u; [| exact Hj]. rewrite <- Ec. exact Hu. }
      assert (Opb : options (nval c b)) by exact Op.
      assert (Ecb : c_fdef (nval c b) = fdef_of ts) by exact Ec. clear Go.
      destruct (about_parts m) eqn:Np.
      + assert (Tm' : tame d m) by (destruct Tm as [Tm | Tm]; [exact Tm | destruct m; try discriminate Np; contradiction Tm]).
        destruct d as [| d]; [contradiction Tm' |].
        assert (Hcol : forall z raw, In (if z : bool then MDictOf raw else MListOf raw) ts ->
          yields (step (place_of (nval c b)) (c_fdef (nval c b)) (if z then MDictOf raw else MListOf raw) (c_val (nval c b)))
            (col_out P (t_tojson (interp P n)) z (nval c b))).
        { intros z raw Hz. apply y_col.
          - rewrite Ecb. apply (has_items ts raw). destruct z; auto.
          - intros us kv its Eu Ei Hkv. rewrite Ecb in Eu.
            apply (IH d us (colval (nval c b) (snd kv) (fst kv) (fdef_of us) (c_val (nval c b)))); [| reflexivity | lia | exact Op].
            intros y Hy. apply (items_tamish d ts us y T Eu Hy). }
        destruct m; try discriminate Np; cbn [interp modif_of m_tojson tojson_of].
        * apply y_object; [exact Opb |]. intros o f v e Ho Hf Vis Rv.
          assert (E1 : place_of (child h (nval c b) o (class_of P h o) f v e) = at_field (place_of (nval c b)) (class_of P h o) (o_class (h_obj h o)) f)
            by (unfold child; destruct (is_inst_field f); reflexivity).
          assert (E2 : c_val (child h (nval c b) o (class_of P h o) f v e) = v) by (unfold child; destruct (is_inst_field f); reflexivity).
          rewrite <- E1. pose proof (IH D (fl_types f) (child h (nval c b) o (class_of P h o) f v e)) as K. rewrite E2 in K. apply K.
          -- intros y Hy. left. unfold class_of in Hf. destruct (p_ct P (o_class (h_obj h o))) as [cd |] eqn:Ed; [| contradiction]. apply (TC _ cd f y Ed Hf Hy).
          -- unfold child. destruct (is_inst_field f); reflexivity.
          -- lia.
          -- unfold options, child. destruct (is_inst_field f); exact Op.
        * apply (Hcol false), Hm.
        * apply (Hcol true), Hm.
        * apply y_union. intros us Hus. rewrite Ecb in Hus.
          destruct (union_from ts us Hus) as (vs & Hvs & Hin).
          assert (Tu : forall y, In y us -> tame d y).
          { intros y Hy. destruct (T _ Hvs) as [Y | Y]; [apply (Y us y Hin Hy) | contradiction Y]. }
          split.
          -- apply k_chain_validate. intros z Hz. apply in_map_iff in Hz. destruct Hz as (y & <- & Hy).
             apply (same_validate P h x D) with (d := d) (ts := us); try assumption; try (intros; apply hushed); [intros X; discriminate X | apply Tu, Hy | reflexivity |].
             left. discriminate.
          -- apply (IH d us (alterfdef (nval c b) (fdef_of us))); [| reflexivity | lia | exact Op]. intros y Hy. left. apply Tu, Hy.
      + assert (K : keeps (same h x) (m_tojson (interp P (S n) m) (nval c b))).
        { destruct Tm as [Tm | Tm].
          - apply (same_flat P h x C) with (d := d); try (intros; apply hushed); [| left; discriminate].
            destruct d; [contradiction Tm |]. destruct m; try discriminate Np; exact Tm.
          - apply (same_flat P h x C) with (d := 1%nat); try (intros; apply hushed); [exact Tm | left; discriminate]. }
        apply y_and; [exact K |]. intros w v w' Hw E. apply (flat_step (S n) m (nval c b) ts w v w'); assumption.
  Qed.
End Silence.

Lemma tojson_form P D (w : world) n o iw rev on v w' :
  calm P -> tame_classes D P -> flat_guards D P ARead ->
  tojson P n o iw rev on w = (Ok v, w') ->
  form P (w_heap w) (w_ext w) (o_operator (h_obj (w_heap w) o)) iw rev on {| pl_classes := []; pl_path := []; pl_field := None |} [MInstance (o_class (h_obj (w_heap w) o))] (VObj o) v.
Proof.
  intros C TC G T. destruct n as [| n].
  { rewrite tojson_eq in T. destruct (guard P 0 o ARead w) as [[u | e] w1]; [| discriminate T]. cbn in T. discriminate T. }
  destruct (tojson_run P D w n o iw rev on v w' C G T) as (w1 & w2 & E1 & E2 & R).
  destruct (form_ok P (w_heap w) (w_ext w) D (o_operator (h_obj (w_heap w) o)) iw rev on C TC (S n) 1 [MInstance (o_class (h_obj (w_heap w) o))] (top_ctx (w_heap w) o iw rev on)) with (w := w1) as [_ Y].
  - intros y [<- | []]. left. exact Logic.I.
  - reflexivity.
  - lia.
  - repeat split.
  - split; assumption.
  - apply (Y v). unfold t_tojson, chain_tojson. cbn [map fold_st]. unfold bind, ret. cbn [interp modif_of m_tojson tojson_of].
    change (nval (top_ctx (w_heap w) o iw rev on) (c_val (top_ctx (w_heap w) o iw rev on))) with (top_ctx (w_heap w) o iw rev on).
    rewrite R. reflexivity.
Qed.
(** What comes out is JSON *)
Scheme form_mut := Induction for form Sort Prop
  with steps_mut := Induction for steps Sort Prop
  with step_mut := Induction for step Sort Prop
  with items_mut := Induction for items Sort Prop
  with entries_mut := Induction for entries Sort Prop
  with fields_mut := Induction for fields Sort Prop.

Lemma sset_json k v m : json v -> Forall (fun kv : string * value => json (snd kv)) m -> Forall (fun kv : string * value => json (snd kv)) (sset k v m).
Proof.
  intros Hv. induction 1 as [| [k' v'] m Hk Hm IH]; cbn; [repeat constructor; exact Hv |].
  destruct (String.eqb k k'); constructor; auto.
Qed.
Lemma as_dict_json es : Forall (fun kv : string * value => json (snd kv)) es -> Forall (fun kv : string * value => json (snd kv)) (as_dict es).
Proof.
  induction es as [| [k v] es IH] using rev_ind; intros F; [constructor |]. rewrite as_dict_snoc. apply Forall_app in F. destruct F as [F1 F2].
  inversion F2; subst. apply sset_json; [assumption | apply IH, F1].
Qed.
Lemma entry_json b k v : json v -> Forall (fun kv : string * value => json (snd kv)) (entry b k v).
Proof. intros H. unfold entry. destruct (b || _); repeat constructor. exact H. Qed.

Section Json.
  Context (P : program) (h : heap) (x : oid -> ext) (op : value) (ig rv : bool) (on : option bool).
  Hypothesis W : well_typed P h x op ig.
  Notation J := (Forall (fun kv : string * value => json (snd kv))).
  Notation fits := (fits P).
  Notation writable := (writable P).

  Definition known (m : mdf) : Prop := used P m \/ m = MRequired \/ exists c, m = MInstance c.
  Definition knows (ts : types) : Prop := forall m, In m ts -> known m.
  Definition source (d : fdef) : Prop := exists ts, d = fdef_of ts /\ knows ts.

  Lemma known_part m ts y : known m -> In ts (parts_of m) -> In y ts -> known y.
  Proof. intros [U | [-> | [c ->]]] H1 H2; [left; apply used_part with m ts; assumption | contradiction H1 | contradiction H1]. Qed.
  Lemma source_item d it : source d -> item_types d = Some it -> knows it.
  Proof.
    intros (ts & -> & K) E m Hm. destruct (items_part ts it E) as (m0 & raw & H0 & H1 & [-> | ->]).
    - apply (known_part m0 raw); auto.
    - apply in_app_iff in Hm. destruct Hm as [Hm | [<- | []]]; [apply (known_part m0 raw); auto | right; left; reflexivity].
  Qed.
  Lemma source_member d ts : source d -> In ts (f_union d) -> knows ts.
  Proof.
    intros (us & -> & K) H m Hm. destruct (union_from us ts H) as (vs & Hv & Hin). apply (known_part (MUnion vs) ts); auto.
  Qed.

  Lemma class_fields o f : In f (cd_fields (class_of P h o)) -> exists d, p_ct P (o_class (h_obj h o)) = Some d /\ In f (cd_fields d).
  Proof. unfold class_of. destruct (p_ct P (o_class (h_obj h o))) as [d |]; [eauto | contradiction]. Qed.
  Lemma stored_json o f : In f (cd_fields (class_of P h o)) -> J (stored P h x on o f).
  Proof.
    intros Hf. unfold stored. destruct (is_local f) eqn:El; [| constructor]. destruct (picked (x o) (fl_name f)) eqn:Ep; [| constructor].
    apply entry_json. unfold value_at. destruct (fst (ObjModel.getattr _ _ _ _ _)) as [v | e] eqn:Er; [| constructor].
    destruct (class_fields o f Hf) as (d & Hd & Hin). apply (wt_keys P h x op ig W o d f v Hd Hin El Ep Er).
  Qed.

  Lemma form_json : forall p ts v j, form P h x op ig rv on p ts v j -> knows ts -> fits ts v -> json j.
  Proof.
    apply (form_mut P h x op ig rv on
      (fun p ts v j _ => knows ts -> fits ts v -> json j)
      (fun p d ts v j _ => source d -> knows ts -> (json v -> json j) /\
         (forall before m after, ts = before ++ m :: after -> Forall passes_on before -> writable d m v -> json j))
      (fun p d m v u _ => source d -> known m -> (json v -> json u) /\ (passes_on m -> u = v \/ u = VNone) /\ (writable d m v -> json u))
      (fun p ts i l js _ => knows ts -> (forall v, In v l -> fits ts v) -> Forall json js)
      (fun p ts m es _ => knows ts -> (forall k v, In (k, v) m -> fits ts v) -> J es)
      (fun p o fs es _ => (forall f, In f fs -> In f (cd_fields (class_of P h o))) -> J es)).
    - intros p ts v j S IH K F. destruct (IH (ex_intro _ ts (conj eq_refl K)) K) as [H1 H2].
      inversion F; subst; [apply H1; assumption | apply (H2 before m after eq_refl); assumption].
    - intros p d v Sd K. split; [trivial |]. intros before m after E. destruct before; discriminate E.
    - intros p d m r v u j S1 IH1 S2 IH2 Sd K.
      destruct (IH1 Sd (K m (or_introl eq_refl))) as (A1 & A2 & A3). destruct (IH2 Sd (fun y Hy => K y (or_intror Hy))) as [B1 B2].
      split; [auto |]. intros [| m0 before] m1 after E Fb Wm; cbn in E; inversion E; subst; [auto |].
      inversion Fb; subst. destruct (A2 H1) as [-> | ->]; [apply (B2 before m1 after eq_refl); assumption | apply B1; constructor].
    - intros p d m v I _ _. split; [trivial |]. split; [auto |]. intros Wm. inversion Wm; subst; discriminate I.
    - intros p d m H _ _. split; [trivial |]. split; [auto |]. constructor.
    - intros p d c v No A _ _. split; [trivial |]. split; [auto |]. intros Wm. inversion Wm.
    - intros p d c v A _ _. split; [constructor |]. split; [auto |]. intros Wm. inversion Wm.
    - intros p d a v j A _ K.
      assert (Ju : json j) by (destruct K as [U | [X | [c X]]]; [apply (wt_formats P h x op ig W a v j U A) | discriminate X | discriminate X]).
      split; [trivial |]. split; [intros [X | [c X]]; discriminate X | trivial].
    - intros p d t _ _. split; [constructor |]. split; [intros [X | [c X]]; discriminate X | constructor].
    - intros p d t _ _. split; [constructor |]. split; [intros [X | [c X]]; discriminate X | constructor].
    - intros p d t _ _. split; [constructor |]. split; [intros [X | [c X]]; discriminate X | constructor].
    - intros p d t _ _. split; [constructor |]. split; [intros [X | [c X]]; discriminate X | constructor].
    - intros p d e c n E _ _. split; [constructor |]. split; [intros [X | [? X]]; discriminate X | constructor].
    - intros p d e c n E _ _. split; [constructor |]. split; [intros [X | [? X]]; discriminate X | constructor].
    - intros p d e c n ms v E1 E2 E3 _ _. split; [intros X; inversion X |]. split; [intros [X | [? X]]; discriminate X |].
      intros Wm. inversion Wm; subst. eauto.
    - intros p d raw it l js Ei I IH Sd K. assert (Ki := source_item d it Sd Ei). split; [| split; [intros [X | [? X]]; discriminate X |]].
      + intros X. inversion X; subst. constructor. apply (IH Ki). intros v Hv. apply fit_json. rewrite Forall_forall in H0. auto.
      + intros X. inversion X; subst. constructor. apply (IH Ki). intros v Hv. eauto.
    - intros p d raw v N _ _. split; [trivial |]. split; [auto |]. intros X. inversion X; subst. contradiction (N l eq_refl).
    - intros p d raw it m es Ei I IH Sd K. assert (Ki := source_item d it Sd Ei). split; [| split; [intros [X | [? X]]; discriminate X |]].
      + intros X. inversion X; subst. constructor. apply as_dict_json, (IH Ki). intros k v Hv. apply fit_json. rewrite Forall_forall in H0. apply (H0 (k, v) Hv).
      + intros X. inversion X; subst. constructor. apply as_dict_json, (IH Ki). intros k v Hv. eauto.
    - intros p d raw v N _ _. split; [trivial |]. split; [auto |]. intros X. inversion X; subst. contradiction (N m eq_refl).
    - intros p d us before ts after v j Eu Fd A Fm IH Sd K.
      assert (Hin : In ts (f_union d)) by (rewrite Eu; apply in_elt). assert (Ki := source_member d ts Sd Hin).
      split; [| split; [intros [X | [? X]]; discriminate X |]].
      + intros X. apply (IH Ki), fit_json, X.
      + intros X. inversion X; subst. apply (IH Ki). auto.
    - intros p d us v Fd _ _. split; [constructor |]. split; [auto | constructor].
    - intros p d cls o es Fs IH _ _. assert (Je := IH (fun f Hf => Hf)).
      split; [intros X; inversion X |]. split; [intros [X | [? X]]; discriminate X |]. intros _. constructor. apply as_dict_json, Je.
    - constructor.
    - intros p ts i v l j js Fm IH1 Is IH2 K F. constructor; [apply (IH1 K), F; left; reflexivity | apply (IH2 K); intros u Hu; apply F; right; exact Hu].
    - constructor.
    - intros p ts k v m j es Fm IH1 Is IH2 K F. constructor; [apply (IH1 K), (F k); left; reflexivity | apply (IH2 K); intros k' u Hu; apply (F k'); right; exact Hu].
    - constructor.
    - intros p o f r v j es Vis NL R Fm IH1 Fs IH2 Hin.
      assert (Hf := Hin f (or_introl eq_refl)). destruct (class_fields o f Hf) as (d & Hd & Hfd).
      apply Forall_app. split; [apply stored_json, Hf |]. apply Forall_app. split; [| apply IH2; intros g Hg; apply Hin; right; exact Hg].
      apply entry_json, IH1.
      + intros m Hm. left. apply used_field with (o_class (h_obj h o)) d f; assumption.
      + apply (wt_fields P h x op ig W o d f v); assumption.
    - intros p o f r es Hd Fs IH Hin. apply Forall_app. split; [apply stored_json, Hin; left; reflexivity | apply IH; intros g Hg; apply Hin; right; exact Hg].
  Qed.
End Json.

(** What validation accepts fits *)
Scheme json_types_mut := Induction for json_types Sort Prop
  with json_type_mut := Induction for json_type Sort Prop.

Section Accepted.
  Context (P : program) (C : civil P).

  Lemma each_accepts n c ms w w' : ChainSpec.all_accept c (map (interp P n) ms) w w' -> forall m, In m ms ->
    exists w1 w2, m_validate (interp P n m) c w1 = (Ok tt, w2).
  Proof.
    intros H. remember (map (interp P n) ms) as vs eqn:Ev. revert ms Ev.
    induction H as [w | v vs w w1 w' Hv H IH]; intros [| m0 ms] Ev; try discriminate Ev; [intros m [] |].
    inversion Ev; subst. intros m [<- | Hm]; [eauto | apply (IH ms eq_refl m Hm)].
  Qed.
  Lemma runs_each {X} (pre : X -> st world (option (st world unit))) l w w' : ReachProofs.runs pre l w w' -> forall z, In z l ->
    (exists w1 w2, pre z w1 = (Ok None, w2)) \/ (exists m w1 w2 w3, pre z w1 = (Ok (Some m), w2) /\ m w2 = (Ok tt, w3)).
  Proof.
    induction 1 as [w | z l w w1 w' E R IH | z l w m w1 w2 w' E Em R IH]; intros y Hy; [contradiction | |];
      (destruct Hy as [<- | Hy]; [| apply IH, Hy]); [left | right]; eauto 8.
  Qed.

  Lemma col_accepts n (b : bool) c w w' : col_validate P (interp P n) b c w = (Ok tt, w') ->
    c_val c = VNone \/ exists its, col_items b (c_val c) = Some its /\
      forall k u it, In (k, u) its -> item_types (c_fdef c) = Some it -> accepts P it u.
  Proof.
    intros H. unfold col_validate in H. destruct (is_none (c_val c)) eqn:En; [left; destruct (c_val c); try discriminate En; reflexivity | right].
    assert (X : (match col_items b (c_val c) with
          | None => raise_vexc c (if b then "value is not dict" else "value is not list")
          | Some its =>
              do* d <- cdef_v P (c_owner c);
              let all := match g_all (c_cfg c) with Some b => b | None => cd_validate_all d end in
              do* msgs <- collect all (fun kv =>
                  do* ts <- items_of c;
                  ret (Some (t_validate (interp P n) ts (colval c (snd kv) (fst kv) (fdef_of ts) (c_val c))))) its [];
              raise_collected msgs
          end : st world unit) w = (Ok tt, w')) by (destruct (c_val c); try exact H; discriminate En).
    clear H. destruct (col_items b (c_val c)) as [its |] eqn:Ei; [| discriminate X]. exists its. split; [reflexivity |].
    apply bind_ok in X. destruct X as (cd & w1 & _ & X). cbn zeta in X.
    apply bind_ok in X. destruct X as (msgs & w2 & G & X). unfold raise_collected in X. destruct msgs; [| discriminate X].
    apply ReachProofs.collect_runs in G.
    2:{ intros kv m v1 v2 v3 e E Em. unfold bind, items_of in E. destruct (item_types (c_fdef c)) as [it |]; [| discriminate E].
        inversion E; subst. exact (t_validate_speaks _ _ _ _ _ _ _ C Em). }
    intros k u it Hin Et. destruct (runs_each _ _ _ _ G (k, u) Hin) as [(x1 & x2 & E) | (m & x1 & x2 & x3 & E & Em)];
      unfold bind, items_of in E; rewrite Et in E; cbn in E; inversion E; subst.
    exists n. eexists. exists x2, x3. split; [| split; [| exact Em]]; reflexivity.
  Qed.

  Lemma accepts_fits : forall ts, json_types P ts -> forall v, accepts P ts v -> fits P ts v.
  Proof.
    apply (json_types_mut P (fun ts _ => forall v, accepts P ts v -> fits P ts v)
      (fun d m _ => forall n c w w', c_fdef c = d -> m_validate (interp P n m) c w = (Ok tt, w') -> json (c_val c) \/ writable P d m (c_val c))).
    - intros before m after F K J IH v (n & c & w & w' & Ev & Ec & H).
      destruct (ReachProofs.chain_all P n _ c w w' C H) as (us & Hus & A).
      destruct (each_accepts n c us w w' A m (proj2 (Hus m) K)) as (w1 & w2 & E).
      destruct (IH n c w1 w2 Ec E) as [X | X]; rewrite Ev in X; [apply fit_json, X | apply fit_at; assumption].
    - intros d k Hk n c w w' _ E. destruct n as [| n]; [discriminate E |]. cbn [interp modif_of m_validate validate_of LeafModel.leaf_validate] in E.
      unfold LeafModel.v_type in E. destruct (LeafModel.type_accepts k (c_val c)) eqn:Et; [| discriminate E].
      destruct (c_val c); try (left; constructor; fail); destruct k; try discriminate Et; try (right; constructor; fail);
        exfalso; cbn in Hk; repeat (destruct Hk as [Hk | Hk]; [discriminate Hk |]); exact Hk.
    - intros d e J n c w w' Ec E. destruct n as [| n]; [discriminate E |]. cbn [interp modif_of m_validate validate_of] in E.
      unfold enum_validate in E. destruct (c_val c) as [| | | | | | | cls nm | | | |] eqn:Ev; try (left; constructor; fail);
        unfold seq, bind, members in E; destruct (p_enums P e) as [ms |] eqn:Em; try discriminate E. cbn in E.
      destruct (String.eqb cls e) eqn:Es; [| discriminate E]. apply String.eqb_eq in Es. subst cls. right. constructor.
      intros ms0 v E1 E2. rewrite Em in E2. apply (J ms0 nm v E1 E2).
    - intros d raw J IH n c w w' Ec E. destruct n as [| n]; [discriminate E |]. cbn [interp modif_of m_validate validate_of] in E.
      destruct (col_accepts n false c w w' E) as [-> | (its & Ei & A)]; [left; constructor |]. right.
      destruct (c_val c) as [| | | | | | | | l | | |] eqn:Ev; try discriminate Ei. constructor. intros it v Et Hv. apply (IH it Et).
      rewrite <- Ec in Et. destruct (In_nth_error _ _ Hv) as [i Hi]. apply (A (KInt (Z.of_nat i)) v it); [| exact Et].
      cbn in Ei. injection Ei as Ei. rewrite <- Ei. clear - Hi. change (Z.of_nat i) with (0 + Z.of_nat i)%Z. revert i Hi. generalize 0%Z.
      induction l as [| a l IHl]; intros z i Hi; [destruct i; discriminate Hi |]. destruct i as [| i]; cbn in Hi.
      + inversion Hi; subst. left. f_equal. f_equal. lia.
      + right. replace (z + Z.of_nat (Datatypes.S i))%Z with (z + 1 + Z.of_nat i)%Z by lia. apply IHl, Hi.
    - intros d raw J IH n c w w' Ec E. destruct n as [| n]; [discriminate E |]. cbn [interp modif_of m_validate validate_of] in E.
      destruct (col_accepts n true c w w' E) as [-> | (its & Ei & A)]; [left; constructor |]. right.
      destruct (c_val c) as [| | | | | | | | | m | |] eqn:Ev; try discriminate Ei. constructor. intros it k v Et Hv. apply (IH it Et).
      rewrite <- Ec in Et. apply (A (KStr k) v it); [| exact Et].
      cbn in Ei. injection Ei as Ei. rewrite <- Ei. unfold enum_dict. apply in_map_iff. exists (k, v). auto.
    - intros d us J IH n c w w' Ec E. right. constructor. intros ts Hts A. apply (IH ts Hts _ A).
    - intros d cls n c w w' Ec E. destruct n as [| n]; [discriminate E |]. cbn [interp modif_of m_validate validate_of] in E.
      unfold inst_validate in E. destruct (c_val c); try (left; constructor; fail); try discriminate E. right. constructor.
  Qed.
End Accepted.
