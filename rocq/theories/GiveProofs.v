(** GiveProofs.v -- lemmas for C93 and C94. *)
From Coq Require Import Lia.
From Verif Require Import Base Mon PyList PyDict StrDict KeypathModel KeypathSpec PyStr Values CalModel LeafSpec ChainModel
  TypesModel ObjModel ObjSpec IoModel IoBase EnumSpec EnumProofs OutSpec OutProofs OutFormSpec OutFormProofs RoundSpec RoundProofs
  StrictSpec StrictProofs KeypathProofs MakeSpec GiveSpec.
From Verif Require LeafModel.
Open Scope list_scope.

Section Lets.
  Context (P : program).

  (** With enough fuel, and whatever the state, the type turns [j] into [v] and does nothing else. *)
  Definition lets1 (d : fdef) (m : mdf) (j v : value) : Prop :=
    exists N, forall n c w, (N <= n)%nat -> c_val c = j -> c_fdef c = d -> c_original c = VNone -> (exists x, c_owner c = VObj x) ->
      m_transform (interp P n m) c w = (Ok v, w).
  Definition lets_chain (d : fdef) (ms : list mdf) (j v : value) : Prop :=
    exists N, forall n c w, (N <= n)%nat -> c_fdef c = d -> c_original c = VNone -> (exists x, c_owner c = VObj x) ->
      fold_st (fun val m => m_transform m (nval c val)) (map (interp P n) ms) j w = (Ok v, w).
  Definition lets (ts : types) (j v : value) : Prop :=
    exists N, forall n c w, (N <= n)%nat -> c_val c = j -> c_fdef c = fdef_of ts -> c_original c = VNone -> (exists x, c_owner c = VObj x) ->
      t_transform (interp P n) ts c w = (Ok v, w).

  Lemma lets1_ret d m j v :
    (forall n c w, c_val c = j -> c_fdef c = d -> c_original c = VNone -> m_transform (interp P (S n) m) c w = (Ok v, w)) -> lets1 d m j v.
  Proof. intros H. exists 1%nat. intros n c w L Ev Ed Eo _. destruct n as [| n]; [lia |]. apply H; assumption. Qed.

  Lemma col_lets (dict : bool) d raw it its vs jv v :
    col_items dict jv = Some its -> (dict = false -> is_ref d = true -> forall k m, ~ In (k, VDict m) its) -> item_types d = Some it ->
    Forall2 (fun kj v => lets it (snd kj) v) its vs -> v = put_all its vs (empty_col dict) ->
    lets1 d ((if dict then MDictOf else MListOf) raw) jv v.
  Proof.
    intros Ei Hd Hit F Ev.
    assert (Nj : jv <> VNone) by (intros ->; destruct dict; discriminate Ei).
    assert (Sp : forall c x k, c_fdef c = d -> In (k, x) its -> special dict c x = false).
    { intros c x k E Hi. unfold special. destruct dict; [reflexivity |]. rewrite E. specialize (Hd eq_refl). cbn [negb andb].
      destruct x; rewrite ?andb_false_r; try reflexivity. unfold is_ref in Hd. 
      destruct (f_fstore d); try reflexivity; exfalso; eapply (Hd eq_refl); exact Hi. }
    assert (Col : forall n c, c_val c = jv -> c_fdef c = d ->
      m_transform (interp P (S n) ((if dict then MDictOf else MListOf) raw)) c =
      fold_st (fun acc kv => if special dict c (snd kv) then special_handle P c (snd kv) >> ret acc
                else do* ts <- items_of c; col_item P (t_transform (interp P n)) c jv ts acc kv) its (empty_col dict)).
    { intros n c E1 E2. assert (E : col_transform P (interp P n) dict c = m_transform (interp P (S n) ((if dict then MDictOf else MListOf) raw)) c)
        by (destruct dict; reflexivity). rewrite <- E. unfold col_transform. rewrite E1.
      destruct jv; try (rewrite Ei; reflexivity). contradiction Nj; reflexivity. }
    assert (X : exists N, Forall2 (fun kj v => In kj its /\ forall n c w, (N <= n)%nat -> c_val c = snd kj -> c_fdef c = fdef_of it -> c_original c = VNone -> (exists x, c_owner c = VObj x) ->
                   t_transform (interp P n) it c w = (Ok v, w)) its vs).
    { assert (X : exists N, Forall2 (fun kj v => forall n c w, (N <= n)%nat -> c_val c = snd kj -> c_fdef c = fdef_of it -> c_original c = VNone -> (exists x, c_owner c = VObj x) ->
                   t_transform (interp P n) it c w = (Ok v, w)) its vs).
      { clear - F. induction F as [| [k j] u its vs (N1 & B) F (N2 & IH)]; [exists 0%nat; constructor |].
        exists (N1 + N2)%nat. constructor; [intros; apply B; auto; lia |].
        eapply F2_impl; [| exact IH]. cbn. intros a b H n c w L. apply H. lia. }
      destruct X as (N & X). exists N. clear - X. induction X as [| a b its vs H X IH]; constructor; [split; [left; reflexivity | exact H] |].
      eapply F2_impl; [| exact IH]. cbn. intros x y [K1 K2]. auto. }
    destruct X as (N & X). exists (S N). intros n c w L E1 E2 _ Eo. destruct n as [| n]; [lia |]. rewrite (Col n c E1 E2), Ev. apply fold_ok.
    eapply F2_impl; [| exact X]. cbn. intros [k j] u [Hi H] acc w0. cbn [snd] in *. rewrite (Sp c j k E2 Hi). unfold items_of. rewrite E2, Hit.
    unfold col_item. cbn [fst snd]. unfold bind at 1. cbn [ret]. apply item_ok; [exact Eo |]. apply H; [lia | reflexivity | reflexivity | reflexivity | exact Eo].
  Qed.

  Lemma enum_in i l k (m : value) : In (k, m) (enum_list i l) -> In m l.
  Proof. revert i. induction l as [| x l IH]; intros i H; [destruct H |]. destruct H as [H | H]; [injection H as _ ->; left; reflexivity | right; apply (IH _ H)]. Qed.

  Lemma turn_unmarked :
    (forall ts j v, turns P ts j v -> unmarked ts) /\ (forall d ms j v, turn P d ms j v -> unmarked ms) /\
    (forall d m j v, turn1 P d m j v -> unmarked [m]) /\ (forall it l vs, turns_all P it l vs -> True).
  Proof.
    apply (turns_mutind P (fun ts j v _ => unmarked ts) (fun d ms j v _ => unmarked ms) (fun d m j v _ => unmarked [m]) (fun it l vs _ => True)); intros; auto;
      try (split; intros [E | []]; (discriminate E || (subst m; discriminate))).
    - split; intros [].
    - destruct H as [A1 A2], H0 as [B1 B2]. split; intros [E | E]; auto; [apply A1 | apply A2]; left; exact E.
  Qed.

  Lemma turns_lets :
    (forall ts j v, turns P ts j v -> lets ts j v) /\ (forall d ms j v, turn P d ms j v -> lets_chain d ms j v) /\
    (forall d m j v, turn1 P d m j v -> lets1 d m j v) /\ (forall it l vs, turns_all P it l vs -> Forall2 (lets it) l vs).
  Proof.
    apply (turns_mutind P (fun ts j v _ => lets ts j v) (fun d ms j v _ => lets_chain d ms j v) (fun d m j v _ => lets1 d m j v) (fun it l vs _ => Forall2 (lets it) l vs)).
    - intros ts j v T (N & H). exists N. intros n c w L Ev Ed Eo X. apply turn_unmarked in T. rewrite unmarked_transform by exact T.
      rewrite (bind_eq _ _ w (c_val c) w eq_refl), Ev. apply H; assumption.
    - intros d v. exists 0%nat. reflexivity.
    - intros d m ms j u v _ (N1 & H1) _ (N2 & H2). exists (N1 + N2)%nat. intros n c w L Ed Eo X. cbn [map fold_st].
      rewrite (bind_eq _ _ w u w); [apply H2; auto; lia |]. apply H1; auto; lia.
    - intros d m v H. apply lets1_ret. intros n c w <- _ _. apply alone_transform. left. exact H.
    - intros d p v H. apply lets1_ret. intros n c w <- _ _. apply alone_transform. right. eauto.
    - intros d v. apply lets1_ret. intros n c w E _ _. cbn. unfold default_transform. rewrite E. reflexivity.
    - intros d k v H. apply lets1_ret. intros n c w E _ _. cbn. rewrite E. destruct k, v; try discriminate H; reflexivity.
    - intros d e ms n H. apply lets1_ret. intros k c w E _ _. cbn. unfold enum_transform. rewrite E. unfold members. rewrite H.
      unfold bind. cbn [ret is_member]. rewrite String.eqb_refl. reflexivity.
    - intros d cls b. apply lets1_ret. intros n c w E _ Eo. cbn. unfold inst_transform. rewrite E, Eo. reflexivity.
    - intros d cls. apply lets1_ret. intros n c w E _ Eo. cbn. unfold inst_transform. rewrite E, Eo. reflexivity.
    - intros d e. apply lets1_ret. intros n c w E _ _. cbn. unfold enum_transform. rewrite E. reflexivity.
    - intros d raw it l vs Hit Hd _ F. apply (col_lets false d raw it (enum_list 0 l) vs); auto.
      + intros _ R k m Hi. apply enum_in in Hi. exact (Hd R m Hi).
      + clear - F. generalize 0%Z. induction F; intros z; constructor; auto.
      + assert (L : length l = length vs) by (clear - F; induction F; cbn; congruence).
        cbn. rewrite put_list by exact L. reflexivity.
    - intros d raw it m vs Hit Nd _ F. apply (col_lets true d raw it (enum_dict m) vs); auto; [discriminate | |].
      + clear - F. remember (map snd m) as l. revert m Heql. induction F as [| j v l vs H F IH]; intros [| [k x] m] E; try discriminate E; constructor.
        * injection E as -> _. exact H.
        * injection E as _ E. apply IH, E.
      + assert (L : length m = length vs) by (rewrite <- (map_length snd m); clear - F; induction F; cbn; congruence).
        assert (L2 : map fst (combine (map fst m) vs) = map fst m /\ map snd (combine (map fst m) vs) = vs).
        { clear - L. revert vs L. induction m as [| [k x] m IH]; intros [| v vs] L; try discriminate L; [auto |]. cbn in *. destruct (IH vs) as [-> ->]; [congruence | auto]. }
        destruct L2 as [L2 L3]. pose proof (put_dict m (combine (map fst m) vs)) as K. rewrite L2, L3 in K. cbn [empty_col].
        rewrite K by reflexivity. f_equal. symmetry. apply as_dict_distinct. rewrite L2. exact Nd.
    - intros d raw. apply lets1_ret. intros n c w E Ed _. cbn. unfold col_transform. rewrite E, Ed. destruct (f_collection_null d); reflexivity.
    - intros d raw. apply lets1_ret. intros n c w E Ed _. cbn. unfold col_transform. rewrite E, Ed. destruct (f_collection_null d); reflexivity.
    - constructor.
    - intros it j v l vs _ H _ F. constructor; assumption.
  Qed.
End Lets.

(** ** Assignments, in the world *)
Lemma liftH_bind {A B} (m : st heap A) (k : A -> st heap B) w : liftH (bind m k) w = bind (liftH m) (fun a => liftH (k a)) w.
Proof. unfold liftH, bind. destruct (m (w_heap w)) as [[a | e] h]; [| reflexivity]. cbn [set_heap w_heap]. destruct (k a h). reflexivity. Qed.
Lemma liftH_ret {A} (a : A) w : liftH (ret a) w = ret a w.
Proof. unfold liftH, ret. destruct w; reflexivity. Qed.
Lemma bind_ext {S A B} (m m' : st S A) (k k' : A -> st S B) s : m s = m' s -> (forall a s', k a s' = k' a s') -> bind m k s = bind m' k' s.
Proof. intros E H. unfold bind. rewrite E. destruct (m' s) as [[a | e] s']; [apply H | reflexivity]. Qed.
Lemma bind_bind {S A B C} (m : st S A) (k : A -> st S B) (g : B -> st S C) s : bind (bind m k) g s = bind m (fun a => bind (k a) g) s.
Proof. unfold bind. destruct (m s) as [[a | e] s']; reflexivity. Qed.
Lemma bind_ret {S A B} (a : A) (k : A -> st S B) s : bind (ret a) k s = k a s.
Proof. reflexivity. Qed.
Lemma for_app {S A} (f : A -> st S unit) xs ys s : for_st (xs ++ ys) f s = (for_st xs f >> for_st ys f) s.
Proof.
  revert s. induction xs as [| x xs IH]; intros s; [reflexivity |]. cbn [app for_st]. rewrite bind_bind. apply bind_ext; [reflexivity |].
  intros _ s'. apply IH.
Qed.

Section Fill.
  Context (P : program).
  Notation history := (history (p_ct P) (p_oeq P) (p_getter P) (p_setter P) (LeafModel.py_str (p_str P)) (p_lim P)).

  Lemma history_one x w : liftH (history [x]) w = (liftH (assign P x) >> ret tt) w.
  Proof. unfold history. cbn [for_st]. rewrite liftH_bind. apply bind_ext; [reflexivity |]. intros [] s. apply liftH_ret. Qed.

  Lemma input_has f kw : has_field_value f kw = match input_of f kw with Some _ => true | None => false end.
  Proof.
    assert (K : forall k, smem k kw = match sget k kw with Some _ => true | None => false end) by reflexivity.
    unfold has_field_value, input_of. rewrite !K. destruct (sget (fl_json f) kw) as [[] |], (sget (fl_name f) kw); reflexivity.
  Qed.
  Lemma input_get f kw v : input_of f kw = Some v -> get_field_value f kw = v.
  Proof.
    unfold get_field_value, get_or_none, input_of.
    destruct (sget (fl_json f) kw) as [[] |], (sget (fl_name f) kw); intros E; try discriminate E; injection E as <-; reflexivity.
  Qed.
  Lemma may_true o f v w : takes f v -> f_write_rule (fl_fdef f) <> WriteOnce -> may_write P o f v w = (Ok true, w).
  Proof.
    unfold takes, may_write. destruct (f_write_rule (fl_fdef f)); intros T N; try reflexivity; try contradiction.
    destruct v; try reflexivity. contradiction T; reflexivity.
  Qed.
  Lemma may_false o f v w : ~ takes f v -> may_write P o f v w = (Ok false, w).
  Proof.
    unfold takes, may_write. destruct (f_write_rule (fl_fdef f)); intros T; try reflexivity; try (exfalso; apply T; exact I).
    destruct v; try reflexivity; exfalso; apply T; discriminate.
  Qed.

  Lemma default_one o f u : defaults P f u -> exists N, forall n c w, (N <= n)%nat -> c_owner c = VObj o -> c_original c = VObj o ->
    fill_default P (interp P n) f o c w = liftH (assign P (HSet o (fl_name f) u)) w.
  Proof.
    intros D. unfold defaults in D. destruct (fl_default f) eqn:Ef; try (subst u; exists 0%nat; intros n1 c1 w1 _ _ _; unfold fill_default; rewrite Ef; reflexivity).
    apply turns_lets in D. destruct D as (N & D). exists N. intros n c w L Ew Eo. unfold fill_default. rewrite Ef.
    unfold ekey. rewrite Ew, Eo. unfold cdef_v, the_obj. unfold bind at 1. unfold bind at 1. unfold bind at 1. cbn [ret getW].
    unfold bind at 1. cbn [getW]. rewrite (bind_eq _ _ w u w); [reflexivity |].
    apply D; [exact L | reflexivity | reflexivity | reflexivity | exists o; reflexivity].
  Qed.

  Lemma fill_one new o kw f xs : assigns P new o kw f xs -> exists N, forall n c w acc, (N <= n)%nat ->
    c_owner c = VObj o -> c_original c = VObj o -> g_fill (c_cfg c) = new ->
    fill_field P (interp P n) c kw o false acc f w
    = (liftH (history xs) >> ret (acc ++ (if owed_list kw f then [fl_name f] else []))) w.
  Proof.
    assert (Ow : forall v, input_of f kw = Some v -> owed_list kw f = false).
    { intros v E. unfold owed_list. rewrite E. apply andb_false_r. }
    intros A. destruct A as [v u Ei T Nw Ec D | v u Ei T Nw Ec D | v Ei T Ne | v u Ei T Ne Ec D | Ei Er | Ei Er Ne | u Ei Er Ne Ec D].
    - apply turns_lets in D. destruct D as (N & D). exists N. intros n c w acc L Ew Eo Eg. rewrite (Ow v Ei), app_nil_r.
      unfold fill_field. rewrite input_has, Ei, (input_get f kw v Ei). cbv zeta.
      rewrite (bind_eq _ _ w true w (may_true o f v w T Nw)). rewrite Ec.
      apply bind_ext; [| reflexivity]. unfold ekey. rewrite Ew. unfold cdef_v, the_obj. unfold bind at 1. unfold bind at 1. unfold bind at 1. cbn [ret getW].
      unfold bind at 1. cbn [getW]. rewrite (bind_eq _ _ w u w); [| apply D; [exact L | reflexivity | reflexivity | reflexivity | exists o; reflexivity]].
      rewrite history_one. unfold setattr, assign. cbn [task_of]. unfold bind. destruct (liftH _ w) as [[[] | e] w']; reflexivity.
    - apply turns_lets in D. destruct D as (N & D). exists N. intros n c w acc L Ew Eo Eg. rewrite (Ow v Ei), app_nil_r.
      unfold fill_field. rewrite input_has, Ei, (input_get f kw v Ei). cbv zeta.
      rewrite (bind_eq _ _ w true w (may_true o f v w T Nw)). rewrite Ec.
      apply bind_ext; [| reflexivity]. unfold ekey. rewrite Ew. unfold cdef_v, the_obj. unfold bind at 1. unfold bind at 1. unfold bind at 1. cbn [ret getW].
      unfold bind at 1. cbn [getW]. rewrite (bind_eq _ _ w u w); [| apply D; [exact L | reflexivity | reflexivity | reflexivity | exists o; reflexivity]].
      unfold history. cbn [for_st]. rewrite liftH_ret. reflexivity.
    - exists 0%nat. intros n c w acc L Ew Eo Eg. rewrite (Ow v Ei), app_nil_r.
      unfold fill_field. rewrite input_has, Ei, (input_get f kw v Ei). cbv zeta. rewrite (bind_eq _ _ w false w (may_false o f v w T)).
      apply bind_ext; [| reflexivity]. unfold history. cbn [for_st]. rewrite liftH_ret, Eg. destruct Ne as [-> | ->]; [reflexivity |]. cbn [negb]. rewrite andb_false_r. reflexivity.
    - destruct (default_one o f u D) as (N & D'). exists N. intros n c w acc L Ew Eo Eg. rewrite (Ow v Ei), app_nil_r.
      unfold fill_field. rewrite input_has, Ei, (input_get f kw v Ei). cbv zeta. rewrite (bind_eq _ _ w false w (may_false o f v w T)).
      apply bind_ext; [| reflexivity]. rewrite Eg, Ne, Ec. cbn [negb andb]. rewrite (D' n c w L Ew Eo), history_one.
      unfold bind. destruct (liftH _ w) as [[[] | e] w']; reflexivity.
    - exists 0%nat. intros n c w acc L Ew Eo Eg. unfold fill_field. rewrite input_has, Ei. unfold absent_field. cbv zeta. rewrite Er.
      assert (Ea : (if is_list_field f && match f_collection_null (fl_fdef f) with NNonnull => true | _ => false end then acc ++ [fl_name f] else acc)
        = acc ++ (if owed_list kw f then [fl_name f] else [])).
      { unfold owed_list. rewrite Er, Ei. cbn [andb]. rewrite andb_true_r. destruct (is_list_field f && _); [reflexivity | rewrite app_nil_r; reflexivity]. }
      rewrite Ea. apply bind_ext; [| reflexivity]. destruct (is_local f); [| unfold history; cbn [for_st]; rewrite liftH_ret; reflexivity].
      rewrite map_app. unfold history. transitivity (liftH (history (map (HSet o (fl_ref f)) (key_given_as (fl_ref f) kw)) >> history (map (HSet o (fl_ref f)) (key_given_as (fl_cref f) kw))) w).
      2: { unfold liftH, history. rewrite <- for_app. reflexivity. }
      rewrite liftH_bind.
      assert (K : forall k w0, (match get_or_none k kw with VNone => ret tt | v => setattr P o (fl_ref f) v end) w0 = liftH (history (map (HSet o (fl_ref f)) (key_given_as k kw))) w0).
      { intros k w0. unfold get_or_none, key_given_as. destruct (sget k kw) as [v |]; [| cbn [map]; unfold history; cbn [for_st]; rewrite liftH_ret; reflexivity].
        destruct v; cbn [map]; try (rewrite history_one; unfold setattr, assign; cbn [task_of]; unfold bind; destruct (liftH _ w0) as [[[] | e] w']; reflexivity).
        unfold history; cbn [for_st]; rewrite liftH_ret; reflexivity. }
      apply bind_ext; [apply K |]. intros [] s. apply K.
    - exists 0%nat. intros n c w acc L Ew Eo Eg. unfold fill_field. rewrite input_has, Ei. unfold absent_field. cbv zeta. rewrite Er.
      assert (Oo : owed_list kw f = false) by (unfold owed_list; rewrite Er; reflexivity). rewrite Oo, app_nil_r.
      apply bind_ext; [| reflexivity]. unfold history. cbn [for_st]. rewrite liftH_ret, Eg. cbn [negb]. rewrite andb_true_r. destruct Ne as [-> | ->]; [reflexivity |].
      cbn [negb]. rewrite andb_false_r. reflexivity.
    - destruct (default_one o f u D) as (N & D'). exists N. intros n c w acc L Ew Eo Eg. unfold fill_field. rewrite input_has, Ei. unfold absent_field. cbv zeta. rewrite Er.
      assert (Oo : owed_list kw f = false) by (unfold owed_list; rewrite Er; reflexivity). rewrite Oo, app_nil_r.
      apply bind_ext; [| reflexivity]. rewrite Eg, Ne, Ec. cbn [negb andb]. rewrite (D' n c w L Ew Eo), history_one.
      unfold bind. destruct (liftH _ w) as [[[] | e] w']; reflexivity.
  Qed.

  Lemma fill_all new o kw fs xss : Forall2 (assigns P new o kw) fs xss -> exists N, forall n c w acc, (N <= n)%nat ->
    c_owner c = VObj o -> c_original c = VObj o -> g_fill (c_cfg c) = new ->
    fold_st (fill_field P (interp P n) c kw o false) fs acc w
    = (liftH (history (concat xss)) >> ret (acc ++ map fl_name (filter (owed_list kw) fs))) w.
  Proof.
    induction 1 as [| f xs fs xss A _ (N2 & IH)].
    - exists 0%nat. intros n c w acc _ _ _ _. cbn [fold_st concat filter map]. unfold history. cbn [for_st]. rewrite app_nil_r.
      unfold bind. rewrite liftH_ret. reflexivity.
    - destruct (fill_one _ _ _ _ _ A) as (N1 & H1). exists (N1 + N2)%nat. intros n c w acc L Ew Eo Eg. cbn [fold_st concat].
      transitivity ((do* b <- (liftH (history xs) >> ret (acc ++ (if owed_list kw f then [fl_name f] else []))); 
                     liftH (history (concat xss)) >> ret (b ++ map fl_name (filter (owed_list kw) fs))) w).
      + apply bind_ext; [apply H1; auto; lia |]. intros b s. apply IH; auto; lia.
      + rewrite bind_bind. transitivity ((liftH (history xs >> history (concat xss)) >> ret (acc ++ map fl_name (filter (owed_list kw) (f :: fs)))) w).
        2: { apply bind_ext; [| reflexivity]. unfold liftH, history. rewrite <- for_app. reflexivity. }
        transitivity (((liftH (history xs) >> liftH (history (concat xss))) >> ret (acc ++ map fl_name (filter (owed_list kw) (f :: fs)))) w).
        2: { apply bind_ext; [| reflexivity]. symmetry. apply (liftH_bind (history xs) (fun _ => history (concat xss))). }
        rewrite bind_bind. apply bind_ext; [reflexivity |]. intros [] s. rewrite bind_ret. apply bind_ext; [reflexivity |].
        intros _ s'. cbn [filter]. destruct (owed_list kw f); cbn [map app]; [rewrite <- app_assoc; reflexivity | rewrite app_nil_r; reflexivity].
  Qed.
End Fill.

Section Set_.
  Context (P : program).
  Notation history := (history (p_ct P) (p_oeq P) (p_getter P) (p_setter P) (LeafModel.py_str (p_str P)) (p_lim P)).

  (** What set and the constructor do with the input: the assignments, then the empty lists *)
  Notation given := (given P).

  Lemma ensure_eq o (fs : list field) w :
    for_st (map fl_name fs) (fun n => do* cur <- getattr P o n; if is_none cur then setattr P o n (VList []) else ret tt) w
    = liftH (for_st fs (ensure_list P o)) w.
  Proof.
    revert w. induction fs as [| f fs IH]; intros w; cbn [map for_st]; [rewrite liftH_ret; reflexivity |].
    rewrite liftH_bind. apply bind_ext; [| intros [] s; apply IH]. unfold ensure_list. rewrite liftH_bind. apply bind_ext; [reflexivity |].
    intros a s. destruct a; cbn [is_none]; try (rewrite liftH_ret; reflexivity). reflexivity.
  Qed.

  Lemma liftH_mg {A} (m : st heap A) g w : liftH m (set_mg g w) = (fst (liftH m w), set_mg g (snd (liftH m w))).
  Proof. unfold liftH. cbn [set_mg w_heap]. destruct (m (w_heap w)) as [r h]. reflexivity. Qed.

  Lemma strict_ok (d : cdef) c kw w : names_known d kw -> f_strictness (c_fdef c) = SUndefined ->
    (if is_strict c d then strictness_check c d (map fst kw) else ret tt) w = (Ok tt, w).
  Proof.
    intros K E. unfold is_strict. rewrite E. destruct (cd_strict d) eqn:Es; [| reflexivity]. unfold strictness_check.
    destruct (find _ _) as [k |] eqn:Ef; [| reflexivity]. exfalso. apply find_some in Ef. destruct Ef as [H1 H2].
    apply (K Es) in H1. apply allowed_names in H1. rewrite H1 in H2. discriminate H2.
  Qed.

  Lemma set_with_eq new o kw cls d xss : p_ct P cls = Some d -> names_known d kw -> Forall2 (assigns P new o kw) (cd_fields d) xss ->
    exists N, forall n w, (N <= n)%nat -> o_class (h_obj (w_heap w) o) = cls ->
      set_with (m_transform (self_mod P n cls)) o kw new w = liftH (given o d kw xss) w.
  Proof.
    intros Ed Kn F. destruct (fill_all P new o kw _ _ F) as (N & H). exists (S N). intros n w L Ec. destruct n as [| n]; [lia |].
    unfold set_with. unfold bind at 1. cbn [getW]. unfold wclass, wobj. rewrite Ec. unfold bind at 1. cbn [getW].
    unfold bind, with_new_mgraph. cbn [self_mod interp modif_of m_transform transform_of].
    match goal with |- context [inst_transform P (interp P n) ?c0] => set (c := c0) end.
    assert (E : exists g, inst_transform P (interp P n) c (set_mg [] w)
                = (match fst (liftH (given o d kw xss) w) with Ok _ => Ok (VObj o) | Err e => Err e end, set_mg g (snd (liftH (given o d kw xss) w)))).
    { unfold inst_transform. change (c_val c) with (VDict kw). cbv iota beta.
      rewrite (bind_eq _ _ _ cls (set_mg [] w)) by reflexivity.
      rewrite (bind_eq _ _ _ d (set_mg [] w)) by (unfold class_named; rewrite Ed; reflexivity).
      assert (X : exists g, find_dest P (interp P n) c cls d kw (set_mg [] w) = (Ok (o, false), set_mg g w)).
      { unfold find_dest. cbv zeta. change (c_original c) with (VObj o). cbv iota beta. rewrite (bind_eq _ _ _ o (set_mg [] w)) by reflexivity.
        match goal with |- context [is_none ?e] => destruct (is_none e) end; [exists []; reflexivity |]. unfold mg_putp, modW, bind.
        eexists. cbn [ret]. unfold set_mg. cbn. reflexivity. }
      destruct X as (g & X). exists g. rewrite (bind_eq _ _ _ _ _ X). rewrite (bind_eq _ _ _ d (set_mg g w)).
      2: { unfold getW, wcdef, cdef_of. cbn [set_mg w_heap]. rewrite Ec, Ed. reflexivity. }
      rewrite (bind_eq _ _ _ tt (set_mg g w)) by (apply strict_ok; [exact Kn | reflexivity]).
      unfold bind. rewrite H by (try reflexivity; lia). unfold bind. rewrite liftH_mg. unfold given. rewrite liftH_bind. unfold bind.
      destruct (liftH (history (concat xss)) w) as [[[] | e] w1]; [| reflexivity]. cbn [fst snd ret app].
      pose proof (ensure_eq o (filter (owed_list kw) (cd_fields d)) (set_mg g w1)) as EE. unfold bind in EE. rewrite EE, liftH_mg. destruct (liftH _ w1) as [[[] | e] w2]; reflexivity. }
    destruct E as (g & E). rewrite E. clear E. unfold liftH. destruct (given o d kw xss (w_heap w)) as [[[] | e] h]; reflexivity.
  Qed.

  Lemma plain_args (kw : list (string * value)) : Forall (fun kv => plain (fst kv)) kw -> single_key_args kw = kw /\ compound_key_args kw = [].
  Proof.
    intros Pl. unfold single_key_args, compound_key_args. induction Pl as [| kv l K _ [I1 I2]]; [auto |].
    apply plain_no_sep, has_sep_spec in K. cbn [filter]. rewrite K. cbn [negb]. rewrite I1, I2. auto.
  Qed.

  Lemma jset_eq o kw cls d xss : p_ct P cls = Some d -> names_known d kw -> Forall (fun kv => plain (fst kv)) kw ->
    Forall2 (assigns P false o kw) (cd_fields d) xss ->
    exists N, forall n w, (N <= n)%nat -> o_class (h_obj (w_heap w) o) = cls ->
      jset P n o kw w = liftH (given o d kw xss) w.
  Proof.
    intros Ed Kn Pl F. destruct (set_with_eq false o kw cls d xss Ed Kn F) as (N & H). exists N. intros n w L Ec.
    destruct (plain_args kw Pl) as [E1 E2]. unfold jset. rewrite E1, E2. cbn [keypath_set for_st].
    unfold set_fields. transitivity ((liftH (given o d kw xss) >> ret tt) w).
    - apply bind_ext; [| reflexivity]. unfold bind at 1. cbn [getW]. unfold wclass, wobj. rewrite Ec. apply H; assumption.
    - unfold bind. destruct (liftH _ w) as [[[] | e] w']; reflexivity.
  Qed.
End Set_.
