(** CallProofs.v -- lemmas about the modifiers that call functions of the user. *)
From Verif Require Import Base Mon PyStr KeypathModel Values ChainModel TypesModel ObjModel IoModel
  IoBase CallSpec.
Open Scope string_scope.
Open Scope list_scope.

Section Proofs.
  Variable P : program.

  Lemma call_called : forall k f c args w out w',
    called P k f c args w out w' -> call P k f c args w = (out, w').
  Proof.
    intros k f c args w out w' (h & H & ->). unfold call, bind, modW, liftH.
    cbn [w_heap add_log]. rewrite H. reflexivity.
  Qed.

  Lemma call_inv : forall k f c args w out w',
    call P k f c args w = (out, w') -> called P k f c args w out w'.
  Proof.
    intros k f c args w out w' H. unfold call, bind, modW, liftH in H.
    cbn [w_heap add_log] in H. destruct (p_call P f c args (w_heap w)) as [r h] eqn:E.
    injection H as <- <-. exists h. split; [exact E|reflexivity].
  Qed.

  Lemma nval_nval : forall c v x, nval (nval c v) x = nval c x.
  Proof. reflexivity. Qed.

  Lemma checked_passes : forall n ts c w w' A (good bad : st world A),
    passes P n ts c w w' -> checked (interp P n) ts c good bad w = good w'.
  Proof.
    intros n ts c w w' A good bad (v & w1 & T & V). unfold checked.
    unfold bind at 1. rewrite T. unfold bind, on_validation. rewrite V. reflexivity.
  Qed.

  Lemma checked_refused : forall n ts c w w' A (good bad : st world A),
    is_refused P n ts c w w' -> checked (interp P n) ts c good bad w = bad w'.
  Proof.
    intros n ts c w w' A good bad (v & w1 & e & T & V). unfold checked.
    unfold bind at 1. rewrite T. unfold bind, on_validation. rewrite V. reflexivity.
  Qed.

  Lemma checked_inv : forall n ts c w A (good bad : st world A) r w',
    checked (interp P n) ts c good bad w = (r, w') ->
    (exists w1, passes P n ts c w w1 /\ good w1 = (r, w')) \/
    (exists w1, is_refused P n ts c w w1 /\ bad w1 = (r, w')) \/
    (exists e, r = Err e /\ t_transform (interp P n) ts c w = (Err e, w')) \/
    (exists e v w1, r = Err e /\ (forall m, e <> EValidation m) /\
       t_transform (interp P n) ts c w = (Ok v, w1) /\
       t_validate (interp P n) ts (nval c v) w1 = (Err e, w')).
  Proof.
    intros n ts c w A good bad r w' H. unfold checked in H. unfold bind at 1 in H.
    destruct (t_transform (interp P n) ts c w) as [[v|e] w1] eqn:T;
      [|injection H as <- <-; right; right; left; eauto].
    unfold bind, on_validation in H.
    destruct (t_validate (interp P n) ts (nval c v) w1) as [[[]|e] w2] eqn:V.
    - left. exists w2. split; [exists v, w1; auto|exact H].
    - destruct e as [] eqn:Ee; try (injection H as <- <-; right; right; right;
        eexists _, v, w1; repeat split; eauto; discriminate).
      right. left. exists w2. split; [exists v, w1; eauto|exact H].
  Qed.

  Lemma map_loop_called : forall rec f c l w rs w',
    each_called P f c l w rs w' -> map_loop P rec (PCall f) c l w = (Ok rs, w').
  Proof.
    intros rec f c l w rs w' H. induction H as [w|v l w r w1 rs w2 H _ IH]; [reflexivity|].
    cbn [map_loop]. unfold bind at 1. rewrite (call_called _ _ _ _ _ _ _ H).
    unfold bind. rewrite IH. reflexivity.
  Qed.

  Lemma map_loop_inv : forall rec f c l w rs w',
    map_loop P rec (PCall f) c l w = (Ok rs, w') -> each_called P f c l w rs w'.
  Proof.
    intros rec f c l. induction l as [|v l IH]; intros w rs w' H; cbn [map_loop] in H.
    - injection H as <- <-. constructor.
    - apply bind_ok in H. destruct H as (x & w1 & H1 & H). apply call_inv in H1.
      apply bind_ok in H. destruct H as (rest & w2 & H2 & H). injection H as <- <-.
      econstructor; eauto.
  Qed.

  Lemma keep_answer : forall a, is_none a || is_true a = true <-> a = VNone \/ a = VBool true.
  Proof.
    intros a. destruct a as [|[]| | | | | | | | | |]; cbn;
      split; auto; try discriminate; intros [H|H]; discriminate H.
  Qed.

  Lemma kept_cons : forall v l a r, kept (v :: l) (a :: r) =
    if is_none a || is_true a then v :: kept l r else kept l r.
  Proof. intros v l a r. destruct a as [|[]| | | | | | | | | |]; reflexivity. Qed.

  Lemma filter_loop_called : forall rec f c l w rs w',
    each_called P f c l w rs w' -> filter_loop P rec (PCall f) c l w = (Ok (kept l rs), w').
  Proof.
    intros rec f c l w rs w' H. induction H as [w|v l w r w1 rs w2 H _ IH]; [reflexivity|].
    cbn [filter_loop]. unfold bind at 1. unfold bind at 1.
    rewrite (call_called _ _ _ _ _ _ _ H). unfold ret at 1.
    unfold bind. rewrite IH. rewrite kept_cons. reflexivity.
  Qed.

  Lemma filter_loop_inv : forall rec f c l w l' w',
    filter_loop P rec (PCall f) c l w = (Ok l', w') ->
    exists rs, each_called P f c l w rs w' /\ l' = kept l rs.
  Proof.
    intros rec f c l. induction l as [|v l IH]; intros w l' w' H; cbn [filter_loop] in H.
    - injection H as <- <-. exists []. split; constructor.
    - apply bind_ok in H. destruct H as (b & w1 & H1 & H).
      apply bind_ok in H1. destruct H1 as (x & w1' & H1 & H2). injection H2 as <- <-.
      apply call_inv in H1. apply bind_ok in H. destruct H as (rest & w2 & H2 & H).
      injection H as <- <-. destruct (IH _ _ _ H2) as (rs & H3 & ->).
      exists (x :: rs). split; [econstructor; eauto|]. rewrite kept_cons. reflexivity.
  Qed.

  (** Filtering by types that leave the program as it is *)
  Lemma filter_loop_types : forall n ts c w (good : value -> Prop) l,
    (forall v, In v l -> (good v /\ passes P n ts (nval c v) w w) \/
                         (~ good v /\ is_refused P n ts (nval c v) w w)) ->
    exists l', filter_loop P (interp P n) (PTypes ts) c l w = (Ok l', w) /\
      (forall v, In v l' <-> In v l /\ good v) /\
      exists marks, length marks = length l /\
        l' = map fst (filter snd (combine l marks)).
  Proof.
    intros n ts c w good l. induction l as [|v l IH]; intros H.
    - exists []. split; [reflexivity|]. split; [intros v; cbn; tauto|].
      exists []. split; reflexivity.
    - destruct IH as (l' & E & I & marks & LM & S); [intros x Hx; apply H; right; exact Hx|].
      cbn [filter_loop].
      destruct (H v (or_introl eq_refl)) as [[G (x & w1 & T & V)]|[G (x & w1 & e & T & V)]];
        rewrite nval_nval in V.
      + exists (v :: l'). split; [|split].
        * unfold bind at 1. unfold bind at 1. rewrite T. unfold on_any. unfold bind at 1. rewrite V.
          unfold ret at 1. unfold bind. rewrite E. reflexivity.
        * intros y. cbn. rewrite I. split; [intros [<-|[? ?]]; auto|intros [[<-|?] ?]; auto].
        * exists (true :: marks). split; [cbn; congruence|]. cbn. rewrite S. reflexivity.
      + exists l'. split; [|split].
        * unfold bind at 1. unfold bind at 1. rewrite T. unfold on_any. unfold bind at 1. rewrite V.
          unfold ret at 1. unfold bind. rewrite E. reflexivity.
        * intros y. cbn. rewrite I. split; [intros [? ?]; auto|intros [[<-|?] ?]; tauto].
        * exists (false :: marks). split; [cbn; congruence|]. cbn. rewrite S. reflexivity.
  Qed.

  Lemma oneisvalid_some : forall n ps c w,
    (forall ts, In (PTypes ts) ps -> passes P n ts c w w \/ is_refused P n ts c w w) ->
    (Exists (fun p => exists ts, p = PTypes ts /\ passes P n ts c w w) ps ->
       oneisvalid_loop (interp P n) ps c w = (Ok tt, w)) /\
    (Forall (fun p => forall ts, p = PTypes ts -> is_refused P n ts c w w) ps ->
       oneisvalid_loop (interp P n) ps c w = (invalid c "none is valid", w)).
  Proof.
    intros n ps c w. induction ps as [|p ps IH]; intros H.
    - split; [intros X; inversion X|reflexivity].
    - destruct IH as [IH1 IH2]; [intros ts I; apply H; right; exact I|].
      split.
      + intros X. destruct p as [v|f|ts]; cbn [oneisvalid_loop].
        * inversion X as [? ? (ts & E & _)|]; subst; [discriminate E|]. apply IH1. assumption.
        * inversion X as [? ? (ts & E & _)|]; subst; [discriminate E|]. apply IH1. assumption.
        * destruct (H ts (or_introl eq_refl)) as [Y|Y].
          { rewrite (checked_passes _ _ _ _ _ _ _ _ Y). reflexivity. }
          rewrite (checked_refused _ _ _ _ _ _ _ _ Y).
          inversion X as [? ? (ts' & E & Z)|]; subst; [|apply IH1; assumption].
          injection E as <-. destruct Y as (v & w1 & e & T & V), Z as (v' & w1' & T' & V').
          rewrite T in T'. injection T' as <- <-. rewrite V in V'. discriminate V'.
      + intros X. inversion X as [|? ? X1 X2]; subst. destruct p as [v|f|ts]; cbn [oneisvalid_loop].
        * apply IH2. assumption.
        * apply IH2. assumption.
        * rewrite (checked_refused _ _ _ _ _ _ _ _ (X1 ts eq_refl)). apply IH2. assumption.
  Qed.
End Proofs.

(** ** opby *)
Section Opby.
  Variable P : program.
  Notation ct := (p_ct P).

  Lemma veq_none : forall oeq v, veq oeq v VNone = true -> v = VNone.
  Proof.
    intros oeq v H. destruct v; try reflexivity; cbn in H; try discriminate H.
    match type of H with (match ?x with _ => _ end) = _ => destruct x; discriminate H end.
  Qed.

  Lemma upd_self : forall o F h, h_obj (upd o F h) o = F (h_obj h o).
  Proof. intros o F h. cbn. rewrite Nat.eqb_refl. reflexivity. Qed.
  Lemma upd_other : forall o x F h, x <> o -> h_obj (upd o F h) x = h_obj h x.
  Proof. intros o x F h N. cbn. apply Nat.eqb_neq in N. rewrite N. reflexivity. Qed.

  (** What assigning a key changes *)
  Record keyed (o : oid) (n : string) (v : value) (h h' : heap) : Prop := {
    ky_here : attr h' o n = Some v;
    ky_attr : forall m, m <> n -> attr h' o m = attr h o m;
    ky_other : forall x, x <> o -> h_obj h' x = h_obj h x;
    ky_class : o_class (h_obj h' o) = o_class (h_obj h o);
    ky_lkeys : o_lkeys (h_obj h' o) = o_lkeys (h_obj h o);
    ky_new : o_new (h_obj h' o) = o_new (h_obj h o);
    ky_op : o_operator (h_obj h' o) = o_operator (h_obj h o);
    ky_next : h_next h' = h_next h
  }.

  Lemma assign_key : forall n o f v h, unset_reference P h o f ->
    exists h', run ct (p_oeq P) (p_getter P) (p_setter P)
                   (LeafModel.py_str (p_str P)) (S (S n)) (TSet o (fl_ref f) v) h = (Ok tt, h') /\
      keyed o (fl_ref f) v h h'.
  Proof.
    intros n o f v h U. destruct U as [F C I NO L PL K].
    assert (NE : fl_name f <> fl_ref f) by (intros X; rewrite X in F; congruence).
    set (rn := run ct (p_oeq P) (p_getter P) (p_setter P) (LeafModel.py_str (p_str P))).
    change (rn (S (S n)) (TSet o (fl_ref f) v))
      with (set_attribute ct (p_oeq P) (p_getter P) (p_setter P) (rn (S n)) o (fl_ref f) v).
    unfold set_attribute. unfold bind at 1, gets at 1. unfold bind at 1, gets at 1.
    unfold local_field_of. rewrite L, PL.
    unfold bind at 1, ObjModel.getattr at 1. rewrite PL, K. unfold bind at 1, gets at 1.
    destruct (eqv (p_oeq P) h v VNone) eqn:EQ.
    - exists h. split; [reflexivity|]. constructor; try reflexivity.
      assert (v = VNone) as -> by (apply veq_none in EQ; exact EQ). exact K.
    - unfold set_local_key. unfold bind at 1. unfold bind at 1, gets at 1. rewrite F, I.
      unfold bind at 1. unfold bind at 1. unfold updm at 1, modify at 1.
      set (h1 := upd o (set_attr (fl_ref f) v) h).
      assert (A1 : attr h1 o (fl_name f) = Some VNone).
      { unfold attr, h1. rewrite upd_self. cbn. apply String.eqb_neq in NE. rewrite NE. exact NO. }
      assert (C1 : cdef_of ct h1 o = cdef_of ct h o).
      { unfold cdef_of, h1. rewrite upd_self. reflexivity. }
      assert (R1 : rn (S n) (TSet o (fl_name f) VNone) h1 = (Ok tt, h1)).
      { change (rn (S n) (TSet o (fl_name f) VNone))
          with (set_attribute ct (p_oeq P) (p_getter P) (p_setter P) (rn n) o (fl_name f) VNone).
        unfold set_attribute. unfold bind at 1, gets at 1. unfold bind at 1, gets at 1.
        unfold local_field_of, h1 at 1. rewrite upd_self. cbn [o_lkeys set_attr].
        unfold ofield. rewrite C1. fold (ofield ct h o (fl_name f)). rewrite F.
        assert (SF : set_field ct (p_oeq P) (p_getter P) (p_setter P) (rn n) o f VNone h1 = (Ok tt, h1)).
        { unfold set_field. rewrite C. unfold bind at 1, gets at 1. unfold bind at 1, gets at 1.
          rewrite A1. cbn [eqv veq]. reflexivity. }
        destruct (sget (fl_name f) (o_lkeys (h_obj h o))) as [fn|]; [|exact SF].
        unfold bind at 1, ObjModel.getattr at 1. unfold ofield. rewrite C1.
        fold (ofield ct h o (fl_name f)). rewrite F, C, A1.
        unfold bind at 1, gets at 1. cbn [eqv veq]. reflexivity. }
      rewrite R1. unfold mark, updm, modify. cbn [bind]. unfold set_plain, updm, modify.
      eexists. split; [reflexivity|].
      constructor.
      + unfold attr. rewrite upd_self. cbn. rewrite String.eqb_refl. reflexivity.
      + intros m M. unfold attr. rewrite upd_self. cbn [o_attr set_raw set_attr].
        apply String.eqb_neq in M. rewrite M. rewrite upd_self.
        destruct (o_new (h_obj h1 o)); cbn [o_attr set_mfields set_modified];
          unfold h1; rewrite upd_self; cbn [o_attr set_attr]; rewrite M; reflexivity.
      + intros x X. rewrite !upd_other by exact X. unfold h1. rewrite upd_other by exact X.
        reflexivity.
      + rewrite upd_self. cbn [o_class set_raw set_attr]. rewrite upd_self.
        unfold h1. rewrite upd_self. cbn [o_new set_attr]. destruct (o_new (h_obj h o)); reflexivity.
      + rewrite upd_self. cbn [o_lkeys set_raw set_attr]. rewrite upd_self.
        unfold h1. rewrite upd_self. cbn [o_new set_attr]. destruct (o_new (h_obj h o)); reflexivity.
      + rewrite upd_self. cbn [o_new set_raw set_attr]. rewrite upd_self.
        unfold h1. rewrite upd_self. cbn [o_new set_attr]. destruct (o_new (h_obj h o)) eqn:E; cbn; auto.
      + rewrite upd_self. cbn [o_operator set_raw set_attr]. rewrite upd_self.
        unfold h1. rewrite upd_self. cbn [o_new set_attr]. destruct (o_new (h_obj h o)); reflexivity.
      + reflexivity.
  Qed.

  Lemma keyed_cdef : forall o n v h h' x, keyed o n v h h' -> cdef_of ct h' x = cdef_of ct h x.
  Proof.
    intros o n v h h' x K. unfold cdef_of. destruct (Nat.eq_dec x o) as [->|N].
    - rewrite (ky_class _ _ _ _ _ K). reflexivity.
    - rewrite (ky_other _ _ _ _ _ K x N). reflexivity.
  Qed.

  (** Keys of objects do not change when a name that is no field changes. *)
  Lemma keyed_id : forall o n v h h' x, keyed o n v h h' -> ofield ct h o n = None ->
    id_of ct h' x = id_of ct h x.
  Proof.
    intros o n v h h' x K N. unfold id_of. rewrite (keyed_cdef _ _ _ _ _ x K).
    destruct (primary_field (cdef_of ct h x)) as [pf|] eqn:E; [|reflexivity].
    destruct (Nat.eq_dec x o) as [->|X].
    - rewrite (ky_attr _ _ _ _ _ K); [reflexivity|]. intros <-.
      unfold ofield, field_named in N. unfold primary_field in E. apply find_some in E.
      destruct E as [E _]. pose proof (find_none _ _ N _ E) as Z. cbn in Z.
      rewrite String.eqb_refl in Z. discriminate Z.
    - unfold attr. rewrite (ky_other _ _ _ _ _ K x X). reflexivity.
  Qed.

  Lemma keyed_unset : forall o f v h h' g, keyed o (fl_ref f) v h h' ->
    unset_reference P h o f -> unset_reference P h o g -> fl_ref g <> fl_ref f ->
    unset_reference P h' o g.
  Proof.
    intros o f v h h' g K UF [F C I NO L PL KK] N.
    assert (OF : forall n, ofield ct h' o n = ofield ct h o n).
    { intros n. unfold ofield. rewrite (keyed_cdef _ _ _ _ _ o K). reflexivity. }
    constructor; try rewrite OF; auto.
    - rewrite (ky_attr _ _ _ _ _ K); [exact NO|]. intros X. rewrite X in F.
      rewrite (ur_plain _ _ _ _ UF) in F. discriminate F.
    - rewrite (ky_lkeys _ _ _ _ _ K). exact L.
    - rewrite (ky_attr _ _ _ _ _ K) by exact N. exact KK.
  Qed.

  Definition assign_one (o : oid) (op : value) (f : field) : st world unit :=
    match asop_of f with
    | None => ret tt
    | Some t =>
        do* c <- getW (root_ctx o cfg0);
        do* x <- (match t with
                  | Some t => call P KField t c [op; VObj o]
                  | None => ret op
                  end);
        do* i <- liftH (vid ct x);
        setattr P o (fl_ref f) i
    end.

  Lemma assign_one_keyed : forall o op f y w, (2 <= p_lim P)%nat ->
    assigned P o op f y -> unset_reference P (w_heap w) o f ->
    exists w', assign_one o op f w = (Ok tt, w') /\
      keyed o (fl_ref f) (id_of ct (w_heap w) y) (w_heap w) (w_heap w').
  Proof.
    intros o op f y w L A U. unfold assign_one.
    destruct (p_lim P) as [|[|n]] eqn:EL; [lia|lia|].
    destruct (assign_key n o f (id_of ct (w_heap w) y) (w_heap w) U) as (h' & R & K).
    destruct A as [[-> ->]|(t & -> & CT)].
    - unfold bind at 1, getW at 1. unfold bind at 1, ret at 1. unfold bind at 1, liftH at 1.
      cbn [vid]. unfold setattr, liftH. cbn [w_heap set_heap]. rewrite EL, R.
      eexists. split; [reflexivity|exact K].
    - unfold bind at 1, getW at 1. unfold bind at 1. unfold call, bind at 1, modW at 1, liftH at 1.
      rewrite CT. unfold bind at 1, liftH at 1. cbn [vid]. unfold setattr, liftH.
      cbn [w_heap set_heap add_log]. rewrite EL, R. eexists. split; [reflexivity|exact K].
  Qed.

  (** The state after some fields got their keys *)
  Record assigned_keys (o : oid) (who : field -> oid) (fs : list field) (h h' : heap) : Prop := {
    ak_here : forall f, In f fs -> asop_of f <> None ->
        attr h' o (fl_ref f) = Some (id_of ct h (who f));
    ak_attr : forall m, (forall f, In f fs -> asop_of f <> None -> fl_ref f <> m) ->
        attr h' o m = attr h o m;
    ak_other : forall x, x <> o -> h_obj h' x = h_obj h x;
    ak_new : o_new (h_obj h' o) = o_new (h_obj h o);
    ak_op : o_operator (h_obj h' o) = o_operator (h_obj h o)
  }.

  Lemma assign_all : forall o op who fs w, (2 <= p_lim P)%nat ->
    (forall f, In f fs -> asop_of f <> None ->
       assigned P o op f (who f) /\ unset_reference P (w_heap w) o f) ->
    ForallOrdPairs (fun f g => asop_of f <> None -> asop_of g <> None -> fl_ref g <> fl_ref f) fs ->
    exists w', for_st fs (assign_one o op) w = (Ok tt, w') /\
      assigned_keys o who fs (w_heap w) (w_heap w').
  Proof.
    intros o op who fs. induction fs as [|f fs IH]; intros w L H D.
    - exists w. split; [reflexivity|]. constructor; auto. intros f [].
    - inversion D as [|? ? D1 D2]; subst. rewrite Forall_forall in D1.
      destruct (asop_of f) as [t|] eqn:E.
      + destruct (H f (or_introl eq_refl)) as [A U]; [congruence|].
        destruct (assign_one_keyed o op f (who f) w L A U) as (w1 & R & K).
        destruct (IH w1 L) as (w2 & R2 & AK); [|exact D2|].
        { intros g G N. destruct (H g (or_intror G) N) as [A' U']. split; [exact A'|].
          eapply keyed_unset; try eassumption. apply D1; [exact G|congruence|exact N]. }
        exists w2. split.
        { cbn [for_st]. unfold bind. rewrite R. exact R2. }
        assert (ID : forall x, id_of ct (w_heap w1) x = id_of ct (w_heap w) x).
        { intros x. eapply keyed_id; [exact K|]. apply (ur_plain _ _ _ _ U). }
        constructor.
        * intros g [<-|G] N.
          { rewrite (ak_attr _ _ _ _ _ AK); [apply (ky_here _ _ _ _ _ K)|].
            intros g G N2. apply D1; [exact G|congruence|exact N2]. }
          rewrite (ak_here _ _ _ _ _ AK g G N), ID. reflexivity.
        * intros m M. rewrite (ak_attr _ _ _ _ _ AK).
          { apply (ky_attr _ _ _ _ _ K). intros ->. apply (M f); [left; reflexivity|congruence|reflexivity]. }
          intros g G N. apply M; [right; exact G|exact N].
        * intros x X. rewrite (ak_other _ _ _ _ _ AK x X). apply (ky_other _ _ _ _ _ K x X).
        * rewrite (ak_new _ _ _ _ _ AK). apply (ky_new _ _ _ _ _ K).
        * rewrite (ak_op _ _ _ _ _ AK). apply (ky_op _ _ _ _ _ K).
      + destruct (IH w L) as (w2 & R2 & AK); [|exact D2|].
        { intros g G N. apply H; [right; exact G|exact N]. }
        exists w2. split.
        { cbn [for_st]. unfold bind, assign_one at 1. rewrite E. exact R2. }
        destruct AK. constructor; auto.
        * intros g [<-|G] N; [congruence|]. auto.
        * intros m M. apply ak_attr0. intros g G N. apply M; [right; exact G|exact N].
  Qed.
End Opby.
