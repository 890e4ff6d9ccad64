(** RoundProofs.v -- lemmas for C85. *)
From Coq Require Import Lia.
From Verif Require Import Base Mon PyList PyDict StrDict KeypathModel PyStr Values CalModel CalSpec CalProofs LeafSpec ChainModel
  TypesModel ObjModel ObjSpec IoModel IoBase EnumSpec EnumProofs OutSpec OutProofs OutFormSpec OutFormProofs RoundSpec.
From Verif Require LeafModel.
Open Scope list_scope.

Lemma F2_impl {A B} (R Q : A -> B -> Prop) l m : (forall a b, R a b -> Q a b) -> Forall2 R l m -> Forall2 Q l m.
Proof. intros H. induction 1; constructor; auto. Qed.

Lemma same_text {S} (a b : string) (w w' : S) : (Ok (VStr a), w) = (Ok (VStr b), w') -> b = a.
Proof. intros E. inversion E. reflexivity. Qed.

Section Back.
  Context (P : program).

  (** The modifier [m] of a chain with definition [d] turns [j] into [v], and does nothing else. *)
  Record back1 (d : fdef) (m : mdf) (j v : value) : Prop := {
    b1_some : v <> VNone -> j <> VNone;
    b1_ok : exists N, forall n c w, (N <= n)%nat -> c_val c = j -> c_fdef c = d -> c_original c = VNone -> (exists x, c_owner c = VObj x) ->
      m_transform (interp P n m) c w = (Ok v, w);
    b1_only : forall n c w y w', c_val c = j -> c_fdef c = d -> c_original c = VNone -> m_transform (interp P n m) c w = (Ok y, w') -> y = v /\ w' = w
  }.
  Record back (ts : types) (j v : value) : Prop := {
    b_some : v <> VNone -> j <> VNone;
    b_ok : exists N, forall n c w, (N <= n)%nat -> c_val c = j -> c_fdef c = fdef_of ts -> c_original c = VNone -> (exists x, c_owner c = VObj x) ->
      t_transform (interp P n) ts c w = (Ok v, w);
    b_only : forall n c w y w', c_val c = j -> c_fdef c = fdef_of ts -> c_original c = VNone -> t_transform (interp P n) ts c w = (Ok y, w') -> y = v /\ w' = w
  }.

  Lemma alone_transform n m c w : leaves_alone (c_val c) m -> m_transform (interp P (S n) m) c w = (Ok (c_val c), w).
  Proof.
    intros [H | (H & p & ->)].
    - destruct m as [l | | | | | | | | | | | | | | | | | | | | | | | | | | | | | | | | | | | | | | | | | | | | | | | | | | | | | | | | | | | | | | | | | |];
        try discriminate H; try reflexivity. destruct l; try discriminate H; reflexivity.
    - cbn. unfold default_transform. destruct (c_val c); try reflexivity. contradiction H; reflexivity.
  Qed.
  Lemma alone_fold n l c v w : Forall (leaves_alone v) l ->
    fold_st (fun val m => m_transform m (nval c val)) (map (interp P (S n)) l) v w = (Ok v, w).
  Proof.
    intros H. revert w. induction H as [| m l Hm _ IH]; intros w; [reflexivity |]. cbn [map fold_st].
    erewrite bind_eq; [apply IH |]. change v with (c_val (nval c v)) at 2. apply alone_transform. exact Hm.
  Qed.
  Lemma alone_unmarked v l : Forall (leaves_alone v) l -> unmarked l.
  Proof.
    intros H. rewrite Forall_forall in H. split; intros K; apply H in K; destruct K as [K | (_ & p & K)]; discriminate K.
  Qed.
  Lemma chain_unmarked v a m b : Forall (leaves_alone v) a -> Forall (leaves_alone v) b -> unmarked [m] -> unmarked (a ++ m :: b).
  Proof.
    intros Ha Hb Hm. apply alone_unmarked in Ha, Hb. destruct Ha as [A1 A2], Hb as [B1 B2], Hm as [M1 M2].
    split; intros H; apply in_app_or in H; destruct H as [H | [H | H]]; try contradiction; subst m; [apply M1 | apply M2]; left; reflexivity.
  Qed.
  Lemma alone_j v j l : (v <> VNone -> j <> VNone) -> Forall (leaves_alone v) l -> Forall (leaves_alone j) l.
  Proof. intros H. apply Forall_impl. intros m [K | (K & p)]; [left; exact K | right; auto]. Qed.

  Lemma chain_back a m b j v : Forall (leaves_alone v) a -> Forall (leaves_alone v) b -> unmarked [m] ->
    back1 (fdef_of (a ++ m :: b)) m j v -> back (a ++ m :: b) j v.
  Proof.
    intros Ha Hb Hm [B1 (N & B2) B3]. pose proof (alone_j _ _ _ B1 Ha) as Ha'. pose proof (chain_unmarked _ _ _ _ Ha Hb Hm) as U.
    assert (E : forall n c w, c_val c = j -> c_fdef c = fdef_of (a ++ m :: b) ->
      t_transform (interp P (S n)) (a ++ m :: b) c w
      = (do* y <- m_transform (interp P (S n) m) (nval c j); fold_st (fun val m => m_transform m (nval c val)) (map (interp P (S n)) b) y) w).
    { intros n c w Ev Ed. rewrite unmarked_transform by exact U. unfold bind at 1. cbn [ret]. rewrite map_app, fold_st_app, Ev.
      rewrite (bind_eq _ _ w j w) by (apply alone_fold; exact Ha'). reflexivity. }
    split; [exact B1 | |].
    - exists (S N). intros n c w L Ev Ed Eo X. destruct n as [| n]; [lia |]. rewrite E by assumption.
      rewrite (bind_eq _ _ w v w) by (apply B2; [lia | reflexivity | exact Ed | exact Eo | exact X]). apply alone_fold, Hb.
    - intros n c w y w' Ev Ed Eo H. destruct n as [| n].
      + exfalso. rewrite unmarked_transform in H by exact U. unfold bind at 1 in H. cbn [ret] in H.
        destruct a as [| a0 a]; cbn [app map fold_st] in H; unfold bind, throw in H; discriminate H.
      + rewrite E in H by assumption. unfold bind in H.
        destruct (m_transform (interp P (S n) m) (nval c j) w) as [[u | e] w1] eqn:E1; [| discriminate H].
        destruct (B3 (S n) (nval c j) w u w1 eq_refl Ed Eo E1) as [-> ->]. rewrite alone_fold in H by exact Hb. inversion H. auto.
  Qed.

  (** A modifier whose transform is [ret v] for [j] whatever the fuel *)
  Lemma back1_ret d m j v : (v <> VNone -> j <> VNone) ->
    (forall n c w, c_val c = j -> c_fdef c = d -> c_original c = VNone -> m_transform (interp P (S n) m) c w = (Ok v, w)) -> back1 d m j v.
  Proof.
    intros Hs H. split; [exact Hs | |].
    - exists 1%nat. intros n c w L Ev Ed Eo _. destruct n as [| n]; [lia |]. apply H; assumption.
    - intros n c w y w' Ev Ed Eo E. destruct n as [| n]; [discriminate E |]. rewrite H in E by assumption. inversion E. auto.
  Qed.
  Lemma back1_leaf d l j v : (v <> VNone -> j <> VNone) ->
    (forall S (a : value -> string) f (r : param -> st S value) x w, LeafModel.leaf_transform a f r x l j w = (Ok v, w)) -> back1 d (MLeaf l) j v.
  Proof. intros Hs H. apply back1_ret; [exact Hs |]. intros n c w Ev _ _. cbn [interp m_transform modif_of transform_of]. rewrite Ev. apply H. Qed.

  (** ** Lists and dicts *)
  Definition put_all (its : list (karg * value)) (vs : list value) (acc : value) : value :=
    fold_left (fun a kv => append_value (fst kv) (snd kv) a) (combine (map fst its) vs) acc.
  Lemma fold_ok (step : value -> karg * value -> st world value) its vs :
    Forall2 (fun kj v => forall acc w, step acc kj w = (Ok (append_value (fst kj) v acc), w)) its vs ->
    forall acc w, fold_st step its acc w = (Ok (put_all its vs acc), w).
  Proof.
    induction 1 as [| [k j] v its vs H _ IH]; intros acc w; [reflexivity |]. cbn [fold_st]. rewrite (bind_eq _ _ w _ w (H acc w)).
    rewrite IH. reflexivity.
  Qed.
  Lemma fold_only (step : value -> karg * value -> st world value) its vs :
    Forall2 (fun kj v => forall acc w y w', step acc kj w = (Ok y, w') -> y = append_value (fst kj) v acc /\ w' = w) its vs ->
    forall acc w y w', fold_st step its acc w = (Ok y, w') -> y = put_all its vs acc /\ w' = w.
  Proof.
    induction 1 as [| [k j] v its vs H _ IH]; intros acc w y w' E; [inversion E; auto |]. cbn [fold_st] in E. unfold bind in E.
    destruct (step acc (k, j) w) as [[u | e] w1] eqn:E1; [| discriminate E]. destruct (H acc w u w1 E1) as [-> ->].
    destruct (IH _ _ _ _ E) as [-> ->]. auto.
  Qed.
  Lemma put_list js l : length js = length l -> forall i acc, put_all (enum_list i js) l (VList acc) = VList (acc ++ l).
  Proof.
    revert l. induction js as [| j js IH]; intros [| v l] L i acc; try discriminate L; cbn.
    - rewrite app_nil_r. reflexivity.
    - unfold put_all in IH. cbn in L. rewrite IH by lia. rewrite <- app_assoc. reflexivity.
  Qed.
  Lemma put_dict (es m : list (string * value)) : map fst es = map fst m -> forall acc,
    put_all (enum_dict es) (map snd m) (VDict acc) = VDict (fold_left (fun a kv => sset (fst kv) (snd kv) a) m acc).
  Proof.
    revert m. induction es as [| [k j] es IH]; intros [| [k' v] m] L acc; try discriminate L; [reflexivity |].
    cbn in L. injection L as -> L. unfold put_all, enum_dict in *. cbn. apply IH, L.
  Qed.

  (** One item; [cc] is the context it is read in. *)
  Lemma item_ok n (c cc : ctx) it v (k : karg) acc w :
    (exists x, c_owner c = VObj x) -> t_transform (interp P n) it cc w = (Ok v, w) ->
    (do* x <- t_transform (interp P n) it cc; do* _ <- cdef_v P (c_owner c); ret (append_value k x acc)) w = (Ok (append_value k v acc), w).
  Proof. intros (x & Ex) E. rewrite (bind_eq _ _ w v w E). rewrite Ex. reflexivity. Qed.

  Lemma col_back (dict : bool) d raw it its vs jv v :
    col_items dict jv = Some its -> (dict = false -> is_ref d = false) -> item_types d = Some it ->
    Forall2 (fun kj v => back it (snd kj) v) its vs -> v = put_all its vs (empty_col dict) ->
    back1 d ((if dict then MDictOf else MListOf) raw) jv v.
  Proof.
    intros Ei Hd Hit F Ev.
    assert (Nj : jv <> VNone) by (intros ->; destruct dict; discriminate Ei).
    assert (Sp : forall c x, c_fdef c = d -> special dict c x = false).
    { intros c x E. unfold special. destruct dict; [reflexivity |]. rewrite E. specialize (Hd eq_refl). unfold is_ref in Hd.
      destruct (f_fstore d); try discriminate Hd; reflexivity. }
    assert (Col : forall n c, c_val c = jv -> c_fdef c = d ->
      m_transform (interp P (S n) ((if dict then MDictOf else MListOf) raw)) c =
      fold_st (fun acc kv => if special dict c (snd kv) then special_handle P c (snd kv) >> ret acc
                else do* ts <- items_of c; col_item P (t_transform (interp P n)) c jv ts acc kv) its (empty_col dict)).
    { intros n c E1 E2. assert (E : col_transform P (interp P n) dict c = m_transform (interp P (S n) ((if dict then MDictOf else MListOf) raw)) c)
        by (destruct dict; reflexivity). rewrite <- E. unfold col_transform. rewrite E1.
      destruct jv; try (rewrite Ei; reflexivity). contradiction Nj; reflexivity. }
    split; [auto | |].
    - assert (X : exists N, Forall2 (fun kj v => forall n c w, (N <= n)%nat -> c_val c = snd kj -> c_fdef c = fdef_of it -> c_original c = VNone -> (exists x, c_owner c = VObj x) ->
                     t_transform (interp P n) it c w = (Ok v, w)) its vs).
      { clear - F. induction F as [| [k j] u its vs [_ (N1 & B) _] F (N2 & IH)]; [exists 0%nat; constructor |].
        exists (N1 + N2)%nat. constructor; [intros; apply B; auto; lia |].
        eapply F2_impl; [| exact IH]. cbn. intros a b H n c w L. apply H. lia. }
      destruct X as (N & X). exists (S N). intros n c w L E1 E2 _ Eo. destruct n as [| n]; [lia |]. rewrite (Col n c E1 E2), Ev. apply fold_ok.
      eapply F2_impl; [| exact X]. cbn. intros [k j] u H acc w0. rewrite (Sp c _ E2). unfold items_of. rewrite E2, Hit.
      unfold col_item. cbn [fst snd]. unfold bind at 1. cbn [ret]. apply item_ok; [exact Eo |]. apply H; [lia | reflexivity | reflexivity | reflexivity | exact Eo].
    - intros n c w y w' E1 E2 _ E. destruct n as [| n]; [destruct dict; discriminate E |]. rewrite (Col n c E1 E2) in E.
      apply fold_only with (vs := vs) in E; [rewrite Ev; exact E |].
      eapply F2_impl; [| exact F]. cbn. intros [k j] u [_ _ B] acc w0 y0 w1 H. rewrite (Sp c _ E2) in H. unfold items_of in H. rewrite E2, Hit in H.
      unfold col_item in H. cbn [fst snd] in *. unfold bind at 1 in H. cbn [ret] in H. unfold bind at 1 in H.
      destruct (t_transform (interp P n) it (colval c j k (fdef_of it) jv) w0) as [[r | e] w2] eqn:Et; [| discriminate H].
      destruct (B n (colval c j k (fdef_of it) jv) w0 r w2 eq_refl eq_refl eq_refl Et) as [-> ->]. unfold cdef_v, the_obj in H. destruct (c_owner c); try discriminate H. inversion H. auto.
  Qed.

  (** ** Every value that is kept *)
  Context (h : heap) (x : oid -> ext) (op : value) (ig rv : bool) (on : option bool).
  Notation form := (form P h x op ig rv on).
  Notation steps := (steps P h x op ig rv on).
  Notation step := (step P h x op ig rv on).

  Lemma alone_inert v m : leaves_alone v m -> inert m = true.
  Proof.
    intros [H | (_ & p & ->)]; [| reflexivity].
    destruct m as [l | | | | | | | | | | | | | | | | | | | | | | | | | | | | | | | | | | | | | | | | | | | | | | | | | | | | | | | | | | | | | | | | | |];
      try discriminate H; try reflexivity. destruct l; try discriminate H; reflexivity.
  Qed.
  Lemma inert_step p d m v u : inert m = true -> step p d m v u -> u = v.
  Proof. intros Hi S0. inversion S0; subst; try reflexivity; discriminate Hi. Qed.
  Lemma alone_steps p d l v0 v u : Forall (leaves_alone v0) l -> steps p d l v u -> u = v.
  Proof.
    intros H. revert v. induction H as [| m l Hm _ IH]; intros v S0; inversion S0 as [| ? ? ? ? ? u1 ? A B]; subst; [reflexivity |].
    apply (inert_step _ _ _ _ _ (alone_inert _ _ Hm)) in A. subst u1. apply IH, B.
  Qed.
  Lemma steps_app p d a b v u : steps p d (a ++ b) v u -> exists y, steps p d a v y /\ steps p d b y u.
  Proof.
    revert v. induction a as [| m a IH]; intros v S0; [exists v; split; [constructor | exact S0] |].
    inversion S0 as [| ? ? ? ? ? u1 ? A B]; subst. destruct (IH _ B) as (y & Y1 & Y2). exists y. split; [econstructor; eassumption | exact Y2].
  Qed.
  Lemma form_at p a m b v j : Forall (leaves_alone v) a -> Forall (leaves_alone v) b -> form p (a ++ m :: b) v j ->
    step p (fdef_of (a ++ m :: b)) m v j.
  Proof.
    intros Ha Hb F. inversion F as [? ? ? ? S0]; subst. apply steps_app in S0. destruct S0 as (y & S1 & S2).
    apply (alone_steps _ _ _ _ _ _ Ha) in S1. subst y. inversion S2 as [| ? ? ? ? ? u ? A B]; subst.
    apply (alone_steps _ _ _ _ _ _ Hb) in B. subst u. exact A.
  Qed.

  Scheme kept_ind2 := Minimality for kept Sort Prop
    with keeps_ind2 := Minimality for keeps Sort Prop.
  Combined Scheme kept_mutind from kept_ind2, keeps_ind2.

  Lemma keeps_unmarked d m v : keeps P d m v -> unmarked [m].
  Proof. intros K. split; intros [E | []]; subst m; inversion K. Qed.

  Lemma kept_back_both :
    (forall ts v, kept P ts v -> forall p j, form p ts v j -> back ts j v) /\
    (forall d m v, keeps P d m v -> forall p j, step p d m v j -> back1 d m j v).
  Proof.
    apply (kept_mutind P (fun ts v => forall p j, form p ts v j -> back ts j v) (fun d m v => forall p j, step p d m v j -> back1 d m j v)).
    - intros a m b v Ha Hb K IH p j F. apply chain_back; try assumption; [eapply keeps_unmarked; exact K |]. apply IH with (p := p). apply form_at; assumption.
    - intros d s p j S0. apply inert_step in S0; [subst j | reflexivity]. apply back1_leaf; auto.
    - intros d z p j S0. apply inert_step in S0; [subst j | reflexivity]. apply back1_leaf; auto.
    - intros d q p j S0. apply inert_step in S0; [subst j | reflexivity]. apply back1_leaf; auto.
    - intros d b p j S0. apply inert_step in S0; [subst j | reflexivity]. apply back1_leaf; auto.
    - intros d t V p j S0. inversion S0; subst; try discriminate. apply back1_leaf; [discriminate |]. intros S a f r y w.
      destruct (date_json_thm a f r y t V) as (text & E1 & E2). pose proof (same_text (json_date t) text w w (E1 w)) as ->. apply E2.
    - intros d t V U Nz p j S0. inversion S0; subst; try discriminate. apply back1_leaf; [discriminate |]. intros S a f r y w.
      destruct (datetime_json_thm a f r y t V) as (text & E1 & E2 & _). pose proof (same_text (json_datetime t) text w w (E1 w)) as ->.
      rewrite <- U at 2. apply E2. right. exact Nz.
    - intros d e ms n v i o He M Hv Hi Ho R p j S0.
      assert (Ej : j = EnumSpec.form o n v).
      { inversion S0; subst; try discriminate;
          match goal with H : f_enum_output d = _ |- _ => rewrite Ho in H; inversion H; subst end; try reflexivity.
        match goal with H : p_enums P e = Some ?ms' |- _ => rewrite He in H; inversion H; subst end.
        destruct M as (Hd & bf & af & -> & _). match goal with H : sget n _ = Some _ |- _ => rewrite sget_app_in in H by exact Hd; inversion H end. reflexivity. }
      subst j. apply back1_ret.
      + intros _. destruct o; cbn in *; try discriminate. apply R.
      + intros k c w Ev Ed _.
        assert (Hin : f_enum_input (c_fdef c) = Some i) by (rewrite Ed; exact Hi). cbn [interp m_transform modif_of transform_of].
        destruct o; cbn [EnumSpec.form] in Ev; cbn [reads_own_output] in R.
        * destruct R as [R1 R2]. rewrite (enum_transform_eq P e _ (VStr n) ms i w Ev He Hin) by (try discriminate; reflexivity).
          rewrite R1, R2, (member_by_name_first _ _ _ M). reflexivity.
        * destruct R as [R1 R2]. rewrite (enum_transform_eq P e _ v ms i w Ev He Hin); [rewrite R1, (member_by_value_first _ _ _ M); reflexivity | exact R2 |].
          destruct v; try reflexivity. cbn. apply String.eqb_neq. intros ->. exact (Hv _ eq_refl).
        * destruct R as (R1 & R2 & R3 & R4). rewrite (enum_transform_eq P e _ (VStr (str_lower n)) ms i w Ev He Hin) by (try discriminate; reflexivity).
          rewrite R1, R2, R3, (member_by_name_first _ _ _ M). destruct (in_name i) eqn:Ei; [| reflexivity].
          destruct (R4 eq_refl) as [K | K]; [unfold member_by_name at 1; rewrite sget_not_in by exact K; reflexivity | rewrite K, (member_by_name_first _ _ _ M); reflexivity].
    - intros d raw it l Hr Hit _ IH p j S0. inversion S0; subst; try discriminate; [| match goal with K : forall _, _ <> _ |- _ => exfalso; eapply K; reflexivity end].
      match goal with H : item_types d = Some ?y |- _ => rewrite Hit in H; inversion H; subst y; clear H end.
      match goal with H : items _ _ _ _ _ _ _ _ _ _ _ _ |- _ => rename H into Hi end.
      assert (F : forall p i l js, (forall v, In v l -> forall p j, form p it v j -> back it j v) -> items P h x op ig rv on p it i l js ->
                  length js = length l /\ forall z, Forall2 (fun kj v => back it (snd kj) v) (enum_list z js) l).
      { clear. intros p i l. revert i. induction l as [| v l IHl]; intros i js H Hi; inversion Hi; subst; [split; [reflexivity | constructor] |].
        destruct (IHl (S i) js0) as [F1 F2]; [intros; eapply H; [right; eassumption | eassumption] | assumption |]. cbn. split; [lia |]. intros z. constructor; [| apply F2].
        cbn. eapply H; [left; reflexivity | eassumption]. }
      destruct (F _ _ _ _ IH Hi) as [F1 F2].
      apply (col_back false d raw it (enum_list 0 js) l); auto. cbn. rewrite put_list by exact F1. reflexivity.
    - intros d raw it m Hit Nd _ IH p j S0. inversion S0; subst; try discriminate; [| match goal with K : forall _, _ <> _ |- _ => exfalso; eapply K; reflexivity end].
      match goal with H : item_types d = Some ?y |- _ => rewrite Hit in H; inversion H; subst y; clear H end.
      match goal with H : entries _ _ _ _ _ _ _ _ _ _ _ |- _ => rename H into Hi end.
      assert (F : forall p m es, (forall k v, In (k, v) m -> forall p j, form p it v j -> back it j v) -> entries P h x op ig rv on p it m es ->
                  map fst es = map fst m /\ Forall2 (fun kj v => back it (snd kj) v) (enum_dict es) (map snd m)).
      { clear. intros p m. induction m as [| [k v] m IHl]; intros es H Hi; inversion Hi; subst; [split; [reflexivity | constructor] |].
        destruct (IHl es0) as [F1 F2]; [intros; eapply H; [right; eassumption | eassumption] | assumption |]. cbn. split; [rewrite F1; reflexivity |]. constructor; [| exact F2].
        cbn. eapply H; [left; reflexivity | eassumption]. }
      destruct (F _ _ _ IH Hi) as [F1 F2]. rewrite as_dict_distinct by (rewrite F1; exact Nd).
      apply (col_back true d raw it (enum_dict es) (map snd m)); auto; [discriminate |].
      cbn. rewrite put_dict by exact F1. f_equal. symmetry. apply as_dict_distinct, Nd.
    - intros d k p j S0. assert (j = VNone) as -> by (inversion S0; subst; try reflexivity; discriminate).
      apply back1_leaf; [auto |]. intros. destruct k; reflexivity.
    - intros d cl p j S0. assert (j = VNone) as -> by (inversion S0; subst; try reflexivity; discriminate).
      apply back1_ret; [auto |]. intros n c w Ev _ Eo. cbn. unfold inst_transform. rewrite Ev, Eo. reflexivity.
    - intros d e p j S0. assert (j = VNone) as -> by (inversion S0; subst; try reflexivity; discriminate).
      apply back1_ret; [auto |]. intros n c w Ev _ _. cbn. unfold enum_transform. rewrite Ev. reflexivity.
    - intros d raw Hn p j S0. assert (j = VNone) as -> by (inversion S0; subst; try reflexivity; discriminate).
      apply back1_ret; [auto |]. intros n c w Ev Ed _. cbn. unfold col_transform. rewrite Ev, Ed. destruct (f_collection_null d); try reflexivity. contradiction Hn; reflexivity.
    - intros d raw Hn p j S0. assert (j = VNone) as -> by (inversion S0; subst; try reflexivity; discriminate).
      apply back1_ret; [auto |]. intros n c w Ev Ed _. cbn. unfold col_transform. rewrite Ev, Ed. destruct (f_collection_null d); try reflexivity. contradiction Hn; reflexivity.
  Qed.
End Back.

(** ** The output of an object *)
Lemma as_dict_none es k : ~ In k (map fst es) -> sget k (as_dict es) = None.
Proof.
  induction es as [| [q v] es IH] using rev_ind; intros H; [reflexivity |]. rewrite as_dict_snoc. rewrite map_app, in_app_iff in H. cbn in H.
  rewrite sget_sset_other by (intros ->; tauto). apply IH. tauto.
Qed.
Lemma as_dict_skip es es' k : ~ In k (map fst es') -> sget k (as_dict (es ++ es')) = sget k (as_dict es).
Proof.
  induction es' as [| [q v] es' IH] using rev_ind; intros H; [rewrite app_nil_r; reflexivity |].
  rewrite app_assoc, as_dict_snoc. rewrite map_app, in_app_iff in H. cbn in H. rewrite sget_sset_other by (intros ->; tauto). apply IH. tauto.
Qed.

Section Object.
  Context (P : program) (h : heap) (x : oid -> ext) (op : value) (ig rv : bool) (on : option bool).
  Notation form := (form P h x op ig rv on).
  Notation fields := (fields P h x op ig rv on).

  Definition written_by (g : field) (k : string) : Prop := k = fl_json g \/ is_local g = true /\ k = fl_cref g.
  Lemma entry_key b k v q : In q (map fst (entry b k v)) -> q = k.
  Proof. unfold entry. destruct (b || negb (is_none v)); cbn; intuition. Qed.
  Lemma stored_key o f q : In q (map fst (stored P h x on o f)) -> is_local f = true /\ q = fl_cref f.
  Proof. unfold stored. destruct (is_local f); [| intros []]. destruct (picked (x o) (fl_name f)); cbn; [| intros []]. intros H. apply entry_key in H. auto. Qed.
  Lemma fields_keys p o fs es : fields p o fs es -> forall k, In k (map fst es) -> exists g, In g fs /\ written_by g k.
  Proof.
    revert es. induction fs as [| f fs IH]; intros es F k Hk; inversion F; subst; cbn in Hk; try contradiction;
      rewrite !map_app, !in_app_iff in Hk.
    - destruct Hk as [Hk | [Hk | Hk]].
      + apply stored_key in Hk. exists f. split; [left; reflexivity | right; exact Hk].
      + apply entry_key in Hk. exists f. split; [left; reflexivity | left; exact Hk].
      + destruct (IH _ H8 k Hk) as (g & G1 & G2). exists g. split; [right; exact G1 | exact G2].
    - destruct Hk as [Hk | Hk].
      + apply stored_key in Hk. exists f. split; [left; reflexivity | right; exact Hk].
      + destruct (IH _ H5 k Hk) as (g & G1 & G2). exists g. split; [right; exact G1 | exact G2].
  Qed.
  Lemma plain_local f : plain_field f = true -> is_ref (fl_fdef f) = false /\ is_local f = false.
  Proof.
    unfold plain_field. intros H. apply andb_prop in H. destruct H as [H _]. apply Bool.negb_true_iff in H. split; [exact H |].
    unfold is_ref in H. unfold is_local. destruct (f_fstore (fl_fdef f)); try reflexivity; discriminate H.
  Qed.
  Lemma fields_at p o fs es f v : NoDup (map fl_name fs) -> In f fs -> plain_field f = true -> visible ig (x o) f = true -> reads P h o (fl_name f) v ->
    fields p o fs es ->
    exists a b j q, es = a ++ entry (nulls on (class_of P h o)) (fl_json f) j ++ b /\ form q (fl_types f) v j /\
      forall k, In k (map fst a) \/ In k (map fst b) -> exists g, In g fs /\ g <> f /\ written_by g k.
  Proof.
    intros Nd Hf Pf V R. destruct (plain_local f Pf) as [Nr Nl]. revert es. induction fs as [| g fs IH]; intros es F; [contradiction Hf |].
    cbn in Nd. inversion Nd as [| ? ? N1 N2]; subst.
    assert (Other : forall f', In f' fs -> f' <> g) by (intros f' H ->; apply N1, in_map, H).
    destruct Hf as [-> | Hf].
    - inversion F; subst.
      + assert (v0 = v) as -> by (unfold reads in *; congruence).
        exists [], es0, j, (at_field p (class_of P h o) (o_class (h_obj h o)) f). split; [| split; [assumption |]].
        * unfold stored. rewrite Nl. reflexivity.
        * intros k [[] | Hk]. destruct (fields_keys _ _ _ _ H8 k Hk) as (g & G1 & G2). exists g. split; [right; exact G1 | split; [apply Other, G1 | exact G2]].
      + exfalso. match goal with H : _ \/ left_out _ _ _ _ _ _ |- _ => destruct H as [H | [H _]]; congruence end.
    - inversion F; subst.
      + destruct (IH N2 Hf _ H8) as (a & b & j' & q & -> & Fm & K).
        exists (stored P h x on o g ++ entry (nulls on (class_of P h o)) (fl_json g) j ++ a), b, j', q. split; [rewrite <- !app_assoc; reflexivity | split; [exact Fm |]].
        intros k Hk. rewrite !map_app, !in_app_iff in Hk.
        assert (D : In k (map fst (stored P h x on o g)) \/ In k (map fst (entry (nulls on (class_of P h o)) (fl_json g) j)) \/ (In k (map fst a) \/ In k (map fst b))) by tauto.
        destruct D as [D | [D | D]].
        * apply stored_key in D. exists g. split; [left; reflexivity |]. split; [intros ->; apply N1, in_map, Hf | right; exact D].
        * apply entry_key in D. exists g. split; [left; reflexivity |]. split; [intros ->; apply N1, in_map, Hf | left; exact D].
        * destruct (K k D) as (g' & G1 & G2 & G3). exists g'. split; [right; exact G1 | auto].
      + destruct (IH N2 Hf _ H5) as (a & b & j' & q & -> & Fm & K).
        exists (stored P h x on o g ++ a), b, j', q. split; [rewrite <- !app_assoc; reflexivity | split; [exact Fm |]].
        intros k Hk. rewrite !map_app, !in_app_iff in Hk.
        assert (D : In k (map fst (stored P h x on o g)) \/ (In k (map fst a) \/ In k (map fst b))) by tauto.
        destruct D as [D | D].
        * apply stored_key in D. exists g. split; [left; reflexivity |]. split; [intros ->; apply N1, in_map, Hf | right; exact D].
        * destruct (K k D) as (g' & G1 & G2 & G3). exists g'. split; [right; exact G1 | auto].
  Qed.
End Object.

From Verif Require Import MakeSpec.
Section Input.
  Context (P : program) (h : heap) (x : oid -> ext) (op : value) (ig rv : bool) (on : option bool).

  Lemma kept_none p ts j : kept P ts VNone -> form P h x op ig rv on p ts VNone j -> j = VNone.
  Proof.
    intros K F. inversion K as [a m b ? Ha Hb Km]; subst. apply form_at in F; [| exact Ha | exact Hb].
    inversion Km; subst; inversion F; subst; try reflexivity; discriminate.
  Qed.

  (** What a field finds in the output of an object as its input *)
  Lemma output_input p o d m f v :
    p_ct P (o_class (h_obj h o)) = Some d -> NoDup (map fl_name (cd_fields d)) -> own_key d f ->
    In f (cd_fields d) -> plain_field f = true -> visible ig (x o) f = true -> reads P h o (fl_name f) v -> kept P (fl_types f) v ->
    form P h x op ig rv on p [MInstance (o_class (h_obj h o))] (VObj o) (VDict m) ->
    (v <> VNone -> exists j, j <> VNone /\ input_of f m = Some j /\ back P (fl_types f) j v) /\
    (v = VNone -> back P (fl_types f) VNone VNone /\ (input_of f m = None \/ input_of f m = Some VNone)).
  Proof.
    intros Ed Nd Ok Hf Pf V R K F.
    inversion F as [? ? ? ? S0]; subst. inversion S0 as [| ? ? ? ? ? u ? A B]; subst. inversion B; subst. inversion A; subst; try discriminate.
    match goal with H : fields _ _ _ _ _ _ _ _ _ _ _ |- _ => rename H into Hfs end.
    assert (Ec : class_of P h o = d) by (unfold class_of; rewrite Ed; reflexivity). rewrite Ec in Hfs.
    destruct (fields_at P h x op ig rv on _ _ _ _ f v Nd Hf Pf V R Hfs) as (a & b & j & q & -> & Fm & Keys). rewrite Ec.
    pose proof (proj1 (kept_back_both P h x op ig rv on) _ _ K _ _ Fm) as Bk.
    assert (Kb : forall k, k = fl_json f \/ k = fl_name f -> ~ In k (map fst a) /\ ~ In k (map fst b)).
    { intros k Ek. split; intros H; destruct (Keys k) as (g & G1 & G2 & G3); auto; destruct (Ok g G1) as [O1 O2]; specialize (O1 G2);
        destruct G3 as [-> | [L ->]]; try specialize (O2 L); destruct Ek; intuition congruence. }
    assert (Get : forall k, k = fl_json f \/ k = fl_name f ->
      sget k (as_dict (a ++ entry (nulls on d) (fl_json f) j ++ b)) = (if String.eqb k (fl_json f) then if nulls on d || negb (is_none j) then Some j else None else None)).
    { intros k Ek. destruct (Kb k Ek) as [Ka Kb']. rewrite app_assoc, as_dict_skip by exact Kb'. unfold entry.
      destruct (nulls on d || negb (is_none j)).
      - rewrite as_dict_snoc, sget_sset. destruct (String.eqb k (fl_json f)); [reflexivity | apply as_dict_none, Ka].
      - rewrite app_nil_r, as_dict_none by exact Ka. destruct (String.eqb k (fl_json f)); reflexivity. }
    unfold input_of. rewrite (Get (fl_json f)), (Get (fl_name f)) by auto. rewrite String.eqb_refl. split.
    - intros Nv. pose proof (b_some _ _ _ _ Bk Nv) as Nj. exists j. split; [exact Nj |].
      assert (is_none j = false) as -> by (destruct j; try reflexivity; contradiction Nj; reflexivity). rewrite Bool.orb_true_r. split; [| exact Bk].
      destruct j; try (destruct (String.eqb (fl_name f) (fl_json f)); reflexivity).
    - intros ->. assert (j = VNone) as -> by (eapply kept_none; eassumption). split; [exact Bk |].
      cbn [is_none negb]. rewrite Bool.orb_false_r. destruct (nulls on d), (String.eqb (fl_name f) (fl_json f)); auto.
  Qed.
End Input.
