(** UpdateProofs.v -- lemmas for C29: the names of a class, and assigning a data field. *)
From Verif Require Import Base Mon PyDict KeypathModel Values TypesModel ObjModel ObjSpec ObjTrack IoModel IoBase UpdateSpec.
From Verif Require LeafModel.
Open Scope list_scope.

Lemma known_names d k : sinb k (update_names d) = true <-> known_name d k.
Proof.
  rewrite sinb_In. unfold update_names, known_name. rewrite in_app_iff, !in_map_iff. split.
  - intros [(f & <- & F) | (f & <- & F)].
    + exists f. auto.
    + apply filter_In in F. destruct F as [F E]. exists f. split; [exact F |]. right.
      unfold is_local, is_inst_field, is_list_field. unfold local_fields in *.
      destruct (fstore_eqb _ _); [| discriminate E]. cbn in E. split; [reflexivity |].
      destruct (f_ftype (fl_fdef f)) as [[] |]; try discriminate E; auto.
  - intros (f & F & [-> | (L & T & ->)]).
    + left. exists f. auto.
    + right. exists f. split; [reflexivity |]. apply filter_In. split; [exact F |].
      unfold is_local in L. rewrite L. cbn. unfold is_inst_field, is_list_field in T.
      destruct (f_ftype (fl_fdef f)) as [[] |]; try reflexivity; destruct T; discriminate.
Qed.

(** ** Assigning a data field *)
Definition kept_obj (b b' : obj) : Prop := o_class b' = o_class b /\ o_lkeys b' = o_lkeys b /\ o_new b' = o_new b.
Definition kept (o : oid) (k : string) (h h' : heap) : Prop :=
  (forall x n, x <> o \/ n <> k -> attr h' x n = attr h x n) /\
  (forall x, kept_obj (h_obj h x) (h_obj h' x)).

Lemma kept_refl o k h : kept o k h h.
Proof. split; [reflexivity |]. intros x. repeat split. Qed.
Lemma kept_trans o k h1 h2 h3 : kept o k h1 h2 -> kept o k h2 h3 -> kept o k h1 h3.
Proof.
  intros [A B] [A' B']. split.
  - intros x n H. rewrite (A' x n H). apply A, H.
  - intros x. destruct (B x) as (a & b & c), (B' x) as (a' & b' & c').
    unfold kept_obj. rewrite a', b', c'. repeat split; assumption.
Qed.
Lemma upd_keeps o k F h :
  (forall b, kept_obj b (F b)) -> (forall b, o_attr (F b) = o_attr b) ->
  kept o k h (upd o F h) /\ attr (upd o F h) o k = attr h o k.
Proof.
  intros K A. split; [split |].
  - intros x n _. unfold attr, upd. cbn. destruct (Nat.eqb_spec x o); [subst; rewrite A |]; reflexivity.
  - intros x. unfold upd. cbn. destruct (Nat.eqb_spec x o); [subst; apply K | repeat split].
  - unfold attr, upd. cbn. rewrite Nat.eqb_refl, A. reflexivity.
Qed.

Lemma field_named_name n d f : field_named n d = Some f -> fl_name f = n.
Proof. intros H. apply find_some in H. destruct H as [_ H]. apply String.eqb_eq in H. symmetry. exact H. Qed.

Lemma set_attr_keeps o k v h : kept o k h (upd o (set_attr k v) h) /\ attr (upd o (set_attr k v) h) o k = Some v.
Proof.
  split; [split |].
  - intros x n H. unfold attr, upd. cbn. destruct (Nat.eqb_spec x o); [| reflexivity]. subst x. cbn.
    destruct (String.eqb_spec n k); [| reflexivity]. destruct H; congruence.
  - intros x. unfold upd. cbn. destruct (Nat.eqb_spec x o); [subst |]; repeat split.
  - unfold attr, upd. cbn. rewrite Nat.eqb_refl. cbn. rewrite String.eqb_refl. reflexivity.
Qed.

Lemma run_set_data ct oeq getter setter pystr n o f k v cur h :
  ofield ct h o k = Some f -> plain_field f = true -> sget k (o_lkeys (h_obj h o)) = None ->
  attr h o k = Some cur ->
  exists h', run ct oeq getter setter pystr (S n) (TSet o k v) h = (Ok tt, h') /\ kept o k h h' /\
             ((eqv oeq h v cur = false /\ attr h' o k = Some v) \/ (eqv oeq h v cur = true /\ h' = h)).
Proof.
  intros F Pl L A. cbn [run body]. unfold set_attribute, bind, gets, local_field_of. rewrite L, F.
  pose proof (field_named_name _ _ _ F) as N. unfold plain_field in Pl. apply andb_prop in Pl. destruct Pl as [R C].
  apply negb_true_iff in R, C. unfold set_field. rewrite C, R, N. unfold bind, gets. rewrite A.
  destruct (eqv oeq h v cur) eqn:E.
  - exists h. split; [reflexivity |]. split; [apply kept_refl | right; auto].
  - destruct (o_new (h_obj h o)) eqn:Hn.
    + cbn. exists (upd o (set_attr k v) h). split; [reflexivity |].
      destruct (set_attr_keeps o k v h). split; [assumption | left; auto].
    + unfold mark, updm, modify.
      set (F1 := fun b => if o_new b then b else set_mfields (sadd k (o_mfields b)) (set_modified true b)).
      destruct (upd_keeps o k F1 h) as [K1 A1].
      { intros b. unfold F1. destruct (o_new b) eqn:Q; repeat split; exact Q. }
      { intros b. unfold F1. destruct (o_new b); reflexivity. }
      set (h1 := upd o F1 h) in *.
      destruct (resettable ct h1 o f).
      * destruct (smem k (o_prev (h_obj h1 o))) eqn:S.
        -- cbn. exists (upd o (set_attr k v) h1). split; [reflexivity |].
           destruct (set_attr_keeps o k v h1). split; [eapply kept_trans; eassumption | left; auto].
        -- unfold ObjModel.getattr.
           assert (F' : ofield ct h1 o k = Some f).
           { unfold ofield, cdef_of. destruct K1 as [_ K1]. rewrite (proj1 (K1 o)). exact F. }
           rewrite F', C, A1, A. unfold remember, updm, modify.
           set (F2 := fun b => if smem k (o_prev b) then b else set_prev (o_prev b ++ [(k, cur)]) b).
           destruct (upd_keeps o k F2 h1) as [K2 A2].
           { intros b. unfold F2. destruct (smem k (o_prev b)); repeat split. }
           { intros b. unfold F2. destruct (smem k (o_prev b)); reflexivity. }
           set (h2 := upd o F2 h1) in *.
           exists (upd o (set_attr k v) h2). split; [reflexivity |].
           destruct (set_attr_keeps o k v h2).
           split; [eapply kept_trans; [eapply kept_trans |]; eassumption | left; auto].
      * cbn. exists (upd o (set_attr k v) h1). split; [reflexivity |].
        destruct (set_attr_keeps o k v h1). split; [eapply kept_trans; eassumption | left; auto].
Qed.

Lemma setattr_data P o f k v cur w :
  (0 < p_lim P)%nat ->
  field_named k (wcdef P w o) = Some f -> plain_field f = true -> sget k (o_lkeys (wobj w o)) = None ->
  attr_of w o k = Some cur ->
  exists h', setattr P o k v w = (Ok tt, set_heap h' w) /\ kept o k (w_heap w) h' /\
             ((eqv (p_oeq P) (w_heap w) v cur = false /\ attr h' o k = Some v) \/
              (eqv (p_oeq P) (w_heap w) v cur = true /\ h' = w_heap w)).
Proof.
  intros Lim F Pl L A. unfold setattr, liftH. destruct (p_lim P) as [| n]; [inversion Lim |].
  destruct (run_set_data (p_ct P) (p_oeq P) (p_getter P) (p_setter P) (LeafModel.py_str (p_str P)) n o f k v cur
              (w_heap w) F Pl L A) as (h' & E & K & D).
  exists h'. rewrite E. auto.
Qed.

Lemma kept_data P w o k h' : kept o k (w_heap w) h' -> forall k', data_field P w o k' -> (k' = k -> attr h' o k <> None) ->
  data_field P (set_heap h' w) o k'.
Proof.
  intros [A B] k' (f & F & Pl & L & N) H. exists f. destruct (B o) as (b1 & b2 & b3).
  unfold wcdef, cdef_of, wobj, attr_of in *. cbn. rewrite b1, b2. split; [exact F |]. split; [exact Pl |]. split; [exact L |].
  destruct (String.eqb_spec k' k) as [-> | D]; [apply H; reflexivity |]. rewrite A by auto. exact N.
Qed.

(** Assigning distinct data fields one after the other. *)
Lemma assign_data P o : (0 < p_lim P)%nat -> forall l w,
  NoDup (map fst l) -> (forall k v, In (k, v) l -> data_field P w o k) ->
  exists w', for_st l (fun kv => setattr P o (fst kv) (snd kv)) w = (Ok tt, w') /\
    (forall k v, In (k, v) l ->
       attr_of w' o k = Some v \/ (attr_of w' o k = attr_of w o k /\
                                   exists h cur, attr_of w o k = Some cur /\ veq (p_oeq P h) v cur = true)) /\
    (forall x n, x <> o \/ ~ In n (map fst l) -> attr_of w' x n = attr_of w x n) /\
    (forall x, kept_obj (wobj w x) (wobj w' x)).
Proof.
  intros Lim. induction l as [| (k & v) l IH]; intros w ND D.
  - exists w. cbn. split; [reflexivity |]. split; [intros k v [] |]. split; [reflexivity |]. intros x. repeat split.
  - inversion ND as [| ? ? NI ND']; subst. cbn [fst] in NI.
    destruct (D k v (or_introl eq_refl)) as (f & F & Pl & L & N).
    destruct (attr_of w o k) as [cur |] eqn:A; [| contradiction].
    destruct (setattr_data P o f k v cur w Lim F Pl L A) as (h' & E & K & O).
    destruct (IH (set_heap h' w) ND') as (w' & E' & G & Z & Y).
    { intros k' v' I. apply (kept_data P w o k h' K).
      - apply (D k' v'). right. exact I.
      - intros ->. exfalso. apply NI. apply in_map_iff. exists (k, v'). auto. }
    exists w'. split; [| split; [| split]].
    + cbn [for_st]. unfold bind. cbn [fst snd]. rewrite E. exact E'.
    + intros k' v' [I | I].
      * injection I as <- <-.
        assert (Q : attr_of w' o k = attr h' o k) by (rewrite Z; [reflexivity | right; exact NI]).
        rewrite Q. destruct O as [[_ O] | [V ->]]; [left; exact O |]. right.
        split; [reflexivity |]. exists (w_heap w), cur. split; [exact A | exact V].
      * assert (Q : attr_of (set_heap h' w) o k' = attr_of w o k').
        { apply (proj1 K). right. intros ->. apply NI. apply in_map_iff. exists (k, v'). auto. }
        destruct (G k' v' I) as [G' | [G' (h & c & Ac & Vc)]]; [left; exact G' | right].
        rewrite Q in *. split; [exact G' |]. exists h, c. auto.
    + intros x n H. rewrite (Z x n).
      * apply (proj1 K). destruct H as [H | H]; [left; exact H | right]. intros ->. apply H. left. reflexivity.
      * destruct H as [H | H]; [left; exact H | right]. intros J. apply H. right. exact J.
    + intros x. destruct (Y x) as (a & b & c). destruct (proj2 K x) as (a' & b' & c').
      unfold kept_obj, wobj in *. cbn in a, b, c. rewrite a, b, c. auto.
Qed.
