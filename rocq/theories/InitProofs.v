(** InitProofs.v -- the first step of construction: a new object, all of whose fields are
    None (jsonclassify.py:36-50). *)
From Verif Require Import Base Mon PyDict StrDict KeypathModel Values OGraphModel ChainModel TypesModel ObjModel ObjSpec ObjTrack IoModel IoBase UpdateSpec UpdateProofs.
From Verif Require LeafModel.
Open Scope list_scope.

(** Names are unique, and a stored key has not the name of a field. *)
Record proper_names (d : cdef) : Prop := {
  pn_names : NoDup (map fl_name (cd_fields d));
  pn_refs : forall f g, In f (cd_fields d) -> In g (cd_fields d) -> is_local f = true -> fl_ref f <> fl_name g
}.

Definition empty_key (f : field) : value := if is_list_field f then VList [] else VNone.

(** What a new object of class [cls] is like when the fields [done] have been set to None *)
Record blank (cls : string) (done : list field) (b : obj) : Prop := {
  bl_class : o_class b = cls;
  bl_new : o_new b = true;
  bl_modified : o_modified b = false;
  bl_mfields : o_mfields b = [];
  bl_prev : o_prev b = [];
  bl_unlinked : o_unlinked b = [];
  bl_operator : o_operator b = VNone;
  bl_lkeys : forall k n, sget k (o_lkeys b) = Some n -> exists f, In f done /\ is_local f = true /\ k = fl_ref f /\ n = fl_name f;
  bl_fields : forall f, In f done -> is_calc f = false -> o_attr b (fl_name f) = Some VNone;
  bl_attrs : forall n v, o_attr b n = Some v ->
    (exists f, In f done /\ n = fl_name f /\ v = VNone) \/ (exists f, In f done /\ is_local f = true /\ n = fl_ref f)
}.

(** the rest of the heap is as it was *)
Definition apart (o : oid) (h h' : heap) : Prop :=
  (forall x, x <> o -> h_obj h' x = h_obj h x) /\ h_next h' = h_next h /\ h_graph h' = h_graph h.
Lemma apart_refl o h : apart o h h.
Proof. repeat split. Qed.
Lemma apart_trans o a b c : apart o a b -> apart o b c -> apart o a c.
Proof.
  intros (A1 & A2 & A3) (B1 & B2 & B3). split; [| split; congruence]. intros x N. rewrite (B1 x N). apply A1, N.
Qed.
Lemma apart_upd o F h : apart o h (upd o F h).
Proof. repeat split. intros x N. unfold upd. cbn. destruct (Nat.eqb_spec x o); [contradiction | reflexivity]. Qed.

Lemma calc_not_local f : is_calc f = true -> is_local f = false.
Proof. unfold is_calc, is_local. destruct (f_fstore (fl_fdef f)); cbn; congruence. Qed.
Lemma local_is_ref f : is_local f = true -> is_ref (fl_fdef f) = true.
Proof. unfold is_local, is_ref. destruct (f_fstore (fl_fdef f)); cbn; congruence. Qed.

Section Init.
  Context (P : program).
  Notation ct := (p_ct P).

  Lemma link_none rec o f h : link ct (p_oeq P) (p_getter P) (LeafModel.py_str (p_str P)) rec o f VNone h = (Ok tt, h).
  Proof.
    unfold link, bind, gets. unfold link_items.
    destruct (foreign_field ct (o_class (h_obj h o)) f); destruct (f_ftype (fl_fdef f)) as [[] |]; reflexivity.
  Qed.

  Lemma field_named_in d f : NoDup (map fl_name (cd_fields d)) -> In f (cd_fields d) -> field_named (fl_name f) d = Some f.
  Proof.
    intros ND F. unfold field_named. destruct (find _ _) as [g |] eqn:E.
    - apply find_some in E. destruct E as [G E]. apply in_rev in G. apply String.eqb_eq in E.
      f_equal. clear - ND F G E. induction (cd_fields d) as [| x l IH]; [destruct F |].
      inversion ND as [| ? ? N ND']; subst. destruct F as [-> | F], G as [-> | G]; auto.
      + exfalso. apply N. rewrite E. apply in_map, G.
      + exfalso. apply N. rewrite <- E. apply in_map, F.
    - exfalso. apply in_rev in F. pose proof (find_none _ _ E f F) as N. cbn in N. rewrite String.eqb_refl in N. discriminate N.
  Qed.

  Lemma blank_ref cls d done f b v : blank cls done b -> proper_names d -> incl done (cd_fields d) -> In f done -> is_local f = true ->
    blank cls done (set_attr (fl_ref f) v b).
  Proof.
    intros [C N M MF Pr U Op L F A] [Nd Rf] Inc I Lf. constructor; cbn; auto.
    - intros g G K. destruct (String.eqb_spec (fl_name g) (fl_ref f)) as [E |]; [| auto].
      exfalso. apply (Rf f g (Inc f I) (Inc g G) Lf). symmetry. exact E.
    - intros n v'. destruct (String.eqb_spec n (fl_ref f)); [| auto]. intros _. right. exists f. auto.
  Qed.
  Lemma blank_raw cls done b r : blank cls done b -> blank cls done (set_raw r b).
  Proof. intros [C N M MF Pr U Op L F A]. constructor; auto. Qed.
  Lemma blank_lkeys cls done f b : blank cls done b -> In f done -> is_local f = true ->
    blank cls done (set_lkeys (sset (fl_ref f) (fl_name f) (o_lkeys b)) b).
  Proof.
    intros [C N M MF Pr U Op L F A] I Lf. constructor; cbn; auto.
    intros k n. rewrite sget_sset. destruct (String.eqb_spec k (fl_ref f)); [| auto].
    intros H. injection H as <-. exists f. auto.
  Qed.
  Lemma upd_same o F h : h_obj (upd o F h) o = F (h_obj h o).
  Proof. unfold upd. cbn. rewrite Nat.eqb_refl. reflexivity. Qed.

  (** all but [f] done: the object before its field [f] is set *)
  Lemma blank_more cls d done rest f b : blank cls done b -> cd_fields d = done ++ f :: rest -> proper_names d -> is_calc f = false ->
    blank cls (done ++ [f]) (set_attr (fl_name f) VNone b).
  Proof.
    intros [C N M MF Pr U Op L F A] E [Nd Rf] K. constructor; cbn; auto.
    - intros k n H. destruct (L k n H) as (g & G & R). exists g. split; [apply in_app_iff; auto | exact R].
    - intros g G Kg. destruct (String.eqb_spec (fl_name g) (fl_name f)) as [| Ne]; [reflexivity |].
      apply in_app_iff in G. destruct G as [G | [-> | []]]; [auto | congruence].
    - intros n v. destruct (String.eqb_spec n (fl_name f)).
      + intros H. injection H as <-. left. exists f. split; [apply in_app_iff; right; left; reflexivity | auto].
      + intros H. destruct (A n v H) as [(g & G & R) | (g & G & R)]; [left | right]; exists g; (split; [apply in_app_iff; auto | exact R]).
  Qed.
  Lemma blank_calc cls done f b : blank cls done b -> is_calc f = true -> blank cls (done ++ [f]) b.
  Proof.
    intros [C N M MF Pr U Op L F A] K. constructor; auto.
    - intros k n H. destruct (L k n H) as (g & G & R). exists g. split; [apply in_app_iff; auto | exact R].
    - intros g G Kg. apply in_app_iff in G. destruct G as [G | [-> | []]]; [auto | congruence].
    - intros n v H. destruct (A n v H) as [(g & G & R) | (g & G & R)]; [left | right]; exists g; (split; [apply in_app_iff; auto | exact R]).
  Qed.
  Lemma blank_unset cls d done rest f b : blank cls done b -> cd_fields d = done ++ f :: rest -> proper_names d ->
    o_attr b (fl_name f) = None /\ sget (fl_name f) (o_lkeys b) = None.
  Proof.
    intros [C N M MF Pr U Op L F A] E [Nd Rf]. split.
    - destruct (o_attr b (fl_name f)) as [v |] eqn:H; [| reflexivity]. exfalso.
      destruct (A _ _ H) as [(g & G & R & _) | (g & G & Lg & R)].
      + rewrite E, map_app in Nd. cbn in Nd. apply NoDup_remove_2 in Nd. apply Nd, in_app_iff. left. rewrite R. apply in_map, G.
      + apply (Rf g f); [rewrite E; apply in_app_iff; auto | rewrite E; apply in_app_iff; right; left; reflexivity | exact Lg | symmetry; exact R].
    - destruct (sget (fl_name f) (o_lkeys b)) as [n |] eqn:H; [| reflexivity]. exfalso.
      destruct (L _ _ H) as (g & G & Lg & R & _).
      apply (Rf g f); [rewrite E; apply in_app_iff; auto | rewrite E; apply in_app_iff; right; left; reflexivity | exact Lg | symmetry; exact R].
  Qed.

  Lemma init_set n cls d done rest f o h :
    ct cls = Some d -> proper_names d -> cd_fields d = done ++ f :: rest -> is_calc f = false ->
    blank cls done (h_obj h o) ->
    exists h', run ct (p_oeq P) (p_getter P) (p_setter P) (LeafModel.py_str (p_str P)) (S (S n)) (TSet o (fl_name f) VNone) h = (Ok tt, h') /\
               apart o h h' /\ blank cls (done ++ [f]) (h_obj h' o).
  Proof.
    intros D Pn E K B.
    destruct (blank_unset cls d done rest f _ B E Pn) as [Hattr Hlk].
    assert (Hin : In f (cd_fields d)) by (rewrite E; apply in_app_iff; right; left; reflexivity).
    assert (Hof : ofield ct h o (fl_name f) = Some f).
    { unfold ofield, cdef_of. rewrite (bl_class _ _ _ B), D. apply field_named_in; [apply Pn | exact Hin]. }
    cbn [run body]. unfold set_attribute, bind at 1 2, gets at 1 2, local_field_of. rewrite Hlk, Hof.
    unfold set_field. rewrite K. unfold bind at 1 2 3 4, gets. unfold attr. rewrite Hattr, (bl_new _ _ _ B). unfold ret at 1.
    pose proof (blank_more cls d done rest f _ B E Pn K) as B1.
    set (h1 := upd o (set_attr (fl_name f) VNone) h).
    assert (B1' : blank cls (done ++ [f]) (h_obj h1 o)) by (unfold h1; rewrite upd_same; exact B1).
    destruct (is_ref (fl_fdef f)); [| exists h1; split; [reflexivity | split; [apply apart_upd | exact B1']]].
    unfold bind at 1, ret at 1. unfold bind at 1, updm at 1, modify at 1. fold h1.
    assert (St : exists h2, store_local ct o f VNone h1 = (Ok tt, h2) /\ apart o h1 h2 /\ blank cls (done ++ [f]) (h_obj h2 o)).
    { assert (Inc : incl (done ++ [f]) (cd_fields d)).
      { rewrite E. intros x. rewrite !in_app_iff. cbn. intuition. }
      assert (If : In f (done ++ [f])) by (apply in_app_iff; right; left; reflexivity).
      assert (Z : exists h2, @ret heap unit tt h1 = (Ok tt, h2) /\ apart o h1 h2 /\ blank cls (done ++ [f]) (h_obj h2 o)).
      { exists h1. split; [reflexivity | split; [apply apart_refl | exact B1']]. }
      unfold store_local. destruct (is_local f) eqn:Lf; [| exact Z].
      destruct (f_ftype (fl_fdef f)) as [[] |]; try exact Z.
      - eexists. split; [reflexivity |]. split; [apply apart_upd |]. rewrite upd_same. unfold store_keys.
        apply blank_raw. apply (blank_ref cls d); assumption.
      - eexists. split; [reflexivity |]. split; [apply apart_upd |]. rewrite upd_same. apply (blank_ref cls d); assumption. }
    destruct St as (h2 & St & A2 & B2). unfold bind at 1. rewrite St.
    exists h2. split; [apply link_none |]. split; [eapply apart_trans; [apply apart_upd | exact A2] | exact B2].
  Qed.

  Lemma init_field_ok cls d done rest f o w :
    (2 <= p_lim P)%nat -> ct cls = Some d -> proper_names d -> cd_fields d = done ++ f :: rest ->
    blank cls done (wobj w o) ->
    exists h', init_field P o f w = (Ok tt, set_heap h' w) /\ apart o (w_heap w) h' /\ blank cls (done ++ [f]) (h_obj h' o).
  Proof.
    intros Lim D Pn E B. unfold init_field.
    assert (Inc : incl (done ++ [f]) (cd_fields d)).
    { rewrite E. intros x. rewrite !in_app_iff. cbn. intuition. }
    assert (If : In f (done ++ [f])) by (apply in_app_iff; right; left; reflexivity).
    destruct (is_calc f) eqn:K.
    - rewrite (calc_not_local f K). exists (w_heap w). split; [destruct w; reflexivity |].
      split; [apply apart_refl | apply blank_calc; assumption].
    - destruct (p_lim P) as [| [| n]] eqn:El; [lia | lia |].
      destruct (init_set n cls d done rest f o (w_heap w) D Pn E K B) as (h1 & R1 & A1 & B1).
      unfold bind at 1, setattr, liftH at 1. rewrite El, R1.
      destruct (is_local f) eqn:Lf; [| exists h1; split; [reflexivity | split; assumption]].
      eexists. unfold liftH, updm, modify. cbn [w_heap set_heap]. split; [reflexivity |].
      split; [eapply apart_trans; [exact A1 | apply apart_upd] |]. rewrite upd_same.
      assert (B2 : blank cls (done ++ [f]) (set_attr (fl_ref f) (if is_list_field f then VList [] else VNone) (h_obj h1 o)))
        by (apply (blank_ref cls d); assumption).
      apply (blank_lkeys _ _ f _ B2 If Lf).
  Qed.

  Lemma init_fields_ok cls d o : (2 <= p_lim P)%nat -> ct cls = Some d -> proper_names d ->
    forall rest done w, cd_fields d = done ++ rest -> blank cls done (wobj w o) ->
    exists h', for_st rest (init_field P o) w = (Ok tt, set_heap h' w) /\ apart o (w_heap w) h' /\ blank cls (cd_fields d) (h_obj h' o).
  Proof.
    intros Lim D Pn. induction rest as [| f rest IH]; intros done w E B.
    - exists (w_heap w). split; [destruct w; reflexivity |]. split; [apply apart_refl |]. rewrite E, app_nil_r. exact B.
    - destruct (init_field_ok cls d done rest f o w Lim D Pn E B) as (h1 & R & A & B1).
      destruct (IH (done ++ [f]) (set_heap h1 w)) as (h2 & R2 & A2 & B2).
      { rewrite E, <- app_assoc. reflexivity. }
      { exact B1. }
      exists h2. cbn [for_st]. rewrite (bind_eq _ _ w tt (set_heap h1 w) R). split; [exact R2 |].
      split; [eapply apart_trans; eassumption | exact B2].
  Qed.

  (** allocation *)
  Lemma alloc_ok cls w : let '(o, w1) := alloc cls w in
    o = h_next (w_heap w) /\ h_obj (w_heap w1) o = fresh_obj cls /\
    (forall x, x <> o -> h_obj (w_heap w1) x = h_obj (w_heap w) x) /\ h_next (w_heap w1) = S o /\
    w_mg w1 = w_mg w /\ w_log w1 = w_log w /\ (forall x, x <> o -> w_ext w1 x = w_ext w x) /\ w_ext w1 o = ext0.
  Proof.
    unfold alloc. destruct (new_graph (h_graph (w_heap w)) []) as [i g]. cbn. rewrite !Nat.eqb_refl.
    repeat split; intros x N; destruct (Nat.eqb_spec x (h_next (w_heap w))); congruence.
  Qed.
  Lemma fresh_blank cls : blank cls [] (fresh_obj cls).
  Proof. constructor; cbn; auto; try discriminate; intros f []. Qed.
End Init.
