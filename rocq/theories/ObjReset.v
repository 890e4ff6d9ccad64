(** ObjReset.v -- what the record of previous values holds, and what reset restores. *)
From Verif Require Import Base Mon PyList PyDict StrDict OListModel ODictModel KeypathModel
  Values OGraphModel TypesModel ObjModel ObjSpec ObjList ObjTrack.
Open Scope Z_scope.

(** ** What [has_linked] says *)
Lemma define_item m d :
  f_item (define m d) = match m with MListOf it | MDictOf it => Some it | _ => f_item d end.
Proof.
  destruct m; try reflexivity; cbn [define];
    repeat match goal with
    | |- context [match ?x with _ => _ end] => destruct x; try reflexivity
    end;
    unfold link_list_nonnull, nonnull_if_undefined, default_nullify, add_input;
    repeat match goal with
    | |- context [if ?x then _ else _] => destruct x; try reflexivity
    | |- context [match ?x with _ => _ end] => destruct x; try reflexivity
    end.
Qed.

Lemma depth_cons m ts : types_depth (m :: ts) = Nat.max (mod_depth m) (types_depth ts).
Proof. reflexivity. Qed.

Lemma item_depth ts : forall d it,
  f_item (fold_left (fun d m => define m d) ts d) = Some it ->
  f_item d = Some it \/ (types_depth it < types_depth ts)%nat.
Proof.
  induction ts as [| m ts IH]; intros d it H; [left; exact H |]. rewrite depth_cons.
  cbn [fold_left] in H. destruct (IH _ _ H) as [E | L]; [| right; lia].
  rewrite define_item in E. destruct m; try (left; exact E); inversion E; subst; right;
    cbn [mod_depth]; unfold types_depth at 1; lia.
Qed.

Lemma depth_app a b : types_depth (a ++ b) = Nat.max (types_depth a) (types_depth b).
Proof. induction a as [| m a IH]; [reflexivity |]. cbn [app]. rewrite !depth_cons, IH. lia. Qed.

Lemma has_linked_iff n : forall ts, (types_depth ts <= n)%nat ->
  (has_linked n (fdef_of ts) = true <-> relates (fdef_of ts)).
Proof.
  induction n as [| n IH]; intros ts Hn.
  - assert (F : f_item (fdef_of ts) = None).
    { destruct (f_item (fdef_of ts)) as [it |] eqn:E; [| reflexivity].
      destruct (item_depth ts fdef0 it E) as [X | X]; [discriminate X | lia]. }
    split.
    + intros H. apply rel_here. cbn [has_linked] in H.
      destruct (f_fstore (fdef_of ts)); auto; destruct (f_ftype (fdef_of ts)) as [[] |]; discriminate H.
    + intros H. inversion H as [d [E | E] | d it E1 E2 E3]; cbn [has_linked]; [rewrite E; reflexivity .. |].
      unfold item_types in E2. rewrite F in E2. discriminate E2.
  - split.
    + intros H. cbn [has_linked] in H.
      destruct (f_fstore (fdef_of ts)) eqn:Es; try (apply rel_here; auto; fail);
      (destruct (f_ftype (fdef_of ts)) as [[] |] eqn:Et; try discriminate H;
       destruct (item_types (fdef_of ts)) as [it |] eqn:Ei; [| discriminate H];
       apply (rel_items _ it Et Ei); apply IH; [| exact H];
       unfold item_types in Ei; destruct (f_item (fdef_of ts)) as [i |] eqn:Ej; [| discriminate Ei];
       destruct (item_depth ts fdef0 i Ej) as [X | X]; [discriminate X |];
       destruct (f_item_null (fdef_of i)); inversion Ei; subst; rewrite ?depth_app; cbn [types_depth fold_right mod_depth]; lia).
    + intros H. inversion H as [d [E | E] | d it E1 E2 E3]; cbn [has_linked]; [rewrite E; reflexivity .. |].
      rewrite E1, E2. subst d. destruct (f_fstore (fdef_of ts)); try reflexivity; apply IH; try exact E3;
       unfold item_types in E2; destruct (f_item (fdef_of ts)) as [i |] eqn:Ej; try discriminate E2;
       (destruct (item_depth ts fdef0 i Ej) as [X | X]; [discriminate X |]);
       destruct (f_item_null (fdef_of i)); inversion E2; subst; rewrite ?depth_app; cbn [types_depth fold_right mod_depth]; lia.
Qed.

Lemma not_linked f : ~ relates (fl_fdef f) -> has_linked (types_depth (fl_types f)) (fl_fdef f) = false.
Proof.
  intros H. destruct (has_linked _ _) eqn:E; [| reflexivity]. exfalso. apply H.
  apply (has_linked_iff _ (fl_types f) (le_n _)). exact E.
Qed.
Lemma linked_not f : has_linked (types_depth (fl_types f)) (fl_fdef f) = false -> ~ relates (fl_fdef f).
Proof.
  intros E H. apply (has_linked_iff _ (fl_types f) (le_n _)) in H. unfold fl_fdef in *. congruence.
Qed.

Lemma owned_step_will (eqb : value -> value -> bool) op l r l' es :
  owned_step eqb op l = (r, l', es) -> existsb is_will es = true \/ (l' = l /\ es = []).
Proof.
  destruct op as [y|it|i y|y|le| |i| |it|n|i y|s it| |i|s| ]; cbn [owned_step]; intros H;
    try (inversion H; subst; first [left; reflexivity | right; split; reflexivity]).
  - unfold o_extend in H. destruct it as [xs| |xs| ]; cbn [iter_items iter_again iter_len rbind] in H;
      inversion H; subst; clear H; try (right; split; reflexivity).
    + destruct xs; [right; split; [apply app_nil_r | reflexivity] | left; reflexivity].
    + destruct l; [right; split; reflexivity | left; reflexivity].
  - unfold o_remove in H. destruct (py_remove eqb y l); inversion H; left; reflexivity.
  - unfold o_pop in H. destruct (py_pop i l) as [[y l2] | e2]; inversion H; left; reflexivity.
  - unfold o_iadd in H. destruct it as [xs| |xs| ]; cbn [iter_items iter_again iter_len rbind] in H;
      inversion H; subst; clear H; try (right; split; reflexivity).
    + destruct xs; [right; split; [apply app_nil_r | reflexivity] | left; reflexivity].
    + destruct l; [right; split; reflexivity | left; reflexivity].
  - unfold o_imul, py_imul in H. destruct (n <=? 0) eqn:E1; [| destruct (n =? 1) eqn:E2];
      inversion H; subst; clear H.
    + replace (Z.to_nat n) with 0%nat by lia. cbn [repeat_list].
      destruct l; [right; split; reflexivity | left; reflexivity].
    + replace (Z.to_nat n) with 1%nat by lia. cbn [repeat_list]. right.
      split; [apply app_nil_r | reflexivity].
    + destruct l as [| x l].
      * right.
        assert (Hr : forall k, repeat_list k (@nil value) = []) by (induction k as [| k IH]; [reflexivity | exact IH]).
        split; [apply Hr |]. rewrite Hr. reflexivity.
      * left. destruct (Z.to_nat (n - 1)) eqn:En; [lia | reflexivity].
  - unfold o_setint in H. destruct (py_set i y l); inversion H; left; reflexivity.
  - unfold o_setslice in H. destruct (py_getslice s l); [| inversion H; right; split; reflexivity].
    destruct (let* xs := iter_items l it in py_setslice s xs l); inversion H; left; reflexivity.
  - unfold o_delint in H. destruct (py_del i l); inversion H; left; reflexivity.
  - unfold o_delslice in H. destruct (py_getslice s l); [| inversion H; right; split; reflexivity].
    destruct (py_delslice s l); inversion H; left; reflexivity.
Qed.

Lemma owned_dstep_will op d r d' es :
  owned_dstep String.eqb VNone op d = (r, d', es) -> silent_dict op = false ->
  existsb is_dwill es = true \/ (d' = d /\ es = []).
Proof.
  destruct op as [k v | k | k dflt | | | k dflt | a kw | | a | ]; cbn [owned_dstep silent_dict]; intros H Hs;
    try (inversion H; subst; first [left; reflexivity | right; split; reflexivity]).
  - unfold od_delitem in H. destruct (dget String.eqb k d); inversion H; left; reflexivity.
  - unfold od_pop in H. destruct (dget String.eqb k d); [| destruct dflt]; inversion H; left; reflexivity.
  - unfold od_popitem in H. destruct (last_item d) as [[k v] |]; inversion H; left; reflexivity.
  - destruct dflt as [x |]; [| discriminate Hs]. unfold od_setdefault, dmem in H.
    destruct (dget String.eqb k d); inversion H; subst; [right; split; reflexivity | left; reflexivity].
  - unfold od_update in H. destruct a as [[ps | ps | ps | ] |]; inversion H; subst;
      first [left; reflexivity | right; split; reflexivity].
  - unfold od_ior in H. destruct a as [ps | ps | ps | ]; inversion H; subst;
      first [left; reflexivity | right; split; reflexivity].
Qed.

Lemma smem_app {V} k (l : list (string * V)) x v :
  smem k (l ++ [(x, v)]) = smem k l || String.eqb k x.
Proof.
  unfold smem, dmem. induction l as [| [y w] l IH]; cbn; [destruct (String.eqb k x); reflexivity |].
  destruct (String.eqb k y); [reflexivity | exact IH].
Qed.

Lemma smem_in {V} k (l : list (string * V)) : smem k l = true <-> In k (map fst l).
Proof.
  unfold smem, dmem. induction l as [| [y w] l IH]; cbn; [split; [discriminate | intros []] |].
  destruct (String.eqb k y) eqn:E.
  - apply String.eqb_eq in E. split; [intros _; left; congruence | reflexivity].
  - rewrite IH. split; [intros H; right; exact H |]. intros [H | H]; [| exact H].
    subst. rewrite String.eqb_refl in E. discriminate E.
Qed.

Section Reset.
  Context (ct : string -> option cdef)
          (oeq : heap -> Values.oid -> Values.oid -> bool)
          (getter : heap -> Values.oid -> string -> res value)
          (setter : Values.oid -> string -> value -> st heap unit)
          (pystr : value -> string).
  Hypothesis wf : wf_classes ct.
  Context (h0 : heap) (o : Values.oid).
  Hypothesis typed0 : typed_heap ct h0.
  Hypothesis enabled : cd_reset_all (cdef_of ct h0 o) = true.

  Notation ofield := (ofield ct).

  (** What holds of [o] at every moment after it was persisted with the values of [h0] *)
  Record kept (b : obj) : Prop := {
    kp_new : o_new b = false;
    kp_val : forall k f, ofield h0 o k = Some f -> plain_field f = true ->
      exists v, o_attr b k = Some v /\ fits f v /\ (attr h0 o k = Some v \/ smem k (o_prev b) = true);
    kp_prev : forall k v, In (k, v) (o_prev b) ->
      exists f, ofield h0 o k = Some f /\ plain_field f = true /\ attr h0 o k = Some v;
    kp_nodup : NoDup (map fst (o_prev b));
    kp_rec : o_prev b = [] -> o_mfields b = [] /\ o_modified b = false
  }.

  Definition frame (h : heap) : Prop :=
    forall x, o_class (h_obj h x) = o_class (h_obj h0 x) /\ o_lkeys (h_obj h x) = o_lkeys (h_obj h0 x) /\
              o_raw (h_obj h x) = o_raw (h_obj h0 x).
  Definition inv (h : heap) : Prop := frame h /\ kept (h_obj h o).
  (** attribute [a] of object [x] has been recorded, if [x] is [o] *)
  Definition recorded (x : Values.oid) (a : string) (h : heap) : Prop :=
    inv h /\ (x = o -> smem a (o_prev (h_obj h o)) = true).

  Lemma frame_ofield h x n : frame h -> ofield h x n = ofield h0 x n.
  Proof. intros F. apply ofield_class. apply F. Qed.
  Lemma frame_cdef h x : frame h -> cdef_of ct h x = cdef_of ct h0 x.
  Proof. intros F. unfold cdef_of. rewrite (proj1 (F x)). reflexivity. Qed.

  Lemma frame_upd h x g :
    frame h -> (forall b, o_class (g b) = o_class b /\ o_lkeys (g b) = o_lkeys b /\ o_raw (g b) = o_raw b) ->
    frame (upd x g h).
  Proof.
    intros F G y. unfold upd; cbn [h_obj]. destruct (Nat.eqb y x) eqn:E; [| apply F].
    apply Nat.eqb_eq in E. subst. destruct (G (h_obj h x)) as (G1 & G2 & G3).
    rewrite G1, G2, G3. apply F.
  Qed.

  Lemma upd_self h x g : h_obj (upd x g h) x = g (h_obj h x).
  Proof. unfold upd; cbn. rewrite Nat.eqb_refl. reflexivity. Qed.
  Lemma upd_other h x y g : y <> x -> h_obj (upd x g h) y = h_obj h y.
  Proof. intros N. unfold upd; cbn. destruct (Nat.eqb_spec y x); [contradiction | reflexivity]. Qed.

  Lemma inv_upd h x g :
    inv h -> (forall b, o_class (g b) = o_class b /\ o_lkeys (g b) = o_lkeys b /\ o_raw (g b) = o_raw b) ->
    (x = o -> kept (h_obj h o) -> kept (g (h_obj h o))) -> inv (upd x g h).
  Proof.
    intros [F K] G P. split; [apply frame_upd; assumption |].
    destruct (Nat.eq_dec o x) as [<- | N]; [rewrite upd_self; auto | rewrite upd_other; assumption].
  Qed.

  Lemma plain_not_key h x k f : frame h -> ofield h0 x k = Some f -> local_field_of h x k = None.
  Proof.
    intros F Hf. unfold local_field_of. rewrite (proj1 (proj2 (F x))).
    destruct (sget k (o_lkeys (h_obj h0 x))) as [m |] eqn:E; [| reflexivity].
    exfalso. destruct (th_keys _ _ typed0 x k m E) as (g & Hg & Hl & Hr).
    pose proof (ofield_ref ct wf h0 x m g Hg Hl) as HN. rewrite Hr, Hf in HN. discriminate HN.
  Qed.

  Lemma label_not_key h x a lab f :
    frame h -> ofield h0 x a = Some f -> initial_keypath lab = a -> local_field_of h x lab = None.
  Proof.
    intros F Hf Hl. unfold local_field_of. rewrite (proj1 (proj2 (F x))).
    destruct (sget lab (o_lkeys (h_obj h0 x))) as [m |] eqn:E; [| reflexivity].
    exfalso. destruct (th_keys _ _ typed0 x lab m E) as (g & Hg & Hlg & Hr).
    pose proof (ofield_ref ct wf h0 x m g Hg Hlg) as HN.
    destruct (ofield_in ct wf h0 x m g Hg) as (d & _ & Hin & _ & W).
    pose proof (wf_refdot _ _ _ W g Hin) as HD. rewrite Hr in HD. rewrite HD in Hl. subst a.
    rewrite Hr in HN. congruence.
  Qed.

  Lemma label_field h x a lab f g :
    frame h -> ofield h0 x a = Some f -> initial_keypath lab = a -> ofield h x lab = Some g -> g = f.
  Proof.
    intros F Hf Hl Hg. rewrite (frame_ofield h x lab F) in Hg.
    destruct (ofield_in ct wf h0 x lab g Hg) as (d & _ & Hin & Hn & W).
    pose proof (wf_nodot _ _ _ W g Hin) as HD. rewrite Hn in HD. congruence.
  Qed.

  Lemma not_raw h x a f : frame h -> ofield h0 x a = Some f -> sinb a (o_raw (h_obj h x)) = false.
  Proof.
    intros F Hf. rewrite (proj2 (proj2 (F x))).
    destruct (sinb a (o_raw (h_obj h0 x))) eqn:E; [| reflexivity].
    exfalso. apply sinb_In in E. pose proof (th_raw _ _ typed0 x a E) as K. congruence.
  Qed.

  Lemma plain_facts f : plain_field f = true -> is_ref (fl_fdef f) = false /\ is_calc f = false.
  Proof.
    unfold plain_field. intros H. apply andb_true_iff in H. destruct H as [H1 H2].
    apply negb_true_iff in H1, H2. split; assumption.
  Qed.

  (** ** Single steps *)
  Lemma kept_mark b k : kept b -> o_prev b <> [] ->
    kept (if o_new b then b else set_mfields (sadd k (o_mfields b)) (set_modified true b)).
  Proof.
    intros K HN. destruct (o_new b) eqn:En; [exact K |]. destruct K.
    constructor; auto. intros HP. contradiction.
  Qed.

  Lemma mark_recorded x a k h : recorded x a h -> recorded x a (snd (mark x k h)).
  Proof.
    intros [I R]. unfold mark, updm, modify. cbn [snd]. split.
    - apply inv_upd; [exact I | |].
      + intros b. destruct (o_new b); repeat split.
      + intros -> K. apply kept_mark; [exact K |]. specialize (R eq_refl).
        intros HP. rewrite HP in R. discriminate R.
    - intros ->. specialize (R eq_refl). rewrite upd_self. destruct (o_new (h_obj h o)); exact R.
  Qed.

  Lemma kept_remember b name v :
    kept b -> smem name (o_prev b) = false -> (exists f, ofield h0 o name = Some f /\ plain_field f = true) ->
    attr h0 o name = Some v ->
    kept (set_prev (o_prev b ++ [(name, v)]) b).
  Proof.
    intros K HN (f & Hf & Hp) Hv. destruct K. constructor; cbn [o_new o_attr o_prev o_mfields o_modified set_prev]; auto.
    - intros k g Hg Hpg. destruct (kp_val0 k g Hg Hpg) as (w & H1 & H2 & H3). exists w.
      split; [exact H1 | split; [exact H2 |]]. destruct H3 as [H3 | H3]; [left; exact H3 |].
      right. rewrite smem_app, H3. reflexivity.
    - intros k w Hin. apply in_app_or in Hin. destruct Hin as [Hin | [Hin | []]]; [apply kp_prev0; exact Hin |].
      inversion Hin; subst. exists f. auto.
    - rewrite map_app. cbn. apply (Permutation_NoDup (Permutation_cons_append _ _)).
      constructor; [| exact kp_nodup0]. intros Hin. apply smem_in in Hin. congruence.
    - intros HP. destruct (o_prev b); discriminate HP.
  Qed.

  (** Warning the owner records the value *)
  Lemma record_previous_ok x a f h :
    inv h -> ofield h0 x a = Some f -> plain_field f = true ->
    ~ relates (fl_fdef f) ->
    (exists v, attr h x a = Some v /\ match v with VList _ | VDict _ => True | _ => False end) ->
    recorded x a (snd (record_previous ct getter x f h)) /\
    (forall y n, attr (snd (record_previous ct getter x f h)) y n = attr h y n).
  Proof.
    intros I Hf Hp Hl (v & Hv & Hk).
    assert (Hname : fl_name f = a) by (destruct (ofield_in ct wf _ _ _ _ Hf) as (d & _ & _ & Hn & _); exact Hn).
    destruct (plain_facts f Hp) as [Href Hcalc].
    set (Q := fun p : res unit * heap => recorded x a (snd p) /\ (forall y n, attr (snd p) y n = attr h y n)).
    change (Q (record_previous ct getter x f h)).
    unfold record_previous, bind at 1, gets at 1.
    destruct (resettable ct h x f) eqn:Er.
    2:{ split; [| reflexivity]. split; [exact I |]. intros ->.
        exfalso. unfold resettable in Er. rewrite (frame_cdef h o (proj1 I)), enabled in Er. discriminate Er. }
    rewrite (not_linked f Hl). unfold bind at 1, gets at 1. rewrite Hname.
    destruct (smem a (o_prev (h_obj h x))) eqn:Ek.
    { split; [| reflexivity]. split; [exact I |]. intros ->. exact Ek. }
    assert (Hga : getattr ct getter x a h = (Ok v, h)).
    { unfold getattr. rewrite (frame_ofield h x a (proj1 I)), Hf, Hcalc, Hv. reflexivity. }
    assert (G : forall c, (x = o -> c = v) -> Q (remember x a c h)).
    { intros c Hc. unfold Q, remember, updm, modify. cbn [fst snd].
      assert (HI : inv (upd x (fun b => if smem a (o_prev b) then b else set_prev (o_prev b ++ [(a, c)]) b) h)).
      { apply inv_upd; [exact I | |].
        - intros b. destruct (smem a (o_prev b)); repeat split.
        - intros -> K. rewrite Ek. apply kept_remember; [exact K | exact Ek | exists f; auto |].
          destruct (kp_val _ K a f Hf Hp) as (w & W1 & _ & W3). unfold attr in Hv. rewrite W1 in Hv.
          inversion Hv; subst w. rewrite (Hc eq_refl). destruct W3 as [W3 | W3]; [exact W3 | congruence]. }
      split.
      - split; [exact HI |]. intros ->. rewrite upd_self, Ek. cbn. rewrite smem_app, String.eqb_refl.
        apply orb_true_r.
      - intros y n. unfold attr. destruct (Nat.eq_dec y x) as [-> | N]; [rewrite upd_self, Ek | rewrite upd_other by exact N]; reflexivity. }
    assert (Hfit : x = o -> fits f v).
    { intros ->. destruct I as [_ K]. destruct (kp_val _ K a f Hf Hp) as (w & W1 & W2 & _).
      unfold attr in Hv. rewrite W1 in Hv. inversion Hv; subst w. exact W2. }
    assert (Hnone : match f_ftype (fl_fdef f) with Some FTDict | Some FTList => False | _ => True end -> x = o -> False).
    { intros HT HX. specialize (Hfit HX). destruct v; try contradiction Hk; cbn in Hfit; rewrite Hfit in HT; exact HT. }
    destruct (f_ftype (fl_fdef f)) as [[] |] eqn:Et;
      try (split; [| reflexivity]; split; [exact I |];
           intros HX; exfalso; apply (Hnone Logic.I HX)).
    - unfold bind at 1. rewrite Hga. unfold bind, lift, copy_for. rewrite Et.
      destruct v; try contradiction Hk.
      + apply (G (VList l)). intros _; reflexivity.
      + apply G. intros HX. specialize (Hfit HX). cbn in Hfit. congruence.
    - unfold bind at 1. rewrite Hga. unfold bind, lift, copy_for. rewrite Et.
      destruct v; try contradiction Hk.
      + split; [| reflexivity]. split; [exact I |]. intros HX. specialize (Hfit HX). cbn in Hfit. congruence.
      + apply (G (VDict d)). intros _; reflexivity.
  Qed.

  (** ** Changing a recorded attribute *)
  Lemma kept_change b a f v :
    kept b -> ofield h0 o a = Some f -> fits f v -> smem a (o_prev b) = true ->
    kept (set_attr a v b).
  Proof.
    intros K Hf Hv Hm. destruct K. constructor; cbn [o_new o_attr o_prev o_mfields o_modified set_attr]; auto.
    intros k g Hg Hpg. destruct (String.eqb k a) eqn:E.
    - apply String.eqb_eq in E. subst k. rewrite Hf in Hg. inversion Hg; subst g.
      exists v. split; [reflexivity | split; [exact Hv | right; exact Hm]].
    - apply (kp_val0 k g Hg Hpg).
  Qed.

  Lemma vput_fits f p c v :
    fits f v -> (exists w, vget p v = Some w /\ match w, c with VList _, VList _ | VDict _, VDict _ => True | _, _ => False end) ->
    fits f (vput p c v).
  Proof.
    destruct p as [| [i | k] p]; cbn; intros F (w & Hw & Hk).
    - inversion Hw; subst w. destruct v, c; try contradiction Hk; exact F.
    - destruct v; try discriminate Hw. destruct (nth_error l i); [exact F | discriminate Hw].
    - destruct v; try discriminate Hw. destruct (sget k d); [exact F | discriminate Hw].
  Qed.

  Lemma put_at_recorded x a p f w c h :
    recorded x a h -> ofield h0 x a = Some f -> plain_field f = true ->
    attr_at h x a p = Some w -> match w, c with VList _, VList _ | VDict _, VDict _ => True | _, _ => False end ->
    recorded x a (put_at x a p c h).
  Proof.
    intros [I R] Hf Hp Hw Hk. unfold put_at. unfold attr_at in Hw.
    destruct (attr h x a) as [v |] eqn:Ev; [| discriminate Hw]. split.
    - apply inv_upd; [exact I | intros b; repeat split |]. intros -> K.
      apply (kept_change _ a f); [exact K | exact Hf | | apply R; reflexivity].
      destruct (kp_val _ K a f Hf Hp) as (v' & V1 & V2 & _). unfold attr in Ev. rewrite V1 in Ev.
      inversion Ev; subst v'. apply vput_fits; [exact V2 | exists w; auto].
    - intros ->. rewrite upd_self. apply R. reflexivity.
  Qed.

  Lemma vput_same p v w : vget p v = Some w -> vput p w v = v.
  Proof.
    revert v. induction p as [| [i | k] p IH]; cbn; intros v H; [inversion H; reflexivity | |].
    - destruct v; try reflexivity. destruct (nth_error l i) as [x |] eqn:E; [| discriminate H].
      rewrite (IH x H). f_equal. revert i E. induction l as [| y l IHl]; intros [| i] E; try discriminate E; cbn.
      + inversion E. reflexivity.
      + cbn in E. rewrite (IHl i E). reflexivity.
    - destruct v; try reflexivity. destruct (sget k d) as [x |] eqn:E; [| discriminate H].
      rewrite (IH x H). f_equal. unfold sget, sset in *. revert E.
      induction d as [| [k' y] d IHd]; intros E; cbn in *; [discriminate E |].
      destruct (String.eqb k k') eqn:Ek.
      + inversion E. apply String.eqb_eq in Ek. subst. reflexivity.
      + rewrite (IHd E). reflexivity.
  Qed.

  Lemma put_at_same x a p w h : inv h -> attr_at h x a p = Some w -> inv (put_at x a p w h).
  Proof.
    intros I Hw. unfold put_at, attr_at in *. destruct (attr h x a) as [v |] eqn:Ev; [| discriminate Hw].
    apply inv_upd; [exact I | intros b; repeat split |]. intros -> K. rewrite (vput_same _ _ _ Hw).
    destruct K. constructor; cbn [o_new o_attr o_prev o_mfields o_modified set_attr]; auto.
    intros k g Hg Hpg. destruct (String.eqb k a) eqn:E; [| apply (kp_val0 k g Hg Hpg)].
    apply String.eqb_eq in E. subst k. destruct (kp_val0 a g Hg Hpg) as (u & U1 & U2).
    unfold attr in Ev. rewrite U1 in Ev. inversion Ev; subst u. exists v. auto.
  Qed.

  (** ** All tasks on plain data *)
  Lemma run_data n : forall t h, inv h -> data_task ct h0 t ->
    inv (snd (run ct oeq getter setter pystr n t h)) /\
    match t with
    | TOp x a _ _ _ | TDOp x a _ _ _ => recorded x a h -> recorded x a (snd (run ct oeq getter setter pystr n t h))
    | _ => True
    end.
  Proof.
    induction n as [| n IH]; intros t h I D; [split; [exact I |]; destruct t; auto |].
    cbn [run]. destruct t as [x name v | x f v | x f v | x a p lab op | x a p lab op]; cbn [body]; try contradiction D.
    - split; [| exact Logic.I]. destruct D as (f & Hf & Hp & Hv).
      destruct (plain_facts f Hp) as [Href Hcalc].
      assert (Hname : fl_name f = name) by (destruct (ofield_in ct wf _ _ _ _ Hf) as (d & _ & _ & Hn & _); exact Hn).
      unfold set_attribute, bind at 1, gets at 1. rewrite (plain_not_key h x name f (proj1 I) Hf).
      unfold bind at 1, gets at 1. rewrite (frame_ofield h x name (proj1 I)), Hf.
      unfold set_field. rewrite Hcalc, Href, Hname. unfold bind at 1, gets at 1. unfold bind at 1, gets at 1.
      destruct (match attr h x name with Some c => eqv oeq h v c | None => false end); [exact I |].
      unfold bind at 1, gets at 1.
      assert (FX : forall hh, frame hh -> frame (upd x (set_attr name v) hh)).
      { intros hh F. apply frame_upd; [exact F | intros b; repeat split]. }
      destruct (Nat.eq_dec x o) as [-> | N].
      + destruct I as [F K]. pose proof (kp_new _ K) as Hnew. rewrite Hnew.
        destruct (kp_val _ K name f Hf Hp) as (c & C1 & C2 & C3).
        unfold mark, updm, modify, bind, gets. 
        assert (Hr : forall hh, frame hh -> resettable ct hh o f = true).
        { intros hh FF. unfold resettable. rewrite (frame_cdef hh o FF), enabled. reflexivity. }
        set (h1 := upd o _ h).
        assert (F1 : frame h1).
        { apply frame_upd; [exact F |]. intros b. destruct (o_new b); repeat split. }
        assert (H1 : h_obj h1 o = set_mfields (sadd name (o_mfields (h_obj h o))) (set_modified true (h_obj h o))).
        { unfold h1. rewrite upd_self, Hnew. reflexivity. }
        rewrite (Hr h1 F1).
        destruct (smem name (o_prev (h_obj h1 o))) eqn:Em.
        * cbn [ret snd]. split; [apply FX; exact F1 |]. rewrite upd_self.
          rewrite H1 in Em. cbn in Em.
          apply (kept_change _ name f); [| exact Hf | exact Hv | rewrite H1; exact Em].
          rewrite H1. pose proof (kept_mark _ name K) as KM. rewrite Hnew in KM. apply KM.
          intros HP. rewrite HP in Em. discriminate Em.
        * assert (Hga : getattr ct getter o name h1 = (Ok c, h1)).
          { unfold getattr. rewrite (frame_ofield h1 o name F1), Hf, Hcalc. unfold attr. rewrite H1. cbn.
            rewrite C1. reflexivity. }
          rewrite Hga. unfold remember, updm, modify. cbn [snd]. 
          split; [apply FX, frame_upd; [exact F1 | intros b; destruct (smem name (o_prev b)); repeat split] |].
          rewrite !upd_self, Em. rewrite H1 in Em |- *. cbn in Em. cbn [o_prev set_mfields set_modified].
          assert (Hc0 : attr h0 o name = Some c) by (destruct C3 as [C3 | C3]; [exact C3 | congruence]).
          apply (kept_change _ name f); [| exact Hf | exact Hv |].
          2:{ cbn. rewrite smem_app, String.eqb_refl. apply orb_true_r. }
          pose proof (kept_remember _ name c K Em (ex_intro _ f (conj Hf Hp)) Hc0) as KR.
          pose proof (kept_mark _ name KR) as KM. cbn in KM. rewrite Hnew in KM. apply KM.
          destruct (o_prev (h_obj h o)); discriminate.
      + assert (G : forall p : res unit * heap,
                  (frame (snd p) /\ h_obj (snd p) o = h_obj h o) -> inv (snd p)).
        { intros p [G1 G2]. split; [exact G1 | rewrite G2; apply I]. }
        apply G. unfold bind, mark, updm, modify, gets, remember, ret.
        destruct I as [F _].
        assert (UX : forall hh g, h_obj hh o = h_obj h o -> h_obj (upd x g hh) o = h_obj h o).
        { intros hh g Hh. rewrite upd_other by congruence. exact Hh. }
        destruct (o_new (h_obj h x)); [split; [apply FX; exact F | apply UX; reflexivity] |].
        set (h1 := upd x _ h).
        assert (F1 : frame h1) by (apply frame_upd; [exact F |]; intros b; destruct (o_new b); repeat split).
        assert (H1 : h_obj h1 o = h_obj h o) by (apply UX; reflexivity).
        destruct (resettable ct h1 x f); [| split; [apply FX; exact F1 | apply UX; exact H1]].
        destruct (smem name (o_prev (h_obj h1 x))); [split; [apply FX; exact F1 | apply UX; exact H1] |].
        unfold getattr. rewrite (frame_ofield h1 x name F1), Hf, Hcalc.
        destruct (attr h1 x name) as [w |]; cbn [snd]; [| split; [exact F1 | exact H1]].
        split; [apply FX, frame_upd; [exact F1 |]; intros b; destruct (smem name (o_prev b)); repeat split |].
        apply UX, UX. exact H1.
    - destruct D as (f & Hf & Hp & Hl & Hlab). destruct (plain_facts f Hp) as [Href Hcalc].
      set (Q := fun q : res unit * heap => inv (snd q) /\ (recorded x a h -> recorded x a (snd q))).
      match goal with |- inv (snd ?q) /\ _ => change (Q q) end.
      unfold do_list. destruct (attr_at h x a p) as [[| | | | | | | |l| | |] |] eqn:Ea; try (split; [exact I | auto]; fail).
      rewrite (not_raw h x a f (proj1 I) Hf).
      destruct (owned_step (eqv oeq h) op l) as [[r l'] es] eqn:Es.
      assert (EV : forall e hh, recorded x a hh ->
                recorded x a (snd (list_event ct oeq getter (run ct oeq getter setter pystr n) x a p lab e hh))).
      { intros [[| i y | y |] c] hh R; cbn [list_event fst]; [exact R | | |].
        - unfold olist_add, bind at 1, gets at 1. rewrite (label_not_key hh x a lab f (proj1 (proj1 R)) Hf Hlab).
          unfold bind at 1, gets at 1.
          set (m := match ofield hh x lab with Some _ => _ | None => _ end).
          assert (Hm : m = ret tt).
          { unfold m. destruct (ofield hh x lab) as [g |] eqn:Eg; [| reflexivity].
            rewrite (label_field hh x a lab f g (proj1 (proj1 R)) Hf Hlab Eg), Href. reflexivity. }
          rewrite Hm. unfold bind at 1, ret at 1.
          unfold bind. destruct y; try (apply mark_recorded; exact R);
            match goal with |- context [run _ _ _ _ _ n ?t hh] => 
              assert (HR' : recorded x a (snd (run ct oeq getter setter pystr n t hh)))
                by (apply (IH t hh (proj1 R)); [exists f; auto | exact R]);
              destruct (run ct oeq getter setter pystr n t hh) as [[u | e] h2] end; cbn [snd] in *;
            try (apply mark_recorded; exact HR'); exact HR'.
        - unfold olist_del, bind at 1, gets at 1. rewrite (label_not_key hh x a lab f (proj1 (proj1 R)) Hf Hlab).
          unfold bind at 1, gets at 1.
          set (m := match ofield hh x lab with Some _ => _ | None => _ end).
          assert (Hm : m = ret tt).
          { unfold m. destruct (ofield hh x lab) as [g |] eqn:Eg; [| reflexivity].
            rewrite (label_field hh x a lab f g (proj1 (proj1 R)) Hf Hlab Eg), Href. reflexivity. }
          rewrite Hm. unfold bind, ret. apply mark_recorded. exact R.
        - apply mark_recorded. exact R. }
      assert (LOOP : forall ev hh, recorded x a hh ->
                recorded x a (snd (for_st ev (list_event ct oeq getter (run ct oeq getter setter pystr n) x a p lab) hh))).
      { induction ev as [| e ev IHe]; intros hh R; [exact R |]. cbn [for_st]. unfold bind.
        pose proof (EV e hh R) as R1. destruct (list_event _ _ _ _ x a p lab e hh) as [[u | er] h2]; [| exact R1].
        apply IHe. exact R1. }
      assert (TAIL : forall hh, recorded x a hh -> attr_at hh x a p = Some (VList l) ->
         recorded x a (snd ((modify (put_at x a p (VList l')) >>
            match r with Ok _ => for_st es (list_event ct oeq getter (run ct oeq getter setter pystr n) x a p lab)
                    | Err e => throw e end) hh))).
      { intros hh R Ha. unfold bind, modify.
        assert (R1 : recorded x a (put_at x a p (VList l') hh)) by (apply (put_at_recorded x a p f (VList l)); auto).
        destruct r; [apply LOOP; exact R1 | exact R1]. }
      destruct (owned_step_will _ _ _ _ _ _ Es) as [W | [-> ->]].
      + rewrite W. unfold olist_will.
        assert (EW : (do* f0 <- gets (fun h1 : heap => ofield h1 x (initial_keypath lab));
                      match f0 with Some f1 => record_previous ct getter x f1 | None => ret tt end) h
                     = record_previous ct getter x f h).
        { unfold bind, gets. rewrite Hlab, (frame_ofield h x a (proj1 I)), Hf. reflexivity. }
        unfold bind at 1. rewrite EW.
        assert (HV : exists v, attr h x a = Some v /\ match v with VList _ | VDict _ => True | _ => False end).
        { unfold attr_at in Ea. destruct (attr h x a) as [v |]; [| discriminate Ea]. exists v. split; [reflexivity |].
          destruct p as [| [j | k] p]; cbn in Ea.
          - inversion Ea. exact Logic.I.
          - destruct v; try discriminate Ea. exact Logic.I.
          - destruct v; try discriminate Ea. exact Logic.I. }
        destruct (record_previous_ok x a f h I Hf Hp Hl HV) as (P2 & P3).
        destruct (record_previous ct getter x f h) as [[[] | er] h1]; cbn [fst snd] in *.
        * assert (Ea1 : attr_at h1 x a p = Some (VList l)) by (unfold attr_at; rewrite P3; exact Ea).
          split; [apply (TAIL h1 P2 Ea1) | intros _; apply (TAIL h1 P2 Ea1)].
        * split; [exact (proj1 P2) | intros _; exact P2].
      + cbn [existsb for_st]. unfold bind, modify, ret.
        assert (I1 : inv (put_at x a p (VList l) h)) by (apply put_at_same; assumption).
        assert (R1 : recorded x a h -> recorded x a (put_at x a p (VList l) h)).
        { intros R. apply (put_at_recorded x a p f (VList l)); auto. }
        destruct r; split; assumption.
    - destruct D as (f & Hf & Hp & Hl & Hlab & Hs). destruct (plain_facts f Hp) as [Href Hcalc].
      set (Q := fun q : res unit * heap => inv (snd q) /\ (recorded x a h -> recorded x a (snd q))).
      match goal with |- inv (snd ?q) /\ _ => change (Q q) end.
      unfold do_dict. destruct (attr_at h x a p) as [[| | | | | | | | |l| |] |] eqn:Ea; try (split; [exact I | auto]; fail).
      destruct (owned_dstep String.eqb VNone op l) as [[r l'] es] eqn:Es.
      assert (EV : forall e hh, recorded x a hh ->
                recorded x a (snd (dict_event (run ct oeq getter setter pystr n) x a p lab e hh))).
      { intros [[| k y | y] c] hh R; cbn [dict_event fst]; [exact R | |].
        - unfold bind. destruct y; try (apply mark_recorded; exact R);
            match goal with |- context [run _ _ _ _ _ n ?t hh] =>
              assert (HR' : recorded x a (snd (run ct oeq getter setter pystr n t hh)))
                by (apply (IH t hh (proj1 R)); [exists f; auto | exact R]);
              destruct (run ct oeq getter setter pystr n t hh) as [[u | e] h2] end; cbn [snd] in *;
            try (apply mark_recorded; exact HR'); exact HR'.
        - apply mark_recorded. exact R. }
      assert (LOOP : forall ev hh, recorded x a hh ->
                recorded x a (snd (for_st ev (dict_event (run ct oeq getter setter pystr n) x a p lab) hh))).
      { induction ev as [| e ev IHe]; intros hh R; [exact R |]. cbn [for_st]. unfold bind.
        pose proof (EV e hh R) as R1. destruct (dict_event _ x a p lab e hh) as [[u | er] h2]; [| exact R1].
        apply IHe. exact R1. }
      assert (TAIL : forall hh, recorded x a hh -> attr_at hh x a p = Some (VDict l) ->
         recorded x a (snd ((modify (put_at x a p (VDict l')) >>
            match r with Ok _ => for_st es (dict_event (run ct oeq getter setter pystr n) x a p lab)
                    | Err e => throw e end) hh))).
      { intros hh R Ha. unfold bind, modify.
        assert (R1 : recorded x a (put_at x a p (VDict l') hh)) by (apply (put_at_recorded x a p f (VDict l)); auto).
        destruct r; [apply LOOP; exact R1 | exact R1]. }
      destruct (owned_dstep_will _ _ _ _ _ Es Hs) as [W | [-> ->]].
      + rewrite W. unfold odict_will.
        assert (EW : (do* f0 <- gets (fun h1 : heap => ofield h1 x (initial_keypath lab));
                      match f0 with Some f1 => record_previous ct getter x f1 | None => throw EValueError end) h
                     = record_previous ct getter x f h).
        { unfold bind, gets. rewrite Hlab, (frame_ofield h x a (proj1 I)), Hf. reflexivity. }
        unfold bind at 1. rewrite EW.
        assert (HV : exists v, attr h x a = Some v /\ match v with VList _ | VDict _ => True | _ => False end).
        { unfold attr_at in Ea. destruct (attr h x a) as [v |]; [| discriminate Ea]. exists v. split; [reflexivity |].
          destruct p as [| [j | k] p]; cbn in Ea.
          - inversion Ea. exact Logic.I.
          - destruct v; try discriminate Ea. exact Logic.I.
          - destruct v; try discriminate Ea. exact Logic.I. }
        destruct (record_previous_ok x a f h I Hf Hp Hl HV) as (P2 & P3).
        destruct (record_previous ct getter x f h) as [[[] | er] h1]; cbn [fst snd] in *.
        * assert (Ea1 : attr_at h1 x a p = Some (VDict l)) by (unfold attr_at; rewrite P3; exact Ea).
          split; [apply (TAIL h1 P2 Ea1) | intros _; apply (TAIL h1 P2 Ea1)].
        * split; [exact (proj1 P2) | intros _; exact P2].
      + cbn [existsb for_st]. unfold bind, modify, ret.
        assert (I1 : inv (put_at x a p (VDict l) h)) by (apply put_at_same; assumption).
        assert (R1 : recorded x a h -> recorded x a (put_at x a p (VDict l) h)).
        { intros R. apply (put_at_recorded x a p f (VDict l)); auto. }
        destruct r; split; assumption.
  Qed.

  Lemma history_data n xs : forall h, inv h -> Forall (fun x => data_task ct h0 (task_of x)) xs ->
    inv (snd (history ct oeq getter setter pystr n xs h)).
  Proof.
    unfold history. induction xs as [| x xs IH]; intros h I HF; [exact I |].
    inversion HF; subst. cbn [for_st]. unfold bind.
    destruct (run_data n (task_of x) h I H1) as [I1 _].
    destruct (run ct oeq getter setter pystr n (task_of x) h) as [[u | e] h1]; [| exact I1].
    apply IH; assumption.
  Qed.

  (** ** reset *)
  Definition back (k : string) (v' : value) : Prop :=
    exists v, attr h0 o k = Some v /\ (v' = v \/ exists hm, eqv oeq hm v v' = true).

  (** During the loop: the attributes of [L] are still to come *)
  Record during (L : list (string * value)) (b : obj) : Prop := {
    du_new : o_new b = false;
    du_val : forall k f, ofield h0 o k = Some f -> plain_field f = true ->
      exists v', o_attr b k = Some v' /\ (back k v' \/ In k (map fst L))
  }.
  Definition clean (b : obj) : Prop := o_prev b = [] /\ o_mfields b = [] /\ o_modified b = false.

  Lemma reset_loop n L : forall h, frame h -> during L (h_obj h o) ->
    (forall k v, In (k, v) L -> exists f, ofield h0 o k = Some f /\ plain_field f = true /\ attr h0 o k = Some v) ->
    let p := for_st L (fun kv => run ct oeq getter setter pystr (S n) (TSet o (fst kv) (snd kv)) >>
             updm o (fun b => set_prev [] (set_modified false (set_mfields [] b)))) h in
    fst p = Ok tt /\ during [] (h_obj (snd p) o) /\ (L <> [] -> clean (h_obj (snd p) o)) /\
    (L = [] -> snd p = h) /\ o_new (h_obj (snd p) o) = false.
  Proof.
    induction L as [| [k v] L IH]; intros h F D HL; cbn zeta.
    - cbn. split; [reflexivity |]. split; [exact D |]. split; [congruence |]. split; [reflexivity | apply D].
    - destruct (HL k v (or_introl eq_refl)) as (f & Hf & Hp & Hv).
      destruct (plain_facts f Hp) as [Href Hcalc].
      assert (Hname : fl_name f = k) by (destruct (ofield_in ct wf _ _ _ _ Hf) as (d & _ & _ & Hn & _); exact Hn).
      destruct (du_val _ _ D k f Hf Hp) as (c & Hc & _).
      assert (STEP : exists h1, run ct oeq getter setter pystr (S n) (TSet o k v) h = (Ok tt, h1) /\
                frame h1 /\ o_new (h_obj h1 o) = false /\
                (exists v', o_attr (h_obj h1 o) k = Some v' /\ back k v') /\
                (forall m, m <> k -> o_attr (h_obj h1 o) m = o_attr (h_obj h o) m)).
      { cbn [run body]. unfold set_attribute, bind at 1, gets at 1. rewrite (plain_not_key h o k f F Hf).
        unfold bind at 1, gets at 1. rewrite (frame_ofield h o k F), Hf.
        unfold set_field. rewrite Hcalc, Href, Hname. unfold bind at 1, gets at 1. unfold bind at 1, gets at 1.
        unfold attr at 1. rewrite Hc. destruct (eqv oeq h v c) eqn:Eq.
        - exists h. split; [reflexivity | split; [exact F | split; [apply D |]]]. split; [| reflexivity].
          exists c. split; [exact Hc |]. exists v. split; [exact Hv |]. right. exists h. exact Eq.
        - unfold bind at 1, gets at 1. rewrite (du_new _ _ D). unfold mark, updm, modify, bind, gets.
          set (h1 := upd o _ h).
          assert (F1 : frame h1).
          { apply frame_upd; [exact F |]. intros b. destruct (o_new b); repeat split. }
          assert (H1 : h_obj h1 o = set_mfields (sadd k (o_mfields (h_obj h o))) (set_modified true (h_obj h o))).
          { unfold h1. rewrite upd_self, (du_new _ _ D). reflexivity. }
          assert (Hr : resettable ct h1 o f = true).
          { unfold resettable. rewrite (frame_cdef h1 o F1), enabled. reflexivity. }
          rewrite Hr.
          assert (Hga : getattr ct getter o k h1 = (Ok c, h1)).
          { unfold getattr. rewrite (frame_ofield h1 o k F1), Hf, Hcalc. unfold attr. rewrite H1. cbn.
            rewrite Hc. reflexivity. }
          assert (FX : forall hh, frame hh -> frame (upd o (set_attr k v) hh)).
          { intros hh FF. apply frame_upd; [exact FF | intros b; repeat split]. }
          assert (FIN : forall hh, frame hh -> o_new (h_obj hh o) = false ->
             (forall m, o_attr (h_obj hh o) m = o_attr (h_obj h o) m) ->
             exists h2, (Ok tt, upd o (set_attr k v) hh) = (Ok tt, h2) /\ frame h2 /\ o_new (h_obj h2 o) = false /\
                (exists v', o_attr (h_obj h2 o) k = Some v' /\ back k v') /\
                (forall m, m <> k -> o_attr (h_obj h2 o) m = o_attr (h_obj h o) m)).
          { intros hh FF FN FA. eexists. split; [reflexivity |]. split; [apply FX; exact FF |]. rewrite upd_self. cbn.
            split; [exact FN | split].
            - exists v. rewrite String.eqb_refl. split; [reflexivity |]. exists v. auto.
            - intros m Hm. apply String.eqb_neq in Hm. rewrite Hm. apply FA. }
          destruct (smem k (o_prev (h_obj h1 o))) eqn:Em.
          + apply FIN; [exact F1 | rewrite H1; apply D | intros m; rewrite H1; reflexivity].
          + rewrite Hga. unfold remember, updm, modify. apply FIN.
            * apply frame_upd; [exact F1 | intros b; destruct (smem k (o_prev b)); repeat split].
            * rewrite upd_self, Em, H1. apply D.
            * intros m. rewrite upd_self, Em, H1. reflexivity. }
      destruct STEP as (h1 & E1 & F1 & N1 & (v' & Hv' & Hb) & O1).
      set (h2 := upd o (fun b => set_prev [] (set_modified false (set_mfields [] b))) h1).
      set (F0 := fun kv => run ct oeq getter setter pystr (S n) (TSet o (fst kv) (snd kv)) >>
             updm o (fun b => set_prev [] (set_modified false (set_mfields [] b)))) in *.
      assert (EQ : for_st ((k, v) :: L) F0 h = for_st L F0 h2).
      { cbn [for_st]. unfold bind at 1, F0 at 1, bind at 1. cbn [fst snd]. rewrite E1. reflexivity. }
      rewrite EQ.
      assert (F2 : frame h2) by (apply frame_upd; [exact F1 | intros b; repeat split]).
      assert (D2 : during L (h_obj h2 o)).
      { unfold h2. rewrite upd_self. constructor; cbn; [exact N1 |].
        intros k2 f2 Hf2 Hp2. destruct (String.eqb k2 k) eqn:E.
        - apply String.eqb_eq in E. subst k2. exists v'. auto.
        - apply String.eqb_neq in E. destruct (du_val _ _ D k2 f2 Hf2 Hp2) as (w & W1 & W2).
          exists w. rewrite (O1 k2 E). split; [exact W1 |]. destruct W2 as [W2 | [W2 | W2]]; [left; exact W2 | | right; exact W2].
          cbn in W2. congruence. }
      destruct (IH h2 F2 D2 (fun k2 v2 H => HL k2 v2 (or_intror H))) as (A1 & A2 & A3 & A4 & A5).
      split; [exact A1 | split; [exact A2 | split; [| split; [discriminate | exact A5]]]].
      intros _. destruct L as [| kv L]; [| apply A3; discriminate].
      specialize (A4 eq_refl). rewrite A4. unfold h2. rewrite upd_self. repeat split.
  Qed.

  Lemma reset_restores n h : inv h ->
    let p := reset ct oeq getter setter pystr (S n) o h in
    fst p = Ok tt /\ clean (h_obj (snd p) o) /\ o_new (h_obj (snd p) o) = false /\
    forall k f, ofield h0 o k = Some f -> plain_field f = true ->
      exists v', attr (snd p) o k = Some v' /\ back k v'.
  Proof.
    intros [F K]. cbn zeta.
    assert (EQ : reset ct oeq getter setter pystr (S n) o h =
      for_st (o_prev (h_obj h o)) (fun kv => run ct oeq getter setter pystr (S n) (TSet o (fst kv) (snd kv)) >>
             updm o (fun b => set_prev [] (set_modified false (set_mfields [] b)))) h).
    { unfold reset, bind at 1, gets at 1. rewrite (frame_cdef h o F), enabled. cbn [negb].
      unfold bind at 1, gets at 1. rewrite (kp_new _ K). reflexivity. }
    rewrite EQ.
    assert (D : during (o_prev (h_obj h o)) (h_obj h o)).
    { constructor; [apply K |]. intros k f Hf Hp. destruct (kp_val _ K k f Hf Hp) as (v & V1 & _ & V3).
      exists v. split; [exact V1 |]. destruct V3 as [V3 | V3]; [left; exists v; auto | right; apply smem_in; exact V3]. }
    destruct (reset_loop n (o_prev (h_obj h o)) h F D (kp_prev _ K)) as (A1 & A2 & A3 & A4 & A5).
    split; [exact A1 |]. split; [| split; [exact A5 |]].
    - destruct (o_prev (h_obj h o)) eqn:E; [| apply A3; discriminate].
      rewrite (A4 eq_refl). destruct (kp_rec _ K E) as [B1 B2]. split; [exact E | split; assumption].
    - intros k f Hf Hp. destruct (du_val _ _ A2 k f Hf Hp) as (v' & V1 & [V2 | []]). exists v'. auto.
  Qed.
End Reset.
