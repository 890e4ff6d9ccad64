(** KpSetProofs.v -- lemmas for C50: assigning an item of a list or dict held by a data field. *)
From Coq Require Import DecimalString.
From Verif Require Import Base Mon PyList PyDict StrDict KeypathModel KeypathSpec KeypathProofs OListModel ODictModel Values ChainModel
  TypesModel ObjModel ObjSpec ObjTrack IoModel IoBase UpdateSpec UpdateProofs StrictProofs KpSetSpec.
From Verif Require LeafModel.
Open Scope list_scope.

(** ** Nothing changes but what is recorded about the object *)
Definition same_raw (h h' : heap) : Prop := forall x, o_raw (h_obj h' x) = o_raw (h_obj h x).
Definition calm_heap (h h' : heap) : Prop :=
  (forall x n, attr h' x n = attr h x n) /\ (forall x, kept_obj (h_obj h x) (h_obj h' x)) /\ same_raw h h'.
Lemma ch_refl h : calm_heap h h.
Proof. split; [reflexivity |]. split; [intros x; repeat split | intros x; reflexivity]. Qed.
Lemma ch_trans h1 h2 h3 : calm_heap h1 h2 -> calm_heap h2 h3 -> calm_heap h1 h3.
Proof.
  intros (A & B & R) (A' & B' & R'). split; [| split].
  - intros x n. rewrite A'. apply A.
  - intros x. destruct (B x) as (a & b & c), (B' x) as (a' & b' & c').
    unfold kept_obj. rewrite a', b', c'. repeat split; assumption.
  - intros x. rewrite R'. apply R.
Qed.
Lemma ch_kept o k h h' : calm_heap h h' -> kept o k h h'.
Proof. intros (A & B & _). split; [intros x n _; apply A | exact B]. Qed.
Lemma ch_raw h h' : calm_heap h h' -> same_raw h h'.
Proof. intros (_ & _ & R). exact R. Qed.
Lemma ch_upd o F h : (forall b, kept_obj b (F b)) -> (forall b, o_attr (F b) = o_attr b /\ o_raw (F b) = o_raw b) -> calm_heap h (upd o F h).
Proof.
  intros K A. split; [| split].
  - intros x n. unfold attr, upd. cbn. destruct (Nat.eqb_spec x o); [subst; rewrite (proj1 (A _)) |]; reflexivity.
  - intros x. unfold upd. cbn. destruct (Nat.eqb_spec x o); [subst; apply K | repeat split].
  - intros x. unfold upd. cbn. destruct (Nat.eqb_spec x o); [subst; apply A | reflexivity].
Qed.
Lemma ch_mark o k h : exists h', mark o k h = (Ok tt, h') /\ calm_heap h h'.
Proof.
  eexists. split; [reflexivity |]. apply ch_upd.
  - intros b. destruct (o_new b) eqn:Q; repeat split; exact Q.
  - intros b. destruct (o_new b); split; reflexivity.
Qed.
Lemma ch_remember o k v h : exists h', remember o k v h = (Ok tt, h') /\ calm_heap h h'.
Proof.
  eexists. split; [reflexivity |]. apply ch_upd; intros b; destruct (smem k (o_prev b)); repeat split.
Qed.
Lemma kept_class o k h h' x : kept o k h h' -> o_class (h_obj h' x) = o_class (h_obj h x).
Proof. intros [_ B]. apply (proj1 (B x)). Qed.
Lemma kept_lkeys o k h h' x : kept o k h h' -> o_lkeys (h_obj h' x) = o_lkeys (h_obj h x).
Proof. intros [_ B]. apply (proj1 (proj2 (B x))). Qed.
Lemma kept_ofield ct o k h h' x n : kept o k h h' -> ofield ct h' x n = ofield ct h x n.
Proof. intros K. unfold ofield, cdef_of. rewrite (kept_class o k h h' x K). reflexivity. Qed.

(** ** Items *)
Lemma replace_with l i x : (i < length l)%nat -> list_with l i x (replace_nth i x l).
Proof.
  revert i. induction l as [| y l IH]; intros i H; [inversion H |]. destruct i as [| i]; cbn.
  - split; [reflexivity |]. split; [reflexivity |]. intros [| j] D; [contradiction | reflexivity].
  - destruct (IH i) as (A & B & C); [cbn in H; lia |]. split; [cbn; f_equal; exact A |]. split; [exact B |].
    intros [| j] D; [reflexivity |]. cbn. apply C. intros ->. apply D. reflexivity.
Qed.
Lemma sset_keys k (x : value) m :
  (In k (map fst m) /\ map fst (sset k x m) = map fst m) \/ (~ In k (map fst m) /\ map fst (sset k x m) = map fst m ++ [k]).
Proof.
  unfold sset. induction m as [| (k0 & v0) m IH]; cbn; [right; auto |].
  destruct (String.eqb_spec k k0) as [-> | D]; cbn.
  - left. auto.
  - destruct IH as [[A B] | [A B]]; [left | right]; rewrite B; split; auto.
    intros [E | E]; [congruence | contradiction].
Qed.
Lemma sset_with m k x : dict_with m k x (sset k x m).
Proof.
  split; [apply sget_sset_same |]. split; [intros k' D; apply sget_sset_other, D | apply sset_keys].
Qed.

Lemma reads_int k : (exists z, int_of k = Ok z /\ reads k z /\ forall z', reads k z' -> z' = z) \/ (int_of k = Err EValueError /\ forall z, ~ reads k z).
Proof.
  unfold int_of, reads. destruct (NilZero.int_of_string k) as [i |].
  - left. exists (Z.of_int i). split; [reflexivity |]. split; [eauto |]. intros z' (j & E & ->). congruence.
  - right. split; [reflexivity |]. intros z (j & E & _). discriminate E.
Qed.
Lemma norm_position (l : list value) z :
  (exists i, position (length l) z i /\ in_range (norm_idx z l) l = true /\ Z.to_nat (norm_idx z l) = i /\
             forall i', position (length l) z i' -> i' = i) \/
  (in_range (norm_idx z l) l = false /\ forall i, ~ position (length l) z i).
Proof.
  unfold in_range, norm_idx, position, zlen.
  set (j := (if (z <? 0)%Z then (z + Z.of_nat (length l))%Z else z)).
  destruct ((0 <=? j)%Z && (j <? Z.of_nat (length l))%Z) eqn:E.
  - left. exists (Z.to_nat j). apply andb_prop in E. destruct E as [A B]. apply Z.leb_le in A. apply Z.ltb_lt in B.
    split; [| split; [reflexivity | split; [reflexivity |]]].
    + split; [lia |]. unfold j in *. destruct (z <? 0)%Z eqn:Q; [apply Z.ltb_lt in Q; right; lia | left; lia].
    + intros i' [L H]. unfold j in *. destruct (z <? 0)%Z eqn:Q; [apply Z.ltb_lt in Q | apply Z.ltb_ge in Q]; lia.
  - right. split; [reflexivity |]. intros i [L H].
    apply andb_false_iff in E. unfold j in E.
    destruct (z <? 0)%Z eqn:Q; [apply Z.ltb_lt in Q | apply Z.ltb_ge in Q];
      destruct E as [E | E]; [apply Z.leb_gt in E | apply Z.ltb_ge in E | apply Z.leb_gt in E | apply Z.ltb_ge in E]; lia.
Qed.

Section Run.
  Context (P : program) (o : oid) (a : string) (f : field).
  Notation ct := (p_ct P).
  Notation getter := (p_getter P).
  Notation rn := (run (p_ct P) (p_oeq P) (p_getter P) (p_setter P) (LeafModel.py_str (p_str P))).

  (** [lab] is the keypath of something inside field [a] (or of the field itself). *)
  Record inside (h : heap) (lab : string) (whole : value) : Prop := {
    in_field : ofield ct h o a = Some f;
    in_plain : plain_field f = true;
    in_attr : attr h o a = Some whole;
    in_lkeys : sget lab (o_lkeys (h_obj h o)) = None;
    in_initial : initial_keypath lab = a;
    in_other : match ofield ct h o lab with Some g => is_ref (fl_fdef g) = false | None => True end;
    in_kind : match f_ftype (fl_fdef f) with
              | Some FTDict => exists m, whole = VDict m
              | Some FTList => exists l, whole = VList l
              | _ => True
              end }.

  Lemma inside_calm h h' lab whole : calm_heap h h' -> inside h lab whole -> inside h' lab whole.
  Proof.
    intros C I. pose proof (ch_kept o a h h' C) as K. destruct I as [I1 I2 I3 I4 I5 I6 I7].
    constructor; try assumption.
    - rewrite (kept_ofield ct o a h h' o a K). exact I1.
    - rewrite (proj1 C). exact I3.
    - rewrite (kept_lkeys o a h h' o K). exact I4.
    - rewrite (kept_ofield ct o a h h' o lab K). exact I6.
  Qed.
  Lemma plain_not_ref : plain_field f = true -> is_ref (fl_fdef f) = false /\ is_calc f = false.
  Proof. unfold plain_field. intros H. apply andb_prop in H. destruct H as [A B]. apply negb_true_iff in A, B. auto. Qed.

  Lemma record_ok h lab whole : inside h lab whole -> exists h', record_previous ct getter o f h = (Ok tt, h') /\ calm_heap h h'.
  Proof.
    intros [I1 I2 I3 I4 I5 I6 I7]. unfold record_previous.
    rewrite (bind_eq (gets (fun h => resettable ct h o f)) _ h (resettable ct h o f) h eq_refl).
    assert (T : exists h', ret tt h = (Ok tt, h') /\ calm_heap h h') by (exists h; split; [reflexivity | apply ch_refl]).
    destruct (resettable ct h o f); [| exact T]. destruct (has_linked _ _); [exact T |].
    rewrite (bind_eq (gets (fun h => smem (fl_name f) (o_prev (h_obj h o)))) _ h (smem (fl_name f) (o_prev (h_obj h o))) h eq_refl).
    destruct (smem _ _); [exact T |].
    assert (N : fl_name f = a) by apply (field_named_name _ _ _ I1).
    assert (G : ObjModel.getattr ct getter o (fl_name f) h = (Ok whole, h)).
    { unfold ObjModel.getattr. rewrite N, I1, (proj2 (plain_not_ref I2)), I3. reflexivity. }
    destruct (f_ftype (fl_fdef f)) as [[] |] eqn:Ft; try exact T.
    - destruct I7 as (l & ->). rewrite (bind_eq _ _ h _ h G). unfold copy_for. rewrite Ft.
      rewrite (bind_eq (lift (Ok (Some (VList l)))) _ h _ h eq_refl). apply ch_remember.
    - destruct I7 as (m & ->). rewrite (bind_eq _ _ h _ h G). unfold copy_for. rewrite Ft.
      rewrite (bind_eq (lift (Ok (Some (VDict m)))) _ h _ h eq_refl). apply ch_remember.
  Qed.
  Lemma will_ok h lab whole : inside h lab whole -> exists h', olist_will ct getter o lab h = (Ok tt, h') /\ calm_heap h h'.
  Proof.
    intros I. unfold olist_will. rewrite (in_initial _ _ _ I).
    rewrite (bind_eq (gets (fun h => ofield ct h o a)) _ h (ofield ct h o a) h eq_refl). rewrite (in_field _ _ _ I).
    apply (record_ok h lab whole I).
  Qed.
  Lemma dwill_ok h lab whole : inside h lab whole -> exists h', odict_will ct getter o lab h = (Ok tt, h') /\ calm_heap h h'.
  Proof.
    intros I. unfold odict_will. rewrite (in_initial _ _ _ I).
    rewrite (bind_eq (gets (fun h => ofield ct h o a)) _ h (ofield ct h o a) h eq_refl). rewrite (in_field _ _ _ I).
    apply (record_ok h lab whole I).
  Qed.

  (** what a report needs to know, which holds after the change too *)
  Definition quiet_lab (h : heap) (lab : string) : Prop :=
    sget lab (o_lkeys (h_obj h o)) = None /\
    match ofield ct h o lab with Some g => is_ref (fl_fdef g) = false | None => True end.
  Lemma quiet_kept h h' lab : kept o a h h' -> quiet_lab h lab -> quiet_lab h' lab.
  Proof.
    intros K [A B]. split; [rewrite (kept_lkeys o a h h' o K); exact A | rewrite (kept_ofield ct o a h h' o lab K); exact B].
  Qed.
  Lemma add_ok rec h p lab idx x : quiet_lab h lab -> scalar x ->
    exists h', olist_add ct rec o a p lab idx x h = (Ok tt, h') /\ calm_heap h h'.
  Proof.
    intros [A B] S. unfold olist_add.
    rewrite (bind_eq (gets (fun h => local_field_of h o lab)) _ h None h); [| unfold gets, local_field_of; rewrite A; reflexivity].
    rewrite (bind_eq (gets (fun h => ofield ct h o lab)) _ h (ofield ct h o lab) h eq_refl).
    set (m1 := match ofield ct h o lab with Some _ => _ | None => _ end).
    assert (E1 : m1 h = (Ok tt, h)).
    { unfold m1. destruct (ofield ct h o lab); [rewrite B |]; reflexivity. }
    rewrite (bind_eq m1 _ h tt h E1).
    set (m2 := match x with VDict _ => _ | _ => _ end).
    assert (E2 : m2 h = (Ok tt, h)) by (unfold m2; destruct x; try reflexivity; contradiction).
    rewrite (bind_eq m2 _ h tt h E2). apply ch_mark.
  Qed.
  Lemma del_ok rec h p lab x : quiet_lab h lab ->
    exists h', olist_del ct (p_oeq P) getter rec o a p lab x h = (Ok tt, h') /\ calm_heap h h'.
  Proof.
    intros [A B]. unfold olist_del.
    rewrite (bind_eq (gets (fun h => local_field_of h o lab)) _ h None h); [| unfold gets, local_field_of; rewrite A; reflexivity].
    rewrite (bind_eq (gets (fun h => ofield ct h o lab)) _ h (ofield ct h o lab) h eq_refl).
    set (m1 := match ofield ct h o lab with Some _ => _ | None => _ end).
    assert (E1 : m1 h = (Ok tt, h)).
    { unfold m1. destruct (ofield ct h o lab); [rewrite B |]; reflexivity. }
    rewrite (bind_eq m1 _ h tt h E1). apply ch_mark.
  Qed.

  Lemma put_kept h p c whole : attr h o a = Some whole ->
    kept o a h (put_at o a p c h) /\ attr (put_at o a p c h) o a = Some (vput p c whole).
  Proof. intros A. unfold put_at. rewrite A. apply set_attr_keeps. Qed.

  (** [dest[z] = v] *)
  Lemma set_item_ok n h lab whole p l z i v :
    inside h lab whole -> vget p whole = Some (VList l) -> scalar v ->
    position (length l) z i -> in_range (norm_idx z l) l = true -> Z.to_nat (norm_idx z l) = i ->
    exists h', rn (S n) (TOp o a p lab (LSetInt z v)) h = (Ok tt, h') /\ kept o a h h' /\
               attr h' o a = Some (vput p (VList (replace_nth i v l)) whole).
  Proof.
    intros I G S Po R J. cbn [run body]. unfold do_list, attr_at. rewrite (in_attr _ _ _ I), G.
    assert (Q : quiet_lab h lab) by (split; [apply (in_lkeys _ _ _ I) | apply (in_other _ _ _ I)]).
    destruct (sinb a (o_raw (h_obj h o))).
    - unfold plain_step, keep, py_set. rewrite R, J.
      destruct (put_kept h p (VList (replace_nth i v l)) whole (in_attr _ _ _ I)) as [K A].
      exists (put_at o a p (VList (replace_nth i v l)) h). split; [reflexivity | split; assumption].
    - unfold owned_step, o_setint, py_set. rewrite R, J. cbn [existsb is_will fst orb].
      destruct (will_ok h lab whole I) as (h1 & E1 & C1).
      rewrite (bind_eq _ _ h tt h1 E1).
      pose proof (inside_calm h h1 lab whole C1 I) as I1.
      destruct (put_kept h1 p (VList (replace_nth i v l)) whole (in_attr _ _ _ I1)) as [K2 A2].
      set (h2 := put_at o a p (VList (replace_nth i v l)) h1) in *.
      rewrite (bind_eq (modify (put_at o a p (VList (replace_nth i v l)))) _ h1 tt h2 eq_refl).
      assert (Q2 : quiet_lab h2 lab).
      { apply (quiet_kept h1 h2 lab K2), (quiet_kept h h1 lab (ch_kept o a h h1 C1)), Q. }
      cbn [for_st list_event fst]. rewrite (bind_eq (ret tt) _ h2 tt h2 eq_refl).
      set (d := match item_or_none _ l with Some v => v | None => VNone end).
      destruct (del_ok (rn n) h2 p lab d Q2) as (h3 & E3 & C3).
      rewrite (bind_eq _ _ h2 tt h3 E3).
      destruct (add_ok (rn n) h3 p lab (if (z <? 0)%Z then (zlen l + z)%Z else z) v (quiet_kept h2 h3 lab (ch_kept o a h2 h3 C3) Q2) S) as (h4 & E4 & C4).
      exists h4. rewrite (bind_eq _ _ h3 tt h4 E4). split; [reflexivity |]. split.
      + apply (kept_trans o a h h1 h4 (ch_kept o a h h1 C1)). apply (kept_trans o a h1 h2 h4 K2).
        apply (kept_trans o a h2 h3 h4 (ch_kept o a h2 h3 C3)), ch_kept, C4.
      + rewrite (proj1 C4), (proj1 C3). exact A2.
  Qed.
  Lemma set_item_err n h lab whole p l z v :
    inside h lab whole -> vget p whole = Some (VList l) -> in_range (norm_idx z l) l = false ->
    exists e h', rn (S n) (TOp o a p lab (LSetInt z v)) h = (Err e, h') /\ kept o a h h' /\ attr h' o a = Some whole.
  Proof.
    intros I G R. cbn [run body]. unfold do_list, attr_at. rewrite (in_attr _ _ _ I), G.
    assert (Same : forall h1, attr h1 o a = Some whole -> vget p whole = Some (VList l) ->
       kept o a h1 (put_at o a p (VList l) h1) /\ attr (put_at o a p (VList l) h1) o a = Some whole).
    { intros h1 A1 G1. destruct (put_kept h1 p (VList l) whole A1) as [K A]. split; [exact K |].
      rewrite (vput_same p (VList l) whole G1) in A. exact A. }
    destruct (sinb a (o_raw (h_obj h o))).
    - unfold plain_step, keep, py_set. rewrite R. destruct (Same h (in_attr _ _ _ I) G) as [K A].
      exists EIndexError, (put_at o a p (VList l) h). split; [reflexivity |]. split; assumption.
    - unfold owned_step, o_setint, py_set. rewrite R. cbn [existsb is_will fst orb].
      destruct (will_ok h lab whole I) as (h1 & E1 & C1).
      rewrite (bind_eq _ _ h tt h1 E1).
      pose proof (inside_calm h h1 lab whole C1 I) as I1. destruct (Same h1 (in_attr _ _ _ I1) G) as [K A].
      exists EIndexError, (put_at o a p (VList l) h1). split; [reflexivity |]. split; [| exact A].
      apply (kept_trans o a h h1 _ (ch_kept o a h h1 C1) K).
  Qed.

  (** [dest[k] = v] *)
  Lemma set_entry_ok n h lab whole p m k v :
    inside h lab whole -> vget p whole = Some (VDict m) -> scalar v ->
    exists h', rn (S n) (TDOp o a p lab (DSetItem k v)) h = (Ok tt, h') /\ kept o a h h' /\
               attr h' o a = Some (vput p (VDict (sset k v m)) whole).
  Proof.
    intros I G S. cbn [run body]. unfold do_dict, attr_at. rewrite (in_attr _ _ _ I), G.
    unfold owned_dstep, od_setitem. cbn [existsb is_dwill fst orb].
    destruct (dwill_ok h lab whole I) as (h1 & E1 & C1).
    rewrite (bind_eq _ _ h tt h1 E1).
    pose proof (inside_calm h h1 lab whole C1 I) as I1. fold (sset k v m). fold (@sget value).
    destruct (put_kept h1 p (VDict (sset k v m)) whole (in_attr _ _ _ I1)) as [K2 A2].
    set (h2 := put_at o a p (VDict (sset k v m)) h1) in *.
    rewrite (bind_eq (modify (put_at o a p (VDict (sset k v m)))) _ h1 tt h2 eq_refl).
    assert (K02 : kept o a h h2) by apply (kept_trans o a h h1 h2 (ch_kept o a h h1 C1) K2).
    assert (Add : forall h3, exists h4, dict_event (rn n) o a p lab (DAdd k v, sset k v m) h3 = (Ok tt, h4) /\ calm_heap h3 h4).
    { intros h3. unfold dict_event. cbn [fst].
      set (m2 := match v with VDict _ => _ | _ => _ end).
      assert (E : m2 h3 = (Ok tt, h3)) by (unfold m2; destruct v; try reflexivity; contradiction).
      rewrite (bind_eq m2 _ h3 tt h3 E). apply ch_mark. }
    cbn [for_st]. rewrite (bind_eq (dict_event (rn n) o a p lab (DWill, m)) _ h2 tt h2 eq_refl).
    destruct (sget k m) as [old |] eqn:Eo.
    - cbn [app for_st].
      destruct (ch_mark o lab h2) as (h3 & E3 & C3).
      rewrite (bind_eq (dict_event (rn n) o a p lab (DDel (Some old), sset k v m)) _ h2 tt h3 E3).
      destruct (Add h3) as (h4 & E4 & C4). exists h4. rewrite (bind_eq _ _ h3 tt h4 E4). split; [reflexivity |]. split.
      + apply (kept_trans o a h h2 h4 K02), ch_kept, (ch_trans h2 h3 h4 C3 C4).
      + rewrite (proj1 C4), (proj1 C3). exact A2.
    - cbn [app for_st]. destruct (Add h2) as (h4 & E4 & C4). exists h4. rewrite (bind_eq _ _ h2 tt h4 E4).
      split; [reflexivity |]. split.
      + apply (kept_trans o a h h2 h4 K02), ch_kept, C4.
      + rewrite (proj1 C4). exact A2.
  Qed.
End Run.

(** ** Paths inside a value *)
Lemma vget_snoc p s v c : vget p v = Some c -> vget (p ++ [s]) v = vget [s] c.
Proof.
  revert v. induction p as [| q p IH]; intros v H; [cbn in H; injection H as ->; reflexivity |].
  destruct q as [i | k]; cbn [app vget] in *.
  - destruct v; try discriminate H. destruct (nth_error l i); [apply IH, H | discriminate H].
  - destruct v; try discriminate H. destruct (sget k d); [apply IH, H | discriminate H].
Qed.
Lemma vput_snoc p s v c x : vget p v = Some c -> vput (p ++ [s]) x v = vput p (vput [s] x c) v.
Proof.
  revert v. induction p as [| q p IH]; intros v H; [cbn in H; injection H as ->; reflexivity |].
  destruct q as [i | k]; cbn [app vget vput] in *.
  - destruct v; try discriminate H. destruct (nth_error l i); [| discriminate H]. rewrite (IH _ H). reflexivity.
  - destruct v; try discriminate H. destruct (sget k d); [| discriminate H]. rewrite (IH _ H). reflexivity.
Qed.

Lemma join_cons_sep x y l : join "." (x :: y :: l) = (x ++ "." ++ join "." (y :: l))%string.
Proof. reflexivity. Qed.
Lemma has_dot x y : ~ plain (x ++ "." ++ y)%string.
Proof.
  intros H. destruct H as (H & _). apply H. unfold occurs.
  clear. induction x as [| c x IH]; cbn; [left; reflexivity | right; exact IH].
Qed.

Section Container.
  Context (P : program) (n : nat) (o : oid) (a : string) (f : field) (v : value).
  Context (into : oid -> list string -> value -> st world unit).
  Context (Lim : (0 < p_lim P)%nat) (Sc : scalar v).

  Definition kind_of (whole : value) : Prop :=
    match f_ftype (fl_fdef f) with
    | Some FTDict => exists m, whole = VDict m
    | Some FTList => exists l, whole = VList l
    | _ => True
    end.

  Lemma inside_of w us whole :
    plain_names P w o -> field_named a (wcdef P w o) = Some f -> plain_field f = true ->
    sget a (o_lkeys (wobj w o)) = None -> attr_of w o a = Some whole -> kind_of whole -> Forall good_key (a :: us) ->
    inside P o a f (w_heap w) (join "." (a :: us)) whole.
  Proof.
    intros [N1 N2] F Pl L A K G. constructor; auto.
    - destruct us as [| u us]; [exact L |]. destruct (sget (join "." (a :: u :: us)) (o_lkeys (h_obj (w_heap w) o))) eqn:E; [| reflexivity]. exfalso.
      apply (has_dot a (join "." (u :: us))), N2. unfold wobj. rewrite <- join_cons_sep. congruence.
    - unfold initial_keypath. rewrite (split_join_plain is_dot "."%char (a :: us) eq_refl); [reflexivity | discriminate |].
      eapply Forall_impl; [| exact G]. intros x Hx. apply no_sep_no_dot, plain_no_sep, Hx.
    - destruct us as [| u us]; [cbn [join]; unfold wcdef in F; unfold ofield; rewrite F; apply (plain_not_ref f Pl) |].
      destruct (ofield _ _ _ _) as [g |] eqn:E; [| exact Logic.I]. exfalso.
      pose proof (field_named_name _ _ _ E) as Ng. apply find_some in E. destruct E as [E _]. apply in_rev in E.
      apply (has_dot a (join "." (u :: us))). rewrite <- join_cons_sep, <- Ng. apply N1, E.
  Qed.

  (** What can come of it. *)
  Definition outcome (w : world) (whole : value) (p : path) (d : fdef) (ks : list string) (dest : value) (out : res unit * world) : Prop :=
    (exists new h', replaced v d ks dest new /\ out = (Ok tt, set_heap h' w) /\ kept o a (w_heap w) h' /\
                    attr h' o a = Some (vput p new whole)) \/
    (exists e h', out = (Err e, set_heap h' w) /\ kept o a (w_heap w) h' /\ attr h' o a = Some whole /\
                  (forall new, ~ replaced v d ks dest new) /\ ~ dead_end d ks dest /\ (forall x rest, ~ reaches d ks dest x rest)) \/
    (out = (Ok tt, w) /\ dead_end d ks dest) \/
    (exists x rest, reaches d ks dest x rest /\ out = into x rest v w).

  Lemma fails w whole p d ks dest e : attr_of w o a = Some whole ->
    (forall new, ~ replaced v d ks dest new) -> ~ dead_end d ks dest -> (forall x rest, ~ reaches d ks dest x rest) ->
    outcome w whole p d ks dest (Err e, w).
  Proof.
    intros A H D R. right. left. exists e, (w_heap w). split; [destruct w; reflexivity |]. split; [apply kept_refl |].
    split; [exact A |]. auto.
  Qed.

  Ltac kill := match goal with
    | H : dead_end _ _ _ |- _ => destruct H as (?d' & ?rest' & ?v' & H & ? & ? & ?); inversion H; clear H; subst
    | H : reaches _ _ _ _ _ |- _ => destruct H as (?d' & H & ?); inversion H; clear H; subst
    | H : replaced _ _ _ _ _ |- _ => inversion H; clear H; subst
    end; unfold declared in *; try congruence; try contradiction;
    try match goal with H : replaced _ _ [] _ _ |- _ => solve [inversion H] end.

  Lemma container : forall ks w us whole p dest d,
    plain_names P w o -> field_named a (wcdef P w o) = Some f -> plain_field f = true ->
    sget a (o_lkeys (wobj w o)) = None -> attr_of w o a = Some whole -> vget p whole = Some dest ->
    (declared d FTList -> (exists l, dest = VList l) -> kind_of whole) ->
    (declared d FTDict -> (exists l, dest = VDict l) -> kind_of whole) ->
    Forall good_key (a :: us) -> Forall good_key ks ->
    outcome w whole p d ks dest (set_in_container P n o a p (a :: us) dest ks v d into w).
  Proof.
    induction ks as [| k ks IH]; intros w us whole p dest d N F Pl L A G KL KD Gu Gk.
    - cbn [set_in_container]. destruct (f_ftype d) as [[] |] eqn:Ft;
        try (right; right; left; split; [reflexivity |]; exists d, [], dest; split; [constructor |]; unfold declared; rewrite Ft;
             repeat split; discriminate).
      + destruct dest; apply fails; auto; intros; intro; kill.
      + destruct dest; apply fails; auto; intros; intro; kill.
      + destruct dest; try (apply fails; auto; intros; intro; kill).
        right. right. right. exists o0, []. split; [| reflexivity]. exists d. split; [constructor | exact Ft].
    - cbn [set_in_container]. destruct (f_ftype d) as [[] |] eqn:Ft;
        try (right; right; left; split; [reflexivity |]; exists d, (k :: ks), dest; split; [constructor |]; unfold declared; rewrite Ft;
             repeat split; discriminate).
      + (* a list *)
        destruct dest; try (destruct ks; apply fails; auto; intros; intro; kill).
        pose proof (KL Ft (ex_intro _ l eq_refl)) as Kw.
        destruct ks as [| k2 ks].
        * destruct (reads_int k) as [(z & Ez & Rz & Uz) | [Ez Rz]].
          2: { rewrite Ez. apply fails; auto; intros; intro; kill. eapply Rz; eassumption. }
          rewrite Ez. rewrite (bind_eq (lift (Ok z)) _ w z w eq_refl). unfold liftH.
          pose proof (inside_of w us whole N F Pl L A Kw Gu) as In.
          destruct (p_lim P) as [| m]; [lia |].
          destruct (norm_position l z) as [(i & Pi & R & J & Ui) | [R Ui]].
          -- destruct (set_item_ok P o a f m (w_heap w) _ whole p l z i v In G Sc Pi R J) as (h' & E & K & A').
             left. exists (VList (replace_nth i v l)), h'. rewrite E. split; [| auto].
             eapply rp_item; try eassumption. apply replace_with, Pi.
          -- destruct (set_item_err P o a f m (w_heap w) _ whole p l z v In G R) as (e & h' & E & K & A').
             right. left. exists e, h'. rewrite E. split; [reflexivity |]. split; [exact K |]. split; [exact A' |].
             split; [| split]; intros; intro; kill.
             all: match goal with U : forall y, reads ?kk y -> _, H : reads ?kk ?z' |- _ => rewrite (U _ H) in *; eapply Ui; eassumption end.
        * destruct (item_types d) as [it |] eqn:Eit.
          2: { apply fails; auto; intros; intro; kill. }
          destruct (reads_int k) as [(z & Ez & Rz & Uz) | [Ez Rz]].
          2: { rewrite Ez. apply fails; auto; intros; intro; kill; eapply Rz; eassumption. }
          rewrite Ez. rewrite (bind_eq (lift (Ok z)) _ w z w eq_refl).
          change (if (z <? 0)%Z then (z + zlen l)%Z else z) with (norm_idx z l).
          change ((0 <=? norm_idx z l)%Z && (norm_idx z l <? zlen l)%Z) with (in_range (norm_idx z l) l).
          destruct (norm_position l z) as [(i & Pi & R & J & Ui) | [R Ui]].
          2: { rewrite R. apply fails; auto; intros; intro; kill;
               match goal with U : forall y, reads ?kk y -> _, H : reads ?kk ?z' |- _ => rewrite (U _ H) in *; eapply Ui; eassumption end. }
          rewrite R, J. destruct (nth_error l i) as [y |] eqn:Ey; [| apply nth_error_None in Ey; destruct Pi; lia].
          assert (Gy : vget (p ++ [PIdx i]) whole = Some y).
          { rewrite (vget_snoc p (PIdx i) whole (VList l) G). cbn. rewrite Ey. reflexivity. }
          change ((a :: us) ++ [k]) with (a :: (us ++ [k])).
          inversion Gk as [| ? ? Gk1 Gk2]; subst.
          specialize (IH w (us ++ [k]) whole (p ++ [PIdx (Z.to_nat (norm_idx z l))]) y (fdef_of it) N F Pl L A Gy (fun _ _ => Kw) (fun _ _ => Kw)).
          assert (Gu' : Forall good_key (a :: us ++ [k])).
          { inversion Gu; subst. constructor; [assumption |]. apply Forall_app. auto. }
          specialize (IH Gu' Gk2). set (i := Z.to_nat (norm_idx z l)) in *.
          destruct IH as [(new & h' & Rp & E & K & A') | [(e & h' & E & K & A' & No & Nd & Nr) | [[E D] | (x & rest & Rx & E)]]]; rewrite E.
          -- left. exists (VList (replace_nth i new l)), h'. split; [| split; [reflexivity | split; [exact K |]]].
             ++ eapply rp_in_item; try eassumption. apply replace_with, Pi.
             ++ rewrite A', (vput_snoc p (PIdx i) whole (VList l) new G). cbn. rewrite Ey. reflexivity.
          -- right. left. exists e, h'. split; [reflexivity |]. split; [exact K |]. split; [exact A' |].
             split; [| split].
             ++ intros new Rp. inversion Rp; subst.
                match goal with U : forall y, reads ?kk y -> _, H : reads ?kk ?z' |- _ => rewrite (U _ H) in * end.
                match goal with H : position _ z ?i' |- _ => rewrite (Ui _ H) in * end.
                match goal with H : replaced _ (fdef_of ?i0) _ ?y0 ?y1 |- _ => apply (No y1); replace it with i0 by congruence; replace y with y0 by congruence; exact H end.
             ++ intros (d' & r' & v' & Ld & Nn). inversion Ld; subst; [apply (proj1 Nn Ft) |].
                match goal with U : forall y, reads ?kk y -> _, H : reads ?kk ?z' |- _ => rewrite (U _ H) in * end.
                match goal with H : position _ z ?i' |- _ => rewrite (Ui _ H) in * end.
                apply Nd. exists d', r', v'. split; [| exact Nn].
                match goal with H : leads (fdef_of ?i0) _ ?y0 _ _ _ |- _ => replace it with i0 by congruence; replace y with y0 by congruence; exact H end.
             ++ intros x rest (d' & Ld & Dd). inversion Ld; subst.
                match goal with U : forall y, reads ?kk y -> _, H : reads ?kk ?z' |- _ => rewrite (U _ H) in * end.
                match goal with H : position _ z ?i' |- _ => rewrite (Ui _ H) in * end.
                apply (Nr x rest). exists d'. split; [| exact Dd].
                match goal with H : leads (fdef_of ?i0) _ ?y0 _ _ _ |- _ => replace it with i0 by congruence; replace y with y0 by congruence; exact H end.
          -- right. right. left. split; [reflexivity |]. destruct D as (d' & r' & v' & Ld & Nn).
             exists d', r', v'. split; [| exact Nn]. eapply ld_item; try eassumption. discriminate.
          -- right. right. right. exists x, rest. split; [| reflexivity]. destruct Rx as (d' & Ld & Dd).
             exists d'. split; [| exact Dd]. eapply ld_item; try eassumption. discriminate.
      + (* a dict *)
        destruct dest as [| | | | | | | | | m | |]; try (destruct ks; apply fails; auto; intros; intro; kill).
        pose proof (KD Ft (ex_intro _ m eq_refl)) as Kw.
        destruct ks as [| k2 ks].
        * unfold liftH. pose proof (inside_of w us whole N F Pl L A Kw Gu) as In.
          destruct (p_lim P) as [| lm]; [lia |].
          destruct (set_entry_ok P o a f lm (w_heap w) _ whole p m k v In G Sc) as (h' & E & K & A').
          left. exists (VDict (sset k v m)), h'. rewrite E. split; [| auto].
          apply rp_entry; [exact Ft | apply sset_with].
        * destruct (item_types d) as [it |] eqn:Eit.
          2: { apply fails; auto; intros; intro; kill. }
          destruct (sget k m) as [y |] eqn:Ey.
          2: { apply fails; auto; intros; intro; kill. }
          assert (Gy : vget (p ++ [PKey k]) whole = Some y).
          { rewrite (vget_snoc p (PKey k) whole (VDict m) G). cbn. rewrite Ey. reflexivity. }
          change ((a :: us) ++ [k]) with (a :: (us ++ [k])).
          inversion Gk as [| ? ? Gk1 Gk2]; subst.
          assert (Gu' : Forall good_key (a :: us ++ [k])).
          { inversion Gu; subst. constructor; [assumption |]. apply Forall_app. auto. }
          destruct (IH w (us ++ [k]) whole (p ++ [PKey k]) y (fdef_of it) N F Pl L A Gy (fun _ _ => Kw) (fun _ _ => Kw) Gu' Gk2)
            as [(new & h' & Rp & E & K & A') | [(e & h' & E & K & A' & No & Nd & Nr) | [[E D] | (x & rest & Rx & E)]]]; rewrite E.
          -- left. exists (VDict (sset k new m)), h'. split; [| split; [reflexivity | split; [exact K |]]].
             ++ eapply rp_in_entry; try eassumption. apply sset_with.
             ++ rewrite A', (vput_snoc p (PKey k) whole (VDict m) new G). cbn. rewrite Ey. reflexivity.
          -- right. left. exists e, h'. split; [reflexivity |]. split; [exact K |]. split; [exact A' |].
             split; [| split].
             ++ intros new Rp. inversion Rp; subst. match goal with H : replaced _ (fdef_of ?i0) _ ?y0 ?y1 |- _ => apply (No y1); replace it with i0 by congruence; replace y with y0 by congruence; exact H end.
             ++ intros (d' & r' & v' & Ld & Nn). inversion Ld; subst; [apply (proj1 (proj2 Nn) Ft) |].
                apply Nd. exists d', r', v'. split; [| exact Nn].
                match goal with H : leads (fdef_of ?i0) _ ?y0 _ _ _ |- _ => replace it with i0 by congruence; replace y with y0 by congruence; exact H end.
             ++ intros x rest (d' & Ld & Dd). inversion Ld; subst.
                apply (Nr x rest). exists d'. split; [| exact Dd].
                match goal with H : leads (fdef_of ?i0) _ ?y0 _ _ _ |- _ => replace it with i0 by congruence; replace y with y0 by congruence; exact H end.
          -- right. right. left. split; [reflexivity |]. destruct D as (d' & r' & v' & Ld & Nn).
             exists d', r', v'. split; [| exact Nn]. eapply ld_entry; try eassumption. discriminate.
          -- right. right. right. exists x, rest. split; [| reflexivity]. destruct Rx as (d' & Ld & Dd).
             exists d'. split; [| exact Dd]. eapply ld_entry; try eassumption. discriminate.
      + (* an object *)
        destruct dest; try (apply fails; auto; intros; intro; kill).
        right. right. right. exists o0, (k :: ks). split; [| reflexivity]. exists d. split; [constructor | exact Ft].
  Qed.
End Container.

(** ** Through objects *)
Lemma position_norm (l : list value) z i : position (length l) z i -> in_range (norm_idx z l) l = true /\ Z.to_nat (norm_idx z l) = i.
Proof.
  intros Pi. destruct (norm_position l z) as [(j & _ & R & J & U) | [_ U]]; [| exfalso; eapply U, Pi].
  rewrite (U i Pi). auto.
Qed.
Lemma reads_of k z : reads k z -> int_of k = Ok z.
Proof. intros R. destruct (reads_int k) as [(y & E & _ & U) | [_ U]]; [rewrite (U z R); exact E | exfalso; eapply U, R]. Qed.

Lemma container_object P n o a v into : forall d ks dest x rest, reaches d ks dest x rest -> forall p us w,
  set_in_container P n o a p us dest ks v d into w = into x rest v w.
Proof.
  intros d ks dest x rest (d' & L & D). remember (VObj x) as ob eqn:Eo. induction L as
    [d ks v0 | d it k ks z i l y d' rest v0 Ft Ei R Pi Ey Ne L IH | d it k ks m y d' rest v0 Ft Ei Ey Ne L IH]; intros p us w; subst.
  - destruct ks; cbn [set_in_container]; rewrite D; reflexivity.
  - cbn [set_in_container]. rewrite Ft. destruct ks as [| k2 ks]; [contradiction |]. rewrite Ei, (reads_of k z R).
    rewrite (bind_eq (lift (Ok z)) _ w z w eq_refl).
    change (if (z <? 0)%Z then (z + zlen l)%Z else z) with (norm_idx z l).
    change ((0 <=? norm_idx z l)%Z && (norm_idx z l <? zlen l)%Z) with (in_range (norm_idx z l) l).
    destruct (position_norm l z i Pi) as [Rr ->]. rewrite Rr, Ey. apply IH; auto.
  - cbn [set_in_container]. rewrite Ft. destruct ks as [| k2 ks]; [contradiction |]. rewrite Ei, Ey. apply IH; auto.
Qed.

Lemma leads_good d ks v d' rest v' : leads d ks v d' rest v' -> Forall good_key ks -> Forall good_key rest.
Proof. induction 1; intros G; [exact G | inversion G; auto | inversion G; auto]. Qed.
Lemma split_join_good l : Forall good_key l -> l <> [] -> keypath_split (join "." l) = l.
Proof.
  intros G N. unfold keypath_split. rewrite (split_join_plain is_sep "."%char l eq_refl N).
  - apply filter_all. eapply Forall_impl; [| exact G]. intros x [A _]. destruct x; [contradiction | reflexivity].
  - eapply Forall_impl; [| exact G]. intros x [_ A]. apply plain_no_sep, A.
Qed.

Definition into_obj P n k (v : value) : oid -> list string -> value -> st world unit :=
  fun x its v => match its with
                 | [i] => set_fields P n x [(i, v)] false
                 | _ => keypath_set1 P n k x (keypath_split (join "." its)) v
                 end.
Lemma keypath_set1_eq P n k o a ks f old v w :
  field_named a (wcdef P w o) = Some f -> is_calc f = false -> attr_of w o a = Some old ->
  keypath_set1 P n (S k) o (a :: ks) v w =
  set_in_container P n o a [] [a] old ks v (fl_fdef f) (into_obj P n k v) w.
Proof.
  intros F C A. cbn [keypath_set1].
  assert (G : IoModel.getattr P o a w = (Ok old, w)).
  { unfold IoModel.getattr, liftH, ObjModel.getattr, ofield. unfold wcdef in F. rewrite F, C. unfold attr_of in A. rewrite A.
    destruct w; reflexivity. }
  rewrite (bind_eq _ _ w old w G), (bind_eq (getW (fun w => wcdef P w o)) _ w (wcdef P w o) w eq_refl).
  unfold named. rewrite F. rewrite (bind_eq (ret f) _ w f w eq_refl). reflexivity.
Qed.

(** ** The first part of [set], with no single keys *)
Lemma set_nothing P n o d w : p_ct P (wclass w o) = Some d -> lists_there P w o ->
  set_fields P (S n) o [] false w = (Ok tt, w).
Proof.
  intros D L. rewrite (set_fields_eq P n o d [] false w D).
  assert (N : noted P d [] o (set_mg [] w) = set_mg [] w) by (unfold noted; destruct (primary_field d); reflexivity).
  rewrite N. unfold fill. rewrite (bind_eq (getW (fun w => wcdef P w o)) _ (set_mg [] w) (wcdef P w o) (set_mg [] w) eq_refl).
  set (m1 := if is_strict _ d then _ else _).
  assert (E1 : m1 (set_mg [] w) = (Ok tt, set_mg [] w)) by (unfold m1; destruct (is_strict _ d); reflexivity).
  rewrite (bind_eq m1 _ _ tt _ E1).
  assert (Ff : forall fs acc, (forall f, In f fs -> In f (cd_fields (wcdef P w o))) ->
    (forall k, In k acc -> exists v, IoModel.getattr P o k (set_mg [] w) = (Ok v, set_mg [] w) /\ v <> VNone) ->
    exists refs, fold_st (fill_field P (interp P n) (set_ctx o [] false w) [] o false) fs acc (set_mg [] w) = (Ok refs, set_mg [] w) /\
      forall k, In k refs -> exists v, IoModel.getattr P o k (set_mg [] w) = (Ok v, set_mg [] w) /\ v <> VNone).
  { induction fs as [| f fs IH]; intros acc If Ia.
    - exists acc. split; [reflexivity | exact Ia].
    - cbn [fold_st]. set (acc' := if is_ref (fl_fdef f) then if is_list_field f && match f_collection_null (fl_fdef f) with NNonnull => true | _ => false end then acc ++ [fl_name f] else acc else acc).
      assert (E : fill_field P (interp P n) (set_ctx o [] false w) [] o false acc f (set_mg [] w) = (Ok acc', set_mg [] w)).
      { unfold fill_field, has_field_value. cbn [smem dmem dget orb]. change (smem (fl_json f) [] || smem (fl_name f) []) with false. cbv iota.
        unfold absent_field, acc'. destruct (is_ref (fl_fdef f)); [| reflexivity]. destruct (is_local f); reflexivity. }
      rewrite (bind_eq _ _ _ _ _ E). apply IH; [intros; apply If; right; assumption |].
      unfold acc'. destruct (is_ref (fl_fdef f)) eqn:R; [| exact Ia].
      destruct (is_list_field f) eqn:Lf; [| exact Ia]. cbn [andb].
      destruct (f_collection_null (fl_fdef f)) eqn:Cn; try exact Ia.
      intros k Hk. apply in_app_iff in Hk. destruct Hk as [Hk | [<- | []]]; [apply Ia, Hk |].
      destruct (L f (If f (or_introl eq_refl)) R Lf Cn) as (Ca & Fn & v & Av & Nv).
      exists v. split; [| exact Nv]. unfold IoModel.getattr, liftH, ObjModel.getattr, ofield. cbn [w_heap set_mg].
      unfold wcdef in Fn. rewrite Fn, Ca. unfold attr_of in Av. rewrite Av. reflexivity. }
  destruct (Ff (cd_fields (wcdef P w o)) [] (fun f H => H) (fun k H => match H with end)) as (refs & E2 & Hr).
  rewrite (bind_eq _ _ _ refs _ E2).
  assert (E3 : for_st refs (fun n => do* cur <- IoModel.getattr P o n; if is_none cur then setattr P o n (VList []) else ret tt) (set_mg [] w) = (Ok tt, set_mg [] w)).
  { clear E2. induction refs as [| k refs IH]; [reflexivity |]. cbn [for_st].
    destruct (Hr k (or_introl eq_refl)) as (v & Gv & Nv).
    assert (Ek : (do* cur <- IoModel.getattr P o k; if is_none cur then setattr P o k (VList []) else ret tt) (set_mg [] w) = (Ok tt, set_mg [] w)).
    { rewrite (bind_eq _ _ _ v _ Gv). destruct v; try reflexivity. contradiction. }
    rewrite (bind_eq _ _ _ tt _ Ek). apply IH. intros k' Hk. apply Hr. right. exact Hk. }
  rewrite (bind_eq _ _ _ tt _ E3). cbn. destruct w; reflexivity.
Qed.

Lemma through_eq P n v w : forall o items k y items', through P w o items k y items' -> Forall good_key items ->
  forall m, (k <= m)%nat -> keypath_set1 P n m o items v w = keypath_set1 P n (m - k) y items' v w /\ Forall good_key items'.
Proof.
  induction 1 as [o items | o a f old ks x rest k y items F C A R Len T IH]; intros G m Hm.
  - rewrite Nat.sub_0_r. auto.
  - destruct m as [| m]; [lia |]. inversion G as [| ? ? G1 G2]; subst.
    destruct R as (d' & Ld & Dd). pose proof (leads_good _ _ _ _ _ _ Ld G2) as Gr.
    destruct (IH Gr m ltac:(lia)) as [E Gi]. split; [| exact Gi].
    rewrite (keypath_set1_eq P n m o a ks f old v w F C A).
    rewrite (container_object P n o a v (into_obj P n m v) (fl_fdef f) ks old x rest (ex_intro _ d' (conj Ld Dd))).
    unfold into_obj. destruct rest as [| r1 [| r2 rest]]; cbn [length] in Len; [lia | lia |].
    rewrite (split_join_good (r1 :: r2 :: rest) Gr) by discriminate. exact E.
Qed.

(** [set] with one compound key *)
Lemma jset_key P n o d key v w : p_ct P (wclass w o) = Some d -> lists_there P w o -> ~ plain key ->
  jset P (S n) o [(key, v)] w = keypath_set1 P (S n) (S n) o (keypath_split key) v w.
Proof.
  intros D L K. assert (H : has_sep key = true).
  { destruct (has_sep key) eqn:E; [reflexivity |]. exfalso. apply K, plain_no_sep, has_sep_spec, E. }
  unfold jset, single_key_args, compound_key_args. cbn [filter fst]. rewrite H. cbn [negb].
  rewrite (bind_eq _ _ w tt w (set_nothing P n o d w D L)). unfold keypath_set. cbn [for_st fst snd].
  unfold bind. destruct (keypath_set1 P (S n) (S n) o (keypath_split key) v w) as [[[] | e] w']; reflexivity.
Qed.
Lemma jset_one P n o i v w : plain i -> jset P n o [(i, v)] w = set_fields P n o [(i, v)] false w.
Proof.
  intros K. apply plain_no_sep, has_sep_spec in K. unfold jset, single_key_args, compound_key_args. cbn [filter fst]. rewrite K. cbn [negb].
  unfold bind, keypath_set. cbn [for_st]. destruct (set_fields P n o [(i, v)] false w) as [[[] | e] w']; reflexivity.
Qed.

(** ** A list or dict as the item *)
Section NoContainer.
  Context (P : program) (o : oid) (a : string) (f : field) (p : path) (lab : string) (v : value).
  Context (Nc : ~ scalar v).
  Notation rn := (run (p_ct P) (p_oeq P) (p_getter P) (p_setter P) (LeafModel.py_str (p_str P))).

  Definition fails_at (m : st heap unit) (h : heap) : Prop := exists e h', m h = (Err e, h').
  Lemma fails_bind (m : st heap unit) (k : unit -> st heap unit) h : fails_at m h -> fails_at (bind m k) h.
  Proof. intros (e & h' & E). exists e, h'. apply bind_eq_err, E. Qed.
  Lemma fails_step (m : st heap unit) (k : unit -> st heap unit) h h1 : m h = (Ok tt, h1) -> fails_at (k tt) h1 -> fails_at (bind m k) h.
  Proof. intros E H. unfold fails_at. rewrite (bind_eq m k h tt h1 E). exact H. Qed.

  Lemma add_fails rec h idx : quiet_lab P o h lab ->
    fails_at (rec (TOp o a p lab (LSetInt idx v))) h -> fails_at (olist_add (p_ct P) rec o a p lab idx v) h.
  Proof.
    intros [A B] Hf. unfold olist_add, fails_at.
    rewrite (bind_eq (gets (fun h => local_field_of h o lab)) _ h None h); [| unfold gets, local_field_of; rewrite A; reflexivity].
    rewrite (bind_eq (gets (fun h => ofield (p_ct P) h o lab)) _ h (ofield (p_ct P) h o lab) h eq_refl).
    set (m1 := match ofield (p_ct P) h o lab with Some _ => _ | None => _ end).
    assert (E1 : m1 h = (Ok tt, h)).
    { unfold m1. destruct (ofield (p_ct P) h o lab); [rewrite B |]; reflexivity. }
    rewrite (bind_eq m1 _ h tt h E1). apply fails_bind.
    destruct v; try (exfalso; apply Nc; exact Logic.I); exact Hf.
  Qed.
  Lemma dadd_fails rec h k m : fails_at (rec (TDOp o a p lab (DSetItem k v))) h ->
    fails_at (dict_event rec o a p lab (DAdd k v, m)) h.
  Proof.
    intros Hf. unfold dict_event. cbn [fst]. apply fails_bind.
    destruct v; try (exfalso; apply Nc; exact Logic.I); exact Hf.
  Qed.

  Lemma vget_vput : forall q c c' x, vget q x = Some c -> vget q (vput q c' x) = Some c'.
  Proof.
    induction q as [| s q IH]; intros c c' x G; [reflexivity |].
    destruct s as [i | k]; cbn [vget vput] in *; destruct x; try discriminate G.
    - destruct (nth_error l i) as [y |] eqn:E; [| discriminate G]. cbn [vget].
      assert (Li : (i < length l)%nat) by (apply nth_error_Some; congruence).
      destruct (replace_with l i (vput q c' y) Li) as (_ & R & _). rewrite R. apply (IH c), G.
    - destruct (sget k d) as [y |] eqn:E; [| discriminate G]. cbn [vget]. rewrite sget_sset_same. apply (IH c), G.
  Qed.
  Lemma vput_kind whole c c' : vget p whole = Some c ->
    ((exists l, c = VList l) /\ (exists l, c' = VList l) \/ (exists l, c = VDict l) /\ (exists l, c' = VDict l)) ->
    kind_of f whole -> kind_of f (vput p c' whole).
  Proof.
    intros G H K. unfold kind_of in *. destruct p as [| s q].
    - cbn in G. injection G as ->. cbn. destruct (f_ftype (fl_fdef f)) as [[] |]; auto;
        destruct K as (y & ->); destruct H as [[(? & ?) H] | [(? & ?) H]]; try discriminate; exact H.
    - destruct (f_ftype (fl_fdef f)) as [[] |]; auto; destruct K as (y & ->); destruct s; try discriminate G; cbn [vput];
        match goal with |- context [match ?x with Some _ => _ | None => _ end] => destruct x end; eauto.
  Qed.
  Lemma inside_put h h' whole c c' : inside P o a f h lab whole -> vget p whole = Some c ->
    ((exists l, c = VList l) /\ (exists l, c' = VList l) \/ (exists l, c = VDict l) /\ (exists l, c' = VDict l)) ->
    kept o a h h' -> attr h' o a = Some (vput p c' whole) -> inside P o a f h' lab (vput p c' whole).
  Proof.
    intros [I1 I2 I3 I4 I5 I6 I7] G H K A. constructor; auto.
    - rewrite (kept_ofield _ o a h h' o a K). exact I1.
    - rewrite (kept_lkeys o a h h' o K). exact I4.
    - rewrite (kept_ofield _ o a h h' o lab K). exact I6.
    - apply (vput_kind whole c c' G H I7).
  Qed.
  Lemma put_raw h q c : same_raw h (put_at o a q c h).
  Proof.
    intros x. unfold put_at. destruct (attr h o a); [| reflexivity]. unfold upd. cbn. destruct (Nat.eqb_spec x o); [subst |]; reflexivity.
  Qed.

  (** the change, up to the reports *)
  Lemma changed h whole l l' : inside P o a f h lab whole -> vget p whole = Some (VList l) ->
    exists h1, olist_will (p_ct P) (p_getter P) o lab h = (Ok tt, h1) /\
      (let h2 := put_at o a p (VList l') h1 in
       inside P o a f h2 lab (vput p (VList l') whole) /\ same_raw h h2 /\ vget p (vput p (VList l') whole) = Some (VList l')).
  Proof.
    intros I G. destruct (will_ok P o a f h lab whole I) as (h1 & E1 & C1).
    exists h1. split; [exact E1 |]. cbv zeta.
    pose proof (inside_calm P o a f h h1 lab whole C1 I) as I1.
    destruct (put_kept o a h1 p (VList l') whole (in_attr _ _ _ _ _ _ _ I1)) as [K2 A2].
    split; [| split].
    - apply (inside_put h1 _ whole (VList l) (VList l') I1 G); eauto.
    - intros x. rewrite put_raw. apply (ch_raw _ _ C1).
    - apply (vget_vput p (VList l)), G.
  Qed.

  Lemma inside_quiet h whole : inside P o a f h lab whole -> quiet_lab P o h lab.
  Proof. intros I. split; [apply (in_lkeys _ _ _ _ _ _ _ I) | apply (in_other _ _ _ _ _ _ _ I)]. Qed.

  Lemma set_item_fails : forall n h whole l z,
    inside P o a f h lab whole -> vget p whole = Some (VList l) -> sinb a (o_raw (h_obj h o)) = false ->
    fails_at (rn n (TOp o a p lab (LSetInt z v))) h.
  Proof.
    induction n as [| n IH]; intros h whole l z I G Rw; [exists ERecursion, h; reflexivity |].
    cbn [run body]. unfold do_list, attr_at, fails_at. rewrite (in_attr _ _ _ _ _ _ _ I), G, Rw.
    unfold owned_step, o_setint. destruct (py_set z v l) as [l' | e] eqn:Es; cbn [existsb is_will fst orb].
    - destruct (changed h whole l l' I G) as (h1 & E1 & I2 & R2 & G2).
      rewrite (bind_eq _ _ h tt h1 E1). set (h2 := put_at o a p (VList l') h1) in *.
      rewrite (bind_eq (modify (put_at o a p (VList l'))) _ h1 tt h2 eq_refl).
      cbn [for_st list_event fst]. rewrite (bind_eq (ret tt) _ h2 tt h2 eq_refl).
      set (dv := match item_or_none _ l with Some v => v | None => VNone end).
      destruct (del_ok P o a (rn n) h2 p lab dv (inside_quiet h2 _ I2)) as (h3 & E3 & C3).
      rewrite (bind_eq _ _ h2 tt h3 E3). apply fails_bind.
      pose proof (inside_calm P o a f h2 h3 lab _ C3 I2) as I3.
      apply add_fails; [apply (inside_quiet h3 _ I3) |].
      apply (IH h3 _ l' _ I3 G2). rewrite (ch_raw _ _ C3), R2. exact Rw.
    - destruct (will_ok P o a f h lab whole I) as (h1 & E1 & C1). rewrite (bind_eq _ _ h tt h1 E1).
      exists e. eexists. reflexivity.
  Qed.
  Lemma append_fails n h whole l :
    inside P o a f h lab whole -> vget p whole = Some (VList l) -> sinb a (o_raw (h_obj h o)) = false ->
    fails_at (rn n (TOp o a p lab (LAppend v))) h.
  Proof.
    destruct n as [| n]; intros I G Rw; [exists ERecursion, h; reflexivity |].
    cbn [run body]. unfold do_list, attr_at, fails_at. rewrite (in_attr _ _ _ _ _ _ _ I), G, Rw.
    unfold owned_step, o_append. cbn [existsb is_will fst orb].
    destruct (changed h whole l (l ++ [v]) I G) as (h1 & E1 & I2 & R2 & G2).
    rewrite (bind_eq _ _ h tt h1 E1). set (h2 := put_at o a p (VList (l ++ [v])) h1) in *.
    rewrite (bind_eq (modify (put_at o a p (VList (l ++ [v])))) _ h1 tt h2 eq_refl).
    cbn [for_st list_event fst]. rewrite (bind_eq (ret tt) _ h2 tt h2 eq_refl).
    apply fails_bind, add_fails; [apply (inside_quiet h2 _ I2) |].
    apply (set_item_fails n h2 _ _ _ I2 G2). rewrite R2. exact Rw.
  Qed.
  Lemma insert_fails n h whole l z :
    inside P o a f h lab whole -> vget p whole = Some (VList l) -> sinb a (o_raw (h_obj h o)) = false ->
    fails_at (rn n (TOp o a p lab (LInsert z v))) h.
  Proof.
    destruct n as [| n]; intros I G Rw; [exists ERecursion, h; reflexivity |].
    cbn [run body]. unfold do_list, attr_at, fails_at. rewrite (in_attr _ _ _ _ _ _ _ I), G, Rw.
    unfold owned_step, o_insert. cbn [existsb is_will fst orb].
    destruct (changed h whole l (py_insert z v l) I G) as (h1 & E1 & I2 & R2 & G2).
    rewrite (bind_eq _ _ h tt h1 E1). set (h2 := put_at o a p (VList (py_insert z v l)) h1) in *.
    rewrite (bind_eq (modify (put_at o a p (VList (py_insert z v l)))) _ h1 tt h2 eq_refl).
    cbn [for_st list_event fst]. rewrite (bind_eq (ret tt) _ h2 tt h2 eq_refl).
    apply fails_bind, add_fails; [apply (inside_quiet h2 _ I2) |].
    apply (set_item_fails n h2 _ _ _ I2 G2). rewrite R2. exact Rw.
  Qed.
  Lemma set_entry_fails : forall n h whole m k,
    inside P o a f h lab whole -> vget p whole = Some (VDict m) ->
    fails_at (rn n (TDOp o a p lab (DSetItem k v))) h.
  Proof.
    induction n as [| n IH]; intros h whole m k I G; [exists ERecursion, h; reflexivity |].
    cbn [run body]. unfold do_dict, attr_at, fails_at. rewrite (in_attr _ _ _ _ _ _ _ I), G.
    unfold owned_dstep, od_setitem. cbn [existsb is_dwill fst orb]. fold (sset k v m). fold (@sget value).
    destruct (dwill_ok P o a f h lab whole I) as (h1 & E1 & C1).
    rewrite (bind_eq _ _ h tt h1 E1).
    pose proof (inside_calm P o a f h h1 lab whole C1 I) as I1.
    destruct (put_kept o a h1 p (VDict (sset k v m)) whole (in_attr _ _ _ _ _ _ _ I1)) as [K2 A2].
    set (h2 := put_at o a p (VDict (sset k v m)) h1) in *.
    rewrite (bind_eq (modify (put_at o a p (VDict (sset k v m)))) _ h1 tt h2 eq_refl).
    assert (I2 : inside P o a f h2 lab (vput p (VDict (sset k v m)) whole)) by (apply (inside_put h1 h2 whole (VDict m) _ I1 G); eauto).
    pose proof (vget_vput p (VDict m) (VDict (sset k v m)) whole G) as G2.
    cbn [for_st]. rewrite (bind_eq (dict_event (rn n) o a p lab (DWill, m)) _ h2 tt h2 eq_refl).
    destruct (sget k m) as [old |] eqn:Eo.
    - cbn [app for_st]. destruct (ch_mark o lab h2) as (h3 & E3 & C3).
      rewrite (bind_eq (dict_event (rn n) o a p lab (DDel (Some old), sset k v m)) _ h2 tt h3 E3).
      apply fails_bind, dadd_fails. apply (IH h3 _ (sset k v m) k (inside_calm P o a f h2 h3 lab _ C3 I2) G2).
    - cbn [app for_st]. apply fails_bind, dadd_fails. apply (IH h2 _ (sset k v m) k I2 G2).
  Qed.
End NoContainer.
