(** SaveCallProofs.v -- the calls of a save, in order. *)
From Verif Require Import Base Mon PyList PyDict KeypathModel Values ChainModel TypesModel ObjModel ObjSpec IoModel
  IoBase OnsaveSpec OnsaveProofs CallSpec CallProofs SaveCallSpec.
From Verif Require ObjTrack PrevIdProofs MGraphModel.
From Coq Require Import Lia.
Open Scope list_scope.

Definition logged (w : world) (es : list event) : world :=
  {| w_heap := w_heap w; w_ext := w_ext w; w_mg := w_mg w; w_log := w_log w ++ es |}.
Lemma logged_nil w : logged w [] = w.
Proof. destruct w. unfold logged. cbn. rewrite app_nil_r. reflexivity. Qed.
Lemma logged_app w a b : logged (logged w a) b = logged w (a ++ b).
Proof. unfold logged. cbn. rewrite app_assoc. reflexivity. Qed.

Lemma existsb_sinb k l : existsb (String.eqb k) l = sinb k l.
Proof. induction l as [| x l IH]; [reflexivity |]. cbn. rewrite IH. reflexivity. Qed.
Lemma existsb_prev {V} k (l : list (string * V)) : existsb (String.eqb k) (map fst l) = match sget k l with Some _ => true | None => false end.
Proof. unfold sget. induction l as [| [x v] l IH]; [reflexivity |]. cbn. destruct (String.eqb k x); [reflexivity | exact IH]. Qed.

Lemma fold_st_app {S A B} (f : A -> B -> st S A) l1 l2 a s :
  fold_st f (l1 ++ l2) a s = bind (fold_st f l1 a) (fold_st f l2) s.
Proof.
  revert a s. induction l1 as [| x l1 IH]; intros a s; [reflexivity |]. cbn [app fold_st]. unfold bind at 1.
  unfold bind at 1. unfold bind at 1. destruct (f a x s) as [[b | e] s1]; [| reflexivity]. rewrite IH. reflexivity.
Qed.

Section Calls.
  Context (P : program) (fine : forall f c args h, exists v, p_call P f c args h = (Ok v, h)).

  Lemma call_logged g c args w : exists v, call P KSave g c args w = (Ok v, logged w [EvCall KSave g]).
  Proof.
    unfold call, bind, modW, liftH. cbn. destruct (fine g c args (w_heap w)) as [v ->]. exists v. reflexivity.
  Qed.

  Lemma modifier_calls n m c w o k v : calls_only m -> c_parent c = VObj o -> c_kp c = [KStr k] -> c_val c = v ->
    m_serialize (interp P (S n) m) c w = (Ok v, logged w (calls_of (h_obj (w_heap w) o) k m)).
  Proof.
    intros [Hi | (g & [-> | [-> | ->]])] PA KP <-.
    - rewrite <- (logged_nil w) at 1. destruct m; try discriminate Hi; cbn [calls_of]; rewrite ?logged_nil; reflexivity.
    - cbn [interp modif_of m_serialize serialize_of calls_of]. unfold onsave_serialize, bind.
      destruct (call_logged g c [c_val c] w) as [v ->]. reflexivity.
    - cbn [interp modif_of m_serialize serialize_of calls_of]. unfold onwrite_serialize, the_obj. rewrite PA, KP.
      unfold bind, lift, ret, getW, wobj, last_of, key_in. cbn [rev app]. rewrite existsb_sinb.
      destruct (_ || _); [| rewrite logged_nil; reflexivity]. destruct (call_logged g c [c_val c] w) as [v ->]. reflexivity.
    - cbn [interp modif_of m_serialize serialize_of calls_of]. unfold onupdate_serialize, the_obj. rewrite PA, KP.
      unfold bind, lift, ret, getW, wobj, last_of, prev_of. cbn [rev app]. rewrite existsb_prev.
      destruct (sget k (o_prev (h_obj (w_heap w) o))) as [p |]; [| rewrite logged_nil; reflexivity].
      destruct (call_logged g c [p; c_val c] w) as [v ->]. reflexivity.
  Qed.

  Lemma no_late n ts : (forall m, In m ts -> calls_only m) -> pvs (map (interp P n) ts) = [].
  Proof.
    intros H. unfold pvs. assert (fpvidx (map (interp P n) ts) = None) as ->; [| reflexivity].
    unfold fpvidx. induction ts as [| m ts IH]; [reflexivity |]. cbn [map first_vidx].
    replace (kind (interp P n m)) with (kind_of m) by (destruct n; reflexivity).
    assert (K : kind_eqb (kind_of m) KPreserialize = false).
    { destruct (H m (or_introl eq_refl)) as [Hi | (g & [-> | [-> | ->]])]; try reflexivity. destruct m; try discriminate Hi; reflexivity. }
    rewrite K, IH by (intros x Hx; apply H; right; exact Hx). reflexivity.
  Qed.
  Lemma two_phases (vs : list (modifier value ctx world)) : pvs vs = [] -> (forall v, In v vs -> kind_eqb (kind v) KPreserialize = false) -> tvs vs ++ nvs vs = vs.
  Proof.
    intros _ H. unfold tvs, nvs.
    assert (fpvidx vs = None) as ->.
    { unfold fpvidx. induction vs as [| v vs IH]; [reflexivity |]. cbn [first_vidx]. rewrite (H v (or_introl eq_refl)).
      rewrite IH by (intros x Hx; apply H; right; exact Hx). reflexivity. }
    destruct (levidx vs) as [i |]; cbn beta iota zeta.
    - replace (firstn (length vs - i) (skipn i vs)) with (skipn i vs); [apply firstn_skipn |].
      symmetry. apply firstn_all2. rewrite skipn_length. lia.
    - cbn [app skipn]. apply firstn_all2. lia.
  Qed.

  Lemma chain_calls n ts c w o k : (forall m, In m ts -> calls_only m) -> c_parent c = VObj o -> c_kp c = [KStr k] ->
    t_serialize P (interp P (S n)) ts c w = (Ok (c_val c), logged w (flat_map (calls_of (h_obj (w_heap w) o) k) ts)).
  Proof.
    intros H PA KP. unfold t_serialize, chain_serialize. rewrite no_late by exact H.
    set (F := fun val v => m_serialize v (nval c val)).
    assert (E : forall a w, (do* v1 <- fold_st F (tvs (map (interp P (S n)) ts)) a; do* v2 <- fold_st F (nvs (map (interp P (S n)) ts)) v1;
                fold_st (fun val v => sv nval (write_parent P) v (nval c val)) [] v2) w = fold_st F (map (interp P (S n)) ts) a w).
    { intros a w1. transitivity (fold_st F (tvs (map (interp P (S n)) ts) ++ nvs (map (interp P (S n)) ts)) a w1).
      - rewrite fold_st_app. unfold bind. destruct (fold_st F (tvs _) a w1) as [[b | e] w2]; [| reflexivity].
        destruct (fold_st F (nvs _) b w2) as [[x | e] w3]; reflexivity.
      - rewrite two_phases; [reflexivity | apply no_late, H |].
        intros v Hv. apply in_map_iff in Hv. destruct Hv as (m & <- & Hm). change (kind (interp P (S n) m)) with (kind_of m).
        destruct (H m Hm) as [Hi | (g & [-> | [-> | ->]])]; try reflexivity. destruct m; try discriminate Hi; reflexivity. }
    rewrite E. clear E. generalize (c_val c) as v. revert w. induction ts as [| m ts IH]; intros w v; [cbn; rewrite logged_nil; reflexivity |].
    cbn [map fold_st flat_map]. unfold bind at 1. unfold F at 1.
    rewrite (modifier_calls n m (nval c v) w o k v (H m (or_introl eq_refl)) PA KP eq_refl).
    rewrite IH by (intros x Hx; apply H; right; exact Hx). cbn [logged w_heap]. rewrite logged_app. reflexivity.
  Qed.

  Context (o : oid) (d : cdef) (h : heap).
  Hypothesis cls : p_ct P (o_class (h_obj h o)) = Some d.
  Hypothesis names : NoDup (map fl_name (cd_fields d)).
  Hypothesis fields : forall f, In f (cd_fields d) -> caller f.
  Hypothesis values : forall f, In f (cd_fields d) ->
    sget (fl_name f) (o_lkeys (h_obj h o)) = None /\
    exists v, attr h o (fl_name f) = Some v /\ veq (p_oeq P h) v v = true.
  Hypothesis room : p_lim P <> 0%nat.

  Lemma named_here f : In f (cd_fields d) -> ofield (p_ct P) h o (fl_name f) = Some f.
  Proof. intros H. unfold ofield, cdef_of. rewrite cls. apply PrevIdProofs.field_named_in; assumption. Qed.

  Lemma set_again f v w : In f (cd_fields d) -> w_heap w = h -> attr h o (fl_name f) = Some v -> veq (p_oeq P h) v v = true ->
    setattr P o (fl_name f) v w = (Ok tt, w).
  Proof.
    intros Hf Hw Hv He. unfold setattr, liftH. rewrite Hw. destruct (p_lim P) as [| n]; [contradiction |]. cbn [run body].
    unfold set_attribute, bind, gets. cbv beta iota. destruct (values f Hf) as [Hl _]. unfold local_field_of. rewrite Hl, (named_here f Hf).
    unfold set_field. destruct (fields f Hf) as (Hp & _). apply andb_true_iff in Hp. destruct Hp as [_ Hc]. apply negb_true_iff in Hc.
    rewrite Hc. unfold bind, gets, eqv. cbv beta iota. rewrite Hv, He. unfold ret. rewrite <- Hw. destruct w; reflexivity.
  Qed.

  Lemma field_calls n c go f w : In f (cd_fields d) -> w_heap w = h -> c_owner c = VObj o -> c_parent c = VObj o -> c_kp c = [] ->
    go = (o_modified (h_obj h o) || o_new (h_obj h o)) ->
    save_field P (interp P (S n)) c o go f w =
      (Ok go, logged w (if go then flat_map (calls_of (h_obj h o) (fl_name f)) (fl_types f) else [])).
  Proof.
    intros Hf Hw HO HP HK Hg. destruct (fields f Hf) as (Hp & Hi & Hfo & Hm).
    apply andb_true_iff in Hp. destruct Hp as [Hr Hc]. apply negb_true_iff in Hr, Hc.
    unfold save_field. rewrite Hr, Hi, Hfo. cbn [orb]. rewrite orb_false_r.
    destruct go; [| unfold ret; rewrite logged_nil; reflexivity].
    assert (Hl : is_local f = false) by (destruct (is_local f) eqn:E; [| reflexivity]; apply ObjTrack.local_ref in E; congruence).
    rewrite Hl, Hc. destruct (values f Hf) as (_ & v & Hv & He).
    assert (G : getattr P o (fl_name f) w = (Ok v, w)).
    { unfold getattr, liftH, ObjModel.getattr. rewrite Hw, (named_here f Hf), Hc, Hv. rewrite <- Hw. destruct w; reflexivity. }
    unfold bind, ret. cbv beta iota. rewrite G.
    unfold ekey, cdef_v, the_obj. rewrite HO. unfold bind, ret, getW. cbv beta iota.
    rewrite (chain_calls n (fl_types f) _ w o (fl_name f) Hm).
    - cbn [c_val nextv]. rewrite (set_again f v _ Hf) by assumption. cbn [logged w_heap]. unfold wobj, touched. cbn [w_heap logged]. rewrite Hw.
      rewrite <- Hg. reflexivity.
    - exact HP.
    - cbn. rewrite HK. reflexivity.
  Qed.

  Lemma fields_calls n c w go : w_heap w = h -> c_owner c = VObj o -> c_parent c = VObj o -> c_kp c = [] ->
    go = (o_modified (h_obj h o) || o_new (h_obj h o)) -> forall fs, incl fs (cd_fields d) ->
    fold_st (save_field P (interp P (S n)) c o) fs go w =
      (Ok go, logged w (if go then flat_map (fun f => flat_map (calls_of (h_obj h o) (fl_name f)) (fl_types f)) fs else [])).
  Proof.
    intros Hw HO HP HK Hg fs. revert w Hw. induction fs as [| f fs IH]; intros w Hw Hi.
    - cbn. destruct go; rewrite logged_nil; reflexivity.
    - cbn [fold_st]. unfold bind. rewrite (field_calls n c go f w) by (auto; apply Hi; left; reflexivity).
      rewrite IH by (auto; intros x Hx; apply Hi; right; exact Hx). rewrite logged_app. destruct go; reflexivity.
  Qed.

  Theorem save_calls n w : w_heap w = h -> set_on_save P (S (S n)) o w = (Ok tt, logged w (due_calls (h_obj h o) d)).
  Proof.
    intros Hw. unfold set_on_save, bind, getW. cbv beta iota.
    unfold with_new_mgraph, self_mod. cbn [interp modif_of m_serialize serialize_of].
    unfold inst_serialize, root_ctx, rootctx. cbn [c_val].
    unfold mg_get, the_obj, bind, ret, getW. cbv beta iota.
    assert (M : forall cn pk, MGraphModel.m_get cn o pk [] = None) by (intros cn [pk |]; reflexivity). cbn [set_mg w_mg]. rewrite M.
    unfold mg_put, modW, bind, ret. cbv beta iota.
    set (w1 := set_mg _ (set_mg [] w)). assert (H1 : w_heap w1 = h) by exact Hw.
    unfold wcdef, wobj, cdef_of. rewrite H1, cls.
    rewrite (fields_calls n _ w1 (touched (h_obj h o)) H1); try reflexivity; [| apply incl_refl].
    unfold due_calls, touched. rewrite (orb_comm (o_new _)). destruct w. destruct (_ || _); unfold logged, set_mg, w1; reflexivity.
  Qed.
End Calls.
