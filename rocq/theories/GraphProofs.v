(** GraphProofs.v -- lemmas for C40. *)
From Verif Require Import Base Mon PyList PyDict StrDict ODictSpec ODictProofs KeypathModel Values OGraphModel MGraphModel MGraphProofs ChainModel
  TypesModel TypesSpec TypesProofs ObjModel IoModel IoBase Sound ObjSound LeafSound TameSpec Keep TameProofs GraphSpec.
From Verif Require LeafModel.
Open Scope list_scope.

(** ** Marks *)
Lemma has_put_same cname o pk m : m_has cname o pk (m_put cname o pk m) = true.
Proof.
  unfold m_has, m_put. rewrite table_sset, String.eqb_refl. unfold t_has, t_put. destruct pk as [p |]; cbn [by_key by_id t_putp].
  - rewrite sget_sset, String.eqb_refl. reflexivity.
  - rewrite (dget_dset _ nat_equivb), Nat.eqb_refl. reflexivity.
Qed.
Lemma has_put_mono cname o pk o' pk' m : m_has cname o' pk' m = true -> m_has cname o' pk' (m_put cname o pk m) = true.
Proof.
  unfold m_has, m_put. rewrite table_sset. destruct (String.eqb_spec (cname o') (cname o)) as [-> |]; [| auto].
  unfold t_has, t_put. destruct pk as [p |]; cbn [by_key by_id t_putp].
  - destruct pk' as [p' |]; [| auto]. rewrite sget_sset. destruct (String.eqb p' p); [reflexivity | auto].
  - destruct (match pk' with Some p => sget p (by_key (m_table (cname o) m)) | None => None end); [auto |].
    rewrite (dget_dset _ nat_equivb). destruct (Nat.eqb o' o); [reflexivity | auto].
Qed.

(** ** The weight of the objects that are not marked *)
Definition total (u : oid -> bool) (g : oid -> nat) (l : list oid) : nat :=
  list_sum (map (fun o => if u o then g o else 0%nat) l).
Lemma total_le u u' g l : (forall x, u' x = true -> u x = true) -> (total u' g l <= total u g l)%nat.
Proof.
  intros H. induction l as [| x l IH]; [reflexivity |]. unfold total in *. cbn [map list_sum fold_right].
  specialize (H x). change (fold_right Nat.add 0%nat) with list_sum. destruct (u' x); [rewrite (H eq_refl); lia | lia].
Qed.
Lemma total_drop u u' g l o : (forall x, u' x = true -> u x = true) -> In o l -> u o = true -> u' o = false ->
  (total u' g l + g o <= total u g l)%nat.
Proof.
  intros H Ho Hu Hu'. induction l as [| x l IH]; [contradiction |].
  pose proof (total_le u u' g l H) as L. unfold total in *. cbn [map list_sum fold_right].
  change (fold_right Nat.add 0%nat) with list_sum. destruct Ho as [-> | Ho].
  - rewrite Hu, Hu'. lia.
  - specialize (IH Ho). specialize (H x). destruct (u' x); [rewrite (H eq_refl); lia | lia].
Qed.
Lemma total_count u l : (total u (fun _ => 1%nat) l <= length l)%nat.
Proof.
  induction l as [| x l IH]; [reflexivity |]. unfold total in *. cbn [map list_sum fold_right length].
  change (fold_right Nat.add 0%nat) with list_sum. destruct (u x); lia.
Qed.

Definition unseen (P : program) (w : world) (o : oid) : bool := negb (m_has (cname_of w) o (pk_of P w o) (w_mg w)).
Definition marked (P : program) (o : oid) (w : world) : world := set_mg (m_put (cname_of w) o (pk_of P w o) (w_mg w)) w.
Lemma unseen_marked P o w x : unseen P (marked P o w) x = true -> unseen P w x = true.
Proof.
  unfold unseen, marked. cbn. intros H. apply Bool.negb_true_iff in H. apply Bool.negb_true_iff.
  destruct (m_has (cname_of w) x (pk_of P w x) (w_mg w)) eqn:E; [| reflexivity].
  change (cname_of (set_mg (m_put (cname_of w) o (pk_of P w o) (w_mg w)) w)) with (cname_of w) in H.
  change (pk_of P (set_mg (m_put (cname_of w) o (pk_of P w o) (w_mg w)) w)) with (pk_of P w) in H.
  rewrite has_put_mono in H; [discriminate H | exact E].
Qed.
Lemma unseen_self P o w : unseen P (marked P o w) o = false.
Proof.
  unfold unseen, marked. cbn.
  change (cname_of (set_mg (m_put (cname_of w) o (pk_of P w o) (w_mg w)) w)) with (cname_of w).
  change (pk_of P (set_mg (m_put (cname_of w) o (pk_of P w o) (w_mg w)) w)) with (pk_of P w).
  rewrite has_put_same. reflexivity.
Qed.
Lemma unseen_same P w w' x : w_heap w = w_heap w' -> w_mg w = w_mg w' -> unseen P w x = unseen P w' x.
Proof. intros E1 E2. unfold unseen, cname_of, pk_of. rewrite E1, E2. reflexivity. Qed.

Lemma call_eq P k f c args w : calm P ->
  call P k f c args w = (fst (p_call P f c args (w_heap w)), add_log (EvCall k f) w).
Proof.
  intros H. unfold call, seq, bind, modW, liftH. cbn [w_heap add_log]. specialize (H f c args (w_heap w)).
  destruct (p_call P f c args (w_heap w)) as [r h]. cbn [snd] in H. subst h. reflexivity.
Qed.

(** ** Termination *)
Section Ends.
  Context (P : program) (D : nat) (h : heap).
  Hypothesis C : calm P.
  Hypothesis E : ending P.
  Hypothesis TC : tame_classes D P.
  Hypothesis FG : finite_graph P h.
  Instance ends : manner := Ending.

  Lemma loud_ends e : e <> ERecursion -> loud e.
  Proof. intros H. split; intros X; [discriminate X | exact H]. Qed.
  Definition Iends (k : nat) (w : world) : Prop :=
    w_heap w = h /\ (total (unseen P w) (fun _ => 1%nat) (seq 0 (h_next h)) <= k)%nat.

  Lemma ends_call j k f c args : keeps (Iends j) (call P k f c args).
  Proof.
    intros w [H1 H2]. rewrite (call_eq P k f c args w C). cbn [fst snd]. split.
    - split; [exact H1 |]. unfold total in *. erewrite map_ext; [exact H2 |]. intros x. cbn beta.
      rewrite (unseen_same P (add_log (EvCall k f) w) w x eq_refl eq_refl). reflexivity.
    - intros e He. apply loud_ends. intros ->. apply (ending_call P E f c args (w_heap w)). rewrite <- He. reflexivity.
  Qed.
  Lemma ends_mark k o w : Iends k w -> m_has (cname_of w) o (pk_of P w o) (w_mg w) = false ->
    exists k', (k' <= k)%nat /\ ((k' < k)%nat \/ speak <> Ending \/ p_ct P (wclass w o) = None) /\
               Iends k' (set_mg (m_put (cname_of w) o (pk_of P w o) (w_mg w)) w).
  Proof.
    intros [H1 H2] Hh. assert (U : unseen P w o = true) by (unfold unseen; rewrite Hh; reflexivity).
    destruct (p_ct P (wclass w o)) as [d |] eqn:Ed.
    - assert (In o (seq 0 (h_next h))).
      { apply in_seq. split; [lia |]. apply FG. unfold wclass, wobj in Ed. rewrite <- H1, Ed. discriminate. }
      pose proof (total_drop (unseen P w) (unseen P (marked P o w)) (fun _ => 1%nat) (seq 0 (h_next h)) o
        (unseen_marked P o w) H U (unseen_self P o w)) as L. cbn beta in L.
      exists (k - 1)%nat. split; [lia |]. split; [left; lia |]. split; [exact H1 |]. fold (marked P o w). lia.
    - exists k. split; [lia |]. split; [auto |]. split; [exact H1 |]. fold (marked P o w).
      pose proof (total_le (unseen P w) (unseen P (marked P o w)) (fun _ => 1%nat) (seq 0 (h_next h)) (unseen_marked P o w)). lia.
  Qed.

  Lemma ends_validate n d m c ts w : tame d m -> (c_fdef c = fdef_of ts) -> (forall x, In x ts -> tame d x) ->
    (vfuel D (h_next h) d <= n)%nat -> w_heap w = h ->
    w_heap (snd (m_validate (interp P n m) c w)) = h /\ fst (m_validate (interp P n m) c w) <> Err ERecursion.
  Proof.
    intros Hm Hc Ht Hn Hw.
    assert (K : keeps (Iends (h_next h)) (m_validate (interp P n m) c)).
    { apply (heap_validate P h D TC) with (d := d) (ts := ts); try assumption.
      - intros h0 o0 n0 e He. apply loud_ends. intros ->. exact (ending_getter P E _ _ _ He).
      - intros op a b e He. apply loud_ends. intros ->. exact (ending_arith P E _ _ _ He).
      - intros k w0 X o0. rewrite (proj1 X). reflexivity.
      - intros k k' w0 L [X Y]. split; [exact X | lia].
      - intros. apply ends_call.
      - apply ends_mark.
      - right. exact Hn. }
    assert (Iw : Iends (h_next h) w).
    { split; [exact Hw |]. rewrite <- (seq_length (h_next h) 0) at 2. apply total_count. }
    destruct (K w Iw) as [[K1 K2] K3]. split; [exact K1 |].
    intros X. destruct (K3 ERecursion) as [_ Y]; [exact X |]. apply Y; reflexivity.
  Qed.
End Ends.

(** ** Each object once *)
Section Once.
  Context (P : program) (D : nat) (h : heap) (f : cbid).
  Hypothesis C : calm P.
  Hypothesis TC : tame_classes D P.
  Hypothesis FG : finite_graph P h.
  Hypothesis only : forall cls d fl m, p_ct P cls = Some d -> In fl (cd_fields d) -> In m (fl_types fl) ->
    uses D f m -> checks_with f m = true.
  Instance once : manner := Silent.

  Definition spent (w : world) : nat := (checks f w + total (unseen P w) (places_at P f h) (seq 0 (h_next h)))%nat.
  Definition Ionce (k : nat) (w : world) : Prop := w_heap w = h /\ (spent w <= k)%nat.
  Lemma any_loud e : loud e.
  Proof. split; intros X; discriminate X. Qed.
  Lemma any_louder {A} (r : res A) : louder r.
  Proof. intros e _. apply any_loud. Qed.
  Let Q (g : cbid) : Prop := g <> f.

  Lemma checks_log e w : checks f (add_log e w) = (checks f w + if is_check f e then 1 else 0)%nat.
  Proof. unfold checks. cbn [w_log add_log]. rewrite filter_app, app_length. cbn [filter]. destruct (is_check f e); reflexivity. Qed.
  Lemma total_log e w : total (unseen P (add_log e w)) (places_at P f h) (seq 0 (h_next h)) =
                        total (unseen P w) (places_at P f h) (seq 0 (h_next h)).
  Proof.
    reflexivity.
  Qed.

  Lemma once_call j k g c args : Q g -> keeps (Ionce j) (call P k g c args).
  Proof.
    intros Hg w [H1 H2]. rewrite (call_eq P k g c args w C). cbn [fst snd]. split; [| apply any_louder].
    split; [exact H1 |]. unfold spent in *. rewrite checks_log, total_log. cbn [is_check].
    destruct (Nat.eqb_spec g f) as [E | E]; [contradiction |]. destruct k; lia.
  Qed.

  (** [costs a m]: [m] calls [f] at most [a] times more than the objects it marks allow. *)
  Definition costs {A} (a : nat) (m : st world A) : Prop := forall k w, Ionce k w -> Ionce (k + a) (snd (m w)).
  Lemma Ionce_le k k' w : (k <= k')%nat -> Ionce k w -> Ionce k' w.
  Proof. intros L [H1 H2]. split; [exact H1 | lia]. Qed.
  Lemma costs_le {A} a b (m : st world A) : (a <= b)%nat -> costs a m -> costs b m.
  Proof. intros L H k w Hw. apply (Ionce_le (k + a)); [lia | apply H, Hw]. Qed.
  Lemma costs_keeps {A} (m : st world A) : (forall k, keeps (Ionce k) m) -> costs 0 m.
  Proof. intros H k w Hw. rewrite Nat.add_0_r. apply (H k w Hw). Qed.
  Lemma costs_bind {A B} a b (m : st world A) (k : A -> st world B) : costs a m -> (forall x, costs b (k x)) -> costs (a + b) (bind m k).
  Proof.
    intros Hm Hk j w Hw. unfold bind. specialize (Hm j w Hw). destruct (m w) as [[x | e] w']; cbn [snd] in *.
    - rewrite Nat.add_assoc. apply (Hk x (j + a)%nat w' Hm).
    - apply (Ionce_le (j + a)); [lia | exact Hm].
  Qed.
  Lemma costs_loop (g : mdf -> nat) (rec : mdf -> modifier value ctx world) vs c :
    (forall m, In m vs -> costs (g m) (m_validate (rec m) c)) ->
    forall msgs, costs (list_sum (map g vs)) (chain_validate_loop all_on (map rec vs) c msgs).
  Proof.
    induction vs as [| m vs IH]; intros H msgs; cbn [map chain_validate_loop list_sum fold_right].
    - apply costs_keeps. intros k. apply k_ret.
    - change (fold_right Nat.add 0%nat) with list_sum.
      assert (IH' : forall msgs, costs (list_sum (map g vs)) (chain_validate_loop all_on (map rec vs) c msgs)).
      { apply IH. intros x Hx. apply H. right. exact Hx. }
      intros k w Hw. pose proof (H m (or_introl eq_refl) k w Hw) as H1.
      destruct (m_validate (rec m) c w) as [[u | e] w']; cbn [snd] in *.
      + rewrite Nat.add_assoc. apply (IH' msgs _ _ H1).
      + destruct e; try (cbn [snd]; apply (Ionce_le (k + g m)); [lia | exact H1]).
        destruct (all_on c); [rewrite Nat.add_assoc; apply (IH' (receive msgs msgs0) _ _ H1) | cbn; apply (Ionce_le (k + g m)); [lia | exact H1]].
  Qed.
  Lemma sum_firstn (l : list nat) : forall n, (list_sum (firstn n l) <= list_sum l)%nat.
  Proof. induction l as [| x l IH]; intros [| n]; cbn; try lia. specialize (IH n). unfold list_sum in IH. lia. Qed.
  Lemma sum_skipn (l : list nat) : forall n, (list_sum (skipn n l) <= list_sum l)%nat.
  Proof. induction l as [| x l IH]; intros [| n]; cbn; try lia. specialize (IH n). unfold list_sum in IH. lia. Qed.
  Lemma firstn_In {X} (x : X) l : forall n, In x (firstn n l) -> In x l.
  Proof. induction l as [| y l IH]; intros [| n]; cbn; try contradiction. intros [<- | H]; [left; reflexivity | right; apply (IH n H)]. Qed.
  Lemma skipn_In {X} (x : X) l : forall n, In x (skipn n l) -> In x l.
  Proof. induction l as [| y l IH]; intros [| n]; cbn; auto. intros H. right. apply (IH n H). Qed.
  Lemma costs_chain (g : mdf -> nat) (rec : mdf -> modifier value ctx world) vs c :
    (forall m, In m vs -> costs (g m) (m_validate (rec m) c)) -> costs (list_sum (map g vs)) (t_validate rec vs c).
  Proof.
    intros H. unfold t_validate, chain_validate.
    assert (exists us, nvs (map rec vs) = map rec us /\ (list_sum (map g us) <= list_sum (map g vs))%nat /\ forall x, In x us -> In x vs)
      as (us & -> & L & S).
    { unfold nvs. cbv zeta. set (a := (_ - _)%nat). set (b := match levidx (map rec vs) with Some i => i | None => 0%nat end).
      exists (firstn a (skipn b vs)). rewrite skipn_map, firstn_map. split; [reflexivity |]. split.
      - rewrite <- firstn_map, <- skipn_map. eapply Nat.le_trans; [apply sum_firstn | apply sum_skipn].
      - intros x Hx. apply firstn_In, skipn_In in Hx. exact Hx. }
    eapply costs_le; [exact L |]. rewrite <- (Nat.add_0_r (list_sum (map g us))). apply costs_bind.
    - apply costs_loop. intros m Hm. apply H, S, Hm.
    - intros x. apply costs_keeps. intros k. apply k_collected.
  Qed.
  Lemma costs_collect {X} (g : X -> nat) all (pre : X -> st world (option (st world unit))) l :
    (forall x k, In x l -> keeps (Ionce k) (pre x)) ->
    (forall x m w w', In x l -> pre x w = (Ok (Some m), w') -> costs (g x) m) ->
    forall msgs, costs (list_sum (map g l)) (collect all pre l msgs).
  Proof.
    induction l as [| x l IH]; intros H K msgs; cbn [collect map list_sum fold_right]; [apply costs_keeps; intros; apply k_ret |].
    change (fold_right Nat.add 0%nat) with list_sum.
    assert (IH' : forall msgs, costs (list_sum (map g l)) (collect all pre l msgs)).
    { apply IH; [intros y k Hy; apply H; right; exact Hy |]. intros y m w w' Hy. apply (K y). right. exact Hy. }
    intros k w Hw. unfold bind. destruct (H x k (or_introl eq_refl) w Hw) as [H1 _].
    destruct (pre x w) as [[[m |] | e] w'] eqn:Ep; cbn [fst snd] in *.
    - pose proof (K x m w w' (or_introl eq_refl) Ep k w' H1) as M1.
      destruct (m w') as [[u | e] w2]; cbn [fst snd] in *.
      + rewrite Nat.add_assoc. apply (IH' msgs _ w2 M1).
      + destruct e; try (cbn [snd]; apply (Ionce_le (k + g x)); [lia | exact M1]).
        destruct all; [| cbn [snd]; apply (Ionce_le (k + g x)); [lia | exact M1]].
        rewrite Nat.add_assoc. apply (IH' (receive msgs msgs0) _ w2 M1).
    - apply (Ionce_le (k + list_sum (map g l))); [lia |]. apply (IH' msgs _ w' H1).
    - apply (Ionce_le k); [lia | exact H1].
  Qed.

  Lemma costs_check n m c : checks_with f m = true -> costs 1 (m_validate (interp P n m) c).
  Proof.
    intros H. destruct n as [| n]; [intros k w Hw; apply (Ionce_le k); [lia | exact Hw] |].
    destruct m; try discriminate H. destruct p; try discriminate H. cbn in H. apply Nat.eqb_eq in H. subst f0.
    cbn [interp modif_of m_validate validate_of validate_validate]. destruct (is_none (c_val c)).
    - apply (costs_le 0); [lia |]. apply costs_keeps. intros. apply k_ret.
    - replace 1%nat with (1 + 0)%nat by lia. apply costs_bind.
      + intros k w [H1 H2]. rewrite (call_eq P KValidate f c [c_val c] w C). cbn [snd]. split; [exact H1 |].
        unfold spent in *. rewrite checks_log, total_log. cbn [is_check]. rewrite Nat.eqb_refl. lia.
      + intros r. apply costs_keeps. intros k. destruct r as [| [] | | | | | | | | | |]; first [apply k_ret | apply k_throw, any_loud].
  Qed.

  Definition cost (m : mdf) : nat := if checks_with f m then 1%nat else 0%nat.
  Definition fcost (fl : field) : nat := list_sum (map cost (fl_types fl)).
  Lemma places_sum d : places f d = list_sum (map fcost (cd_fields d)).
  Proof.
    unfold places. induction (cd_fields d) as [| fl fs IH]; [reflexivity |]. cbn [flat_map map list_sum fold_right].
    rewrite filter_app, app_length. change (fold_right Nat.add 0%nat) with list_sum. rewrite IH. f_equal. unfold fcost, cost.
    induction (fl_types fl) as [| m ms IHm]; [reflexivity |]. cbn. destruct (checks_with f m); cbn; rewrite IHm; reflexivity.
  Qed.

  Lemma once_inst n k o c w : Ionce k w -> m_has (cname_of w) o (pk_of P w o) (w_mg w) = false ->
    enough (vfuel D k 1) (Datatypes.S n) ->
    (forall k' m c', tameQ Q D m -> tame_ctx Q D c' -> enough (vfuel D k' D) n -> keeps (Ionce k') (m_validate (interp P n m) c')) ->
    let r := inst_rest P (interp P n) c o (set_mg (m_put (cname_of w) o (pk_of P w o) (w_mg w)) w) in
    Ionce k (snd r) /\ louder (fst r).
  Proof.
    intros [H1 H2] Hh _ H. cbn zeta. split; [| apply any_louder]. fold (marked P o w).
    assert (U : unseen P w o = true) by (unfold unseen; rewrite Hh; reflexivity).
    assert (exists k', (k' + places_at P f h o <= k)%nat /\ Ionce k' (marked P o w)) as (k' & Lk & Hw').
    { destruct (p_ct P (o_class (h_obj h o))) as [d |] eqn:Ed.
      - assert (Io : In o (seq 0 (h_next h))) by (apply in_seq; split; [lia |]; apply FG; rewrite Ed; discriminate).
        pose proof (total_drop (unseen P w) (unseen P (marked P o w)) (places_at P f h) (seq 0 (h_next h)) o
          (unseen_marked P o w) Io U (unseen_self P o w)) as L.
        exists (k - places_at P f h o)%nat. unfold spent, Ionce in *. change (checks f (marked P o w)) with (checks f w) in *.
        split; [lia |]. split; [exact H1 |]. unfold spent. change (checks f (marked P o w)) with (checks f w). lia.
      - exists k. unfold places_at. rewrite Ed. split; [lia |]. split; [exact H1 |].
        pose proof (total_le (unseen P w) (unseen P (marked P o w)) (places_at P f h) (seq 0 (h_next h)) (unseen_marked P o w)).
        unfold spent in *. change (checks f (marked P o w)) with (checks f w). lia. }
    eapply Ionce_le; [exact Lk |].
    assert (K : costs (places_at P f h o) (inst_rest P (interp P n) c o)); [| apply K, Hw'].
    clear - H C TC only. intros k w Hw. unfold inst_rest. revert k w Hw.
    change (costs (places_at P f h o) (inst_rest P (interp P n) c o)). unfold inst_rest.
    replace (places_at P f h o) with (0 + (0 + (0 + (0 + (places_at P f h o)))))%nat by lia.
    apply costs_bind; [apply costs_keeps; intros; apply k_inst_cls | intros cls].
    apply costs_bind; [apply costs_keeps; intros; apply k_class_named | intros d]. cbn zeta.
    apply costs_bind; [apply costs_keeps; intros; apply k_getW | intros ok].
    destruct (negb ok); [apply (costs_le 0); [lia |]; apply costs_keeps; intros; apply k_throw, any_loud |].
    apply costs_bind; [apply costs_keeps; intros; apply k_getW | intros b].
    intros k w Hw. unfold bind at 1. unfold getW at 1. cbn [fst snd].
    replace (cd_fields (wcdef P w o)) with (cd_fields (cdef_of (p_ct P) h o)) by (unfold wcdef; rewrite (proj1 Hw); reflexivity).
    revert k w Hw. unfold places_at, cdef_of.
    destruct (p_ct P (o_class (h_obj h o))) as [cd |] eqn:Ed;
      [| intros k w Hw; apply (Ionce_le k); [lia |]; exact Hw].
    rewrite places_sum.
    match goal with |- forall k w, _ -> Ionce _ (snd (?m w)) => change (costs (list_sum (map fcost (cd_fields cd))) m) end.
    rewrite <- (Nat.add_0_r (list_sum (map fcost (cd_fields cd)))).
    apply costs_bind; [| intros; apply costs_keeps; intros; apply k_collected].
    apply costs_collect.
    - intros fl k Hf. unfold field_check. apply k_bind; [apply k_getW | intros].
      apply k_bind; [apply k_getattr; intros; apply any_louder | intros].
      match goal with |- keeps _ (if ?b then _ else _) => destruct b end; apply k_ret.
    - intros fl m w1 w2 Hf Ef. unfold field_check, bind, getW in Ef.
      destruct (getattr P o (fl_name fl) w1) as [[fv | e] w3] eqn:G; [| discriminate Ef].
      match type of Ef with (if ?b then _ else _) _ = _ => destruct b end; inversion Ef; subst. clear Ef.
      replace (fcost fl) with (0 + fcost fl)%nat by lia.
      apply costs_bind; [apply costs_keeps; intros; apply k_ekey | intros e].
      assert (T : forall x, In x (fl_types fl) -> checks_with f x = false -> tameQ Q D x).
      { intros x Hx Hc. split; [apply (TC _ _ fl x Ed Hf Hx) |]. intros g U ->.
        rewrite (only _ _ fl x Ed Hf Hx U) in Hc. discriminate Hc. }
      assert (X : forall c', c_fdef c' = fl_fdef fl -> costs (fcost fl) (t_validate (interp P n) (fl_types fl) c')).
      { intros c' Hc'. apply costs_chain. intros x Hx. unfold cost. destruct (checks_with f x) eqn:Ex; [apply costs_check, Ex |].
        apply costs_keeps. intros k. apply H; [apply T; assumption | | left; discriminate].
        exists (fl_types fl). split; [exact Hc' |]. intros y Hy Hp. apply T; [exact Hy |]. destruct y; try discriminate Hp; reflexivity. }
      destruct (is_inst_field fl); apply X; reflexivity.
  Qed.

  Lemma once_validate n o c w : c_fdef c = fdef_of [MInstance (o_class (h_obj h o))] -> w_heap w = h ->
    (checks f (snd (m_validate (interp P n (MInstance (o_class (h_obj h o)))) c w)) <= spent w)%nat.
  Proof.
    intros Hc Hw.
    assert (T : tameQ Q 1 (MInstance (o_class (h_obj h o)))).
    { split; [exact Logic.I |]. intros g [[] | (ts & x & [] & _)]. }
    assert (K : keeps (Ionce (spent w)) (m_validate (interp P n (MInstance (o_class (h_obj h o)))) c)).
    { apply (tame_validate P Q D) with (d := 1%nat); try (intros; apply any_louder); try assumption.
      - intros. apply once_call. assumption.
      - exact once_inst.
      - eexists. split; [exact Hc |]. intros x [<- | []] _. exact T.
      - left. discriminate. }
    destruct (K w) as [[_ K1] _]; [split; [exact Hw | lia] |]. unfold spent in K1 at 1. lia.
  Qed.
End Once.
