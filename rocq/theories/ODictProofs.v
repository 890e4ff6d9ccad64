(** ODictProofs.v -- dictionaries as association lists, and owned dicts (C05). *)
From Verif Require Import Base PyDict ODictModel OListSpec OListProofs ODictSpec.
Open Scope Z_scope.

Section DictLemmas.
  Context {K V : Type} (keqb : K -> K -> bool) (EQ : equivb keqb).
  Notation dict := (list (K * V)).
  Implicit Types (d e : dict) (k : K) (v : V).

  Lemma keq_refl k : keqb k k = true.
  Proof. apply (eqb_refl _ EQ). Qed.

  Lemma keq_l k k' k'' : keqb k k' = true -> keqb k k'' = keqb k' k''.
  Proof.
    intros H. destruct (keqb k k'') eqn:E1, (keqb k' k'') eqn:E2; try reflexivity.
    - rewrite (eqb_sym _ EQ) in H. rewrite (eqb_trans _ EQ _ _ _ H E1) in E2. discriminate.
    - rewrite (eqb_trans _ EQ _ _ _ H E2) in E1. discriminate.
  Qed.

  Lemma keq_r k k' k'' : keqb k k' = true -> keqb k'' k = keqb k'' k'.
  Proof. intros H. rewrite (eqb_sym _ EQ k'' k), (eqb_sym _ EQ k'' k'). apply keq_l. exact H. Qed.

  Lemma dget_congr k k' d : keqb k k' = true -> dget keqb k d = dget keqb k' d.
  Proof.
    intros H. induction d as [|[k1 v1] d IH]; simpl; [reflexivity|].
    rewrite (keq_l _ _ k1 H), IH. reflexivity.
  Qed.

  Lemma dmem_congr k k' d : keqb k k' = true -> dmem keqb k d = dmem keqb k' d.
  Proof. intros H. unfold dmem. rewrite (dget_congr _ _ _ H). reflexivity. Qed.

  Lemma dget_dset k k' v d :
    dget keqb k (dset keqb k' v d) = if keqb k k' then Some v else dget keqb k d.
  Proof.
    induction d as [|[k1 v1] d IH]; simpl.
    - destruct (keqb k k'); reflexivity.
    - destruct (keqb k' k1) eqn:E; simpl.
      + rewrite <- (keq_r _ _ k E). destruct (keqb k k'); reflexivity.
      + rewrite IH. destruct (keqb k k1) eqn:E1, (keqb k k') eqn:E2; try reflexivity.
        rewrite (keq_l _ _ k1 E2) in E1. congruence.
  Qed.

  Lemma dmem_dset k k' v d : dmem keqb k (dset keqb k' v d) = keqb k k' || dmem keqb k d.
  Proof. unfold dmem. rewrite dget_dset. destruct (keqb k k'); reflexivity. Qed.

  Lemma dmem_false_forall k d : dmem keqb k d = false <-> Forall (fun kv => keqb k (fst kv) = false) d.
  Proof.
    unfold dmem. induction d as [|[k1 v1] d IH]; simpl.
    - split; [constructor|reflexivity].
    - destruct (keqb k k1) eqn:E.
      + split; [discriminate|]. intros H. inversion H; simpl in *; congruence.
      + rewrite IH. split; [intros H; constructor; auto|intros H; inversion H; auto].
  Qed.

  Lemma dset_keys_forall (P : K -> Prop) k v d :
    P k -> Forall (fun kv => P (fst kv)) d -> Forall (fun kv => P (fst kv)) (dset keqb k v d).
  Proof.
    intros Hk H. induction H as [|[k1 v1] d H1 H2 IH]; simpl.
    - constructor; auto.
    - destruct (keqb k k1); constructor; auto.
  Qed.

  Lemma unique_dset k v d : unique_keys keqb d -> unique_keys keqb (dset keqb k v d).
  Proof.
    unfold unique_keys. induction 1 as [|[k1 v1] d H1 H2 IH]; simpl.
    - repeat constructor.
    - destruct (keqb k k1) eqn:E.
      + constructor; [exact H1|exact H2].
      + constructor; [|exact IH]. simpl in *.
        apply (dset_keys_forall (fun k' => keqb k1 k' = false)); [|exact H1].
        rewrite (eqb_sym _ EQ). exact E.
  Qed.

  Lemma unique_dupdate e d : unique_keys keqb d -> unique_keys keqb (dupdate keqb d e).
  Proof.
    revert d; induction e as [|[k v] e IH]; intros d H; [exact H|].
    unfold dupdate in *. simpl. apply IH. apply unique_dset. exact H.
  Qed.

  Lemma unique_dict_of (ps : dict) : unique_keys keqb (dict_of keqb ps).
  Proof. apply unique_dupdate. constructor. Qed.

  Lemma ddel_subset (P : K * V -> Prop) k d : Forall P d -> Forall P (ddel keqb k d).
  Proof.
    intros H. induction H as [|[k1 v1] d H1 H2 IH]; simpl; [constructor|].
    destruct (keqb k k1); [exact H2|]. constructor; auto.
  Qed.

  Lemma unique_ddel k d : unique_keys keqb d -> unique_keys keqb (ddel keqb k d).
  Proof.
    unfold unique_keys. induction 1 as [|[k1 v1] d H1 H2 IH]; simpl; [constructor|].
    destruct (keqb k k1); [exact H2|]. constructor; [|exact IH]. apply ddel_subset. exact H1.
  Qed.

  Lemma removelast_subset {B} (P : B -> Prop) (l : list B) : Forall P l -> Forall P (removelast l).
  Proof.
    intros H. induction H as [|x l H1 H2 IH]; simpl; [constructor|].
    destruct l; [constructor|]. constructor; auto.
  Qed.

  Lemma unique_removelast d : unique_keys keqb d -> unique_keys keqb (removelast d).
  Proof.
    unfold unique_keys. induction 1 as [|x d H1 H2 IH]; simpl; [constructor|].
    destruct d; [constructor|]. constructor; [|exact IH]. apply (removelast_subset _ _ H1).
  Qed.

  Lemma dupdate_cons d k v e : dupdate keqb d ((k, v) :: e) = dupdate keqb (dset keqb k v d) e.
  Proof. reflexivity. Qed.

  Lemma unique_cons k v d : unique_keys keqb ((k, v) :: d) ->
    dmem keqb k d = false /\ unique_keys keqb d.
  Proof. intros H. inversion H; subst. split; [apply dmem_false_forall; assumption|assumption]. Qed.

  Lemma dget_dupdate k d e : unique_keys keqb e ->
    dget keqb k (dupdate keqb d e) =
    match dget keqb k e with Some v => Some v | None => dget keqb k d end.
  Proof.
    revert d; induction e as [|[k1 v1] e IH]; intros d H; [reflexivity|].
    apply unique_cons in H. destruct H as [H1 H2].
    rewrite dupdate_cons, (IH _ H2), dget_dset. simpl.
    destruct (keqb k k1) eqn:E; [|reflexivity].
    unfold dmem in H1. rewrite (dget_congr _ _ _ E).
    destruct (dget keqb k1 e); [discriminate|reflexivity].
  Qed.

  Lemma dget_in k v d : unique_keys keqb d -> In (k, v) d -> dget keqb k d = Some v.
  Proof.
    intros H. induction H as [|[k1 v1] d H1 H2 IH]; simpl; [contradiction|].
    intros [E|Hin].
    - injection E as <- <-. rewrite keq_refl. reflexivity.
    - rewrite Forall_forall in H1. specialize (H1 _ Hin). simpl in H1.
      rewrite (eqb_sym _ EQ), H1. apply IH. exact Hin.
  Qed.

  Lemma dset_comm k v k1 v1 d : dmem keqb k d = true -> keqb k k1 = false ->
    dset keqb k v (dset keqb k1 v1 d) = dset keqb k1 v1 (dset keqb k v d).
  Proof.
    intros Hm Hne. unfold dmem in Hm. induction d as [|[k2 v2] d IH]; simpl in *; [discriminate|].
    destruct (keqb k1 k2) eqn:E1, (keqb k k2) eqn:E2; simpl; rewrite ?E1, ?E2; auto.
    - rewrite (eqb_sym _ EQ) in E1. rewrite (eqb_trans _ EQ _ _ _ E2 E1) in Hne. discriminate.
    - rewrite IH by exact Hm. reflexivity.
  Qed.

  Lemma dset_dset k v k1 v1 d : keqb k k1 = true ->
    dset keqb k v (dset keqb k1 v1 d) = dset keqb k1 v d.
  Proof.
    intros H. induction d as [|[k2 v2] d IH]; simpl.
    - rewrite H. reflexivity.
    - destruct (keqb k1 k2) eqn:E; simpl.
      + rewrite (keq_l _ _ k2 H), E. reflexivity.
      + rewrite (keq_l _ _ k2 H), E, IH. reflexivity.
  Qed.

  Lemma dset_dupdate k v d e : dmem keqb k d = true -> dmem keqb k e = false ->
    dset keqb k v (dupdate keqb d e) = dupdate keqb (dset keqb k v d) e.
  Proof.
    revert d; induction e as [|[k1 v1] e IH]; intros d Hm He; [reflexivity|].
    rewrite !dupdate_cons. unfold dmem in He. simpl in He.
    destruct (keqb k k1) eqn:E; [discriminate|].
    rewrite IH; [|rewrite dmem_dset, Hm; apply orb_true_r|exact He].
    rewrite dset_comm by assumption. reflexivity.
  Qed.

  Lemma dupdate_dset k v d e : unique_keys keqb e ->
    dupdate keqb d (dset keqb k v e) = dset keqb k v (dupdate keqb d e).
  Proof.
    revert d; induction e as [|[k1 v1] e IH]; intros d H; [reflexivity|].
    apply unique_cons in H. destruct H as [H1 H2]. simpl.
    destruct (keqb k k1) eqn:E.
    - rewrite !dupdate_cons. rewrite dset_dupdate.
      + rewrite dset_dset by exact E. reflexivity.
      + rewrite dmem_dset, E. reflexivity.
      + rewrite (dmem_congr _ _ _ E). exact H1.
    - rewrite !dupdate_cons. apply IH. exact H2.
  Qed.

  Lemma dupdate_dupdate d e ps : unique_keys keqb e ->
    dupdate keqb d (dupdate keqb e ps) = dupdate keqb (dupdate keqb d e) ps.
  Proof.
    revert e; induction ps as [|[k v] ps IH]; intros e H; [reflexivity|].
    rewrite !dupdate_cons. rewrite IH by (apply unique_dset; exact H).
    rewrite dupdate_dset by exact H. reflexivity.
  Qed.

  Lemma dupdate_dict_of d ps : dupdate keqb d (dict_of keqb ps) = dupdate keqb d ps.
  Proof. unfold dict_of. rewrite dupdate_dupdate by constructor. reflexivity. Qed.

  Lemma dget_ddel k k' d : unique_keys keqb d ->
    dget keqb k (ddel keqb k' d) = if keqb k k' then None else dget keqb k d.
  Proof.
    intros H. induction H as [|[k1 v1] d H1 H2 IH]; simpl.
    - destruct (keqb k k'); reflexivity.
    - simpl in H1. destruct (keqb k' k1) eqn:E.
      + destruct (keqb k k') eqn:E1.
        * pose proof (proj2 (dmem_false_forall k1 d) H1) as Hm. unfold dmem in Hm.
          rewrite (dget_congr k k1); [destruct (dget keqb k1 d); [discriminate|reflexivity]|].
          rewrite (keq_l _ _ k1 E1). exact E.
        * rewrite <- (keq_r _ _ k E), E1. reflexivity.
      + simpl. rewrite IH. destruct (keqb k k1) eqn:E2, (keqb k k') eqn:E3; try reflexivity.
        rewrite (keq_l _ _ k1 E3) in E2. congruence.
  Qed.

  (** Counting values *)
  Context (veqb : V -> V -> bool).
  Notation b2z b := (if b then 1 else 0).

  Lemma dcount_cons x k v d : dcount veqb x ((k, v) :: d) = b2z (veqb x v) + dcount veqb x d.
  Proof. unfold dcount. simpl map. apply count_cons. Qed.

  Lemma dcount_dset x k v d :
    dcount veqb x (dset keqb k v d) =
    dcount veqb x d + b2z (veqb x v)
    - match dget keqb k d with Some old => b2z (veqb x old) | None => 0 end.
  Proof.
    induction d as [|[k1 v1] d IH]; simpl dset; simpl dget.
    - rewrite dcount_cons. lia.
    - destruct (keqb k k1); rewrite !dcount_cons; [|rewrite IH]; lia.
  Qed.

  Lemma dcount_ddel x k d v : dget keqb k d = Some v ->
    dcount veqb x (ddel keqb k d) = dcount veqb x d - b2z (veqb x v).
  Proof.
    induction d as [|[k1 v1] d IH]; simpl dget; simpl ddel; [discriminate|].
    destruct (keqb k k1).
    - intros E; injection E as ->. rewrite dcount_cons. lia.
    - intros E. rewrite !dcount_cons, (IH E). lia.
  Qed.

  Lemma filter_dset e k v d : dmem keqb k e = false ->
    filter (fun kv => dmem keqb (fst kv) e) (dset keqb k v d) =
    filter (fun kv => dmem keqb (fst kv) e) d.
  Proof.
    intros He. induction d as [|[k1 v1] d IH]; simpl.
    - rewrite He. reflexivity.
    - destruct (keqb k k1) eqn:E; simpl.
      + rewrite <- (dmem_congr k k1 e E), He. reflexivity.
      + rewrite IH. reflexivity.
  Qed.

  Lemma count_items_cons x k v e d : unique_keys keqb d -> dmem keqb k e = false ->
    count veqb x (items_to_del keqb ((k, v) :: e) d) =
    count veqb x (items_to_del keqb e d)
    + match dget keqb k d with Some old => b2z (veqb x old) | None => 0 end.
  Proof.
    intros Hd He. unfold items_to_del. induction Hd as [|[k1 v1] d H1 H2 IH].
    - reflexivity.
    - simpl in H1. cbn [filter fst].
      assert (Hm : dmem keqb k1 ((k, v) :: e) = keqb k k1 || dmem keqb k1 e).
      { unfold dmem. simpl. rewrite (eqb_sym _ EQ k1 k). destruct (keqb k k1); reflexivity. }
      rewrite Hm. simpl dget. destruct (keqb k k1) eqn:E; simpl orb.
      + rewrite <- (dmem_congr k k1 e E), He. simpl map. rewrite count_cons, IH.
        rewrite (dget_congr _ _ _ E).
        pose proof (proj2 (dmem_false_forall k1 d) H1) as Hn. unfold dmem in Hn.
        destruct (dget keqb k1 d); [discriminate|]. lia.
      + destruct (dmem keqb k1 e); simpl map; rewrite ?count_cons, IH; lia.
  Qed.

  Lemma dcount_dupdate x d e : unique_keys keqb d -> unique_keys keqb e ->
    dcount veqb x (dupdate keqb d e) =
    dcount veqb x d - count veqb x (items_to_del keqb e d) + dcount veqb x e.
  Proof.
    revert d; induction e as [|[k v] e IH]; intros d Hd He.
    - unfold items_to_del. replace (filter _ d) with (@nil (K * V)).
      + cbn. lia.
      + clear. induction d as [|kv d IH]; [reflexivity|exact IH].
    - apply unique_cons in He. destruct He as [H1 H2].
      rewrite dupdate_cons, (IH _ (unique_dset k v d Hd) H2), dcount_dset.
      unfold items_to_del at 1. rewrite filter_dset by exact H1.
      rewrite dcount_cons, (count_items_cons x k v e d Hd H1). unfold items_to_del. lia.
  Qed.

  Lemma last_item_split d k v : last_item d = Some (k, v) -> d = removelast d ++ [(k, v)].
  Proof.
    unfold last_item. intros H.
    destruct d as [|kv d]; [discriminate|].
    rewrite (app_removelast_last (k, v)) at 1 by discriminate. f_equal. f_equal.
    assert (G : forall (l : list (K * V)) x, l <> [] -> nth_error l (length l - 1) = Some (last l x)).
    { clear. intros l x. induction l as [|y l IH]; [contradiction|]. intros _.
      destruct l as [|z l]; [reflexivity|].
      replace (length (y :: z :: l) - 1)%nat with (S (length (z :: l) - 1)) by (simpl; lia).
      cbn [nth_error]. rewrite IH by discriminate. reflexivity. }
    rewrite (G _ (k, v)) in H by discriminate. congruence.
  Qed.

  Lemma dtally_app x (es1 es2 : list (dcall K V * dict)) :
    dtally veqb x (es1 ++ es2) = dtally veqb x es1 + dtally veqb x es2.
  Proof. induction es1 as [|e es1 IH]; simpl; [reflexivity|]. rewrite IH. lia. Qed.

  Lemma dtally_ddels x vs d : dtally veqb x (ddels (K:=K) vs d) = - count veqb x vs.
  Proof.
    induction vs as [|v vs IH]; [reflexivity|]. simpl. rewrite IH, count_cons.
    destruct (veqb x v); lia.
  Qed.

  Lemma dtally_dadds x ps d : dtally veqb x (dadds ps d) = dcount veqb x ps.
  Proof.
    induction ps as [|[k v] ps IH]; [reflexivity|]. simpl. rewrite IH, dcount_cons. reflexivity.
  Qed.

  Lemma dtally_report x nd d d' :
    dtally veqb x (od_report keqb nd d d') = - count veqb x (items_to_del keqb nd d) + dcount veqb x nd.
  Proof.
    unfold od_report.
    change ((DWill, d) :: ddels (items_to_del keqb nd d) d' ++ dadds nd d')
      with ([(@DWill K V, d)] ++ ddels (items_to_del keqb nd d) d' ++ dadds nd d').
    rewrite !dtally_app, dtally_ddels, dtally_dadds. simpl. lia.
  Qed.
End DictLemmas.

Section OwnedDictProofs.
  Context {K V : Type} (keqb : K -> K -> bool) (EQ : equivb keqb) (none : V).
  Context (veqb : V -> V -> bool).
  Notation dict := (list (K * V)).

  Lemma owned_dstep_plain o (d : dict) : repeatable_dict_argument o ->
    plain_dstep keqb none o d = fst (owned_dstep keqb none o d).
  Proof.
    destruct o as [k v|k|k dflt| | |k dflt|a kw| |a| ]; cbn [plain_dstep owned_dstep repeatable_dict_argument];
      intros H; try reflexivity.
    - unfold od_delitem, dmem. destruct (dget keqb k d); reflexivity.
    - unfold od_pop. destruct (dget keqb k d), dflt; reflexivity.
    - unfold od_popitem. destruct (last_item d) as [[k v]|]; reflexivity.
    - unfold od_setdefault. destruct (dget keqb k d), dflt; reflexivity.
    - destruct a as [[ps|ps|ps| ]|]; try contradiction; reflexivity.
    - destruct a as [ps|ps|ps| ]; try contradiction; reflexivity.
  Qed.

  Lemma owned_drun_plain os (d : dict) : Forall repeatable_dict_argument os ->
    let '(results, content, _) := owned_drun keqb none os d in
    plain_drun keqb none os d = (results, content).
  Proof.
    intros H. revert d; induction H as [|o os Ho _ IH]; intros d; cbn [plain_drun owned_drun]; [reflexivity|].
    rewrite owned_dstep_plain by exact Ho. destruct (owned_dstep keqb none o d) as [[r d1] es]. cbn [fst].
    specialize (IH d1). destruct (owned_drun keqb none os d1) as [[rs d2] es']. rewrite IH. reflexivity.
  Qed.

  Lemma owned_dstep_unique o (d : dict) :
    unique_keys keqb d -> unique_keys keqb (snd (fst (owned_dstep keqb none o d))).
  Proof.
    intros H. destruct o as [k v|k|k dflt| | |k dflt|a kw| |a| ]; cbn [owned_dstep].
    - apply unique_dset; assumption.
    - unfold od_delitem. destruct (dget keqb k d); [apply unique_ddel|]; assumption.
    - unfold od_pop. destruct (dget keqb k d), dflt; try apply unique_ddel; assumption.
    - assumption.
    - unfold od_popitem. destruct (last_item d) as [[k v]|]; [apply unique_removelast|]; assumption.
    - unfold od_setdefault. destruct (dget keqb k d), dflt; try apply unique_dset; assumption.
    - destruct a as [[ps|ps|ps| ]|]; cbn [od_update fst snd]; repeat apply unique_dupdate; assumption.
    - assumption.
    - destruct a as [ps|ps|ps| ]; cbn [od_ior fst snd]; repeat apply unique_dupdate; assumption.
    - constructor.
  Qed.

  Lemma owned_dstep_ledger x o (d : dict) : unique_keys keqb d -> kwargs_ok keqb o ->
    repeatable_dict_argument o -> explicit_default o ->
    dcount veqb x (snd (fst (owned_dstep keqb none o d))) =
    dcount veqb x d + dtally veqb x (snd (owned_dstep keqb none o d)).
  Proof.
    intros Hd. destruct o as [k v|k|k dflt| | |k dflt|a kw| |a| ];
      cbn [owned_dstep kwargs_ok repeatable_dict_argument explicit_default]; intros Hkw Hr He.
    - unfold od_setitem; cbn [fst snd]. rewrite dcount_dset.
      destruct (dget keqb k d) as [old|]; simpl; [destruct (veqb x old)|]; destruct (veqb x v); lia.
    - unfold od_delitem. destruct (dget keqb k d) as [old|] eqn:E; cbn [fst snd].
      + rewrite (dcount_ddel keqb veqb x k d old E). simpl. destruct (veqb x old); lia.
      + simpl. lia.
    - unfold od_pop. destruct (dget keqb k d) as [old|] eqn:E; cbn [fst snd].
      + rewrite (dcount_ddel keqb veqb x k d old E). simpl. destruct (veqb x old); lia.
      + destruct dflt; simpl; lia.
    - simpl. lia.
    - unfold od_popitem. destruct (last_item d) as [[k v]|] eqn:E; cbn [fst snd].
      + apply last_item_split in E. rewrite E at 2. unfold dcount. rewrite map_app, count_app.
        simpl. rewrite count_cons, count_nil. destruct (veqb x v); lia.
      + simpl. lia.
    - destruct dflt as [y|]; [|contradiction]. unfold od_setdefault, dmem.
      destruct (dget keqb k d) as [old|] eqn:E; cbn [fst snd negb].
      + simpl. lia.
      + rewrite dcount_dset, E. simpl. destruct (veqb x y); lia.
    - destruct a as [[ps|ps|ps| ]|]; try contradiction; cbn [od_update fst snd].
      + rewrite dtally_report.
        rewrite <- (dupdate_dict_of keqb EQ d ps).
        rewrite <- (dupdate_dupdate keqb EQ d (dict_of keqb ps) kw) by (apply unique_dict_of; exact EQ).
        rewrite dcount_dupdate; [lia|exact EQ|exact Hd|].
        apply unique_dupdate; [exact EQ|]. apply unique_dict_of; exact EQ.
      + simpl. lia.
      + rewrite dtally_report, dcount_dupdate; [lia|exact EQ|exact Hd|exact Hkw].
    - simpl. lia.
    - destruct a as [ps|ps|ps| ]; try contradiction; cbn [od_ior fst snd].
      + rewrite dtally_report. rewrite <- (dupdate_dict_of keqb EQ d ps).
        rewrite dcount_dupdate; [lia|exact EQ|exact Hd|]. apply unique_dict_of; exact EQ.
      + simpl. lia.
    - unfold od_clear; cbn [fst snd].
      change ((DWill, d) :: ddels (map snd d) []) with ([(@DWill K V, d)] ++ ddels (map snd d) []).
      rewrite dtally_app, dtally_ddels. unfold dcount. cbn [map]. rewrite count_nil. cbn. lia.
  Qed.

  Lemma owned_drun_ledger x os (d : dict) : unique_keys keqb d ->
    Forall (kwargs_ok keqb) os -> Forall repeatable_dict_argument os -> Forall explicit_default os ->
    let '(_, content, calls) := owned_drun keqb none os d in
    dcount veqb x content = dcount veqb x d + dtally veqb x calls.
  Proof.
    intros Hd H1 H2 H3. revert d Hd H1 H2 H3. induction os as [|o os IH]; intros d Hd H1 H2 H3; cbn [owned_drun].
    - cbn. lia.
    - inversion H1; inversion H2; inversion H3; subst.
      pose proof (owned_dstep_ledger x o d Hd) as HL.
      pose proof (owned_dstep_unique o d Hd) as HU.
      destruct (owned_dstep keqb none o d) as [[r d1] es]. cbn [fst snd] in *.
      specialize (IH d1 HU). destruct (owned_drun keqb none os d1) as [[rs d2] es']. cbn [fst snd] in *.
      rewrite IH, HL by assumption.
      replace (dtally veqb x (es ++ es')) with (dtally veqb x es + dtally veqb x es')
        by (symmetry; apply dtally_app). lia.
  Qed.

  Lemma ddels_after vs (d : dict) : Forall (fun e : dcall K V * dict => snd e = d /\ fst e <> DWill) (ddels vs d).
  Proof. apply Forall_forall. intros e He. apply in_map_iff in He. destruct He as (v & <- & _). split; [reflexivity|discriminate]. Qed.

  Lemma dadds_after ps (d : dict) : Forall (fun e : dcall K V * dict => snd e = d /\ fst e <> DWill) (dadds ps d).
  Proof. apply Forall_forall. intros e He. apply in_map_iff in He. destruct He as (v & <- & _). split; [reflexivity|discriminate]. Qed.

  Lemma report_warned nd (d d' : dict) : dwarned_first d d' (od_report keqb nd d d').
  Proof.
    right. eexists. split; [reflexivity|]. apply Forall_app. split; [apply ddels_after|apply dadds_after].
  Qed.

  Lemma owned_dstep_warns o (d : dict) : explicit_default o ->
    let '(_, content, calls) := owned_dstep keqb none o d in
    dwarned_first d content calls.
  Proof.
    destruct o as [k v|k|k dflt| | |k dflt|a kw| |a| ]; cbn [owned_dstep explicit_default]; intros He.
    - unfold od_setitem. right. eexists. split; [reflexivity|].
      destruct (dget keqb k d); repeat constructor; discriminate.
    - unfold od_delitem. destruct (dget keqb k d); right; eexists; (split; [reflexivity|]);
        repeat constructor; discriminate.
    - unfold od_pop. destruct (dget keqb k d), dflt; right; eexists; (split; [reflexivity|]);
        repeat constructor; discriminate.
    - left; auto.
    - unfold od_popitem. destruct (last_item d) as [[k v]|]; right; eexists; (split; [reflexivity|]);
        repeat constructor; discriminate.
    - destruct dflt as [y|]; [|contradiction]. unfold od_setdefault, dmem.
      destruct (dget keqb k d); cbn [negb]; [left; auto|].
      right; eexists; (split; [reflexivity|]); repeat constructor; discriminate.
    - destruct a as [[ps|ps|ps| ]|]; cbn [od_update]; try apply report_warned.
      + left; auto.
      + right; eexists; (split; [reflexivity|]); constructor.
    - left; auto.
    - destruct a as [ps|ps|ps| ]; cbn [od_ior]; try apply report_warned; left; auto.
    - right; eexists; (split; [reflexivity|]). apply ddels_after.
  Qed.

  Lemma report_located nd (d : dict) : unique_keys keqb nd ->
    dadds_located keqb (od_report keqb nd d (dupdate keqb d nd)).
  Proof.
    intros Hn k v c [H|H]; [discriminate|]. apply in_app_or in H. destruct H as [H|H].
    - apply in_map_iff in H. destruct H as (w & H & _). discriminate.
    - apply in_map_iff in H. destruct H as ([k1 v1] & H & Hin). simpl in H. injection H as -> -> <-.
      rewrite (dget_dupdate keqb EQ) by exact Hn. rewrite (dget_in keqb EQ k v nd Hn Hin). reflexivity.
  Qed.

  Lemma owned_dstep_locates o (d : dict) : kwargs_ok keqb o -> repeatable_dict_argument o ->
    let '(_, _, calls) := owned_dstep keqb none o d in dadds_located keqb calls.
  Proof.
    destruct o as [k v|k|k dflt| | |k dflt|a kw| |a| ];
      cbn [owned_dstep kwargs_ok repeatable_dict_argument]; intros Hkw Hr.
    - unfold od_setitem. intros k' v' c H.
      assert (E : (DAdd k' v', c) = (DAdd k v, dset keqb k v d)).
      { destruct (dget keqb k d); simpl in H; intuition congruence. }
      injection E as -> -> ->. rewrite dget_dset by exact EQ. rewrite (keq_refl keqb EQ). reflexivity.
    - unfold od_delitem. destruct (dget keqb k d); intros k' v' c H; simpl in H; intuition discriminate.
    - unfold od_pop. destruct (dget keqb k d), dflt; intros k' v' c H; simpl in H; intuition discriminate.
    - intros k' v' c [].
    - unfold od_popitem. destruct (last_item d) as [[k v]|]; intros k' v' c H; simpl in H; intuition discriminate.
    - unfold od_setdefault, dmem. destruct dflt as [y|]; destruct (dget keqb k d) eqn:E; cbn [negb];
        intros k' v' c H; simpl in H; try contradiction.
      destruct H as [H|[H|[]]]; [discriminate|]. injection H as -> -> <-.
      rewrite dget_dset by exact EQ. rewrite (keq_refl keqb EQ). reflexivity.
    - destruct a as [[ps|ps|ps| ]|]; try contradiction; cbn [od_update].
      + rewrite <- (dupdate_dict_of keqb EQ d ps).
        rewrite <- (dupdate_dupdate keqb EQ d (dict_of keqb ps) kw) by (apply unique_dict_of; exact EQ).
        apply report_located. apply unique_dupdate; [exact EQ|]. apply unique_dict_of; exact EQ.
      + intros k' v' c [H|[]]; discriminate.
      + apply report_located. exact Hkw.
    - intros k' v' c [].
    - destruct a as [ps|ps|ps| ]; try contradiction; cbn [od_ior].
      + rewrite <- (dupdate_dict_of keqb EQ d ps). apply report_located. apply unique_dict_of; exact EQ.
      + intros k' v' c [].
    - unfold od_clear. intros k' v' c [H|H]; [discriminate|].
      apply in_map_iff in H. destruct H as (w & H & _). discriminate.
  Qed.
End OwnedDictProofs.

Lemma owned_dict_counterexamples :
  (* a one-shot iterator: a plain dict is updated, the owned dict is not, and the
     owner is told of additions that did not happen *)
  (exists (d ps : list (Z * Z)),
     snd (plain_dstep Z.eqb 0 (DUpdate (Some (UOnce ps)) []) d) <> d /\
     snd (fst (owned_dstep Z.eqb 0 (DUpdate (Some (UOnce ps)) []) d)) = d /\
     dtally Z.eqb 1 (snd (owned_dstep Z.eqb 0 (DUpdate (Some (UOnce ps)) []) d)) = 1)
  /\ (* setdefault with a key only inserts None without telling the owner *)
  (exists (d : list (Z * Z)) (k : Z),
     snd (fst (owned_dstep Z.eqb 0 (DSetdefault k None) d)) <> d /\
     snd (owned_dstep Z.eqb 0 (DSetdefault k None) d) = []).
Proof.
  split.
  - exists [], [(5, 1)]. vm_compute. repeat split; discriminate.
  - exists [], 5. vm_compute. split; [discriminate|reflexivity].
Qed.
