(** ObjList.v -- facts about single operations of owned lists and dicts, as needed for
    the object store. *)
From Verif Require Import Base PyList PyDict OListModel ODictModel OListSpec OListProofs
  Values TypesModel ObjModel ObjSpec.
Open Scope Z_scope.

Section Membership.
  Context (eqb : value -> value -> bool).
  Implicit Types (l : list value) (op : lop value).

  Lemma py_remove_incl x l l' : py_remove eqb x l = Ok l' -> incl l' l.
  Proof.
    revert l'; induction l as [| y l IH]; intros l' H; [discriminate H |].
    cbn in H. destruct (eqb y x).
    - inversion H; subst. apply incl_tl, incl_refl.
    - destruct (py_remove eqb x l) as [r | e]; [| discriminate H].
      cbn in H. inversion H; subst.
      intros z [-> | Hz]; [left; reflexivity | right; apply (IH r eq_refl z Hz)].
  Qed.

  Lemma repeat_list_incl n l : incl (repeat_list n l) l.
  Proof.
    induction n as [| n IH]; cbn; [intros z [] |].
    apply incl_app; [apply incl_refl | exact IH].
  Qed.

  Lemma in_adds_from cur step (xs : list value) c e :
    In e (adds_from cur step xs c) -> exists i x, fst e = CAdd i x /\ In x xs.
  Proof.
    unfold adds_from. intros H. apply in_map_iff in H. destruct H as ((k & x) & <- & Hin).
    exists (cur + Z.of_nat k * step), x. split; [reflexivity |].
    apply (in_combine_r _ _ _ _ Hin).
  Qed.

  Lemma in_dels (xs : list value) c e :
    In e (dels xs c) -> exists x, fst e = CDel (Some x) /\ In x xs.
  Proof.
    unfold dels. intros H. apply in_map_iff in H. destruct H as (x & <- & Hin).
    exists x. split; [reflexivity | exact Hin].
  Qed.

  Lemma item_or_none_in i l x : item_or_none i l = Some x -> In x l.
  Proof.
    unfold item_or_none. destruct (in_range i l); [| discriminate].
    apply nth_error_In.
  Qed.

  Lemma py_get_in i l x : py_get i l = Ok x -> In x l.
  Proof.
    unfold py_get. destruct (in_range _ _); [| discriminate].
    destruct (nth_error l _) eqn:E; [| discriminate].
    intros H; inversion H; subst. apply (nth_error_In _ _ E).
  Qed.

  Lemma pick_nth_incl l ps : incl (flat_map (pick_nth l) ps) l.
  Proof.
    intros x H. apply in_flat_map in H. destruct H as (p & _ & Hx).
    unfold pick_nth in Hx. destruct (nth_error l (Z.to_nat p)) eqn:E; [| destruct Hx].
    destruct Hx as [<- | []]. apply (nth_error_In _ _ E).
  Qed.

  Lemma getslice_incl s l r : py_getslice s l = Ok r -> incl r l.
  Proof.
    unfold py_getslice. destruct (_ =? _); [discriminate |].
    intros H; inversion H; subst. apply pick_nth_incl.
  Qed.

  (** Where the values of a result come from. *)
  Definition from (l xs : list value) (x : value) : Prop := In x l \/ In x xs.

  Definition event_from (l xs : list value) (e : ev value) : Prop :=
    match fst e with
    | CAdd _ x | CDel (Some x) => from l xs x
    | _ => True
    end.

  Lemma adds_event_from l ys cur step xs c e :
    (forall x, In x xs -> from l ys x) -> In e (adds_from cur step xs c) -> event_from l ys e.
  Proof.
    intros H He. destruct (in_adds_from _ _ _ _ _ He) as (i & x & E & Hx).
    unfold event_from. rewrite E. apply H. exact Hx.
  Qed.

  Lemma dels_event_from l ys xs c e :
    (forall x, In x xs -> from l ys x) -> In e (dels xs c) -> event_from l ys e.
  Proof.
    intros H He. destruct (in_dels _ _ _ He) as (x & E & Hx).
    unfold event_from. rewrite E. apply H. exact Hx.
  Qed.

  Lemma perm_from l l' xs r :
    Permutation (l' ++ r) (l ++ xs) -> forall x, In x l' -> from l xs x.
  Proof.
    intros HP x Hx. assert (H : In x (l ++ xs)).
    { apply (Permutation_in x HP). apply in_or_app; left; exact Hx. }
    apply in_app_or in H. exact H.
  Qed.

  Lemma owned_step_from op l r l' es :
    owned_step eqb op l = (r, l', es) ->
    (forall x, In x l' -> from l (op_items op) x) /\
    (forall e, In e es -> event_from l (op_items op) e).
  Proof.
    destruct op as [y|it|i y|y|le| |i| |it|n|i y|s it| |i|s| ]; cbn [owned_step op_items]; intros H.
    - unfold o_append in H. inversion H; subst; clear H. split.
      + intros x Hx. apply in_app_or in Hx. exact Hx.
      + intros e [<- | [<- | []]]; cbn; [exact I | right; left; reflexivity].
    - unfold o_extend in H. destruct it as [xs| |xs| ]; cbn in H; inversion H; subst; clear H.
      + split; [intros x Hx; apply in_app_or in Hx; exact Hx |].
        intros e He. apply in_app_or in He. destruct He as [He | He].
        * destruct (0 <? zlen xs); [destruct He as [<- | []]; exact I | destruct He].
        * eapply adds_event_from; [| exact He]. intros x Hx. right. exact Hx.
      + split; [intros x Hx; apply in_app_or in Hx; destruct Hx; left; assumption |].
        intros e He. apply in_app_or in He. destruct He as [He | He].
        * destruct (0 <? zlen l); [destruct He as [<- | []]; exact I | destruct He].
        * eapply adds_event_from; [| exact He]. intros x Hx. apply in_app_or in Hx.
          destruct Hx; left; assumption.
      + split; [intros x Hx; left; exact Hx | intros e []].
      + split; [intros x Hx; left; exact Hx | intros e []].
    - unfold o_insert in H. inversion H; subst; clear H. split.
      + intros x Hx. apply (Permutation_in x (py_insert_perm i y l)) in Hx.
        destruct Hx as [-> | Hx]; [right; left; reflexivity | left; exact Hx].
      + intros e [<- | [<- | []]]; cbn; [exact I | right; left; reflexivity].
    - unfold o_remove in H. destruct (py_remove eqb y l) eqn:E; inversion H; subst; clear H.
      + split; [intros x Hx; left; apply (py_remove_incl _ _ _ E x Hx) |].
        intros e [<- | [<- | []]]; cbn; [exact I | right; left; reflexivity].
      + split; [intros x Hx; left; exact Hx |]. intros e' [<- | []]. exact I.
    - unfold o_sort in H. inversion H; subst; clear H. split.
      + intros x Hx. left. apply (Permutation_in x (py_sort_perm le l) Hx).
      + intros e [<- | [<- | []]]; exact I.
    - unfold o_clear in H. inversion H; subst; clear H. split; [intros x [] |].
      intros e [<- | He]; [exact I |]. eapply dels_event_from; [| exact He].
      intros x Hx. left. exact Hx.
    - unfold o_pop in H. destruct (py_pop i l) as [[y l2] | e] eqn:E; inversion H; subst; clear H.
      + pose proof (py_pop_spec _ _ _ _ E) as HP. split.
        * intros x Hx. left. apply (Permutation_in x (Permutation_sym HP)). right. exact Hx.
        * intros e [<- | [<- | []]]; [exact I |]. left.
          apply (Permutation_in y (Permutation_sym HP)). left. reflexivity.
      + split; [intros x Hx; left; exact Hx |]. intros e' [<- | []]. exact I.
    - unfold o_reverse in H. inversion H; subst; clear H. split.
      + intros x Hx. left. apply in_rev. exact Hx.
      + intros e [<- | [<- | []]]; exact I.
    - unfold o_iadd in H. destruct it as [xs| |xs| ]; cbn in H; inversion H; subst; clear H.
      + split; [intros x Hx; apply in_app_or in Hx; exact Hx |].
        intros e He. apply in_app_or in He. destruct He as [He | He].
        * destruct (0 <? zlen xs); [destruct He as [<- | []]; exact I | destruct He].
        * eapply adds_event_from; [| exact He]. intros x Hx. right. exact Hx.
      + split; [intros x Hx; apply in_app_or in Hx; destruct Hx; left; assumption |].
        intros e He. apply in_app_or in He. destruct He as [He | He].
        * destruct (0 <? zlen l); [destruct He as [<- | []]; exact I | destruct He].
        * eapply adds_event_from; [| exact He]. intros x Hx. apply in_app_or in Hx.
          destruct Hx; left; assumption.
      + split; [intros x Hx; left; exact Hx | intros e []].
      + split; [intros x Hx; left; exact Hx | intros e []].
    - unfold o_imul in H.
      assert (G : forall rm ad len,
        (forall x, In x rm -> In x l) -> (forall x, In x ad -> In x l) ->
        (Ok None, py_imul n l,
         (if (0 <? zlen rm) || (0 <? zlen ad) then [(CWill, l)] else [])
         ++ dels rm (py_imul n l) ++ adds_from len 1 ad (py_imul n l)) = (r, l', es) ->
        (forall x, In x l' -> from l [] x) /\ (forall e, In e es -> event_from l [] e)).
      { intros rm ad len Hrm Had H'. inversion H'; subst; clear H'. split.
        - intros x Hx. left. apply (repeat_list_incl _ _ x Hx).
        - intros e He. apply in_app_or in He. destruct He as [He | He].
          + destruct (_ || _); [destruct He as [<- | []]; exact I | destruct He].
          + apply in_app_or in He. destruct He as [He | He].
            * eapply dels_event_from; [| exact He]. intros x Hx. left. auto.
            * eapply adds_event_from; [| exact He]. intros x Hx. left. auto. }
      destruct (n <=? 0); [| destruct (n =? 1)].
      + apply (G l [] _ (fun x Hx => Hx) (fun x (Hx : In x []) => match Hx with end) H).
      + apply (G [] [] _ (fun x (Hx : In x []) => match Hx with end)
                 (fun x (Hx : In x []) => match Hx with end) H).
      + apply (G [] _ _ (fun x (Hx : In x []) => match Hx with end)
                 (repeat_list_incl _ l) H).
    - unfold o_setint in H. destruct (py_set i y l) as [l2 | e] eqn:E; inversion H; subst; clear H.
      + apply py_set_item in E. destruct E as (z & Ez & HP & _). split.
        * intros x Hx.
          assert (Hin : In x (y :: l)) by (apply (Permutation_in x HP); right; exact Hx).
          destruct Hin as [-> | Hin]; [right; left; reflexivity | left; exact Hin].
        * intros e [<- | [<- | [<- | []]]]; cbn; [exact I | | right; left; reflexivity].
          destruct (item_or_none _ l) eqn:E2; [left; apply (item_or_none_in _ _ _ E2) | exact I].
      + split; [intros x Hx; left; exact Hx |]. intros e' [<- | []]. exact I.
    - unfold o_setslice in H. destruct (py_getslice s l) as [rm | e] eqn:E1.
      2:{ inversion H; subst; clear H. split; [intros x Hx; left; exact Hx | intros e' []]. }
      assert (Hrm : forall x, In x rm -> In x l) by (intros x Hx; apply (getslice_incl _ _ _ E1 x Hx)).
      assert (G : forall xs, (forall x, In x xs -> from l (op_items (LSetSlice s it)) x) ->
                iter_items l it = Ok xs ->
                (forall l2, (forall x, In x l2 -> from l (op_items (LSetSlice s it)) x) ->
                   forall x, In x (iter_again l2 it) -> from l (op_items (LSetSlice s it)) x) ->
                (forall x, In x l' -> from l (op_items (LSetSlice s it)) x) /\
                (forall e, In e es -> event_from l (op_items (LSetSlice s it)) e)).
      { intros xs Hxs Hit Hag. rewrite Hit in H. cbn [rbind] in H.
        destruct (py_setslice s xs l) as [l2 | e] eqn:E2; inversion H; subst; clear H.
        - pose proof (setslice_perm s xs l rm l' E1 E2) as HP.
          assert (Hl' : forall x, In x l' -> from l (op_items (LSetSlice s it)) x).
          { intros x Hx. destruct (perm_from _ _ _ _ HP x Hx) as [A | A]; [left; exact A |].
            apply Hxs. exact A. }
          split; [exact Hl' |].
          intros e [<- | He]; [exact I |]. apply in_app_or in He. destruct He as [He | He].
          + eapply dels_event_from; [| exact He]. intros x Hx. left. apply Hrm. exact Hx.
          + eapply adds_event_from; [| exact He]. apply Hag. exact Hl'.
        - split; [intros x Hx; left; exact Hx |]. intros e' [<- | []]. exact I. }
      destruct it as [xs| |xs| ]; cbn [op_items] in *.
      + apply (G xs); [intros x Hx; right; exact Hx | reflexivity |].
        intros l2 _ x Hx. right. exact Hx.
      + apply (G l); [intros x Hx; left; exact Hx | reflexivity |].
        intros l2 Hl2 x Hx. apply Hl2. exact Hx.
      + apply (G xs); [intros x Hx; right; exact Hx | reflexivity |]. intros l2 _ x [].
      + cbn in H. inversion H; subst; clear H.
        split; [intros x Hx; left; exact Hx |]. intros e' [<- | []]. exact I.
    - inversion H; subst. split; [intros x Hx; left; exact Hx | intros e []].
    - unfold o_delint in H. destruct (py_del i l) as [l2 | e] eqn:E; inversion H; subst; clear H.
      + apply py_del_item in E. destruct E as (z & Ez & HP). split.
        * intros x Hx. left. apply (Permutation_in x (Permutation_sym HP)). right. exact Hx.
        * intros e [<- | [<- | []]]; cbn; [exact I |].
          destruct (item_or_none _ l) eqn:E2; [left; apply (item_or_none_in _ _ _ E2) | exact I].
      + split; [intros x Hx; left; exact Hx |]. intros e' [<- | []]. exact I.
    - unfold o_delslice in H. destruct (py_getslice s l) as [rm | e] eqn:E1.
      2:{ inversion H; subst; clear H. split; [intros x Hx; left; exact Hx | intros e' []]. }
      destruct (py_delslice s l) as [l2 | e] eqn:E2; inversion H; subst; clear H.
      + pose proof (delslice_perm s l rm l' E1 E2) as HP. split.
        * intros x Hx. left. apply (Permutation_in x (Permutation_sym HP)). apply in_or_app; right; exact Hx.
        * intros e [<- | He]; [exact I |]. eapply dels_event_from; [| exact He].
          intros x Hx. left. apply (getslice_incl _ _ _ E1 x Hx).
      + split; [intros x Hx; left; exact Hx |]. intros e' [<- | []]. exact I.
    - inversion H; subst. split; [intros x Hx; left; exact Hx | intros e []].
  Qed.
End Membership.

(** ** No change without a report *)
Lemma pos_nil : forall (ps : list Z) (l : list value),
  (forall p, In p ps -> 0 <= p < zlen l) -> flat_map (pick_nth l) ps = [] -> ps = [].
Proof.
  intros [| p ps] l Hr H; [reflexivity |]. exfalso.
  cbn in H. unfold pick_nth at 1 in H.
  destruct (nth_error_in_range p l) as [y Hy].
  { unfold in_range. specialize (Hr p (or_introl eq_refl)). lia. }
  rewrite Hy in H. discriminate H.
Qed.

Lemma getslice_nil : forall s (l : list value), py_getslice s l = Ok [] ->
  slice_positions s (zlen l) = [] /\ slice_step s <> 0.
Proof.
  intros s l H. unfold py_getslice in H. destruct (slice_step s =? 0) eqn:E; [discriminate H |].
  inversion H as [H1]. split; [| lia].
  apply (pos_nil _ l); [| exact H1].
  intros p Hp. apply (slice_positions_range s); [lia | exact Hp].
Qed.

Lemma setslice_nil : forall s (l l' : list value),
  py_getslice s l = Ok [] -> py_setslice s [] l = Ok l' -> l' = l.
Proof.
  intros s l l' H1 H2. destruct (getslice_nil s l H1) as [HP Hs].
  unfold py_setslice in H2. destruct (slice_step s =? 0); [discriminate H2 |].
  destruct (slice_step s =? 1) eqn:E1.
  - inversion H2; subst; clear H2. cbn [app].
    unfold slice_positions in HP.
    assert (Hst : slice_step s = 1) by lia. rewrite Hst in HP.
    assert (Hn : Z.to_nat (slice_count (slice_lo s (zlen l)) (slice_hi s (zlen l)) 1) = 0%nat).
    { destruct (Z.to_nat _); [reflexivity | discriminate HP]. }
    unfold slice_count in Hn. cbn in Hn.
    destruct (slice_lo s (zlen l) <? slice_hi s (zlen l)) eqn:El.
    + rewrite Z.div_1_r in Hn. lia.
    + replace (Z.max (slice_lo s (zlen l)) (slice_hi s (zlen l))) with (slice_lo s (zlen l)) by lia.
      apply firstn_skipn.
  - rewrite HP in H2. cbn in H2. inversion H2. reflexivity.
Qed.

Lemma drop_positions_nil : forall (l : list value) i, drop_positions [] i l = l.
Proof. induction l as [| x l IH]; intros i; cbn; [reflexivity | rewrite IH; reflexivity]. Qed.

Definition reports (es : list (ev value)) : bool := existsb (fun e => negb (is_will e)) es.

Lemma reports_app es1 es2 : reports (es1 ++ es2) = reports es1 || reports es2.
Proof. unfold reports. apply existsb_app. Qed.

Lemma reports_right es1 es2 : reports es2 = true -> reports (es1 ++ es2) = true.
Proof. rewrite reports_app. intros ->. apply orb_true_r. Qed.
Lemma reports_left es1 es2 : reports es1 = true -> reports (es1 ++ es2) = true.
Proof. rewrite reports_app. intros ->. reflexivity. Qed.

Lemma reports_dels xs c : reports (dels xs c) = match xs with [] => false | _ => true end.
Proof. destruct xs; reflexivity. Qed.

Lemma reports_adds cur step xs c :
  reports (adds_from cur step xs c) = match xs with [] => false | _ => true end.
Proof. destruct xs; reflexivity. Qed.

Lemma owned_step_reports eqb op l r l' es :
  owned_step eqb op l = (r, l', es) -> silent_list op = false ->
  l' = l \/ reports es = true.
Proof.
  destruct op as [y|it|i y|y|le| |i| |it|n|i y|s it| |i|s| ]; cbn [owned_step silent_list];
    intros H Hs.
  - unfold o_append in H. inversion H; subst. right. reflexivity.
  - unfold o_extend in H. destruct it as [xs| |xs| ]; cbn [iter_items iter_again iter_len rbind] in H; inversion H; subst; clear H;
      try (left; reflexivity).
    + rewrite reports_app, reports_adds. destruct xs; [left; apply app_nil_r | right; apply orb_true_r].
    + rewrite reports_app, reports_adds. destruct l; [left; reflexivity | right; apply orb_true_r].
  - unfold o_insert in H. inversion H; subst. right. reflexivity.
  - unfold o_remove in H. destruct (py_remove eqb y l); inversion H; subst;
      [right; reflexivity | left; reflexivity].
  - unfold o_sort in H. inversion H; subst. right. reflexivity.
  - unfold o_clear in H. inversion H; subst. destruct l; [left; reflexivity |].
    right. reflexivity.
  - unfold o_pop in H. destruct (py_pop i l) as [[y l2] | e]; inversion H; subst;
      [right; reflexivity | left; reflexivity].
  - unfold o_reverse in H. inversion H; subst. right. reflexivity.
  - unfold o_iadd in H. destruct it as [xs| |xs| ]; cbn [iter_items iter_again iter_len rbind] in H; inversion H; subst; clear H;
      try (left; reflexivity).
    + rewrite reports_app, reports_adds. destruct xs; [left; apply app_nil_r | right; apply orb_true_r].
    + rewrite reports_app, reports_adds. destruct l; [left; reflexivity | right; apply orb_true_r].
  - unfold o_imul, py_imul in H. destruct (n <=? 0) eqn:E1; [| destruct (n =? 1) eqn:E2];
      inversion H; subst; clear H.
    + replace (Z.to_nat n) with 0%nat by lia. cbn [repeat_list].
      destruct l; [left; reflexivity | right; apply reports_right, reports_left; reflexivity].
    + replace (Z.to_nat n) with 1%nat by lia. cbn [repeat_list]. left. apply app_nil_r.
    + destruct l as [| x l].
      * left. clear. induction (Z.to_nat n) as [| k IH]; [reflexivity | exact IH].
      * right. apply reports_right. rewrite reports_adds.
        destruct (Z.to_nat (n - 1)) eqn:En; [lia | reflexivity].
  - unfold o_setint in H. destruct (py_set i y l); inversion H; subst;
      [right; reflexivity | left; reflexivity].
  - unfold o_setslice in H. destruct (py_getslice s l) as [rm | e] eqn:E1;
      [| inversion H; subst; left; reflexivity].
    destruct it as [xs| |xs| ]; [| | discriminate Hs |]; cbn [iter_items iter_again rbind] in H.
    + destruct (py_setslice s xs l) as [l2 | e] eqn:E2; inversion H; subst; clear H;
        [| left; reflexivity].
      destruct rm; [| right; reflexivity].
      destruct xs; [| right; reflexivity].
      left. apply (setslice_nil s l l' E1 E2).
    + destruct (py_setslice s l l) as [l2 | e] eqn:E2; inversion H; subst; clear H;
        [| left; reflexivity].
      destruct rm as [| x rm]; [| right; reflexivity].
      destruct l' as [| y l']; [| right; reflexivity].
      left. pose proof (setslice_perm s l l [] [] E1 E2) as HP.
      apply Permutation_nil in HP. destruct l; [reflexivity | discriminate HP].
    + inversion H; subst. left. reflexivity.
  - inversion H; subst. left. reflexivity.
  - unfold o_delint in H. destruct (py_del i l); inversion H; subst;
      [right; reflexivity | left; reflexivity].
  - unfold o_delslice in H. destruct (py_getslice s l) as [rm | e] eqn:E1;
      [| inversion H; subst; left; reflexivity].
    destruct (py_delslice s l) as [l2 | e] eqn:E2; inversion H; subst; clear H;
      [| left; reflexivity].
    destruct rm as [| x rm]; [| right; reflexivity].
    left. destruct (getslice_nil s l E1) as [HP Hz]. unfold py_delslice in E2.
    destruct (slice_step s =? 0); [discriminate E2 |].
    rewrite HP, drop_positions_nil in E2. inversion E2. reflexivity.
  - inversion H; subst. left. reflexivity.
Qed.

Lemma owned_step_err (eqb : value -> value -> bool) op l e l' es :
  owned_step eqb op l = (Err e, l', es) -> l' = l.
Proof.
  destruct op as [y|it|i y|y|le| |i| |it|n|i y|s it| |i|s| ]; cbn [owned_step]; intros H;
    try (inversion H; reflexivity).
  - unfold o_extend in H. destruct it; cbn in H; inversion H; reflexivity.
  - unfold o_remove in H. destruct (py_remove eqb y l); inversion H; reflexivity.
  - unfold o_pop in H. destruct (py_pop i l) as [[y l2] | e2]; inversion H; reflexivity.
  - unfold o_iadd in H. destruct it; cbn in H; inversion H; reflexivity.
  - unfold o_imul in H. destruct (n <=? 0); [| destruct (n =? 1)]; inversion H.
  - unfold o_setint in H. destruct (py_set i y l); inversion H; reflexivity.
  - unfold o_setslice in H. destruct (py_getslice s l); [| inversion H; reflexivity].
    destruct (let* xs := iter_items l it in py_setslice s xs l); inversion H; reflexivity.
  - unfold o_delint in H. destruct (py_del i l); inversion H; reflexivity.
  - unfold o_delslice in H. destruct (py_getslice s l); [| inversion H; reflexivity].
    destruct (py_delslice s l); inversion H; reflexivity.
Qed.

(** ** Dicts *)
Definition dreports (es : list (dcall string value * list (string * value))) : bool :=
  existsb (fun e => negb (is_dwill e)) es.

Lemma dreports_app es1 es2 : dreports (es1 ++ es2) = dreports es1 || dreports es2.
Proof. unfold dreports. apply existsb_app. Qed.

Lemma dset_nonnil : forall (k : string) (v : value) d, dset String.eqb k v d <> [].
Proof. intros k v [| [k' v'] d]; cbn; [discriminate |]. destruct (String.eqb k k'); discriminate. Qed.

Lemma dupdate_nil : forall (e d : list (string * value)),
  dupdate String.eqb d e = [] -> e = [] /\ d = [].
Proof.
  induction e as [| [k v] e IH]; intros d H; [split; [reflexivity | exact H] |].
  unfold dupdate in H. cbn in H. apply IH in H. destruct H as [_ H].
  exfalso. apply (dset_nonnil _ _ _ H).
Qed.

Lemma dadds_reports nd d' :
  dreports (dadds nd d') = match nd with [] => false | _ => true end.
Proof. destruct nd; reflexivity. Qed.

Lemma owned_dstep_reports op d r d' es :
  owned_dstep String.eqb VNone op d = (r, d', es) -> silent_dict op = false ->
  d' = d \/ dreports es = true.
Proof.
  assert (R : forall nd (d d' : list (string * value)),
            nd <> [] -> dreports (od_report String.eqb nd d d') = true).
  { intros nd d0 d1 Hn. unfold od_report.
    change (dreports ([(DWill, d0)] ++ ddels (items_to_del String.eqb nd d0) d1 ++ dadds nd d1) = true).
    rewrite !dreports_app, dadds_reports. destruct nd; [congruence |].
    rewrite !orb_true_r. reflexivity. }
  destruct op as [k v | k | k dflt | | | k dflt | a kw | | a | ]; cbn [owned_dstep silent_dict];
    intros H Hs.
  - unfold od_setitem in H. inversion H; subst. right.
    destruct (dget String.eqb k d); reflexivity.
  - unfold od_delitem in H. destruct (dget String.eqb k d); inversion H; subst;
      [right; reflexivity | left; reflexivity].
  - unfold od_pop in H. destruct (dget String.eqb k d); [| destruct dflt]; inversion H; subst;
      [right; reflexivity | left; reflexivity | left; reflexivity].
  - inversion H; left; reflexivity.
  - unfold od_popitem in H. destruct (last_item d) as [[k v] |]; inversion H; subst;
      [right; reflexivity | left; reflexivity].
  - destruct dflt as [x |]; [| discriminate Hs]. unfold od_setdefault, dmem in H.
    destruct (dget String.eqb k d); inversion H; subst; [left; reflexivity | right; reflexivity].
  - unfold od_update in H. destruct a as [[ps | ps | ps | ] |].
    + inversion H; subst; clear H.
      destruct (dupdate String.eqb (dict_of String.eqb ps) kw) eqn:E.
      * left. apply dupdate_nil in E. destruct E as [-> E]. unfold dict_of in E.
        apply dupdate_nil in E. destruct E as [-> _]. reflexivity.
      * right. rewrite <- E. apply R. rewrite E. discriminate.
    + inversion H; subst; clear H.
      destruct (dupdate String.eqb (dict_of String.eqb ps) kw) eqn:E.
      * left. apply dupdate_nil in E. destruct E as [-> _]. reflexivity.
      * right. rewrite <- E. apply R. rewrite E. discriminate.
    + inversion H; left; reflexivity.
    + inversion H; left; reflexivity.
    + inversion H; subst; clear H. destruct kw; [left; reflexivity | right; apply R; discriminate].
  - inversion H; left; reflexivity.
  - unfold od_ior in H. destruct a as [ps | ps | ps | ]; inversion H; subst; clear H;
      try (left; reflexivity).
    destruct (dict_of String.eqb ps) eqn:E.
    + left. unfold dict_of in E. apply dupdate_nil in E. destruct E as [-> _]. reflexivity.
    + right. apply R. discriminate.
  - unfold od_clear in H. inversion H; subst. destruct d; [left; reflexivity | right; reflexivity].
Qed.

Lemma owned_dstep_err op d e d' es :
  owned_dstep String.eqb VNone op d = (Err e, d', es) -> d' = d.
Proof.
  destruct op as [k v | k | k dflt | | | k dflt | a kw | | a | ]; cbn [owned_dstep]; intros H;
    try (inversion H; reflexivity).
  - unfold od_delitem in H. destruct (dget String.eqb k d); inversion H; reflexivity.
  - unfold od_pop in H. destruct (dget String.eqb k d); [| destruct dflt]; inversion H; reflexivity.
  - unfold od_popitem in H. destruct (last_item d) as [[k v] |]; inversion H; reflexivity.
  - unfold od_setdefault in H. destruct (dget String.eqb k d); inversion H.
  - unfold od_update in H. destruct a as [[ps | ps | ps | ] |]; inversion H; reflexivity.
  - unfold od_ior in H. destruct a; inversion H; reflexivity.
Qed.
