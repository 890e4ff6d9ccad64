(** LinkOps.v -- what the list methods report, for lists of distinct objects. *)
From Verif Require Import Base PyList OListModel OListSpec OListProofs.
From Coq Require Import Lia Permutation.
Open Scope nat_scope.

Definition removed {A} (es : list (ev A)) : list A :=
  flat_map (fun e => match fst e with CDel (Some x) => [x] | _ => [] end) es.
Definition added {A} (es : list (ev A)) : list A :=
  flat_map (fun e => match fst e with CAdd _ x => [x] | _ => [] end) es.
Definition named {A} (e : ev A) : Prop := match fst e with CDel None => False | _ => True end.

(** The items that a method puts into the list [l]. *)
Definition inserts {A} (op : lop A) (l : list A) : list A :=
  match op with
  | LAppend x | LInsert _ x | LSetInt _ x => [x]
  | LExtend (ItList xs | ItOnce xs) | LIAdd (ItList xs | ItOnce xs)
  | LSetSlice _ (ItList xs | ItOnce xs) => xs
  | LExtend ItSelf | LIAdd ItSelf | LSetSlice _ ItSelf => l
  | LIMul n => if (n <=? 1)%Z then [] else repeat_list (Z.to_nat (n - 1)) l
  | _ => []
  end.
(** The methods that put in what they report: not a one-shot iterator given to a slice. *)
Definition loud {A} (op : lop A) : Prop :=
  match op with LSetSlice _ (ItOnce _) => False | _ => True end.

Section Steps.
  Context {A : Type} (eqb : A -> A -> bool).

  Lemma removed_app (a b : list (ev A)) : removed (a ++ b) = removed a ++ removed b.
  Proof. unfold removed. apply flat_map_app. Qed.
  Lemma added_app (a b : list (ev A)) : added (a ++ b) = added a ++ added b.
  Proof. unfold added. apply flat_map_app. Qed.
  Lemma removed_dels (xs c : list A) : removed (dels xs c) = xs.
  Proof. unfold removed, dels. induction xs as [| x xs IH]; cbn; [reflexivity |]. f_equal. exact IH. Qed.
  Lemma added_dels (xs c : list A) : added (dels xs c) = [].
  Proof. unfold added, dels. induction xs as [| x xs IH]; cbn; [reflexivity |]. exact IH. Qed.
  Lemma removed_adds i k (xs c : list A) : removed (adds_from i k xs c) = [].
  Proof.
    unfold removed, adds_from. generalize 0 at 1. induction xs as [| x xs IH]; intros n; cbn; [reflexivity |]. apply IH.
  Qed.
  Lemma added_adds i k (xs c : list A) : added (adds_from i k xs c) = xs.
  Proof.
    unfold added, adds_from. generalize 0 at 1. induction xs as [| x xs IH]; intros n; cbn; [reflexivity |]. f_equal. apply IH.
  Qed.
  Lemma named_dels (xs c : list A) : Forall named (dels xs c).
  Proof. unfold dels. induction xs; cbn; constructor; [exact I | assumption]. Qed.
  Lemma named_adds i k (xs c : list A) : Forall named (adds_from i k xs c).
  Proof. unfold adds_from. generalize 0 at 1. induction xs as [| x xs IH]; intros n; cbn; constructor; [exact I | apply IH]. Qed.

  Lemma removed_will (c : list A) es : removed ((CWill, c) :: es) = removed es.
  Proof. reflexivity. Qed.
  Lemma added_will (c : list A) es : added ((CWill, c) :: es) = added es.
  Proof. reflexivity. Qed.

  Lemma py_remove_perm x l l' : (forall y, In y l -> eqb y x = true -> y = x) -> py_remove eqb x l = Ok l' -> Permutation l (x :: l').
  Proof.
    revert l'. induction l as [| y l IH]; intros l' HE H; cbn in H; [discriminate H |].
    destruct (eqb y x) eqn:E.
    - injection H as <-. rewrite (HE y (or_introl eq_refl) E). reflexivity.
    - destruct (py_remove eqb x l) as [k | e]; cbn in H; [| discriminate H]. injection H as <-.
      transitivity (y :: x :: k); [apply perm_skip, IH; [| reflexivity] | apply perm_swap].
      intros z Hz. apply HE. right. exact Hz.
  Qed.

  Lemma perm_dels (l l' r : list A) : Permutation l (r ++ l') -> Permutation (l' ++ r) (l ++ []).
  Proof. intros H. rewrite app_nil_r, H. apply Permutation_app_comm. Qed.

  (** What is gone and what is new accounts for the change of content. *)
  Lemma step_perm op l y l' es :
    loud op -> (match op with LExtend ItSelf | LIAdd ItSelf | LSetSlice _ ItSelf => l = [] | _ => True end) ->
    (match op with LRemove x => forall z, In z l -> eqb z x = true -> z = x | _ => True end) ->
    owned_step eqb op l = (Ok y, l', es) ->
    Permutation (l' ++ removed es) (l ++ inserts op l) /\ added es = inserts op l /\ Forall named es.
  Proof.
    intros HL HS HR H.
    assert (NIL : forall (xs : list A), l = xs -> xs ++ [] = xs) by (intros; apply app_nil_r).
    destruct op as [x|it|i x|x|le| |i| |it|n|i x|s it| |i|s| ]; cbn [owned_step inserts loud] in *.
    - injection H as _ <- <-. cbn. rewrite app_nil_r. repeat split; auto; repeat constructor.
    - unfold o_extend in H. destruct it as [xs| |xs| ]; cbn [iter_len iter_items iter_again] in H; try discriminate H; injection H as _ <- <-.
      + rewrite removed_app, added_app, removed_adds, added_adds. destruct (0 <? zlen xs)%Z; cbn; rewrite app_nil_r;
          (repeat split; [reflexivity | repeat constructor; try apply named_adds]).
      + subst l. cbn. repeat split; constructor.
    - injection H as _ <- <-. cbn. rewrite app_nil_r. split; [| split; [reflexivity | repeat constructor]].
      rewrite py_insert_perm. apply Permutation_cons_append.
    - unfold o_remove in H. destruct (py_remove eqb x l) as [k | e] eqn:E; [| discriminate H]. injection H as _ <- <-.
      cbn. split; [| split; [reflexivity | repeat constructor]]. apply perm_dels. exact (py_remove_perm x l k HR E).
    - injection H as _ <- <-. cbn. rewrite !app_nil_r. split; [apply py_sort_perm | split; [reflexivity | repeat constructor]].
    - injection H as _ <- <-. rewrite removed_will, added_will, removed_dels, added_dels, app_nil_r. repeat split; auto. constructor; [exact I | apply named_dels].
    - unfold o_pop in H. destruct (py_pop i l) as [[x k] | e] eqn:E; [| discriminate H]. injection H as _ <- <-.
      cbn. split; [| split; [reflexivity | repeat constructor]]. apply perm_dels. exact (py_pop_spec i l x k E).
    - injection H as _ <- <-. cbn. rewrite !app_nil_r. split; [symmetry; apply Permutation_rev | split; [reflexivity | repeat constructor]].
    - unfold o_iadd in H. destruct it as [xs| |xs| ]; cbn [iter_len iter_items iter_again] in H; try discriminate H; injection H as _ <- <-.
      + rewrite removed_app, added_app, removed_adds, added_adds. destruct (0 <? zlen xs)%Z; cbn; rewrite app_nil_r;
          (repeat split; [reflexivity | repeat constructor; try apply named_adds]).
      + subst l. cbn. repeat split; constructor.
    - unfold o_imul, py_imul in H. destruct (n <=? 0)%Z eqn:E1; [| destruct (n =? 1)%Z eqn:E2]; injection H as _ <- <-.
      + assert (N1 : (n <=? 1)%Z = true) by lia. rewrite N1.
        replace (Z.to_nat n) with 0 by lia. cbn [repeat_list].
        rewrite !removed_app, !added_app, removed_dels, added_dels, removed_adds, added_adds, !app_nil_r.
        destruct (_ || _); cbn [removed added flat_map fst app]; (split; [reflexivity | split; [reflexivity |]]).
        * constructor; [exact I | apply named_dels].
        * apply named_dels.
      + assert (N1 : (n <=? 1)%Z = true) by lia. rewrite N1.
        replace (Z.to_nat n) with 1 by lia. cbn. rewrite !app_nil_r. split; [reflexivity | split; [reflexivity | constructor]].
      + assert (N1 : (n <=? 1)%Z = false) by lia. rewrite N1.
        replace (Z.to_nat n) with (S (Z.to_nat (n - 1))) by lia. cbn [repeat_list].
        rewrite !removed_app, !added_app, ?removed_dels, ?added_dels, removed_adds, added_adds.
        match goal with |- context [if ?c then [(CWill, _)] else []] => destruct c end; cbn [removed added flat_map fst app dels map]; rewrite ?app_nil_r; (split; [reflexivity | split; [reflexivity |]]).
        * constructor; [exact I | apply named_adds].
        * apply named_adds.
    - unfold o_setint in H. destruct (py_set i x l) as [k | e] eqn:E; [| discriminate H]. injection H as _ <- <-.
      apply py_set_item in E. destruct E as (z & -> & HP & _). cbn. split; [| split; [reflexivity | repeat constructor]].
      rewrite <- (Permutation_cons_append k z), HP. apply Permutation_cons_append.
    - unfold o_setslice in H. destruct (py_getslice s l) as [r | e] eqn:E1; [| discriminate H].
      destruct it as [xs| |xs| ]; try contradiction; cbn [iter_items iter_again rbind] in H; try discriminate H.
      + destruct (py_setslice s xs l) as [k | e] eqn:E2; [| discriminate H]. injection H as _ <- <-.
        rewrite removed_will, added_will.
        rewrite removed_app, added_app, removed_dels, added_dels, removed_adds, added_adds, app_nil_r.
        split; [exact (setslice_perm s xs l r k E1 E2) | split; [reflexivity |]].
        constructor; [exact I | apply Forall_app; split; [apply named_dels | apply named_adds]].
      + subst l. destruct (py_setslice s [] []) as [k | e] eqn:E2; [| discriminate H]. injection H as _ <- <-.
        pose proof (setslice_perm s [] [] r k E1 E2) as HP. cbn in HP.
        apply Permutation_nil in HP || apply Permutation_sym, Permutation_nil in HP. apply app_eq_nil in HP. destruct HP as [-> ->].
        cbn. repeat split; repeat constructor.
    - discriminate H.
    - unfold o_delint in H. destruct (py_del i l) as [k | e] eqn:E; [| discriminate H]. injection H as _ <- <-.
      apply py_del_item in E. destruct E as (z & -> & HP). cbn. split; [| split; [reflexivity | repeat constructor]].
      apply perm_dels. exact HP.
    - unfold o_delslice in H. destruct (py_getslice s l) as [r | e] eqn:E1; [| discriminate H].
      destruct (py_delslice s l) as [k | e] eqn:E2; [| discriminate H]. injection H as _ <- <-.
      pose proof (delslice_perm s l r k E1 E2) as HP.
      rewrite removed_will, added_will.
      rewrite removed_dels, added_dels. split; [apply perm_dels, HP | split; [reflexivity | constructor; [exact I | apply named_dels]]].
    - discriminate H.
  Qed.
End Steps.

(** ** Following a list through its reports *)
Section Follow.
  Context {A : Type} (eqb : A -> A -> bool).

  Definition rmf (x : A) (l : list A) : list A := match py_remove eqb x l with Ok k => k | Err _ => l end.

  (** Applying the reports one by one to the old list gives the new one; each report
      finds the followed list longer (removal) or shorter (addition) than the new one. *)
  Fixpoint follows (es : list (ev A)) (lold l' : list A) : Prop :=
    match es with
    | [] => lold = l'
    | (CWill, _) :: es => follows es lold l'
    | (CDel (Some x), _) :: es => In x lold /\ length l' < length lold /\ follows es (rmf x lold) l'
    | (CAdd i x, _) :: es => length lold < length l' /\ follows es (py_insert i x lold) l'
    | _ :: _ => False
    end.

  Definition mirrored (op : lop A) : bool :=
    match op with
    | LSort _ | LReverse | LSetInt _ _ | LSetSlice _ _ | LSetOther | LDelOther => false
    | _ => true
    end.

  Context (P : A -> Prop) (HE : forall a b, P a -> P b -> (eqb a b = true <-> a = b)).

  Lemma rmf_filter x l : NoDup l -> Forall P l -> P x -> rmf x l = filter (fun z => negb (eqb z x)) l.
  Proof.
    intros N F Px. unfold rmf.
    assert (G : match py_remove eqb x l with Ok k => k = filter (fun z => negb (eqb z x)) l | Err _ => filter (fun z => negb (eqb z x)) l = l end).
    { induction l as [| y l IH]; [reflexivity |]. inversion N as [| ? ? Ny N']; subst. inversion F as [| ? ? Py F']; subst.
      cbn [py_remove filter]. specialize (IH N' F'). destruct (eqb y x) eqn:E; cbn [negb].
      - apply HE in E; [| assumption | assumption]. subst y.
        assert (K : forall l, ~ In x l -> Forall P l -> filter (fun z => negb (eqb z x)) l = l).
        { clear -HE Px. induction l as [| z l IH]; intros N F; [reflexivity |]. inversion F; subst. cbn.
          destruct (eqb z x) eqn:E; cbn.
          - apply HE in E; auto. subst. destruct N. left. reflexivity.
          - rewrite IH; auto. intros K. apply N. right. exact K. }
        symmetry. apply K; assumption.
      - destruct (py_remove eqb x l) as [k | e]; cbn; [f_equal; exact IH | f_equal; exact IH]. }
    destruct (py_remove eqb x l); [exact G | symmetry; exact G].
  Qed.

  Lemma filter_filter {B} (f g : B -> bool) l : filter g (filter f l) = filter (fun z => f z && g z) l.
  Proof. induction l as [| x l IH]; [reflexivity |]. cbn. destruct (f x); cbn; [| exact IH]. destruct (g x); [f_equal |]; exact IH. Qed.
  Lemma filter_ext_in' {B} (f g : B -> bool) l : (forall x, In x l -> f x = g x) -> filter f l = filter g l.
  Proof. apply filter_ext_in. Qed.
  Lemma filter_le {B} (f : B -> bool) l : length (filter f l) <= length l.
  Proof. induction l as [| x l IH]; [reflexivity |]. cbn. destruct (f x); cbn; lia. Qed.
  Lemma filter_lt {B} (f : B -> bool) l x : In x l -> f x = false -> length (filter f l) < length l.
  Proof.
    induction l as [| y l IH]; intros H E; [destruct H |]. cbn. destruct H as [-> | H].
    - rewrite E. cbn. pose proof (filter_le f l). lia.
    - specialize (IH H E). destruct (f y); cbn; lia.
  Qed.
  Lemma filter_P f l : Forall P l -> Forall P (filter f l).
  Proof. intros H. apply Forall_forall. intros x Hx. apply filter_In in Hx. rewrite Forall_forall in H. apply H, Hx. Qed.

  Lemma nodup_app_l {B} (a b : list B) : NoDup (a ++ b) -> NoDup a.
  Proof.
    induction a as [| x a IH]; intros H; [constructor |]. inversion H as [| ? ? N H']; subst. constructor.
    - intros K. apply N, in_or_app. left. exact K. - apply IH, H'.
  Qed.
  Lemma follow_dels r lold c : NoDup lold -> Forall P lold -> NoDup r -> (forall x, In x r -> In x lold) ->
    follows (dels r c) lold (filter (fun z => negb (existsb (eqb z) r)) lold).
  Proof.
    revert lold. induction r as [| x r IH]; intros lold N F Nr I; cbn [dels map follows fst].
    - induction lold as [| y l IHl]; [reflexivity |]. cbn. inversion N; inversion F; subst. f_equal. apply IHl; auto. intros ? [].
    - inversion Nr as [| ? ? Nx Nr']; subst.
      assert (Px : P x) by (rewrite Forall_forall in F; apply F, I; left; reflexivity).
      split; [apply I; left; reflexivity |]. split.
      + apply (filter_lt _ _ x); [apply I; left; reflexivity |]. cbn.
        rewrite (proj2 (HE x x Px Px) eq_refl). reflexivity.
      + rewrite rmf_filter by assumption. fold (dels r c).
        assert (E : filter (fun z => negb (existsb (eqb z) (x :: r))) lold =
                    filter (fun z => negb (existsb (eqb z) r)) (filter (fun z => negb (eqb z x)) lold)).
        { rewrite filter_filter. apply filter_ext_in'. intros z _. cbn. apply negb_orb. }
        rewrite E. apply IH; [apply NoDup_filter, N | apply filter_P, F | exact Nr' |].
        intros z Hz. apply filter_In. split; [apply I; right; exact Hz |].
        destruct (eqb z x) eqn:Ez; [| reflexivity]. apply HE in Ez; [subst; contradiction | | exact Px].
        rewrite Forall_forall in F. apply F, I. right. exact Hz.
  Qed.

  Lemma follow_adds xs lold c : follows (adds_from (zlen lold) 1 xs c) lold (lold ++ xs).
  Proof.
    unfold adds_from.
    assert (G : forall xs n cur lold, zlen lold = (cur + Z.of_nat n * 1)%Z ->
      follows (map (fun p : nat * A => (CAdd (cur + Z.of_nat (fst p) * 1) (snd p), c)) (combine (seq n (length xs)) xs)) lold (lold ++ xs)).
    { clear. induction xs as [| x xs IH]; intros n cur lold E; cbn [length seq combine map follows fst snd].
      - symmetry. apply app_nil_r.
      - split; [rewrite app_length; cbn; lia |].
        assert (Q : py_insert (cur + Z.of_nat n * 1) x lold = lold ++ [x]).
        { rewrite <- E. unfold py_insert. assert (Q : py_insert_pos (zlen lold) lold = length lold).
          { unfold py_insert_pos, clamp, norm_idx, zlen. destruct (Z.ltb_spec (Z.of_nat (length lold)) 0); lia. }
          rewrite Q, firstn_all, skipn_all. reflexivity. }
        rewrite Q. replace (lold ++ x :: xs) with ((lold ++ [x]) ++ xs) by (rewrite <- app_assoc; reflexivity).
        apply IH. unfold zlen in *. rewrite app_length. cbn [length]. lia. }
    apply G. lia.
  Qed.

  Lemma remove_nth_filter n l y : NoDup l -> Forall P l -> nth_error l n = Some y ->
    remove_nth n l = filter (fun z => negb (existsb (eqb z) [y])) l.
  Proof.
    revert n. induction l as [| z l IH]; intros [| n] N F H; try discriminate H; inversion N as [| ? ? Nz N']; subst; inversion F as [| ? ? Pz F']; subst.
    - injection H as ->. cbn. rewrite (proj2 (HE y y Pz Pz) eq_refl). cbn.
      assert (K : forall l, ~ In y l -> Forall P l -> l = filter (fun z => negb (eqb z y || false)) l).
      { clear -HE Pz. induction l as [| z l IH]; intros N F; [reflexivity |]. inversion F; subst. cbn.
        destruct (eqb z y) eqn:E; cbn.
        - apply HE in E; auto. subst. destruct N. left. reflexivity.
        - f_equal. apply IH; auto. intros K. apply N. right. exact K. }
      apply K; assumption.
    - cbn [remove_nth filter existsb]. assert (E : eqb z y = false).
      { destruct (eqb z y) eqn:E; [| reflexivity]. cbn [nth_error] in H. apply nth_error_In in H.
        apply HE in E; [subst; contradiction | assumption |]. rewrite Forall_forall in F'. apply F', H. }
      rewrite E. cbn [orb negb]. f_equal. apply IH; assumption.
  Qed.

  Lemma drop_filter s l r l' : NoDup l -> Forall P l -> py_getslice s l = Ok r -> py_delslice s l = Ok l' ->
    NoDup r /\ (forall x, In x r -> In x l) /\ l' = filter (fun z => negb (existsb (eqb z) r)) l.
  Proof.
    intros N F H1 H2. pose proof (delslice_perm s l r l' H1 H2) as HP.
    assert (Nr : NoDup (r ++ l')) by (apply (Permutation_NoDup HP N)).
    assert (I : forall x, In x r -> In x l).
    { intros x Hx. apply (Permutation_in x (Permutation_sym HP)). apply in_or_app. left. exact Hx. }
    split; [| split; [exact I |]].
    { apply (nodup_app_l _ _ Nr). }
    unfold py_getslice, py_delslice in *. destruct (slice_step s =? 0)%Z eqn:E; [discriminate H1 |].
    injection H1 as Hr. injection H2 as Hl. rewrite drop_positions_indexed in Hl. subst l'.
    set (ps := slice_positions s (zlen l)) in *.
    assert (PR : forall p, In p ps -> (0 <= p < zlen l)%Z) by (intros p Hp; apply (slice_positions_range s l p); [lia | exact Hp]).
    rewrite <- (indexed_snd l) at 2.
    assert (G : forall q, (forall i x, In (i, x) q -> In (i, x) (indexed l)) ->
              map snd (filter (fun p => negb (existsb (Z.eqb (fst p)) ps)) q) =
              filter (fun z => negb (existsb (eqb z) r)) (map snd q)).
    { induction q as [| [i x] q IH]; intros Hq; [reflexivity |]. cbn [filter map fst snd].
      specialize (IH (fun i' x' Hx => Hq i' x' (or_intror Hx))).
      pose proof (Hq i x (or_introl eq_refl)) as Hix. apply indexed_in in Hix. destruct Hix as [Hi Hx].
      assert (Px : P x) by (rewrite Forall_forall in F; apply F; apply (nth_error_In _ _ Hx)).
      assert (K : existsb (Z.eqb i) ps = existsb (eqb x) r).
      { apply Bool.eq_true_iff_eq. rewrite !existsb_exists. split.
        - intros (p & Hp & Ep). apply Z.eqb_eq in Ep. subst p. exists x. split; [| apply HE; auto].
          subst r. apply in_flat_map. exists i. split; [exact Hp |]. unfold pick_nth. rewrite Hx. left. reflexivity.
        - intros (y & Hy & Ey).
          assert (Py : P y) by (rewrite Forall_forall in F; apply F, I, Hy).
          apply HE in Ey; auto. subst y. subst r. apply in_flat_map in Hy. destruct Hy as (p & Hp & Hy).
          unfold pick_nth in Hy. destruct (nth_error l (Z.to_nat p)) as [y |] eqn:Ey; [| destruct Hy]. destruct Hy as [-> | []].
          exists p. split; [exact Hp |]. apply Z.eqb_eq.
          assert (Z.to_nat p = Z.to_nat i).
          { apply (proj1 (NoDup_nth_error l) N); [| congruence]. apply nth_error_Some. congruence. }
          specialize (PR p Hp). lia. }
      rewrite K. destruct (existsb (eqb x) r); cbn [negb map snd]; [exact IH | f_equal; exact IH]. }
    apply G. auto.
  Qed.

  Lemma step_follows op l y l' es :
    mirrored op = true -> NoDup (l ++ inserts op l) -> Forall P (l ++ inserts op l) ->
    (match op with LRemove x => P x | _ => True end) ->
    owned_step eqb op l = (Ok y, l', es) -> follows es l l'.
  Proof.
    intros HM HN HP HR H.
    assert (N : NoDup l) by (apply (nodup_app_l _ _ HN)).
    assert (F : Forall P l) by (apply Forall_app in HP; apply HP).
    assert (ONE : forall z, In z l -> l' = filter (fun w => negb (existsb (eqb w) [z])) l ->
              follows [(CWill, l); (CDel (Some z), l')] l l').
    { intros z Hz El. cbn [follows]. pose proof (follow_dels [z] l l' N F) as G. rewrite <- El in G.
      unfold dels in G. cbn [map follows] in G. apply G; [constructor; [intros [] | constructor] | intros x [<- | []]; exact Hz]. }
    assert (DUP : forall (m : list A), NoDup (m ++ m) -> m = []).
    { intros [| z m] Q; [reflexivity |]. exfalso. inversion Q; subst. apply H2. apply in_or_app. right. left. reflexivity. }
    destruct op as [x|it|i x|x|le| |i| |it|n|i x|s it| |i|s| ]; cbn [mirrored] in HM; try discriminate HM; cbn [owned_step inserts] in *.
    - injection H as _ <- <-. cbn [follows]. split; [rewrite app_length; cbn; lia |].
      assert (Q : (zlen (l ++ [x]) - 1)%Z = zlen l) by (unfold zlen; rewrite app_length; cbn [length]; lia).
      rewrite Q. pose proof (follow_adds [x] l (l ++ [x])) as G. cbn in G. replace (zlen l + 0)%Z with (zlen l) in G by lia. apply G.
    - unfold o_extend in H. destruct it as [xs| |xs| ]; cbn [iter_len iter_items iter_again] in H; try discriminate H.
      + injection H as _ <- <-. destruct (0 <? zlen xs)%Z; cbn [app follows]; apply follow_adds.
      + rewrite (DUP l HN) in *. injection H as _ <- <-. reflexivity.
    - injection H as _ <- <-. cbn [follows]. split.
      + rewrite (Permutation_length (py_insert_perm i x l)). cbn. lia.
      + unfold py_insert. assert (Q : py_insert_pos (Z.min (zlen l) i) l = py_insert_pos i l).
        { unfold py_insert_pos, clamp, norm_idx, zlen. destruct (Z.ltb_spec (Z.min (Z.of_nat (length l)) i) 0), (Z.ltb_spec i 0); lia. }
        rewrite Q. reflexivity.
    - unfold o_remove in H. destruct (py_remove eqb x l) as [k | e] eqn:E; [| discriminate H]. injection H as _ <- <-.
      cbn [follows]. assert (Hx : In x l).
      { assert (Q : Permutation l (x :: k)).
        { apply (py_remove_perm eqb x l k); [| exact E]. intros z Hz Ez. apply HE in Ez; auto. rewrite Forall_forall in F. apply F, Hz. }
        apply (Permutation_in x (Permutation_sym Q)). left. reflexivity. }
      assert (Ek : rmf x l = k) by (unfold rmf; rewrite E; reflexivity).
      split; [exact Hx | split; [| exact Ek]]. rewrite <- Ek, rmf_filter by assumption. apply (filter_lt _ _ x Hx).
      rewrite (proj2 (HE x x HR HR) eq_refl). reflexivity.
    - injection H as _ <- <-. cbn [follows]. pose proof (follow_dels l l [] N F N (fun x H => H)) as G.
      assert (Q : filter (fun z => negb (existsb (eqb z) l)) l = []).
      { assert (Q : forall m, (forall x, In x m -> In x l) -> filter (fun z => negb (existsb (eqb z) l)) m = []).
        { induction m as [| z m IH]; intros Hm; [reflexivity |]. cbn.
          assert (E : existsb (eqb z) l = true).
          { apply existsb_exists. exists z. split; [apply Hm; left; reflexivity |].
            assert (P z) by (rewrite Forall_forall in F; apply F, Hm; left; reflexivity). apply HE; auto. }
          rewrite E. cbn. apply IH. intros x Hx. apply Hm. right. exact Hx. }
        apply Q. auto. }
      rewrite Q in G. exact G.
    - unfold o_pop in H. destruct (py_pop i l) as [[x k] | e] eqn:E; [| discriminate H]. injection H as _ <- <-.
      unfold py_pop, py_get, py_del, rbind in E. destruct (in_range _ l); [| discriminate E].
      destruct (nth_error l _) as [z |] eqn:En; [| discriminate E]. injection E as <- <-.
      apply ONE; [apply (nth_error_In _ _ En) | apply remove_nth_filter; assumption].
    - unfold o_iadd in H. destruct it as [xs| |xs| ]; cbn [iter_len iter_items iter_again] in H; try discriminate H.
      + injection H as _ <- <-. destruct (0 <? zlen xs)%Z; cbn [app follows]; apply follow_adds.
      + rewrite (DUP l HN) in *. injection H as _ <- <-. reflexivity.
    - unfold o_imul, py_imul in H. destruct (n <=? 0)%Z eqn:E1; [| destruct (n =? 1)%Z eqn:E2].
      + injection H as _ <- <-. replace (Z.to_nat n) with 0 by lia. cbn [repeat_list].
        pose proof (follow_dels l l [] N F N (fun x H => H)) as G.
        assert (Q : filter (fun z => negb (existsb (eqb z) l)) l = []).
        { assert (Q : forall m, (forall x, In x m -> In x l) -> filter (fun z => negb (existsb (eqb z) l)) m = []).
          { induction m as [| z m IH]; intros Hm; [reflexivity |]. cbn.
            assert (E : existsb (eqb z) l = true).
            { apply existsb_exists. exists z. split; [apply Hm; left; reflexivity |].
              assert (P z) by (rewrite Forall_forall in F; apply F, Hm; left; reflexivity). apply HE; auto. }
            rewrite E. cbn. apply IH. intros x Hx. apply Hm. right. exact Hx. }
          apply Q. auto. }
        rewrite Q in G. cbn [adds_from combine seq length map]. rewrite app_nil_r.
        match goal with |- context [if ?c then _ else _] => destruct c end; exact G.
      + injection H as _ <- <-. replace (Z.to_nat n) with 1 by lia. cbn. symmetry. apply app_nil_r.
      + assert (N1 : (n <=? 1)%Z = false) by lia. rewrite N1 in *.
        assert (EQ : l = []).
        { apply DUP. replace (Z.to_nat (n - 1)) with (S (Z.to_nat (n - 2))) in HN by lia. cbn [repeat_list] in HN.
          rewrite app_assoc in HN. apply (nodup_app_l _ _ HN). }
        subst l. injection H as _ <- <-.
        assert (RN : forall k, @repeat_list A k [] = []) by (induction k; auto). rewrite !RN. reflexivity.
    - unfold o_delint in H. destruct (py_del i l) as [k | e] eqn:E; [| discriminate H]. injection H as _ <- <-.
      assert (E' := E). apply py_del_item in E'. destruct E' as (z & Ez & _). rewrite Ez.
      unfold item_or_none in Ez. destruct (in_range _ l); [| discriminate Ez].
      apply ONE; [apply (nth_error_In _ _ Ez) |].
      unfold py_del, norm_idx in E. replace (i + zlen l)%Z with (zlen l + i)%Z in E by lia.
      destruct (in_range _ l); [| discriminate E]. injection E as <-. apply remove_nth_filter; assumption.
    - unfold o_delslice in H. destruct (py_getslice s l) as [r | e] eqn:E1; [| discriminate H].
      destruct (py_delslice s l) as [k | e] eqn:E2; [| discriminate H]. injection H as _ <- <-.
      destruct (drop_filter s l r k N F E1 E2) as (Nr & I & Ek). cbn [follows]. rewrite Ek at 2. apply follow_dels; assumption.
  Qed.
End Follow.

(** What is reported removed was in the list. *)
Section Old.
  Context {A : Type} (eqb : A -> A -> bool).
  Lemma getslice_incl s (l r : list A) : py_getslice s l = Ok r -> forall x, In x r -> In x l.
  Proof.
    unfold py_getslice. destruct (slice_step s =? 0)%Z; [discriminate |]. intros H. injection H as <-. intros x Hx.
    apply in_flat_map in Hx. destruct Hx as (p & _ & Hx). unfold pick_nth in Hx.
    destruct (nth_error l (Z.to_nat p)) eqn:E; [| destruct Hx]. destruct Hx as [<- | []]. apply (nth_error_In _ _ E).
  Qed.
  Lemma in_removed_app (a b : list (ev A)) x : In x (removed (a ++ b)) -> In x (removed a) \/ In x (removed b).
  Proof. rewrite removed_app. apply in_app_or. Qed.
  Lemma removed_old op l y l' es :
    (match op with LRemove x => forall z, In z l -> eqb z x = true -> z = x | _ => True end) ->
    owned_step eqb op l = (Ok y, l', es) -> forall x, In x (removed es) -> In x l.
  Proof.
    intros HR H x0 Hx.
    destruct op as [x|it|i x|x|le| |i| |it|n|i x|s it| |i|s| ]; cbn [owned_step] in *.
    - injection H as _ <- <-. destruct Hx.
    - unfold o_extend in H. destruct it as [xs| |xs| ]; cbn [iter_len iter_items iter_again] in H; try discriminate H; injection H as _ <- <-.
      + apply in_removed_app in Hx. destruct Hx as [Hx | Hx]; [destruct (0 <? zlen xs)%Z; destruct Hx | rewrite removed_adds in Hx; destruct Hx].
      + apply in_removed_app in Hx. destruct Hx as [Hx | Hx]; [destruct (0 <? zlen l)%Z; destruct Hx | rewrite removed_adds in Hx; destruct Hx].
    - injection H as _ <- <-. destruct Hx.
    - unfold o_remove in H. destruct (py_remove eqb x l) as [k | e] eqn:E; [| discriminate H]. injection H as _ <- <-.
      destruct Hx as [<- | []]. apply (Permutation_in x (Permutation_sym (py_remove_perm eqb x l k HR E))). left. reflexivity.
    - injection H as _ <- <-. destruct Hx.
    - injection H as _ <- <-. rewrite removed_will, removed_dels in Hx. exact Hx.
    - unfold o_pop in H. destruct (py_pop i l) as [[x k] | e] eqn:E; [| discriminate H]. injection H as _ <- <-.
      destruct Hx as [<- | []]. apply (Permutation_in x (Permutation_sym (py_pop_spec i l x k E))). left. reflexivity.
    - injection H as _ <- <-. destruct Hx.
    - unfold o_iadd in H. destruct it as [xs| |xs| ]; cbn [iter_len iter_items iter_again] in H; try discriminate H; injection H as _ <- <-.
      + apply in_removed_app in Hx. destruct Hx as [Hx | Hx]; [destruct (0 <? zlen xs)%Z; destruct Hx | rewrite removed_adds in Hx; destruct Hx].
      + apply in_removed_app in Hx. destruct Hx as [Hx | Hx]; [destruct (0 <? zlen l)%Z; destruct Hx | rewrite removed_adds in Hx; destruct Hx].
    - unfold o_imul in H.
      match type of H with (let '(_, _) := ?c in _) = _ => assert (E : forall y, In y (fst (fst c)) -> In y l) by
        (intros y0; destruct (n <=? 0)%Z; [auto | destruct (n =? 1)%Z; cbn; tauto]); destruct c as [[ra aa] ll] end.
      injection H as _ _ <-. cbn [fst] in E.
      apply in_removed_app in Hx. destruct Hx as [Hx | Hx].
      + match type of Hx with context [if ?c then _ else _] => destruct c end; destruct Hx.
      + apply in_removed_app in Hx. rewrite removed_dels, removed_adds in Hx. destruct Hx as [Hx | []]. apply E, Hx.
    - unfold o_setint in H. destruct (py_set i x l) as [k | e] eqn:E; [| discriminate H]. injection H as _ <- <-.
      cbn in Hx. rewrite ?app_nil_r in Hx. match type of Hx with context [item_or_none ?j l] => destruct (item_or_none j l) as [z |] eqn:Ez end; cbn in Hx; [| contradiction]. destruct Hx as [<- | []].
      unfold item_or_none in Ez. destruct (in_range _ l); [| discriminate Ez]. apply (nth_error_In _ _ Ez).
    - unfold o_setslice in H. destruct (py_getslice s l) as [r | e] eqn:E1; [| discriminate H].
      match type of H with context [rbind ?a ?b] => destruct (rbind a b) as [k | e] eqn:E2 end; [| discriminate H].
      injection H as _ <- <-. rewrite removed_will in Hx. apply in_removed_app in Hx.
      rewrite removed_dels, removed_adds in Hx. destruct Hx as [Hx | []].
      apply (getslice_incl _ _ _ E1 _ Hx).
    - discriminate H.
    - unfold o_delint in H. destruct (py_del i l) as [k | e] eqn:E; [| discriminate H]. injection H as _ <- <-.
      cbn in Hx. match type of Hx with context [item_or_none ?j l] => destruct (item_or_none j l) as [z |] eqn:Ez end; cbn in Hx; [| contradiction]. destruct Hx as [<- | []].
      unfold item_or_none in Ez. destruct (in_range _ l); [| discriminate Ez]. apply (nth_error_In _ _ Ez).
    - unfold o_delslice in H. destruct (py_getslice s l) as [r | e] eqn:E1; [| discriminate H].
      destruct (py_delslice s l) as [k | e] eqn:E2; [| discriminate H]. injection H as _ <- <-.
      rewrite removed_will, removed_dels in Hx. apply (getslice_incl _ _ _ E1 _ Hx).
    - discriminate H.
  Qed.
End Old.
