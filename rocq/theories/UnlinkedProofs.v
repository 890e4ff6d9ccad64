(** UnlinkedProofs.v -- lemmas for C54: the loop that saves the unlinked objects. *)
From Verif Require Import Base Mon PyList PyDict StrDict Values TypesModel ObjModel IoModel IoBase SaveSpec.
Open Scope list_scope.

Section Pool.
  Context (P : program) (f : oid -> st world unit) (o : oid) (name : string).

  Notation round := (round P f o name).
  Notation calm := (calm P f o name).

  Lemma remove_mid (eqb : value -> value -> bool) bs cs b :
    (forall c, In c bs -> eqb (VObj c) (VObj b) = false) -> eqb (VObj b) (VObj b) = true ->
    remove_first eqb (VObj b) (map VObj (bs ++ b :: cs)) = map VObj (bs ++ cs).
  Proof.
    intros H E. unfold remove_first.
    assert (Q : py_remove eqb (VObj b) (map VObj (bs ++ b :: cs)) = Ok (map VObj (bs ++ cs))).
    { induction bs as [| c bs IH]; cbn; [rewrite E; reflexivity |].
      rewrite (H c (or_introl eq_refl)), IH; [reflexivity |]. intros c' I. apply H. right. exact I. }
    rewrite Q. reflexivity.
  Qed.

  Lemma del_pool b w : exists h, take_out P o name b w = (Ok tt, set_heap h w) /\
    pool (set_heap h w) o name = remove_first (eqv (p_oeq P) (w_heap w)) (VObj b) (pool w o name).
  Proof.
    unfold take_out, liftH, del_unlinked, modify. eexists. split; [reflexivity |].
    unfold pool, wobj, upd. cbn. rewrite Nat.eqb_refl. cbn. rewrite sget_sset_same. reflexivity.
  Qed.

  Lemma pool_rounds (all : list oid) :
    NoDup all ->
    (forall h a b, In a all -> In b all -> (veq (p_oeq P h) (VObj a) (VObj b) = true <-> a = b)) ->
    forall m bs kept k w, (length bs <= m)%nat ->
      incl (kept ++ bs) all -> NoDup (kept ++ bs) -> (length bs <= k)%nat ->
      pool w o name = map VObj (kept ++ bs) -> calm (every_other bs) w ->
      save_pool P f k o name (length kept) w = for_st (every_other bs) round w.
  Proof.
    intros ND Eq. induction m as [| m IH]; intros bs kept k w Lm Inc Nd Lk Hp Cm.
    - destruct bs; [| cbn in Lm; lia]. destruct k as [| k]; [reflexivity |]. cbn [save_pool every_other for_st].
      unfold bind, getW. rewrite Hp, app_nil_r.
      rewrite (proj2 (nth_error_None (map VObj kept) (length kept))) by (rewrite map_length; lia). reflexivity.
    - destruct bs as [| b bs].
      { destruct k as [| k]; [reflexivity |]. cbn [save_pool every_other for_st].
        unfold bind, getW. rewrite Hp, app_nil_r.
        rewrite (proj2 (nth_error_None (map VObj kept) (length kept))) by (rewrite map_length; lia). reflexivity. }
      destruct k as [| k]; [cbn in Lk; lia |]. cbn [save_pool].
      unfold bind at 1, getW at 1. rewrite Hp, map_app. cbn [map].
      rewrite nth_error_app2 by (rewrite map_length; lia). rewrite map_length, Nat.sub_diag. cbn [nth_error].
      replace (every_other (b :: bs)) with (b :: every_other (tl bs)) in * by (destruct bs as [| ? []]; reflexivity).
      cbn [for_st]. unfold SaveSpec.round at 1. fold (take_out P o name b).
      destruct (del_pool b w) as (h & E & Hp'). unfold bind at 1 2 3 4. rewrite !E.
      destruct (f b (set_heap h w)) as [[[] | e] w2] eqn:F; [| reflexivity].
      assert (Ib : In b all) by (apply Inc, in_app_iff; right; left; reflexivity).
      assert (Q : pool w2 o name = pool (set_heap h w) o name /\ calm (every_other (tl bs)) w2).
      { inversion Cm as [| b0 l0 w0 e w2' R | b0 l0 w0 w1 w2' R1 R2 R3 R4]; subst.
        - unfold SaveSpec.round, bind in R. rewrite E, F in R. discriminate R.
        - rewrite E in R1. injection R1 as <-. rewrite F in R2. injection R2 as <-. auto. }
      destruct Q as [Q Cm'].
      assert (Hp2 : pool w2 o name = map VObj (kept ++ bs)).
      { rewrite Q, Hp', Hp.
        apply remove_mid.
        - intros c Ic. destruct (eqv (p_oeq P) (w_heap w) (VObj c) (VObj b)) eqn:V; [| reflexivity].
          apply Eq in V; [| apply Inc, in_app_iff; left; exact Ic | exact Ib]. subst c.
          exfalso. apply NoDup_remove_2 in Nd. apply Nd, in_app_iff. left. exact Ic.
        - apply Eq; auto. }
      destruct bs as [| c bs].
      + cbn [tl every_other for_st]. destruct k as [| k]; [reflexivity |]. cbn [save_pool].
        unfold bind, getW. rewrite Hp2, app_nil_r.
        rewrite (proj2 (nth_error_None (map VObj kept) (S (length kept)))) by (rewrite map_length; lia). reflexivity.
      + cbn [tl]. replace (S (length kept)) with (length (kept ++ [c])) by (rewrite app_length; cbn; lia).
        apply IH.
        * cbn in Lm. lia.
        * rewrite <- app_assoc. cbn. intros x Ix. apply Inc. apply in_app_iff in Ix. apply in_app_iff.
          destruct Ix as [Ix | Ix]; [left; exact Ix | right; right; exact Ix].
        * rewrite <- app_assoc. cbn. apply NoDup_remove_1 in Nd. exact Nd.
        * cbn in Lk. lia.
        * rewrite <- app_assoc. exact Hp2.
        * exact Cm'.
  Qed.
End Pool.
