(** UnionProofs.v -- lemmas for C23. *)
From Verif Require Import Base Mon Values ChainModel TypesModel ObjModel IoModel IoBase UnionSpec.
Open Scope list_scope.

Section Union.
  Context (P : program) (fuel : nat).

  Lemma loop_ok us : forall c w w',
    union_validate_loop (interp P fuel) us c w = (Ok tt, w') <->
    exists u, first_to_take P fuel c us u w w'.
  Proof.
    induction us as [| t us IH]; intros c w w'; cbn [union_validate_loop].
    - split; [discriminate |]. intros (u & b & a & w1 & E & _). destruct b; discriminate E.
    - unfold on_validation.
      destruct (t_validate (interp P fuel) t (alterfdef c (fdef_of t)) w) as [[[] | e] w1] eqn:E.
      + split.
        * intros H; inversion H; subst. exists t, [], us, w. split; [reflexivity |]. split; [constructor | exact E].
        * intros (u & b & a & w2 & Eu & Hr & Ht). destruct b as [| x b].
          -- inversion Eu; subst. inversion Hr; subst. unfold takes in Ht. congruence.
          -- inversion Eu; subst. inversion Hr as [| ? ? ? w3 ? (msgs & K) _]; subst. congruence.
      + assert (G : forall msgs, e = EValidation msgs ->
          (union_validate_loop (interp P fuel) us c w1 = (Ok tt, w') <->
           exists u, first_to_take P fuel c (t :: us) u w w')).
        { intros msgs ->. rewrite IH. split.
          - intros (u & b & a & w2 & -> & Hr & Ht). exists u, (t :: b), a, w2.
            split; [reflexivity |]. split; [| exact Ht]. econstructor; [exists msgs; exact E | exact Hr].
          - intros (u & b & a & w2 & Eu & Hr & Ht). destruct b as [| x b].
            + inversion Eu; subst. inversion Hr; subst. unfold takes in Ht. congruence.
            + inversion Eu; subst. inversion Hr as [| ? ? ? w3 ? (m & K) Hr']; subst.
              assert (w3 = w1) by congruence. subst. exists u, b, a, w2. auto. }
        destruct e; try (split; [discriminate |];
          intros (u & b & a & w2 & Eu & Hr & Ht); destruct b as [| x b];
          [ inversion Eu; subst; inversion Hr; subst; unfold takes in Ht; congruence
          | inversion Eu; subst; inversion Hr as [| ? ? ? w3 ? (m & K) _]; subst; congruence ]).
        exact (G _ eq_refl).
  Qed.

  Lemma loop_refused us : forall c w w',
    all_refuse P fuel c us w w' ->
    union_validate_loop (interp P fuel) us c w =
      (Err (EValidation [(skp (c_fkr c), "value is not of any provided type"%string)]), w').
  Proof.
    induction us as [| t us IH]; intros c w w' H; inversion H as [| ? ? ? w1 ? (m & K) Hr]; subst.
    - reflexivity.
    - cbn [union_validate_loop]. unfold on_validation. rewrite K. apply IH. exact Hr.
  Qed.

  Lemma out_first us : forall use c u w1 w2 w,
    first_to_take P fuel c us u w w1 ->
    (forall msgs w', use u (alterfdef c (fdef_of u)) w1 <> (Err (EValidation msgs), w')) ->
    forall r, use u (alterfdef c (fdef_of u)) w1 = (r, w2) ->
    union_out_loop (interp P fuel) use us c w = (r, w2).
  Proof.
    induction us as [| t us IH]; intros use c u w1 w2 w (b & a & w3 & E & Hr & Ht) Hn r Hu.
    - destruct b; discriminate E.
    - cbn [union_out_loop]. destruct b as [| x b].
      + inversion E; subst. inversion Hr; subst. unfold takes in Ht.
        unfold on_validation, bind. rewrite Ht, Hu.
        destruct r as [v | e]; [reflexivity |]. destruct e; try reflexivity. exfalso. exact (Hn _ _ Hu).
      + inversion E; subst. inversion Hr as [| ? ? ? w4 ? (m & K) Hr']; subst.
        unfold on_validation, bind. rewrite K.
        apply (IH use c u w1 w2); [| exact Hn | exact Hu]. exists b, a, w3. auto.
  Qed.
  Lemma out_none us : forall use c w w',
    all_refuse P fuel c us w w' -> union_out_loop (interp P fuel) use us c w = (Ok VNone, w').
  Proof.
    induction us as [| t us IH]; intros use c w w' H; inversion H as [| ? ? ? w1 ? (m & K) Hr]; subst.
    - reflexivity.
    - cbn [union_out_loop]. unfold on_validation, bind. rewrite K. apply IH. exact Hr.
  Qed.

  Lemma looks_decide us c w : only_looks P fuel c us w ->
    (exists u, In u us /\ takes P fuel c u w w) <-> (exists u, first_to_take P fuel c us u w w).
  Proof.
    intros L. split.
    - intros (u & Hin & Ht). induction us as [| t us IH]; [destruct Hin |].
      destruct (L t (or_introl eq_refl)) as [K | K].
      + exists t, [], us, w. split; [reflexivity |]. split; [constructor | exact K].
      + destruct Hin as [-> | Hin].
        * destruct K as [m K]. unfold takes in Ht. congruence.
        * destruct IH as (x & b & a & w1 & -> & Hr & Hx); [intros y Hy; apply L; right; exact Hy | exact Hin |].
          exists x, (t :: b), a, w1. split; [reflexivity |]. split; [| exact Hx]. econstructor; [exact K | exact Hr].
    - intros (u & b & a & w1 & -> & Hr & Ht). exists u. split; [apply in_or_app; right; left; reflexivity |].
      assert (w1 = w).
      { clear Ht. revert L. generalize (u :: a) as r. intros r L. revert L.
        induction Hr as [w0 | x us w0 w2 w3 Hx Hr IH]; intros L; [reflexivity |].
        destruct (L x (or_introl eq_refl)) as [K | [m K]]; destruct Hx as [m' Hx].
        - unfold takes in K. congruence.
        - assert (w2 = w0) by congruence. subst. apply IH. intros y Hy. apply L. right. exact Hy. }
      subst. exact Ht.
  Qed.
End Union.
