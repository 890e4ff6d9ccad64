(** Sound.v -- a small logic for computations: [sound R m] says that [m] relates the state
    before to the state after by the preorder [R], whether it raises or not, and that, as
    [speak] asks, it never raises a validation error without a message or never raises
    RecursionError. *)
From Verif Require Import Base Mon.
Open Scope list_scope.

Inductive mode := Silent | Speaking | Ending.
Class manner := speak : mode.

Section Manner.
Context {spk : manner}.
Definition loud (e : exn) : Prop :=
  (speak = Speaking -> e <> EValidation []) /\ (speak = Ending -> e <> ERecursion).
Definition louder {A} (r : res A) : Prop := forall e, r = Err e -> loud e.

Lemma louder_ok {A} (a : A) : louder (Ok a).
Proof. intros e H. discriminate H. Qed.
Lemma louder_err {A} e : loud e -> @louder A (Err e).
Proof. intros L e' H. inversion H; subst. exact L. Qed.

Section Sound.
  Context {S : Type} (R : S -> S -> Prop).
  Definition sound {A} (m : st S A) : Prop := forall s, R s (snd (m s)) /\ louder (fst (m s)).

  Hypothesis refl : forall s, R s s.
  Hypothesis trans : forall a b c, R a b -> R b c -> R a c.

  Lemma s_ret {A} (a : A) : sound (ret a).
  Proof. intros s. split; [apply refl | apply louder_ok]. Qed.
  Lemma s_throw {A} e : loud e -> sound (@throw S A e).
  Proof. intros L s. split; [apply refl | apply louder_err, L]. Qed.
  Lemma s_lift {A} (r : res A) : louder r -> sound (@lift S A r).
  Proof. intros L s. split; [apply refl | exact L]. Qed.
  Lemma s_ext {A} (m m' : st S A) : (forall s, m s = m' s) -> sound m' -> sound m.
  Proof. intros E H s. rewrite E. apply H. Qed.
  Lemma s_get {A B} (q : S -> A) (k : A -> st S B) : (forall a, sound (k a)) -> sound (fun s => k (q s) s).
  Proof. intros H s. apply H. Qed.
  Lemma s_self {B} (k : S -> st S B) : (forall a, sound (k a)) -> sound (fun s => k s s).
  Proof. intros H s. apply H. Qed.
  Lemma s_try {A B} (m : st S A) (k : res A -> st S B) :
    sound m -> (forall r, louder r -> sound (k r)) -> sound (fun s => k (fst (m s)) (snd (m s))).
  Proof.
    intros Hm Hk s. destruct (Hm s) as [R1 L1]. destruct (Hk _ L1 (snd (m s))) as [R2 L2].
    split; [exact (trans _ _ _ R1 R2) | exact L2].
  Qed.
  Lemma s_bind {A B} (m : st S A) (k : A -> st S B) : sound m -> (forall a, sound (k a)) -> sound (bind m k).
  Proof.
    intros Hm Hk. apply s_ext with (fun s => (match fst (m s) with Ok a => k a | Err e => throw e end) (snd (m s))).
    - intros s. unfold bind. destruct (m s) as [[a | e] s1]; reflexivity.
    - apply (s_try m (fun r => match r with Ok a => k a | Err e => throw e end)); [exact Hm |].
      intros [a | e] L; [apply Hk | apply s_throw, (L e eq_refl)].
  Qed.
  Lemma s_for {A} (l : list A) (f : A -> st S unit) : (forall x, In x l -> sound (f x)) -> sound (for_st l f).
  Proof.
    induction l as [| x l IH]; intros H; cbn [for_st]; [apply s_ret |].
    apply s_bind; [apply H; left; reflexivity |]. intros _. apply IH. intros y Hy. apply H. right. exact Hy.
  Qed.
  Lemma s_fold {A B} (f : B -> A -> st S B) (l : list A) :
    (forall b x, In x l -> sound (f b x)) -> forall b, sound (fold_st f l b).
  Proof.
    induction l as [| x l IH]; intros H b; cbn [fold_st]; [apply s_ret |].
    apply s_bind; [apply H; left; reflexivity |]. intros b'. apply IH. intros b0 y Hy. apply H. right. exact Hy.
  Qed.
End Sound.

(** A larger preorder asks less. *)
Lemma sound_weaken {S A} (R R' : S -> S -> Prop) (m : st S A) :
  (forall a b, R a b -> R' a b) -> sound R m -> sound R' m.
Proof. intros H Hm s. destruct (Hm s) as [H1 H2]. split; [apply H, H1 | exact H2]. Qed.

End Manner.

Ltac loudly := split; intros _; discriminate.
Ltac loudness :=
  repeat match goal with
         | |- louder (Ok _) => apply louder_ok
         | |- louder (Err _) => apply louder_err
         | |- loud _ => loudly
         | |- louder (match ?x with _ => _ end) => destruct x
         | |- louder (if ?x then _ else _) => destruct x
         end.
