(** LinkAbs.v -- the two sides of one relation as an abstract state: who refers to whom,
    and who is recorded as unlinked.  What unlinking one item, linking one item and
    assigning do to it, and that they keep the two sides symmetric. *)
From Coq Require Import List Bool Arith Lia.
Import ListNotations.

Record rst := { lk : bool -> nat -> list nat; pl : bool -> nat -> list nat }.

Definition inb (x : nat) (l : list nat) : bool := existsb (Nat.eqb x) l.
Fixpoint rm1 (x : nat) (l : list nat) : list nat :=
  match l with
  | [] => []
  | y :: l' => if Nat.eqb y x then l' else y :: rm1 x l'
  end.
Definition put (s : bool) (o : nat) (l : list nat) (f : bool -> nat -> list nat) : bool -> nat -> list nat :=
  fun s' o' => if Bool.eqb s' s && Nat.eqb o' o then l else f s' o'.
Definition stk (s : bool) (o : nat) (l : list nat) (r : rst) : rst :=
  {| lk := put s o l (lk r); pl := pl r |}.
Definition stp (s : bool) (o : nat) (l : list nat) (r : rst) : rst :=
  {| lk := lk r; pl := put s o l (pl r) |}.
Definition addl (x : nat) (l : list nat) : list nat := if inb x l then l else l ++ [x].
Definition addp (s : bool) (o x : nat) (r : rst) : rst := stp s o (addl x (pl r s o)) r.
Definition delp (s : bool) (o x : nat) (r : rst) : rst := stp s o (rm1 x (pl r s o)) r.
Definition rmk (s : bool) (o x : nat) (r : rst) : rst := stk s o (rm1 x (lk r s o)) r.

Section Abs.
  Context (lst : bool -> bool).      (* is the field of this side a list? *)

  (** [o], on side [s], unlinks [x] *)
  Definition U1 (s : bool) (o x : nat) (r : rst) : rst :=
    let g := negb s in
    let r1 := addp s o x r in
    if inb o (lk r g x) then
      let r2 := addp g x o (rmk g x o r1) in
      if lst g then rmk s o x r2 else r2
    else r1.

  (** [o], on side [s], links [x], which it already refers to *)
  Definition K1 (s : bool) (o x : nat) (r : rst) : rst :=
    let g := negb s in
    let r1 := delp s o x r in
    if inb o (lk r g x) then r1
    else if lst g then delp g x o (stk g x (lk r g x ++ [o]) r1)
    else let r2 := match lk r g x with y :: _ => U1 g x y r1 | [] => r1 end in
         delp g x o (stk g x [o] r2).

  Definition Us (s : bool) (o : nat) (xs : list nat) (r : rst) : rst := fold_left (fun r x => U1 s o x r) xs r.
  Definition Ks (s : bool) (o : nat) (xs : list nat) (r : rst) : rst := fold_left (fun r x => K1 s o x r) xs r.
  Definition SetA (s : bool) (o : nat) (new : list nat) (r : rst) : rst :=
    Ks s o new (stk s o new (Us s o (lk r s o) r)).
End Abs.

(** ** Lists *)
Lemma inb_In x l : inb x l = true <-> In x l.
Proof.
  unfold inb. rewrite existsb_exists. split.
  - intros (y & Hy & E). apply Nat.eqb_eq in E. subst. exact Hy.
  - intros H. exists x. split; [exact H | apply Nat.eqb_refl].
Qed.
Lemma inb_not x l : inb x l = false <-> ~ In x l.
Proof. rewrite <- inb_In. destruct (inb x l); split; intros H; try discriminate H; try congruence; try discriminate. Qed.

Lemma rm1_in x l z : NoDup l -> (In z (rm1 x l) <-> In z l /\ z <> x).
Proof.
  induction l as [| y l IH]; intros HN; cbn; [tauto |].
  inversion HN as [| ? ? Hy HN']; subst. destruct (Nat.eqb_spec y x) as [-> | N].
  - split; [intros H; split; [right; exact H | intros ->; contradiction] |].
    intros [[-> | H] N]; [congruence | exact H].
  - cbn. rewrite (IH HN'). split.
    + intros [-> | [H1 H2]]; auto.
    + intros [[-> | H1] H2]; auto.
Qed.
Lemma rm1_incl x l : incl (rm1 x l) l.
Proof.
  induction l as [| y l IH]; cbn; [apply incl_refl |]. destruct (Nat.eqb y x); [apply incl_tl, incl_refl |].
  intros z [-> | H]; [left; reflexivity | right; apply IH; exact H].
Qed.
Lemma rm1_nodup x l : NoDup l -> NoDup (rm1 x l).
Proof.
  induction l as [| y l IH]; intros HN; cbn; [constructor |].
  inversion HN as [| ? ? Hy HN']; subst. destruct (Nat.eqb y x); [exact HN' |].
  constructor; [intros H; apply Hy, (rm1_incl x l y H) | apply IH; exact HN'].
Qed.
Lemma rm1_absent x l : ~ In x l -> rm1 x l = l.
Proof.
  induction l as [| y l IH]; intros H; cbn; [reflexivity |].
  destruct (Nat.eqb_spec y x) as [-> | N]; [exfalso; apply H; left; reflexivity |].
  rewrite IH; [reflexivity |]. intros K; apply H; right; exact K.
Qed.
Lemma rm1_length x l : length (rm1 x l) <= length l.
Proof. induction l as [| y l IH]; cbn; [lia |]. destruct (Nat.eqb y x); cbn; lia. Qed.
Lemma addl_in x l z : In z (addl x l) <-> In z l \/ z = x.
Proof.
  unfold addl. destruct (inb x l) eqn:E.
  - apply inb_In in E. split; [auto | intros [H | ->]; assumption].
  - rewrite in_app_iff. cbn. split; [intros [H | [-> | []]]; auto | intros [H | ->]; auto].
Qed.
Lemma nodup_snoc x (l : list nat) : NoDup l -> ~ In x l -> NoDup (l ++ [x]).
Proof.
  induction l as [| y l IH]; intros HN H; cbn; [constructor; [intros [] | constructor] |].
  inversion HN; subst. constructor.
  - rewrite in_app_iff. intros [K | [-> | []]]; [contradiction | apply H; left; reflexivity].
  - apply IH; [assumption | intros K; apply H; right; exact K].
Qed.
Lemma addl_nodup x l : NoDup l -> NoDup (addl x l).
Proof.
  intros H. unfold addl. destruct (inb x l) eqn:E; [exact H |]. apply inb_not in E. apply nodup_snoc; assumption.
Qed.
Lemma addl_present x l : In x l -> addl x l = l.
Proof. intros H. unfold addl. apply inb_In in H. rewrite H. reflexivity. Qed.

(** ** Updates *)
Lemma put_same s o l f : put s o l f s o = l.
Proof. unfold put. rewrite eqb_reflx, Nat.eqb_refl. reflexivity. Qed.
Lemma put_side s o l f s' o' : s' <> s -> put s o l f s' o' = f s' o'.
Proof. intros N. unfold put. destruct (Bool.eqb s' s) eqn:E; [apply eqb_prop in E; contradiction | reflexivity]. Qed.
Lemma put_obj s o l f s' o' : o' <> o -> put s o l f s' o' = f s' o'.
Proof. intros N. unfold put. destruct (Nat.eqb_spec o' o); [contradiction |]. rewrite andb_false_r. reflexivity. Qed.
Lemma negb_ne s : negb s <> s.
Proof. destruct s; discriminate. Qed.
Lemma ne_negb s : s <> negb s.
Proof. destruct s; discriminate. Qed.
Lemma other_side s s' : s' <> s -> s' = negb s.
Proof. destruct s, s'; cbn; congruence. Qed.
Global Hint Resolve negb_ne ne_negb : core.

(** ** Same state, pointwise *)
Definition req (r r' : rst) : Prop := forall s o, lk r s o = lk r' s o /\ pl r s o = pl r' s o.
Lemma req_refl r : req r r.
Proof. split; reflexivity. Qed.
Lemma req_trans r1 r2 r3 : req r1 r2 -> req r2 r3 -> req r1 r3.
Proof. intros A B s o. destruct (A s o), (B s o). split; etransitivity; eassumption. Qed.
Lemma req_sym r1 r2 : req r1 r2 -> req r2 r1.
Proof. intros A s o. destruct (A s o). split; symmetry; assumption. Qed.

(** ** Symmetric states *)
Record tidy (lst : bool -> bool) (r : rst) : Prop := {
  td_lk : forall s o, NoDup (lk r s o);
  td_pl : forall s o, NoDup (pl r s o);
  td_inst : forall s o, lst s = false -> length (lk r s o) <= 1
}.

Record symm (lst : bool -> bool) (r : rst) : Prop := {
  sy_tidy : tidy lst r;
  sy_sym : forall s o x, In x (lk r s o) <-> In o (lk r (negb s) x);
  sy_pool : forall s o x, In x (lk r s o) -> ~ In x (pl r s o)
}.

(** Linked, or recorded as unlinked on both sides; seen from the side [negb s] *)
Definition known (s : bool) (r : rst) (y x : nat) : Prop :=
  In y (lk r (negb s) x) \/ (In x (pl r s y) /\ In y (pl r (negb s) x)).

Section Inv.
  Context (lst : bool -> bool) (s : bool) (o : nat).
  Notation g := (negb s).

  (** Symmetric but for what [o] refers to *)
  Record semi (r : rst) : Prop := {
    se_tidy : tidy lst r;
    se_sym : forall y x, y <> o -> (In x (lk r s y) <-> In y (lk r g x));
    se_pg : forall y x, In y (lk r g x) -> ~ In y (pl r g x);
    se_ps : forall y x, In y (lk r g x) -> ~ In x (pl r s y)
  }.

  Lemma symm_semi r : symm lst r -> semi r.
  Proof.
    intros [T S P]. constructor; [exact T | | |].
    - intros y x _. apply S.
    - intros y x H. apply P. exact H.
    - intros y x H. apply P. apply S. exact H.
  Qed.

  Lemma semi_symm r : semi r -> (forall x, In x (lk r s o) <-> In o (lk r g x)) -> symm lst r.
  Proof.
    intros [T S PG PS] H.
    assert (HS : forall y x, In x (lk r s y) <-> In y (lk r g x)).
    { intros y x. destruct (Nat.eq_dec y o) as [-> | N]; [apply H | apply S; exact N]. }
    constructor; [exact T | |].
    - intros s' y x. destruct (Bool.bool_dec s' s) as [-> | N]; [apply HS |].
      assert (s' = g) by (apply other_side; assumption). subst s'. rewrite negb_involutive.
      symmetry. apply HS.
    - intros s' y x K. destruct (Bool.bool_dec s' s) as [-> | N].
      + apply PS. apply HS. exact K.
      + assert (s' = g) by (apply other_side; assumption). subst s'. apply PG. exact K.
  Qed.

  (** *** What U1 changes *)
  Lemma U1_facts r x : tidy lst r ->
    let r' := U1 lst s o x r in
    tidy lst r' /\
    (forall x' y, In y (lk r' g x') <-> In y (lk r g x') /\ ~ (y = o /\ x' = x)) /\
    (forall y, y <> o -> lk r' s y = lk r s y) /\
    (forall z, In z (lk r' s o) <-> In z (lk r s o) /\ ~ (lst g = true /\ z = x /\ In o (lk r g x))) /\
    (forall y z, In z (pl r' s y) <-> In z (pl r s y) \/ (y = o /\ z = x)) /\
    (forall x' y, In y (pl r' g x') <-> In y (pl r g x') \/ (y = o /\ x' = x /\ In o (lk r g x))).
  Proof.
    intros T. pose proof (td_lk _ _ T) as TL. pose proof (td_pl _ _ T) as TP.
    pose proof (td_inst _ _ T) as TI. cbn zeta. unfold U1.
    destruct (inb o (lk r g x)) eqn:E.
    - apply inb_In in E.
      set (r2 := addp g x o (rmk g x o (addp s o x r))).
      assert (L2g : forall x', lk r2 g x' = if Nat.eqb x' x then rm1 o (lk r g x) else lk r g x').
      { intros x'. unfold r2, addp, rmk, stk, stp. cbn [lk pl]. unfold put at 1. rewrite eqb_reflx. reflexivity. }
      assert (L2s : forall y, lk r2 s y = lk r s y).
      { intros y. unfold r2, addp, rmk, stk, stp. cbn [lk pl]. apply put_side. auto. }
      assert (P2s : forall y, pl r2 s y = if Nat.eqb y o then addl x (pl r s o) else pl r s y).
      { intros y. unfold r2, addp, rmk, stk, stp. cbn [lk pl]. rewrite put_side by auto.
        unfold put. rewrite eqb_reflx. reflexivity. }
      assert (P2g : forall x', pl r2 g x' = if Nat.eqb x' x then addl o (pl r g x) else pl r g x').
      { intros x'. unfold r2, addp, rmk, stk, stp. cbn [lk pl]. unfold put at 1. rewrite eqb_reflx. cbn [andb].
        destruct (Nat.eqb x' x); [| apply put_side; auto]. rewrite put_side by auto. reflexivity. }
      clearbody r2.
      assert (G : forall r', (forall x', lk r' g x' = lk r2 g x') -> (forall s' y, pl r' s' y = pl r2 s' y) ->
                (forall y, y <> o -> lk r' s y = lk r s y) -> NoDup (lk r' s o) -> (lst s = false -> length (lk r' s o) <= 1) ->
                tidy lst r' /\
                (forall x' y, In y (lk r' g x') <-> In y (lk r g x') /\ ~ (y = o /\ x' = x)) /\
                (forall y, y <> o -> lk r' s y = lk r s y) /\
                (forall y z, In z (pl r' s y) <-> In z (pl r s y) \/ (y = o /\ z = x)) /\
                (forall x' y, In y (pl r' g x') <-> In y (pl r g x') \/ (y = o /\ x' = x /\ In o (lk r g x)))).
      { intros r' H1 H2 H3 H4 H5. split; [| split; [| split; [exact H3 | split]]].
        - constructor.
          + intros s' y. destruct (Bool.bool_dec s' s) as [-> | N].
            * destruct (Nat.eq_dec y o) as [-> | Ny]; [exact H4 | rewrite H3 by exact Ny; apply TL].
            * assert (s' = g) by (apply other_side; assumption). subst s'. rewrite H1, L2g.
              destruct (Nat.eqb y x); [apply rm1_nodup |]; apply TL.
          + intros s' y. rewrite H2. destruct (Bool.bool_dec s' s) as [-> | N].
            * rewrite P2s. destruct (Nat.eqb y o); [apply addl_nodup |]; apply TP.
            * assert (s' = g) by (apply other_side; assumption). subst s'. rewrite P2g.
              destruct (Nat.eqb y x); [apply addl_nodup |]; apply TP.
          + intros s' y Hs. destruct (Bool.bool_dec s' s) as [-> | N].
            * destruct (Nat.eq_dec y o) as [-> | Ny]; [auto | rewrite H3 by exact Ny; auto].
            * assert (s' = g) by (apply other_side; assumption). subst s'. rewrite H1, L2g.
              destruct (Nat.eqb y x); [pose proof (rm1_length o (lk r g x)); pose proof (TI g x Hs); lia | auto].
        - intros x' y. rewrite H1, L2g. destruct (Nat.eqb_spec x' x) as [-> | N].
          + rewrite rm1_in by apply TL. split; [intros [A B]; split; [exact A | intros [C _]; congruence] |].
            intros [A B]. split; [exact A |]. intros ->. apply B. auto.
          + split; [intros A; split; [exact A | intros [_ C]; congruence] | intros [A _]; exact A].
        - intros y z. rewrite H2, P2s. destruct (Nat.eqb_spec y o) as [-> | N].
          + rewrite addl_in. split; [intros [A | ->]; auto | intros [A | [_ ->]]; auto].
          + split; [auto | intros [A | [A _]]; [exact A | contradiction]].
        - intros x' y. rewrite H2, P2g. destruct (Nat.eqb_spec x' x) as [-> | N].
          + rewrite addl_in. split; [intros [A | ->]; auto | intros [A | [-> _]]; auto].
          + split; [auto | intros [A | [_ [A _]]]; [exact A | contradiction]]. }
      destruct (lst g) eqn:Eg.
      + assert (LS : forall y, lk (rmk s o x r2) s y = if Nat.eqb y o then rm1 x (lk r s o) else lk r s y).
        { intros y. unfold rmk, stk. cbn [lk]. unfold put. rewrite eqb_reflx. cbn [andb]. rewrite !L2s. reflexivity. }
        destruct (G (rmk s o x r2)) as (A & B & C & D & F).
        * intros x'. unfold rmk, stk. cbn [lk]. apply put_side. auto.
        * intros s' y. reflexivity.
        * intros y N. rewrite LS. apply Nat.eqb_neq in N. rewrite N. reflexivity.
        * rewrite LS, Nat.eqb_refl. apply rm1_nodup, TL.
        * intros Hs. rewrite LS, Nat.eqb_refl. pose proof (rm1_length x (lk r s o)). pose proof (TI s o Hs). lia.
        * split; [exact A | split; [exact B | split; [exact C | split; [| split; [exact D | exact F]]]]].
          intros z. rewrite LS, Nat.eqb_refl, rm1_in by apply TL.
          split; [intros [H1 H2]; split; [exact H1 | intros (_ & H3 & _); congruence] |].
          intros [H1 H2]. split; [exact H1 | intros ->; apply H2; auto].
      + destruct (G r2) as (A & B & C & D & F); auto.
        * rewrite L2s. apply TL.
        * intros Hs. rewrite L2s. auto.
        * split; [exact A | split; [exact B | split; [exact C | split; [| split; [exact D | exact F]]]]].
          intros z. rewrite L2s. split; [intros H; split; [exact H | intros [K _]; discriminate K] | intros [H _]; exact H].
    - apply inb_not in E.
      split; [| split; [| split; [| split; [| split]]]].
      + constructor; [exact TL | | exact TI]. intros s' y. unfold addp, stp. cbn [pl]. unfold put.
        destruct (_ && _); [apply addl_nodup |]; apply TP.
      + intros x' y. cbn [lk addp stp]. split; [intros A; split; [exact A | intros [-> ->]; contradiction] | intros [A _]; exact A].
      + reflexivity.
      + intros z. cbn [lk addp stp]. split; [intros A; split; [exact A | intros (_ & _ & K); contradiction] | intros [A _]; exact A].
      + intros y z. unfold addp, stp. cbn [pl]. unfold put. rewrite eqb_reflx. cbn [andb].
        destruct (Nat.eqb_spec y o) as [-> | N].
        * rewrite addl_in. split; [intros [A | ->]; auto | intros [A | [_ ->]]; auto].
        * split; [auto | intros [A | [A _]]; [exact A | contradiction]].
      + intros x' y. unfold addp, stp. cbn [pl]. rewrite put_side by auto.
        split; [auto | intros [A | (_ & _ & K)]; [exact A | contradiction]].
  Qed.

  Lemma U1_semi r x : semi r -> semi (U1 lst s o x r) /\
    (forall y z, known s r y z -> known s (U1 lst s o x r) y z).
  Proof.
    intros [T S PG PS]. destruct (U1_facts r x T) as (T' & FG & FS & FO & FPS & FPG). cbn zeta in *.
    split.
    - constructor; [exact T' | | |].
      + intros y z N. rewrite FS by exact N. rewrite FG. rewrite (S y z N).
        split; [intros H; split; [exact H | intros [K _]; contradiction] | intros [H _]; exact H].
      + intros y z H. apply FG in H. destruct H as [H1 H2]. rewrite FPG. intros [K | (K1' & K2 & _)].
        * apply (PG y z H1 K).
        * apply H2. auto.
      + intros y z H. apply FG in H. destruct H as [H1 H2]. rewrite FPS. intros [K | [K1' K2]].
        * apply (PS y z H1 K).
        * apply H2. auto.
    - intros y z [H | [H1 H2]]; unfold known; rewrite FG, FPS, FPG; [| right; auto].
      destruct (Nat.eq_dec y o) as [-> | N]; [destruct (Nat.eq_dec z x) as [-> | N] |].
      + right. auto.
      + left. split; [exact H | intros [_ K]; congruence].
      + left. split; [exact H | intros [K _]; congruence].
  Qed.
End Inv.

Section InvK.
  Context (lst : bool -> bool) (s : bool) (o : nat).
  Notation g := (negb s).

  (** *** What K1 changes *)
  Lemma K1_facts r x : tidy lst r ->
    let r' := K1 lst s o x r in
    tidy lst r' /\
    lk r' s o = lk r s o /\
    (forall x', x' <> x -> lk r' g x' = lk r g x') /\
    (forall y, In y (lk r' g x) <-> y = o \/ (lst g = true /\ In y (lk r g x))) /\
    (forall y z, y <> o -> (In z (lk r' s y) <-> In z (lk r s y) /\ ~ (z = x /\ lst g = false /\ In y (lk r g x) /\ ~ In o (lk r g x)))) /\
    (forall z, In z (pl r' s o) <-> In z (pl r s o) /\ z <> x) /\
    (forall y z, y <> o -> (In z (pl r' s y) <->
        In z (pl r s y) \/ (z = x /\ lst g = false /\ In y (lk r g x) /\ ~ In o (lk r g x) /\ In x (lk r s y)))) /\
    (forall x', x' <> x -> pl r' g x' = pl r g x') /\
    (forall y, In y (pl r' g x) <->
        (In o (lk r g x) /\ In y (pl r g x)) \/
        (~ In o (lk r g x) /\ y <> o /\ (In y (pl r g x) \/ (lst g = false /\ In y (lk r g x))))).
  Proof.
    intros T. pose proof (td_lk _ _ T) as TL. pose proof (td_pl _ _ T) as TP.
    pose proof (td_inst _ _ T) as TI. cbn zeta.
    assert (TD : forall s0 o0 x0 r0, tidy lst r0 -> tidy lst (delp s0 o0 x0 r0)).
    { intros s0 o0 x0 r0 [A B C]. constructor; [exact A | | exact C]. intros s' y. unfold delp, stp. cbn [pl].
      unfold put. destruct (_ && _); [apply rm1_nodup |]; apply B. }
    assert (TK : forall s0 o0 l0 r0, tidy lst r0 -> NoDup l0 -> (lst s0 = false -> length l0 <= 1) -> tidy lst (stk s0 o0 l0 r0)).
    { intros s0 o0 l0 r0 [A B C] N I. constructor; [| exact B |].
      - intros s' y. unfold stk. cbn [lk]. unfold put. destruct (_ && _); [exact N | apply A].
      - intros s' y Hs. unfold stk. cbn [lk]. unfold put. destruct (Bool.eqb s' s0 && Nat.eqb y o0) eqn:E; [| auto].
        apply andb_true_iff in E. destruct E as [E _]. apply eqb_prop in E. subst. auto. }
    assert (Dps : forall z, In z (pl (delp s o x r) s o) <-> In z (pl r s o) /\ z <> x).
    { intros z. unfold delp, stp. cbn [pl]. rewrite put_same. apply rm1_in, TP. }
    assert (Dpo : forall y, y <> o -> pl (delp s o x r) s y = pl r s y).
    { intros y N. unfold delp, stp. cbn [pl]. apply put_obj. exact N. }
    assert (Dpg : forall y, pl (delp s o x r) g y = pl r g y).
    { intros y. unfold delp, stp. cbn [pl]. apply put_side. auto. }
    pose proof (TD s o x r T) as T1.
    unfold K1. destruct (inb o (lk r g x)) eqn:E.
    - apply inb_In in E.
      split; [exact T1 |]. split; [reflexivity |]. split; [reflexivity |]. split.
      { intros y. cbn [lk delp stp]. split.
        - intros H. destruct (lst g) eqn:Eg; [auto |]. left. pose proof (TI g x Eg) as L.
          destruct (lk r g x) as [| a [| b l]]; [destruct H | | cbn in L; lia].
          destruct H as [-> | []], E as [-> | []]. reflexivity.
        - intros [-> | [_ H]]; assumption. }
      split.
      { intros y z N. cbn [lk delp stp]. split; [intros H; split; [exact H | intros (_ & _ & _ & K); contradiction] | intros [H _]; exact H]. }
      split; [exact Dps |]. split.
      { intros y z N. rewrite Dpo by exact N. split; [auto | intros [H | (_ & _ & _ & K & _)]; [exact H | contradiction]]. }
      split; [intros x' _; apply Dpg |].
      intros y. rewrite Dpg. split; [auto | intros [[_ H] | [K _]]; [exact H | contradiction]].
    - apply inb_not in E. destruct (lst g) eqn:Eg.
      + set (r' := delp g x o (stk g x (lk r g x ++ [o]) (delp s o x r))).
        assert (Lg : forall x', lk r' g x' = if Nat.eqb x' x then lk r g x ++ [o] else lk r g x').
        { intros x'. unfold r', delp, stk, stp. cbn [lk]. unfold put. rewrite eqb_reflx. reflexivity. }
        assert (Ls : forall y, lk r' s y = lk r s y).
        { intros y. unfold r', delp, stk, stp. cbn [lk]. apply put_side. auto. }
        assert (Ps : forall y, pl r' s y = pl (delp s o x r) s y).
        { intros y. unfold r', delp at 1, stk, stp at 1. cbn [pl]. apply put_side. auto. }
        assert (Pg : forall x', pl r' g x' = if Nat.eqb x' x then rm1 o (pl r g x) else pl r g x').
        { intros x'. unfold r', delp at 1, stk, stp at 1. cbn [pl]. unfold put at 1. rewrite eqb_reflx. cbn [andb].
          rewrite Dpg. destruct (Nat.eqb x' x); [reflexivity | apply Dpg]. }
        assert (T' : tidy lst r').
        { apply TD. apply TK; [exact T1 | apply nodup_snoc; [apply TL | exact E] | congruence]. }
        clearbody r'.
        split; [exact T' |]. split; [apply Ls |]. split.
        { intros x' N. rewrite Lg. apply Nat.eqb_neq in N. rewrite N. reflexivity. }
        split.
        { intros y. rewrite Lg, Nat.eqb_refl, in_app_iff. cbn. split; [intros [H | [-> | []]]; auto | intros [-> | [_ H]]; auto]. }
        split.
        { intros y z N. rewrite Ls. split; [intros H; split; [exact H | intros (_ & K & _); discriminate K] | intros [H _]; exact H]. }
        split; [intros z; rewrite Ps; apply Dps |]. split.
        { intros y z N. rewrite Ps, Dpo by exact N. split; [auto | intros [H | (_ & K & _)]; [exact H | discriminate K]]. }
        split; [intros x' N; rewrite Pg; apply Nat.eqb_neq in N; rewrite N; reflexivity |].
        intros y. rewrite Pg, Nat.eqb_refl, rm1_in by apply TP. split.
        * intros [H1 H2]. right. auto.
        * intros [[H _] | (_ & H1 & [H2 | [H2 _]])]; [contradiction | auto | discriminate H2].
      + set (r2 := match lk r g x with [] => delp s o x r | y :: _ => U1 lst g x y (delp s o x r) end).
        assert (H2 : tidy lst r2 /\ (forall y, y <> o -> forall z, In z (lk r2 s y) <-> In z (lk r s y) /\ ~ (z = x /\ In y (lk r g x))) /\
                  lk r2 s o = lk r s o /\
                  (forall x', x' <> x -> lk r2 g x' = lk r g x') /\
                  (forall x', x' <> x -> pl r2 g x' = pl r g x') /\
                  (forall y, In y (pl r2 g x) <-> In y (pl r g x) \/ In y (lk r g x)) /\
                  (forall z, In z (pl r2 s o) <-> In z (pl r s o) /\ z <> x) /\
                  (forall y, y <> o -> forall z, In z (pl r2 s y) <-> In z (pl r s y) \/ (z = x /\ In y (lk r g x) /\ In x (lk r s y)))).
        { pose proof (TI g x Eg) as LE. destruct (lk r g x) as [| a [| b l]] eqn:EL; [| | cbn in LE; lia].
          - subst r2. split; [exact T1 |]. split.
            { intros y N z. cbn [lk delp stp]. split; [intros H; split; [exact H | intros [_ []]] | intros [H _]; exact H]. }
            split; [reflexivity |]. split; [reflexivity |]. split; [intros x' _; apply Dpg |].
            split; [intros y; rewrite Dpg; split; [auto | intros [H | []]; exact H] |]. split; [exact Dps |].
            intros y N z. rewrite Dpo by exact N. split; [auto | intros [H | (_ & [] & _)]; exact H].
          - assert (Na : a <> o) by (intros ->; apply E; left; reflexivity).
            destruct (U1_facts lst g x (delp s o x r) a T1) as (A & B & C & D & F & G).
            rewrite negb_involutive in B, D, G. fold r2 in A, B, C, D, F, G. 
            split; [exact A |]. split.
            { intros y N z. rewrite B. cbn [lk delp stp]. split.
              - intros [H1 H2]. split; [exact H1 |]. intros [-> [-> | []]]. apply H2. auto.
              - intros [H1 H2]. split; [exact H1 |]. intros [-> ->]. apply H2. cbn. auto. }
            split; [| split; [| split; [| split; [| split]]]].
            + (* lk r2 s o *) unfold r2, U1. rewrite negb_involutive.
              assert (NE : forall v f, put s a v f s o = f s o) by (intros; apply put_obj; congruence).
              assert (NG : forall w v f, put g w v f s o = f s o) by (intros; apply put_side; auto).
              destruct (inb x _); [| reflexivity]. destruct (lst s).
              * cbn [lk addp rmk stk stp delp]. rewrite NG, NE. reflexivity.
              * cbn [lk addp rmk stk stp delp]. rewrite NE. reflexivity.
            + intros x' N. rewrite C by exact N. reflexivity.
            + intros x' N. unfold r2, U1. rewrite negb_involutive.
              assert (NE : forall v f, put g x v f g x' = f g x') by (intros; apply put_obj; congruence).
              assert (NG : forall w v f, put s w v f g x' = f g x') by (intros; apply put_side; auto).
              destruct (inb x _); [| cbn [pl addp stp delp]; rewrite NE, NG; reflexivity].
              destruct (lst s); cbn [pl addp rmk stk stp delp]; rewrite NG, NE, NG; reflexivity.
            + intros y. rewrite F, Dpg. cbn. split; [intros [H | [_ ->]]; auto | intros [H | [-> | []]]; auto].
            + intros z. rewrite G, Dps. split; [intros [H | (_ & K & _)]; [exact H | congruence] | auto].
            + intros y N z. rewrite G, Dpo by exact N. cbn [lk delp stp]. cbn [In].
              split; [intros [H | (-> & -> & H)]; auto | intros [H | (-> & [-> | []] & H)]; auto]. }
        destruct H2 as (T2 & L2s & L2o & L2g & P2g & P2x & P2o & P2s). clearbody r2.
        set (r' := delp g x o (stk g x [o] r2)).
        assert (Lg : forall x', lk r' g x' = if Nat.eqb x' x then [o] else lk r2 g x').
        { intros x'. unfold r', delp, stk, stp. cbn [lk]. unfold put. rewrite eqb_reflx. reflexivity. }
        assert (Ls : forall y, lk r' s y = lk r2 s y).
        { intros y. unfold r', delp, stk, stp. cbn [lk]. apply put_side. auto. }
        assert (Ps : forall y, pl r' s y = pl r2 s y).
        { intros y. unfold r', delp, stk, stp. cbn [pl]. apply put_side. auto. }
        assert (Pg : forall x', pl r' g x' = if Nat.eqb x' x then rm1 o (pl r2 g x) else pl r2 g x').
        { intros x'. unfold r', delp, stk, stp. cbn [pl]. unfold put at 1. rewrite eqb_reflx. reflexivity. }
        assert (T' : tidy lst r').
        { apply TD. apply TK; [exact T2 | repeat constructor; auto | cbn; lia]. }
        clearbody r'.
        split; [exact T' |]. split; [rewrite Ls; exact L2o |]. split.
        { intros x' N. rewrite Lg. pose proof N as N'. apply Nat.eqb_neq in N'. rewrite N'. apply L2g, N. }
        split.
        { intros y. rewrite Lg, Nat.eqb_refl. cbn. split; [intros [-> | []]; auto | intros [-> | [K _]]; [auto | discriminate K]]. }
        split.
        { intros y z N. rewrite Ls, L2s by exact N. split.
          - intros [H1 H2]. split; [exact H1 |]. intros (K1' & _ & K2 & _). apply H2. auto.
          - intros [H1 H2]. split; [exact H1 |]. intros [K1' K2]. apply H2. auto. }
        split; [intros z; rewrite Ps; apply P2o |]. split.
        { intros y z N. rewrite Ps, P2s by exact N. split.
          - intros [H | (H1 & H2 & H3)]; auto. right. auto.
          - intros [H | (H1 & _ & H2 & _ & H3)]; auto. }
        split; [intros x' N; rewrite Pg; pose proof N as N'; apply Nat.eqb_neq in N'; rewrite N'; apply P2g, N |].
        intros y. rewrite Pg, Nat.eqb_refl, rm1_in by apply (td_pl _ _ T2). rewrite P2x. split.
        * intros [H1 H2]. right. split; [exact E | split; [exact H2 |]]. destruct H1; auto.
        * intros [[H _] | (_ & H1 & [H2 | [_ H2]])]; [contradiction | auto | auto].
  Qed.

  Lemma K1_semi r x : semi lst s o r -> semi lst s o (K1 lst s o x r) /\
    (forall y z, known s r y z -> known s (K1 lst s o x r) y z).
  Proof.
    intros [T S PG PS]. destruct (K1_facts r x T) as (T' & FO & FG & FX & FS & FPO & FPS & FPG & FPX). cbn zeta in *.
    assert (INST : forall y, lst g = false -> In y (lk r g x) -> y = o \/ ~ In o (lk r g x)).
    { intros y Hg Hy. pose proof (td_inst _ _ T g x Hg) as L. destruct (lk r g x) as [| a [| b l]]; [destruct Hy | | cbn in L; lia].
      destruct Hy as [-> | []]. destruct (Nat.eq_dec y o); [auto | right; intros [K | []]; congruence]. }
    assert (LG : forall z y, In y (lk (K1 lst s o x r) g z) <->
              (z <> x /\ In y (lk r g z)) \/ (z = x /\ (y = o \/ (lst g = true /\ In y (lk r g x))))).
    { intros z y. destruct (Nat.eq_dec z x) as [-> | N].
      - rewrite FX. split; [auto | intros [[K _] | [_ H]]; [congruence | exact H]].
      - rewrite FG by exact N. split; [auto | intros [[_ H] | [K _]]; [exact H | contradiction]]. }
    split.
    - constructor; [exact T' | | |].
      + intros y z N. rewrite FS by exact N. rewrite LG, (S y z N).
        destruct (Nat.eq_dec z x) as [-> | Nz].
        * split.
          -- intros [H1 H2]. right. split; [reflexivity |]. right. split; [| exact H1].
             destruct (lst g) eqn:Eg; [reflexivity |]. exfalso. apply H2.
             destruct (INST y eq_refl H1) as [K | K]; [contradiction | auto].
          -- intros [[K _] | [_ [K | [K1' K2]]]]; [congruence | contradiction |]. split; [exact K2 |].
             intros (_ & K3 & _). congruence.
        * split; [intros [H1 _]; auto |]. intros [[_ H] | [K _]]; [| contradiction].
          split; [exact H | intros (K & _); contradiction].
      + intros y z H. apply LG in H. destruct H as [[N H] | [-> H]].
        * rewrite FPG by exact N. apply PG. exact H.
        * rewrite FPX. destruct H as [-> | [Eg H]].
          -- intros [[K1' K2] | (_ & K & _)]; [| congruence]. apply (PG o x K1' K2).
          -- intros [[_ K2] | (_ & _ & [K | [K _]])]; [apply (PG y x H K2) | apply (PG y x H K) | congruence].
      + intros y z H. apply LG in H. destruct (Nat.eq_dec y o) as [-> | Ny].
        * rewrite FPO. intros [K1' K2]. destruct H as [[N H] | [-> _]]; [apply (PS o z H K1') | congruence].
        * rewrite FPS by exact Ny. destruct H as [[N H] | [-> [H | [Eg H]]]]; [| contradiction |].
          -- intros [K | (K & _)]; [apply (PS y z H K) | contradiction].
          -- intros [K | (_ & K & _)]; [apply (PS y x H K) | congruence].
    - intros y z. unfold known. rewrite LG. destruct (Nat.eq_dec z x) as [-> | Nz].
      + destruct (Nat.eq_dec y o) as [-> | Ny]; [intros _; left; right; auto |].
        rewrite FPS by exact Ny. rewrite FPX. intros [H | [H1 H2]].
        * destruct (lst g) eqn:Eg; [left; right; auto |]. right.
          destruct (INST y eq_refl H) as [K | K]; [contradiction |]. split.
          -- right. repeat split; auto. apply S; auto.
          -- right. auto.
        * right. split; [auto |]. destruct (in_dec Nat.eq_dec o (lk r g x)); [left; auto | right; auto].
      + intros [H | [H1 H2]]; [left; left; auto |]. right. rewrite (FPG z Nz). split; [| exact H2].
        destruct (Nat.eq_dec y o) as [-> | Ny]; [rewrite FPO; auto | rewrite FPS by exact Ny; auto].
  Qed.
End InvK.

(** ** Sequences *)
Section Seq.
  Context (lst : bool -> bool) (s : bool) (o : nat).
  Notation g := (negb s).

  (** One report of a list: [true] means added *)
  Definition E1 (e : bool * nat) (r : rst) : rst :=
    if fst e then K1 lst s o (snd e) r else U1 lst s o (snd e) r.
  Definition Es (es : list (bool * nat)) (r : rst) : rst := fold_left (fun r e => E1 e r) es r.

  Lemma Us_Es xs r : Us lst s o xs r = Es (map (pair false) xs) r.
  Proof. revert r. induction xs as [| x xs IH]; intros r; [reflexivity |]. apply IH. Qed.
  Lemma Ks_Es xs r : Ks lst s o xs r = Es (map (pair true) xs) r.
  Proof. revert r. induction xs as [| x xs IH]; intros r; [reflexivity |]. apply IH. Qed.

  Lemma Es_semi es r : semi lst s o r -> semi lst s o (Es es r) /\ (forall y z, known s r y z -> known s (Es es r) y z).
  Proof.
    revert r. induction es as [| [[] x] es IH]; intros r H; [split; auto | |]; cbn [Es fold_left E1 fst snd].
    - destruct (K1_semi lst s o r x H) as [H1 M1]. destruct (IH _ H1) as [H2 M2]. split; [exact H2 |].
      intros y z K. apply M2, M1, K.
    - destruct (U1_semi lst s o r x H) as [H1 M1]. destruct (IH _ H1) as [H2 M2]. split; [exact H2 |].
      intros y z K. apply M2, M1, K.
  Qed.

  Lemma E1_tidy e r : tidy lst r -> tidy lst (E1 e r).
  Proof.
    intros T. destruct e as [[] x]; unfold E1; cbn [fst snd];
      [destruct (K1_facts lst s o r x T) as [H _] | destruct (U1_facts lst s o r x T) as [H _]]; exact H.
  Qed.
  Lemma Es_tidy es r : tidy lst r -> tidy lst (Es es r).
  Proof. revert r. induction es as [| e es IH]; intros r T; [exact T |]. apply IH, E1_tidy, T. Qed.

  (** The list itself stays as it is when what is reported removed is not in it *)
  Lemma U1_own r x : ~ In x (lk r s o) -> lk (U1 lst s o x r) s o = lk r s o.
  Proof.
    intros H. unfold U1. destruct (inb o _); [| reflexivity]. destruct (lst g).
    - unfold rmk at 1, stk. cbn [lk]. rewrite put_same. cbn [lk addp rmk stk stp].
      rewrite put_side by auto. apply rm1_absent, H.
    - cbn [lk addp rmk stk stp]. apply put_side. auto.
  Qed.
  Lemma E1_own e r : tidy lst r -> (fst e = false -> ~ In (snd e) (lk r s o)) -> lk (E1 e r) s o = lk r s o.
  Proof.
    destruct e as [[] x]; unfold E1; cbn [fst snd]; intros T H.
    - destruct (K1_facts lst s o r x T) as (_ & K & _). exact K.
    - apply U1_own, H, eq_refl.
  Qed.
  Lemma Es_own es r : tidy lst r -> (forall x, In (false, x) es -> ~ In x (lk r s o)) -> lk (Es es r) s o = lk r s o.
  Proof.
    revert r. induction es as [| e es IH]; intros r T H; [reflexivity |]. cbn [Es fold_left].
    assert (K : lk (E1 e r) s o = lk r s o).
    { apply E1_own; [exact T |]. intros Ee. apply H. left. destruct e. cbn in *. subst. reflexivity. }
    change (lk (Es es (E1 e r)) s o = lk r s o). rewrite IH; [exact K | apply E1_tidy, T |].
    intros x Hx. rewrite K. apply H. right. exact Hx.
  Qed.

  (** Nobody else gains a link; what others lose was linked to [o] *)
  Lemma rm1_keeps x (l : list nat) z : In z l -> z <> x -> In z (rm1 x l).
  Proof.
    induction l as [| y l IH]; intros H N; [destruct H |]. cbn. destruct (Nat.eqb_spec y x) as [-> | M].
    - destruct H as [-> | H]; [congruence | exact H].
    - destruct H as [-> | H]; [left; reflexivity | right; apply IH; assumption].
  Qed.
  Lemma E1_others e r y : y <> o ->
    lk (E1 e r) s y = lk r s y \/ (fst e = true /\ lst g = false /\ lk (E1 e r) s y = rm1 (snd e) (lk r s y)).
  Proof.
    intros N. destruct e as [[] x]; unfold E1; cbn [fst snd].
    - unfold K1. destruct (inb o (lk r g x)); [left; reflexivity |]. destruct (lst g) eqn:LG.
      + left. cbn [delp stk stp lk]. apply put_side. auto.
      + destruct (lk r g x) as [| y' l'].
        * left. cbn [delp stk stp lk]. apply put_side. auto.
        * cbn [delp stk stp lk]. rewrite put_side by auto. unfold U1. rewrite negb_involutive. cbn [delp addp stp lk].
          destruct (inb x (lk r s y')) eqn:IN; [| left; reflexivity].
          destruct (Nat.eq_dec y y') as [<- | NY].
          -- right. split; [reflexivity |]. split; [reflexivity |].
             destruct (lst s); cbn [delp addp rmk stk stp lk]; rewrite ?(put_side g x) by auto; rewrite put_same; reflexivity.
          -- left. destruct (lst s); cbn [delp addp rmk stk stp lk]; rewrite ?(put_side g x) by auto; rewrite put_obj by exact NY; reflexivity.
    - left. unfold U1. destruct (inb o (lk r g x)); [| reflexivity].
      destruct (lst g); cbn [addp rmk stk stp lk]; rewrite ?put_obj by exact N; rewrite put_side by auto; reflexivity.
  Qed.
  Lemma Es_others es r y z : y <> o ->
    (In z (lk (Es es r) s y) -> In z (lk r s y)) /\
    (In z (lk r s y) -> In z (lk (Es es r) s y) \/ (In (true, z) es /\ lst g = false)).
  Proof.
    intros N. revert r. induction es as [| e es IH]; intros r; [cbn; tauto |]. cbn [Es fold_left].
    change (fold_left (fun r e => E1 e r) es (E1 e r)) with (Es es (E1 e r)).
    destruct (IH (E1 e r)) as [I1 I2]. destruct (E1_others e r y N) as [E | (T & LG & E)]; rewrite E in I1, I2.
    - split; [exact I1 |]. intros H. destruct (I2 H) as [A | [A B]]; [left; exact A | right; split; [right; exact A | exact B]].
    - split; [intros H; apply (rm1_incl _ _ _ (I1 H)) |]. intros H.
      destruct (Nat.eq_dec z (snd e)) as [-> | NZ].
      + right. split; [left; destruct e; cbn in *; subst; reflexivity | exact LG].
      + destruct (I2 (rm1_keeps _ _ _ H NZ)) as [A | [A B]]; [left; exact A | right; split; [right; exact A | exact B]].
  Qed.
  Lemma SetA_others new r y z : y <> o ->
    (In z (lk (SetA lst s o new r) s y) -> In z (lk r s y)) /\
    (In z (lk r s y) -> In z (lk (SetA lst s o new r) s y) \/ (In z new /\ lst g = false)).
  Proof.
    intros N. unfold SetA. rewrite Us_Es, Ks_Es.
    destruct (Es_others (map (pair true) new) (stk s o new (Es (map (pair false) (lk r s o)) r)) y z N) as [A1 A2].
    destruct (Es_others (map (pair false) (lk r s o)) r y z N) as [B1 B2].
    assert (E : lk (stk s o new (Es (map (pair false) (lk r s o)) r)) s y = lk (Es (map (pair false) (lk r s o)) r) s y)
      by (unfold stk; cbn [lk]; apply put_obj, N).
    rewrite E in A1, A2. split; [auto |]. intros H. destruct (B2 H) as [K | [K _]].
    - destruct (A2 K) as [Q | [Q L]]; [left; exact Q | right; split; [| exact L]].
      apply in_map_iff in Q. destruct Q as (w & Q & Hw). congruence.
    - apply in_map_iff in K. destruct K as (w & K & _). discriminate K.
  Qed.

  (** Who refers to [o] afterwards *)
  Lemma Es_back es r x : tidy lst r -> (forall x, In (false, x) es -> In (true, x) es -> False) ->
    (In o (lk (Es es r) g x) <-> In (true, x) es \/ (In o (lk r g x) /\ ~ In (false, x) es)).
  Proof.
    revert r. induction es as [| [b z] es IH]; intros r T D; cbn [Es fold_left].
    - cbn. tauto.
    - change (fold_left (fun r e => E1 e r) es (E1 (b, z) r)) with (Es es (E1 (b, z) r)).
      rewrite IH; [| apply E1_tidy, T | intros w A B; apply (D w); right; assumption].
      destruct b; unfold E1; cbn [fst snd].
      + destruct (K1_facts lst s o r z T) as (_ & _ & FG & FX & _). cbn zeta in *.
        destruct (Nat.eq_dec x z) as [-> | N].
        * rewrite FX. cbn [In]. split; [intros _; left; left; reflexivity |].
          intros _. right. split; [left; reflexivity |]. intros K. apply (D z); [right; exact K | left; reflexivity].
        * rewrite FG by exact N. cbn [In]. split.
          -- intros [H | [H1 H2]]; [auto |]. right. split; [exact H1 |]. intros [K | K]; [congruence | contradiction].
          -- intros [[H | H] | [H1 H2]]; [congruence | auto |]. right. split; [exact H1 | intros K; apply H2; auto].
      + destruct (U1_facts lst s o r z T) as (_ & FG & _). cbn zeta in *. rewrite FG. cbn [In]. split.
        * intros [H | [[H1 H2] H3]]; [auto |]. right. split; [exact H1 |]. intros [K | K]; [| contradiction].
          apply H2. split; congruence.
        * intros [[H | H] | [H1 H2]]; [congruence | auto |]. right. split; [| intros K; apply H2; auto].
          split; [exact H1 |]. intros [_ K]. apply H2. left. congruence.
  Qed.

  Lemma stk_semi l r : semi lst s o r -> NoDup l -> (lst s = false -> length l <= 1) ->
    semi lst s o (stk s o l r) /\ (forall y z, known s r y z -> known s (stk s o l r) y z).
  Proof.
    intros [[TL TP TI] S PG PS] N I.
    assert (G : forall x, lk (stk s o l r) g x = lk r g x) by (intros x; unfold stk; cbn [lk]; apply put_side; auto).
    split.
    - constructor.
      + constructor; [| exact TP |]; intros s' y; unfold stk; cbn [lk]; unfold put.
        * destruct (_ && _); [exact N | apply TL].
        * destruct (Bool.eqb s' s && Nat.eqb y o) eqn:E; [| auto].
          apply andb_true_iff in E. destruct E as [E _]. apply eqb_prop in E. subst. auto.
      + intros y x Ny. rewrite G. unfold stk. cbn [lk]. rewrite put_obj by exact Ny. apply S, Ny.
      + intros y x. rewrite G. apply PG.
      + intros y x. rewrite G. apply PS.
    - intros y z [H | H]; [left; rewrite G; exact H | right; exact H].
  Qed.

  (** An operation that changes the list to [l'] and reports [es] *)
  Theorem op_symm l' es r : symm lst r -> NoDup l' -> (lst s = false -> length l' <= 1) ->
    (forall x, In (false, x) es -> ~ In x l') ->
    (forall x, In (true, x) es -> In x l') ->
    (forall x, In x l' -> In x (lk r s o) \/ In (true, x) es) ->
    (forall x, In x (lk r s o) -> In x l' \/ In (false, x) es) ->
    let r' := Es es (stk s o l' r) in
    symm lst r' /\ lk r' s o = l' /\ (forall y z, known s r y z -> known s r' y z).
  Proof.
    intros H N I D A L1 L2 r'.
    destruct (stk_semi l' r (symm_semi lst s o r H) N I) as [H1 M1].
    destruct (Es_semi es _ H1) as [H2 M2].
    assert (O : lk r' s o = l').
    { unfold r'. rewrite Es_own; [unfold stk; cbn [lk]; apply put_same | apply (se_tidy _ _ _ _ H1) |].
      intros x Hx. unfold stk. cbn [lk]. rewrite put_same. apply D, Hx. }
    split; [| split; [exact O | intros y z K; apply M2, M1, K]].
    apply (semi_symm lst s o); [exact H2 |].
    intros x. fold r'. rewrite O. unfold r'. rewrite Es_back; [| apply (se_tidy _ _ _ _ H1) |].
    - unfold stk. cbn [lk]. rewrite put_side by auto. rewrite <- (sy_sym _ _ H s o x).
      split.
      + intros K. destruct (L1 x K) as [P | P]; [| auto]. right. split; [exact P |]. intros Q. apply (D x Q K).
      + intros [K | [K1' K2]]; [auto |]. destruct (L2 x K1') as [P | P]; [exact P | contradiction].
    - intros w P Q. apply (D w P), A, Q.
  Qed.

  (** Assigning *)
  Theorem set_symm new r : symm lst r -> NoDup new -> (lst s = false -> length new <= 1) ->
    let r' := SetA lst s o new r in
    symm lst r' /\ lk r' s o = new /\ (forall y z, known s r y z -> known s r' y z).
  Proof.
    intros H N I r'. pose proof (symm_semi lst s o r H) as H0.
    unfold r', SetA. rewrite Us_Es, Ks_Es.
    destruct (Es_semi (map (pair false) (lk r s o)) r H0) as [H1 M1].
    set (r1 := Es (map (pair false) (lk r s o)) r) in *.
    destruct (stk_semi new r1 H1 N I) as [H2 M2].
    destruct (Es_semi (map (pair true) new) _ H2) as [H3 M3].
    assert (O : lk (Es (map (pair true) new) (stk s o new r1)) s o = new).
    { rewrite Es_own; [unfold stk; cbn [lk]; apply put_same | apply (se_tidy _ _ _ _ H2) |].
      intros x Hx. apply in_map_iff in Hx. destruct Hx as (z & E & _). discriminate E. }
    split; [| split; [exact O | intros y z K; apply M3, M2, M1, K]].
    apply (semi_symm lst s o); [exact H3 |].
    assert (DJ : forall (b : bool) (xs : list nat) x, In (negb b, x) (map (pair b) xs) -> False).
    { intros b xs x Hx. apply in_map_iff in Hx. destruct Hx as (z & E & _). inversion E. destruct b; discriminate. }
    assert (MP : forall (b : bool) (xs : list nat) x, In (b, x) (map (pair b) xs) <-> In x xs).
    { intros b xs x. rewrite in_map_iff. split; [intros (z & E & Hz); congruence | intros K; exists x; auto]. }
    intros x. rewrite O, Es_back; [| apply (se_tidy _ _ _ _ H2) | intros w P _; apply (DJ true _ _ P)].
    rewrite MP. unfold stk. cbn [lk]. rewrite put_side by auto. unfold r1.
    rewrite Es_back; [| apply (se_tidy _ _ _ _ H0) | intros w _ P; apply (DJ false _ _ P)].
    rewrite MP, <- (sy_sym _ _ H s o x).
    split; [auto |]. intros [K | [[K | [K1' K2]] _]]; [exact K | destruct (DJ false _ _ K) | contradiction].
  Qed.
End Seq.

(** ** Steps that change nothing *)
Section Noop.
  Context (lst : bool -> bool).

  Lemma put_noop s o l f s' o' : f s o = l -> put s o l f s' o' = f s' o'.
  Proof.
    intros E. unfold put. destruct (Bool.eqb s' s && Nat.eqb o' o) eqn:K; [| reflexivity].
    apply andb_true_iff in K. destruct K as [K1' K2]. apply eqb_prop in K1'. apply Nat.eqb_eq in K2. subst. reflexivity.
  Qed.
  Lemma put_ext s o l f f' s' o' : (forall a b, f a b = f' a b) -> put s o l f s' o' = put s o l f' s' o'.
  Proof. intros E. unfold put. destruct (_ && _); [reflexivity | apply E]. Qed.

  Lemma rmk_noop s o x r : ~ In x (lk r s o) -> req (rmk s o x r) r.
  Proof.
    intros H s' o'. unfold rmk, stk. cbn [lk pl]. split; [| reflexivity]. apply put_noop. symmetry. apply rm1_absent, H.
  Qed.
  Lemma addp_noop s o x r : In x (pl r s o) -> req (addp s o x r) r.
  Proof.
    intros H s' o'. unfold addp, stp. cbn [lk pl]. split; [reflexivity |]. apply put_noop. symmetry. apply addl_present, H.
  Qed.
  Lemma delp_noop s o x r : ~ In x (pl r s o) -> req (delp s o x r) r.
  Proof.
    intros H s' o'. unfold delp, stp. cbn [lk pl]. split; [reflexivity |]. apply put_noop. symmetry. apply rm1_absent, H.
  Qed.
  Lemma addp_req s o x r r' : req r r' -> req (addp s o x r) (addp s o x r').
  Proof.
    intros E s' o'. unfold addp, stp. cbn [lk pl]. split; [apply E |].
    rewrite (proj2 (E s o)). apply put_ext. intros; apply E.
  Qed.
  Lemma delp_req s o x r r' : req r r' -> req (delp s o x r) (delp s o x r').
  Proof.
    intros E s' o'. unfold delp, stp. cbn [lk pl]. split; [apply E |].
    rewrite (proj2 (E s o)). apply put_ext. intros; apply E.
  Qed.
  Lemma rmk_req s o x r r' : req r r' -> req (rmk s o x r) (rmk s o x r').
  Proof.
    intros E s' o'. unfold rmk, stk. cbn [lk pl]. split; [| apply E].
    rewrite (proj1 (E s o)). apply put_ext. intros; apply E.
  Qed.
  Lemma stk_req s o l r r' : req r r' -> req (stk s o l r) (stk s o l r').
  Proof. intros E s' o'. unfold stk. cbn [lk pl]. split; [apply put_ext; intros; apply E | apply E]. Qed.

  (** [x] removes [o] from its list and unlinks it: the same as [o] unlinking [x] *)
  Lemma unlink_back s o x r : tidy lst r -> In o (lk r (negb s) x) -> lst (negb s) = true ->
    req (addp (negb s) x o (U1 lst (negb s) x o (rmk (negb s) x o (addp s o x r)))) (U1 lst s o x r).
  Proof.
    intros T H L. set (g := negb s) in *.
    assert (GS : negb g = s) by (unfold g; apply negb_involutive).
    set (r1 := rmk g x o (addp s o x r)).
    assert (N1 : ~ In o (lk r1 g x)).
    { unfold r1, rmk, stk, addp, stp. cbn [lk]. rewrite put_same, rm1_in by apply (td_lk _ _ T). intros [_ K]. congruence. }
    assert (P1 : In x (pl r1 s o)).
    { unfold r1, rmk, stk, addp, stp. cbn [pl]. rewrite put_same, addl_in. auto. }
    assert (RHS : U1 lst s o x r = rmk s o x (addp g x o r1)).
    { unfold U1. fold g. apply inb_In in H. rewrite H, L. reflexivity. }
    rewrite RHS. unfold U1. rewrite GS.
    assert (PG : forall w, In o (pl (addp g x o w) g x)).
    { intros w. unfold addp, stp. cbn [pl]. rewrite put_same, addl_in. auto. }
    destruct (inb x (lk r1 s o)) eqn:E.
    - assert (Q : req (addp s o x (rmk s o x (addp g x o r1))) (rmk s o x (addp g x o r1))).
      { apply addp_noop. unfold rmk, stk. cbn [pl]. unfold addp, stp at 1. cbn [pl].
        rewrite put_side by (unfold g; auto). exact P1. }
      assert (Q2 : req (addp g x o (rmk s o x (addp g x o r1))) (rmk s o x (addp g x o r1))).
      { apply addp_noop. unfold rmk, stk. cbn [pl]. apply PG. }
      destruct (lst s).
      + apply (req_trans _ (addp g x o (addp s o x (rmk s o x (addp g x o r1))))).
        * apply addp_req. apply rmk_noop. unfold rmk, stk, addp, stp. cbn [lk].
          rewrite put_side by (unfold g; auto). exact N1.
        * apply (req_trans _ (addp g x o (rmk s o x (addp g x o r1)))); [apply addp_req, Q | exact Q2].
      + apply (req_trans _ (addp g x o (rmk s o x (addp g x o r1)))); [apply addp_req, Q | exact Q2].
    - apply inb_not in E. apply (req_trans _ (addp g x o r1)).
      + apply addp_noop. apply PG.
      + apply req_sym. apply rmk_noop. exact E.
  Qed.
End Noop.
