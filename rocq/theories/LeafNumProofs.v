(** LeafNumProofs.v -- proofs about the number modifiers. *)
From Coq Require Import QArith Qround Qabs Lqa.
From Verif Require Import Base Mon PyList Values PyStr CalModel LeafModel LeafSpec.
Open Scope Z_scope.

Lemma Qltb_spec : forall p q, Qltb p q = true <-> (p < q)%Q.
Proof.
  intros p q. unfold Qltb. rewrite negb_true_iff. split.
  - intros H. apply Qnot_le_lt. intros C. apply Qle_bool_iff in C. congruence.
  - intros H. destruct (Qle_bool q p) eqn:E; [|reflexivity].
    apply Qle_bool_iff in E. exfalso. apply (Qle_not_lt _ _ E H).
Qed.

Lemma xlt_below : forall a b, xlt a b = true <-> below a b.
Proof.
  intros a b. split.
  - destruct a, b; simpl; intros H; try discriminate; try (constructor; fail).
    constructor. apply Qltb_spec. exact H.
  - intros H. inversion H; subst; simpl; try reflexivity. apply Qltb_spec. assumption.
Qed.

Lemma xle_at_most : forall a b, xle a b = true <-> at_most a b.
Proof.
  intros a b. unfold at_most. split.
  - destruct a as [p| | |], b as [q| | |]; simpl; intros H; try discriminate;
      try (left; constructor; fail); try (right; constructor; fail).
    apply Qle_bool_iff in H. apply Qle_lt_or_eq in H.
    destruct H; [left|right]; constructor; assumption.
  - intros [H|H]; inversion H; subst; simpl; try reflexivity; apply Qle_bool_iff.
    + apply Qlt_le_weak. assumption.
    + rewrite H0. apply Qle_refl.
Qed.

Lemma not_below : forall a b, ordered a -> ordered b -> (~ below a b <-> at_most b a).
Proof.
  intros a b Ha Hb. rewrite <- xlt_below, <- xle_at_most.
  destruct a as [p| | |], b as [q| | |]; unfold ordered in *; simpl; try congruence;
    try (split; intros; congruence).
  unfold Qltb. destruct (Qle_bool q p); simpl; split; congruence.
Qed.

Lemma not_at_most : forall a b, ordered a -> ordered b -> (~ at_most a b <-> below b a).
Proof.
  intros a b Ha Hb. rewrite <- xlt_below, <- xle_at_most.
  destruct a as [p| | |], b as [q| | |]; unfold ordered in *; simpl; try congruence;
    try (split; intros; congruence).
  unfold Qltb. destruct (Qle_bool p q); simpl; split; congruence.
Qed.

Lemma number_num_of : forall v x, number v x -> num_of v = Some x /\ is_number v = true.
Proof. intros v x H. inversion H; subst; split; reflexivity. Qed.

Lemma number_not_none : forall v x, number v x -> is_none v = false.
Proof. intros v x H. inversion H; reflexivity. Qed.

Lemma is_number_number : forall v, is_number v = true -> exists x, number v x.
Proof.
  intros v H. destruct v; try discriminate.
  - eexists; constructor.
  - destruct f as [q|[]|]; eexists; constructor.
Qed.

Lemma zero_number : number (VInt 0) zero.
Proof. unfold zero. apply (n_int 0). Qed.

Section Num.
  Context {S P : Type}.
  Variable oeq : oid -> oid -> bool.
  Variable other_str : value -> string.
  Variable farith : arith -> value -> value -> res value.
  Variable resolve : P -> st S value.
  Variable vexc : string -> exn.
  Notation validate := (leaf_validate oeq resolve vexc).
  Notation transform := (leaf_transform other_str farith resolve vexc).
  Notation resolves := (resolves resolve).

  Hypothesis inhabited : S.

  Notation decides := (@decides S vexc).

  Lemma decides_intro : forall m (H : Prop),
    (H -> accepts m) -> (~ H -> rejects vexc m) -> (H \/ ~ H) -> decides m H.
  Proof.
    intros m H H1 H2 Hd. split; split.
    - intros A. destruct Hd as [Hd|Hd]; [exact Hd|]. exfalso.
      destruct (H2 Hd) as [msg R]. pose proof (A inhabited) as A'. rewrite R in A'.
      discriminate A'.
    - exact H1.
    - intros [msg R] h. pose proof (H1 h inhabited) as A'. rewrite R in A'. discriminate A'.
    - exact H2.
  Qed.

  Lemma bound_check_decides :
    forall (c : xnum -> xnum -> bool) (bad : value -> value -> res bool) b again msg v x w y,
      number v x -> resolves b w -> number w y ->
      bad v w = Ok (c x y) ->
      decides (bound_check resolve vexc bad b again msg v) (c x y = false).
  Proof.
    intros c bad b again msg v x w y Hv Hb Hw Hbad.
    destruct (number_num_of _ _ Hv) as [_ Hn].
    apply decides_intro.
    - intros Hc s. unfold bound_check. rewrite Hn. unfold bind. rewrite Hb. unfold lift.
      rewrite Hbad, Hc. reflexivity.
    - intros Hc. apply not_false_is_true in Hc. exists msg. intros s. unfold bound_check.
      rewrite Hn. unfold bind. rewrite Hb. unfold lift. rewrite Hbad, Hc.
      destruct again; [rewrite Hb|]; reflexivity.
    - destruct (c x y); [right; discriminate|left; reflexivity].
  Qed.

  Lemma const_check_decides :
    forall (c : xnum -> xnum -> bool) (bad : value -> value -> res bool) msg v x w y,
      number v x -> number w y ->
      bad v w = Ok (c x y) ->
      decides (const_check vexc bad w msg v) (c x y = false).
  Proof.
    intros c bad msg v x w y Hv Hw Hbad.
    destruct (number_num_of _ _ Hv) as [_ Hn].
    apply decides_intro.
    - intros Hc s. unfold const_check. rewrite Hn. unfold bind, lift.
      rewrite Hbad, Hc. reflexivity.
    - intros Hc. apply not_false_is_true in Hc. exists msg. intros s. unfold const_check.
      rewrite Hn. unfold bind, lift. rewrite Hbad, Hc. reflexivity.
    - destruct (c x y); [right; discriminate|left; reflexivity].
  Qed.

  Lemma decides_ext : forall m (H H' : Prop), (H <-> H') -> decides m H -> decides m H'.
  Proof. intros m H H' E [D1 D2]. split; [rewrite D1|rewrite D2]; tauto. Qed.

  Ltac nums := repeat match goal with
    | H : number ?v ?x |- _ =>
        let H1 := fresh in let H2 := fresh in
        destruct (number_num_of _ _ H) as [H1 H2]; revert H
    end; intros.

  Lemma xlt_false : forall a b, ordered a -> ordered b ->
    (xlt a b = false <-> at_most b a).
  Proof.
    intros a b Ha Hb. rewrite <- (not_below a b Ha Hb), <- xlt_below.
    destruct (xlt a b); split; congruence.
  Qed.

  Lemma xle_false : forall a b, ordered a -> ordered b ->
    (xle a b = false <-> below b a).
  Proof.
    intros a b Ha Hb. rewrite <- (not_at_most a b Ha Hb), <- xle_at_most.
    destruct (xle a b); split; congruence.
  Qed.

  Lemma zero_ordered : ordered zero.
  Proof. discriminate. Qed.

  Lemma number_validators : forall l holds, claims resolve l holds ->
    forall v x, number v x -> ordered x -> decides (validate l v) (holds x).
  Proof.
    clear other_str farith.
    intros l holds Hc v x Hv Ox.
    destruct (number_num_of _ _ Hv) as [Nv Iv].
    destruct Hc as [p w b Hr Hb Ob|p w b Hr Hb Ob|p q w1 w2 a b Hr1 Ha Oa Hr2 Hb Ob
                   |p w b Hr Hb Ob|p w b Hr Hb Ob| | | |]; simpl.
    - destruct (number_num_of _ _ Hb) as [Nb Ib].
      eapply decides_ext; [apply (xlt_false x b Ox Ob)|].
      eapply bound_check_decides with (c := xlt); eauto.
      unfold py_lt, py_cmp. rewrite Nv, Nb. reflexivity.
    - destruct (number_num_of _ _ Hb) as [Nb Ib].
      eapply decides_ext; [apply (xlt_false b x Ob Ox)|].
      eapply bound_check_decides with (c := fun x y => xlt y x); eauto.
      unfold gtb, py_lt, py_cmp. rewrite Nv, Nb. reflexivity.
    - destruct (number_num_of _ _ Ha) as [Na Ia].
      destruct (number_num_of _ _ Hb) as [Nb Ib].
      assert (D1 : decides (const_check vexc py_lt w1 "value is not greater than or equal" v)
                     (at_most a x)).
      { eapply decides_ext; [apply (xlt_false x a Ox Oa)|].
        eapply const_check_decides with (c := xlt); eauto.
        unfold py_lt, py_cmp. rewrite Nv, Na. reflexivity. }
      assert (D2 : decides (const_check vexc gtb w2 "value is not less than or equal" v)
                     (at_most x b)).
      { eapply decides_ext; [apply (xlt_false b x Ob Ox)|].
        eapply const_check_decides with (c := fun x y => xlt y x); eauto.
        unfold gtb, py_lt, py_cmp. rewrite Nv, Nb. reflexivity. }
      assert (L1 : at_most a x \/ ~ at_most a x).
      { rewrite <- xle_at_most. destruct (xle a x); [left|right]; congruence. }
      assert (L2 : at_most x b \/ ~ at_most x b).
      { rewrite <- xle_at_most. destruct (xle x b); [left|right]; congruence. }
      unfold v_range. rewrite (number_not_none _ _ Hv).
      apply decides_intro.
      + intros [H1 H2] s. apply (proj1 D1) in H1. apply (proj1 D2) in H2. unfold bind.
        rewrite Hr1, (H1 s), Hr2. apply H2.
      + intros N. destruct L1 as [L1|L1].
        * assert (N2 : ~ at_most x b) by tauto. apply (proj2 D2) in N2. destruct N2 as [msg N2].
          apply (proj1 D1) in L1. exists msg. intros s. unfold bind. rewrite Hr1, (L1 s), Hr2. apply N2.
        * apply (proj2 D1) in L1. destruct L1 as [msg L1].
          exists msg. intros s. unfold bind. rewrite Hr1, L1. reflexivity.
      + tauto.
    - destruct (number_num_of _ _ Hb) as [Nb Ib].
      eapply decides_ext; [apply (xle_false x b Ox Ob)|].
      eapply bound_check_decides with (c := xle); eauto.
      unfold py_le, py_cmp. rewrite Nv, Nb. reflexivity.
    - destruct (number_num_of _ _ Hb) as [Nb Ib].
      eapply decides_ext; [apply (xle_false b x Ob Ox)|].
      eapply bound_check_decides with (c := fun x y => xle y x); eauto.
      unfold geb, py_le, py_cmp. rewrite Nv, Nb. reflexivity.
    - eapply decides_ext; [apply (xle_false x zero Ox zero_ordered)|].
      eapply const_check_decides with (c := xle); eauto using zero_number.
      unfold py_le, py_cmp. rewrite Nv. reflexivity.
    - eapply decides_ext; [apply (xle_false zero x zero_ordered Ox)|].
      eapply const_check_decides with (c := fun x y => xle y x); eauto using zero_number.
      unfold geb, py_le, py_cmp. rewrite Nv. reflexivity.
    - eapply decides_ext; [apply (xlt_false zero x zero_ordered Ox)|].
      eapply const_check_decides with (c := fun x y => xlt y x); eauto using zero_number.
      unfold gtb, py_lt, py_cmp. rewrite Nv. reflexivity.
    - eapply decides_ext; [apply (xlt_false x zero Ox zero_ordered)|].
      eapply const_check_decides with (c := xlt); eauto using zero_number.
      unfold py_lt, py_cmp. rewrite Nv. reflexivity.
  Qed.

  (** nan passes every one of them *)
  Lemma nan_passes : forall l holds, claims resolve l holds ->
    accepts (validate l (VFloat FNan)).
  Proof.
    intros l holds Hc s.
    destruct Hc as [p w b Hr Hb Ob|p w b Hr Hb Ob|p q w1 w2 a b Hr1 Ha Oa Hr2 Hb Ob
                   |p w b Hr Hb Ob|p w b Hr Hb Ob| | | |]; try reflexivity;
      try destruct (number_num_of _ _ Hb) as [Nb Ib];
      try (cbn [leaf_validate]; unfold v_min, v_max, v_gt, v_lt, bound_check; simpl; unfold bind;
           rewrite Hr; unfold lift, gtb, geb, py_lt, py_le, py_cmp; rewrite Nb; simpl;
           destruct b; reflexivity).
    destruct (number_num_of _ _ Ha) as [Na Ia].
    cbn [leaf_validate]. unfold v_range, const_check. simpl. unfold bind. rewrite Hr1. unfold lift, gtb, py_lt, py_cmp.
    rewrite Na. simpl. unfold ret. rewrite Hr2, Nb. destruct b; reflexivity.
  Qed.

  (** a value that is not an int or a float passes, and the bound is not even looked at,
      except that [range] evaluates its bounds *)
  Lemma non_number_passes : forall l holds, claims resolve l holds ->
    forall v, is_number v = false -> accepts (validate l v).
  Proof.
    intros l holds Hc v Hv s.
    destruct Hc as [p w b Hr Hb Ob|p w b Hr Hb Ob|p q w1 w2 a b Hr1 Ha Oa Hr2 Hb Ob
                   |p w b Hr Hb Ob|p w b Hr Hb Ob| | | |]; cbn [leaf_validate];
      try (unfold v_min, v_max, v_gt, v_lt, v_positive, v_negative, v_nonpositive,
             v_nonnegative, bound_check, const_check; rewrite Hv; reflexivity).
    unfold v_range, const_check. destruct (is_none v); [reflexivity|]. rewrite Hv.
    unfold bind. rewrite Hr1. unfold ret. rewrite Hr2. reflexivity.
  Qed.

  Lemma even_decides : forall z, decides (validate LEven (VInt z)) (Z.Even z).
  Proof.
    intros z. assert (E : z mod 2 =? 0 = true <-> Z.Even z).
    { rewrite Z.eqb_eq, <- Z.even_spec, Zeven_mod, Zeq_is_eq_bool. reflexivity. }
    apply decides_intro.
    - intros H s. simpl. apply E in H. rewrite H. reflexivity.
    - intros H. exists "value is not even"%string. intros s. simpl.
      destruct (z mod 2 =? 0) eqn:C; [exfalso; apply H, E; reflexivity|reflexivity].
    - destruct (z mod 2 =? 0) eqn:C; [left; apply E; reflexivity|right; intros H; apply E in H; congruence].
  Qed.

  Lemma odd_decides : forall z, decides (validate LOdd (VInt z)) (Z.Odd z).
  Proof.
    intros z.
    assert (E : z mod 2 =? 0 = true <-> Z.Even z).
    { rewrite Z.eqb_eq, <- Z.even_spec, Zeven_mod, Zeq_is_eq_bool. reflexivity. }
    assert (D : Z.Even z \/ Z.Odd z) by apply Z.Even_or_Odd.
    assert (N : Z.Even z -> Z.Odd z -> False) by apply Z.Even_Odd_False.
    apply decides_intro.
    - intros H s. simpl. destruct (z mod 2 =? 0) eqn:C; [|reflexivity].
      exfalso. apply N; [apply E; reflexivity|exact H].
    - intros H. exists "value is not odd"%string. intros s. simpl.
      destruct (z mod 2 =? 0) eqn:C; [reflexivity|].
      exfalso. destruct D as [D|D]; [apply E in D; congruence|contradiction].
    - destruct D as [D|D]; [right; intros O; exact (N D O)|left; exact D].
  Qed.

  Lemma parity_skips : forall v, (forall z, v <> VInt z) ->
    accepts (validate LEven v) /\ accepts (validate LOdd v).
  Proof.
    intros v H. split; intros s; destruct v; try reflexivity; exfalso; eapply H; reflexivity.
  Qed.

  (** ** Clamps *)
  Lemma lowerbond_clamps : forall p w b v x,
    resolves p w -> number w b -> number v x -> ordered b -> ordered x ->
    (at_most b x -> gives (transform (LLowerbond p) v) v) /\
    (below x b -> gives (transform (LLowerbond p) v) w).
  Proof.
    intros p w b v x Hr Hb Hv Ob Ox.
    destruct (number_num_of _ _ Hb) as [Nb Ib]. destruct (number_num_of _ _ Hv) as [Nv Iv].
    split; intros H s; cbn [leaf_transform]; unfold t_lowerbond; rewrite Iv; unfold bind;
      rewrite Hr; unfold lift, py_lt, py_cmp; rewrite Nv, Nb.
    - apply (xlt_false x b Ox Ob) in H. rewrite H. reflexivity.
    - apply xlt_below in H. rewrite H. reflexivity.
  Qed.

  Lemma upperbond_clamps : forall p w b v x,
    resolves p w -> number w b -> number v x -> ordered b -> ordered x ->
    (at_most x b -> gives (transform (LUpperbond p) v) v) /\
    (below b x -> gives (transform (LUpperbond p) v) w).
  Proof.
    intros p w b v x Hr Hb Hv Ob Ox.
    destruct (number_num_of _ _ Hb) as [Nb Ib]. destruct (number_num_of _ _ Hv) as [Nv Iv].
    split; intros H s; cbn [leaf_transform]; unfold t_upperbond; rewrite Iv; unfold bind;
      rewrite Hr; unfold lift, gtb, py_lt, py_cmp; rewrite Nv, Nb.
    - apply (xlt_false b x Ob Ox) in H. rewrite H. reflexivity.
    - apply xlt_below in H. rewrite H. reflexivity.
  Qed.

  Lemma same_refl : forall x, ordered x -> same x x.
  Proof. intros [q| | |] H; try constructor; try reflexivity. exfalso. apply H. reflexivity. Qed.

  Lemma number_fun : forall v x y, number v x -> number v y -> x = y.
  Proof. intros v x y H1 H2. apply number_num_of in H1, H2. destruct H1, H2. congruence. Qed.

  (** the result of each clamp *)
  Definition low (b x : xnum) (w v : value) : value := if xlt x b then w else v.
  Definition high (b x : xnum) (w v : value) : value := if xlt b x then w else v.

  Lemma lowerbond_gives : forall p w b v x,
    resolves p w -> number w b -> number v x ->
    gives (transform (LLowerbond p) v) (low b x w v).
  Proof.
    intros p w b v x Hr Hb Hv s.
    destruct (number_num_of _ _ Hb) as [Nb Ib]. destruct (number_num_of _ _ Hv) as [Nv Iv].
    cbn [leaf_transform]; unfold t_lowerbond, low; rewrite Iv; unfold bind;
      rewrite Hr; unfold lift, py_lt, py_cmp; rewrite Nv, Nb.
    destruct (xlt x b); reflexivity.
  Qed.

  Lemma upperbond_gives : forall p w b v x,
    resolves p w -> number w b -> number v x ->
    gives (transform (LUpperbond p) v) (high b x w v).
  Proof.
    intros p w b v x Hr Hb Hv s.
    destruct (number_num_of _ _ Hb) as [Nb Ib]. destruct (number_num_of _ _ Hv) as [Nv Iv].
    cbn [leaf_transform]; unfold t_upperbond, high; rewrite Iv; unfold bind;
      rewrite Hr; unfold lift, gtb, py_lt, py_cmp; rewrite Nv, Nb.
    destruct (xlt b x); reflexivity.
  Qed.

  Lemma xlt_irrefl : forall x, xlt x x = false.
  Proof.
    intros [q| | |]; try reflexivity. simpl. unfold Qltb.
    destruct (Qle_bool q q) eqn:E; [reflexivity|]. exfalso.
    assert (Qle_bool q q = true) by (apply Qle_bool_iff, Qle_refl). congruence.
  Qed.

  Lemma low_number : forall b x w v, number w b -> number v x ->
    number (low b x w v) (if xlt x b then b else x).
  Proof. intros. unfold low. destruct (xlt x b); assumption. Qed.
  Lemma high_number : forall b x w v, number w b -> number v x ->
    number (high b x w v) (if xlt b x then b else x).
  Proof. intros. unfold high. destruct (xlt b x); assumption. Qed.

  Lemma lowerbond_idem : forall p w b v r,
    resolves p w -> number w b -> is_number v = true ->
    gives (transform (LLowerbond p) v) r -> gives (transform (LLowerbond p) r) r.
  Proof.
    intros p w b v r Hr Hb Iv H.
    destruct (is_number_number _ Iv) as [x Hv].
    pose proof (lowerbond_gives _ _ _ _ _ Hr Hb Hv) as G.
    assert (r = low b x w v).
    { specialize (H inhabited). rewrite (G inhabited) in H. congruence. } subst r.
    pose proof (lowerbond_gives _ _ _ _ _ Hr Hb (low_number _ _ _ _ Hb Hv)) as G2.
    intros s. rewrite (G2 s). unfold low. destruct (xlt x b) eqn:E.
    - rewrite xlt_irrefl. reflexivity.
    - rewrite E. reflexivity.
  Qed.

  Lemma upperbond_idem : forall p w b v r,
    resolves p w -> number w b -> is_number v = true ->
    gives (transform (LUpperbond p) v) r -> gives (transform (LUpperbond p) r) r.
  Proof.
    intros p w b v r Hr Hb Iv H.
    destruct (is_number_number _ Iv) as [x Hv].
    pose proof (upperbond_gives _ _ _ _ _ Hr Hb Hv) as G.
    assert (r = high b x w v).
    { specialize (H inhabited). rewrite (G inhabited) in H. congruence. } subst r.
    pose proof (upperbond_gives _ _ _ _ _ Hr Hb (high_number _ _ _ _ Hb Hv)) as G2.
    intros s. rewrite (G2 s). unfold high. destruct (xlt b x) eqn:E.
    - rewrite xlt_irrefl. reflexivity.
    - rewrite E. reflexivity.
  Qed.

  Lemma clamp_chain : forall p q w u a b v,
    resolves p w -> number w a -> ordered a ->
    resolves q u -> number u b -> ordered b -> at_most a b ->
    is_number v = true ->
    exists r1 r2,
      gives (transform (LLowerbond p) v) r1 /\ gives (transform (LUpperbond q) r1) r2 /\
      is_number r2 = true /\ accepts (validate (LRange p q) r2).
  Proof.
    intros p q w u a b v Hp Ha Oa Hq Hb Ob Hab Iv.
    destruct (is_number_number _ Iv) as [x Hv].
    exists (low a x w v). set (r1 := low a x w v).
    pose proof (low_number _ _ _ _ Ha Hv) as N1. fold r1 in N1.
    set (y := if xlt x a then a else x) in *.
    exists (high b y u r1). pose proof (high_number _ _ _ _ Hb N1) as N2.
    split; [apply lowerbond_gives; assumption|].
    split; [apply upperbond_gives; assumption|].
    split; [apply number_num_of in N2; apply N2|].
    set (z := if xlt b y then b else y) in *.
    assert (Cl : claims resolve (LRange p q) (fun x => at_most a x /\ at_most x b))
      by (eapply cl_range; eassumption).
    assert (Hx : x = XNan \/ ordered x)
      by (unfold ordered; destruct x; [right| right|right|left]; congruence).
    destruct Hx as [Hx|Ox].
    - assert (z = XNan).
      { subst z y x. destruct a, b; reflexivity. }
      assert (high b y u r1 = VFloat FNan).
      { rewrite H in N2. inversion N2. reflexivity. }
      rewrite H0. eapply nan_passes. exact Cl.
    - assert (Oy : ordered y) by (subst y; destruct (xlt x a); assumption).
      assert (Oz : ordered z) by (subst z; destruct (xlt b y); assumption).
      apply (number_validators _ _ Cl _ _ N2 Oz). subst z.
      assert (Hay : at_most a y).
      { subst y. destruct (xlt x a) eqn:E.
        - right. apply same_refl. exact Oa.
        - apply (xlt_false x a Ox Oa). exact E. }
      destruct (xlt b y) eqn:E.
      + split; [exact Hab|right; apply same_refl; exact Ob].
      + split; [exact Hay|]. apply (xlt_false b y Ob Oy). exact E.
  Qed.

  Lemma clamp_skips : forall p v, is_number v = false ->
    gives (transform (LLowerbond p) v) v /\ gives (transform (LUpperbond p) v) v.
  Proof.
    intros p v H. split; intros s; cbn [leaf_transform]; unfold t_lowerbond, t_upperbond;
      rewrite H; reflexivity.
  Qed.

  (** ** Rounding *)
  Lemma floor_spec : forall q z, gives (transform LFloor (VFloat (FFin q))) (VInt z) <->
    (inject_Z z <= q < inject_Z (z + 1))%Q.
  Proof.
    intros q z. split.
    - intros H. specialize (H inhabited). cbn in H. injection H as <-. split.
      + apply Qfloor_le. + apply Qlt_floor.
    - intros [H1 H2] s. cbn. unfold lift. f_equal. f_equal. f_equal.
      pose proof (Qfloor_le q) as F1. pose proof (Qlt_floor q) as F2.
      assert (A : (inject_Z z < inject_Z (Qfloor q + 1))%Q) by (eapply Qle_lt_trans; eassumption).
      assert (B : (inject_Z (Qfloor q) < inject_Z (z + 1))%Q) by (eapply Qle_lt_trans; eassumption).
      rewrite <- Zlt_Qlt in A, B. lia.
  Qed.

  Lemma ceil_spec : forall q z, gives (transform LCeil (VFloat (FFin q))) (VInt z) <->
    (inject_Z (z - 1) < q <= inject_Z z)%Q.
  Proof.
    intros q z. split.
    - intros H. specialize (H inhabited). cbn in H. injection H as <-. split.
      + apply Qceiling_lt. + apply Qle_ceiling.
    - intros [H1 H2] s. cbn. unfold lift. f_equal. f_equal. f_equal.
      pose proof (Qle_ceiling q) as F1. pose proof (Qceiling_lt q) as F2.
      assert (A : (inject_Z (z - 1) < inject_Z (Qceiling q))%Q) by (eapply Qlt_le_trans; eassumption).
      assert (B : (inject_Z (Qceiling q - 1) < inject_Z z)%Q) by (eapply Qlt_le_trans; eassumption).
      rewrite <- Zlt_Qlt in A, B. lia.
  Qed.

  Lemma round_spec : forall q z, gives (transform LRound (VFloat (FFin q))) (VInt z) ->
    (Qabs (q - inject_Z z) <= 1 # 2)%Q /\
    ((Qabs (q - inject_Z z) == 1 # 2)%Q -> Z.Even z).
  Proof.
    intros q z H. specialize (H inhabited). cbn in H. injection H as <-.
    unfold round_half_even. set (f := Qfloor q).
    pose proof (Qfloor_le q) as F1. pose proof (Qlt_floor q) as F2. fold f in F1, F2.
    rewrite inject_Z_plus in F2. change (inject_Z 1) with 1%Q in F2.
    destruct (Qltb (q - inject_Z f) (1 # 2)) eqn:E1.
    - apply Qltb_spec in E1. rewrite Qabs_pos by lra. split; [lra|]. intros; lra.
    - assert (E1' : ~ (q - inject_Z f < 1 # 2)%Q) by (intros C; apply Qltb_spec in C; congruence).
      destruct (Qltb (1 # 2) (q - inject_Z f)) eqn:E2.
      + apply Qltb_spec in E2. rewrite inject_Z_plus. change (inject_Z 1) with 1%Q.
        rewrite Qabs_neg by lra. split; [lra|]. intros; lra.
      + assert (E2' : ~ (1 # 2 < q - inject_Z f)%Q) by (intros C; apply Qltb_spec in C; congruence).
        destruct (Z.even f) eqn:Ev.
        * rewrite Qabs_pos by lra. split; [lra|]. intros _. apply Z.even_spec. exact Ev.
        * rewrite inject_Z_plus. change (inject_Z 1) with 1%Q.
          rewrite Qabs_neg by lra. split; [lra|]. intros _.
          apply Z.even_spec. rewrite Z.even_add, Ev. reflexivity.
  Qed.

  Lemma rounding_int : forall z,
    gives (transform LFloor (VInt z)) (VInt z) /\
    gives (transform LCeil (VInt z)) (VInt z) /\
    gives (transform LRound (VInt z)) (VInt z).
  Proof. intros z. repeat split; intros s; reflexivity. Qed.

  Lemma rounding_total : forall v q, v = VFloat (FFin q) ->
    exists f c r, gives (transform LFloor v) (VInt f) /\ gives (transform LCeil v) (VInt c)
      /\ gives (transform LRound v) (VInt r).
  Proof. intros v q ->. do 3 eexists. repeat split; intros s; reflexivity. Qed.
End Num.

Lemma not_number_false : forall v, (forall x, ~ number v x) -> is_number v = false.
Proof.
  intros v H. destruct (is_number v) eqn:E; [|reflexivity].
  destruct (is_number_number v E) as [x Hx]. exfalso. exact (H x Hx).
Qed.

Lemma nan_unordered : forall b,
  ~ at_most b XNan /\ ~ at_most XNan b /\ ~ below b XNan /\ ~ below XNan b.
Proof.
  intros b. unfold at_most. repeat split; intros H;
    try (destruct H as [H|H]); inversion H.
Qed.

Section Arith.
  Context {S P : Type}.
  Variable other_str : value -> string.
  Variable farith : arith -> value -> value -> res value.
  Variable resolve : P -> st S value.
  Variable vexc : string -> exn.
  Notation transform := (leaf_transform other_str farith resolve vexc).

  Lemma round_total : S -> forall q, exists z,
    gives (transform LRound (VFloat (FFin q))) (VInt z) /\
    (Qabs (q - inject_Z z) <= 1 # 2)%Q /\
    ((Qabs (q - inject_Z z) == 1 # 2)%Q -> Z.Even z).
  Proof.
    intros s0 q. exists (round_half_even q).
    assert (G : gives (transform LRound (VFloat (FFin q))) (VInt (round_half_even q)))
      by (intros s; reflexivity).
    split; [exact G|]. exact (round_spec other_str farith resolve vexc s0 q _ G).
  Qed.

  Lemma int_arith : forall p n v, resolves resolve p (VInt n) ->
    let run op := transform (LArith op p) (VInt v) in
    gives (run AAdd) (VInt (v + n)) /\ gives (run ASub) (VInt (v - n)) /\
    gives (run AMul) (VInt (v * n)) /\
    (n <> 0 -> exists r q, gives (run AMod) (VInt r) /\ v = q * n + r /\
                         (0 < n -> 0 <= r < n) /\ (n < 0 -> n < r <= 0)) /\
    (n = 0 -> raises (run AMod) EZeroDivision).
  Proof.
    intros p n v Hr run.
    assert (E : forall op s, run op s =
      lift (match op with AAdd | AMul | APow => py_arith farith op (VInt n) (VInt v)
                        | _ => py_arith farith op (VInt v) (VInt n) end) s).
    { intros op s. unfold run. cbn [leaf_transform]. unfold t_arith. cbn [is_number].
      unfold bind. rewrite Hr. destruct op; reflexivity. }
    repeat split.
    - intros s. rewrite E. cbn [py_arith]. unfold lift. do 3 f_equal. lia.
    - intros s. rewrite E. reflexivity.
    - intros s. rewrite E. cbn [py_arith]. unfold lift. do 3 f_equal. lia.
    - intros Hn. exists (v mod n), (v / n). repeat split.
      + intros s. rewrite E. cbn [py_arith]. rewrite (proj2 (Z.eqb_neq n 0) Hn). reflexivity.
      + rewrite Z.mul_comm. apply Z.div_mod. exact Hn.
      + apply Z.mod_pos_bound. assumption.
      + apply Z.mod_pos_bound. assumption.
      + apply Z.mod_neg_bound. assumption.
      + apply Z.mod_neg_bound. assumption.
    - intros -> s. rewrite E. reflexivity.
  Qed.

  Lemma pow_swapped : S -> forall p, resolves resolve p (VInt 3) ->
    gives (transform (LArith APow p) (VInt 2)) (VInt 9) /\
    ~ gives (transform (LArith APow p) (VInt 2)) (VInt 8).
  Proof.
    intros s0 p Hr.
    assert (G : gives (transform (LArith APow p) (VInt 2)) (VInt 9)).
    { intros s. cbn [leaf_transform]. unfold t_arith. cbn [is_number]. unfold bind.
      rewrite Hr. reflexivity. }
    split; [exact G|]. intros H. specialize (H s0). rewrite (G s0) in H. discriminate H.
  Qed.
End Arith.
