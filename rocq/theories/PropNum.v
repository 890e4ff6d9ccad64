(** PropNum.v -- C13, C14 and C51: the number modifiers.

    [S] is the program state and [resolve] evaluates a modifier's parameter, both
    arbitrary; [s0] only says that there is a state. *)
From Coq Require Import QArith Qabs.
From Verif Require Import Base Mon Values LeafModel LeafSpec LeafNumProofs.
Open Scope Z_scope.

(** C13: each number check accepts exactly the numbers that satisfy its relation and
    rejects the others. *)
Theorem C13_number_checks_decide :
  forall (S P : Type) (s0 : S) oeq (resolve : P -> st S value) vexc l holds,
    claims resolve l holds ->
    forall v x, number v x -> ordered x ->
      decides vexc (leaf_validate oeq resolve vexc l v) (holds x).
Proof.
  exact (fun S P s0 oeq resolve vexc =>
           @number_validators S P oeq resolve vexc s0).
Qed.
Print Assumptions C13_number_checks_decide.

(** C13: [gte] and [lte] are the same checks under another name. *)
Theorem C13_gte_lte :
  forall (S P : Type) (s0 : S) oeq (resolve : P -> st S value) vexc p w b,
    resolves resolve p w -> number w b -> ordered b ->
    forall v x, number v x -> ordered x ->
      decides vexc (leaf_validate oeq resolve vexc (types_gte p) v) (at_most b x) /\
      decides vexc (leaf_validate oeq resolve vexc (types_lte p) v) (at_most x b).
Proof.
  exact (fun S P s0 oeq resolve vexc p w b Hr Hb Ob v x Hv Ox =>
    conj (@number_validators S P oeq resolve vexc s0 _ _ (cl_min _ p w b Hr Hb Ob) v x Hv Ox)
         (@number_validators S P oeq resolve vexc s0 _ _ (cl_max _ p w b Hr Hb Ob) v x Hv Ox)).
Qed.
Print Assumptions C13_gte_lte.

(** C13: a value that is no int and no float (a bool, a string, None, ...) is accepted. *)
Theorem C13_other_values_pass :
  forall (S P : Type) oeq (resolve : P -> st S value) vexc l holds,
    claims resolve l holds ->
    forall v, (forall x, ~ number v x) -> accepts (leaf_validate oeq resolve vexc l v).
Proof.
  exact (fun S P oeq resolve vexc l holds H v Hv =>
    @non_number_passes S P oeq resolve vexc l holds H v
      (not_number_false v Hv)).
Qed.
Print Assumptions C13_other_values_pass.

(** C13, exception: nan satisfies no relation with any bound, and yet is accepted. *)
Theorem C13_nan_passes_refuted :
  (forall (S P : Type) oeq (resolve : P -> st S value) vexc l holds,
    claims resolve l holds -> accepts (leaf_validate oeq resolve vexc l (VFloat FNan))) /\
  (forall b, ~ at_most b XNan /\ ~ at_most XNan b /\ ~ below b XNan /\ ~ below XNan b).
Proof. exact (conj (fun S P oeq resolve vexc => @nan_passes S P oeq resolve vexc) nan_unordered). Qed.
Print Assumptions C13_nan_passes_refuted.

(** C13: even and odd decide parity of ints and let every other value pass. *)
Theorem C13_parity :
  forall (S P : Type) (s0 : S) oeq (resolve : P -> st S value) vexc,
    (forall z, decides vexc (leaf_validate oeq resolve vexc LEven (VInt z)) (Z.Even z) /\
               decides vexc (leaf_validate oeq resolve vexc LOdd (VInt z)) (Z.Odd z)) /\
    (forall v, (forall z, v <> VInt z) ->
       accepts (leaf_validate oeq resolve vexc LEven v) /\
       accepts (leaf_validate oeq resolve vexc LOdd v)).
Proof.
  exact (fun S P s0 oeq resolve vexc =>
    conj (fun z => conj (@even_decides S P oeq resolve vexc s0 z)
                        (@odd_decides S P oeq resolve vexc s0 z))
         (@parity_skips S P oeq resolve vexc)).
Qed.
Print Assumptions C13_parity.

(** A concrete case: range(1, 2.5) with constants, 3 rejected and 2 accepted. *)
Definition const_resolve (v : value) : st unit value := ret v.

Example C13_example :
  claims const_resolve (LRange (VInt 1) (VFloat (FFin (5 # 2))))
    (fun x => at_most (XFin 1) x /\ at_most x (XFin (5 # 2))) /\
  rejects (fun m => EValidation [("age", m)]%string)
    (leaf_validate Nat.eqb const_resolve (fun m => EValidation [("age", m)]%string)
       (LRange (VInt 1) (VFloat (FFin (5 # 2)))) (VInt 3)) /\
  accepts (leaf_validate Nat.eqb const_resolve (fun m => EValidation [("age", m)]%string)
       (LRange (VInt 1) (VFloat (FFin (5 # 2)))) (VInt 2)).
Proof.
  split; [|split].
  - apply (cl_range const_resolve (VInt 1) (VFloat (FFin (5 # 2))) (VInt 1)
             (VFloat (FFin (5 # 2))) (XFin 1) (XFin (5 # 2)));
      try (intros s; reflexivity); try discriminate; constructor.
  - exists "value is not less than or equal"%string. intros s. reflexivity.
  - intros s. reflexivity.
Qed.

(** C14: lowerbond and upperbond give the number itself when it is inside the bound and
    the bound otherwise. *)
Theorem C14_clamps :
  forall (S P : Type) other_str farith (resolve : P -> st S value) vexc p w b v x,
    resolves resolve p w -> number w b -> number v x -> ordered b -> ordered x ->
    let low := leaf_transform other_str farith resolve vexc (LLowerbond p) v in
    let high := leaf_transform other_str farith resolve vexc (LUpperbond p) v in
    (at_most b x -> gives low v) /\ (below x b -> gives low w) /\
    (at_most x b -> gives high v) /\ (below b x -> gives high w).
Proof.
  exact (fun S P other_str farith resolve vexc p w b v x Hr Hb Hv Ob Ox =>
    let '(conj A B) := @lowerbond_clamps S P other_str farith resolve vexc p w b v x Hr Hb Hv Ob Ox in
    let '(conj C D) := @upperbond_clamps S P other_str farith resolve vexc p w b v x Hr Hb Hv Ob Ox in
    conj A (conj B (conj C D))).
Qed.
Print Assumptions C14_clamps.

(** C14: applying a clamp twice changes nothing (nan included). *)
Theorem C14_idempotent :
  forall (S P : Type) (s0 : S) other_str farith (resolve : P -> st S value) vexc p w b v r,
    resolves resolve p w -> number w b -> is_number v = true ->
    let low := leaf_transform other_str farith resolve vexc (LLowerbond p) in
    let high := leaf_transform other_str farith resolve vexc (LUpperbond p) in
    (gives (low v) r -> gives (low r) r) /\ (gives (high v) r -> gives (high r) r).
Proof.
  exact (fun S P s0 other_str farith resolve vexc p w b v r Hr Hb Hv =>
    conj (@lowerbond_idem S P other_str farith resolve vexc s0 p w b v r Hr Hb Hv)
         (@upperbond_idem S P other_str farith resolve vexc s0 p w b v r Hr Hb Hv)).
Qed.
Print Assumptions C14_idempotent.

(** C14: lowerbond(a) then upperbond(b) with a <= b yields a number that passes
    range(a, b). *)
Theorem C14_chain_passes_range :
  forall (S P : Type) (s0 : S) oeq other_str farith (resolve : P -> st S value) vexc
         p q w u a b v,
    resolves resolve p w -> number w a -> ordered a ->
    resolves resolve q u -> number u b -> ordered b -> at_most a b ->
    is_number v = true ->
    exists r1 r2,
      gives (leaf_transform other_str farith resolve vexc (LLowerbond p) v) r1 /\
      gives (leaf_transform other_str farith resolve vexc (LUpperbond q) r1) r2 /\
      is_number r2 = true /\
      accepts (leaf_validate oeq resolve vexc (LRange p q) r2).
Proof.
  exact (fun S P s0 oeq other_str farith resolve vexc =>
    @clamp_chain S P oeq other_str farith resolve vexc s0).
Qed.
Print Assumptions C14_chain_passes_range.

(** C14: values that are no numbers are left alone. *)
Theorem C14_others_unchanged :
  forall (S P : Type) other_str farith (resolve : P -> st S value) vexc p v,
    (forall x, ~ number v x) ->
    gives (leaf_transform other_str farith resolve vexc (LLowerbond p) v) v /\
    gives (leaf_transform other_str farith resolve vexc (LUpperbond p) v) v.
Proof.
  exact (fun S P other_str farith resolve vexc p v Hv =>
    @clamp_skips S P other_str farith resolve vexc p v (not_number_false v Hv)).
Qed.
Print Assumptions C14_others_unchanged.

Definition no_float_arith (op : arith) (a b : value) : res value := Err ETypeError.

Example C14_example :
  resolves const_resolve (VInt 3) (VInt 3) /\ number (VFloat (FFin (1 # 2))) (XFin (1 # 2)) /\
  below (XFin (1 # 2)) (XFin (inject_Z 3)) /\
  gives (leaf_transform (fun _ => ""%string) no_float_arith const_resolve
           (fun m => EValidation [("x", m)]%string) (LLowerbond (VInt 3))
           (VFloat (FFin (1 # 2)))) (VInt 3).
Proof. repeat split; try constructor; reflexivity. Qed.

(** C51: floor, ceil and round give the greatest int not above, the least int not below,
    and a nearest int (the even one of two), for every finite float. *)
Theorem C51_floor :
  forall (S P : Type) (s0 : S) other_str farith (resolve : P -> st S value) vexc q z,
    gives (leaf_transform other_str farith resolve vexc LFloor (VFloat (FFin q))) (VInt z) <->
    (inject_Z z <= q < inject_Z (z + 1))%Q.
Proof. exact (fun S P s0 o f r e => @floor_spec S P o f r e s0). Qed.
Print Assumptions C51_floor.

Theorem C51_ceil :
  forall (S P : Type) (s0 : S) other_str farith (resolve : P -> st S value) vexc q z,
    gives (leaf_transform other_str farith resolve vexc LCeil (VFloat (FFin q))) (VInt z) <->
    (inject_Z (z - 1) < q <= inject_Z z)%Q.
Proof. exact (fun S P s0 o f r e => @ceil_spec S P o f r e s0). Qed.
Print Assumptions C51_ceil.

Theorem C51_round :
  forall (S P : Type) (s0 : S) other_str farith (resolve : P -> st S value) vexc q,
    exists z,
      gives (leaf_transform other_str farith resolve vexc LRound (VFloat (FFin q))) (VInt z) /\
      (Qabs (q - inject_Z z) <= 1 # 2)%Q /\
      ((Qabs (q - inject_Z z) == 1 # 2)%Q -> Z.Even z).
Proof. exact (fun S P s0 o f r e => @round_total S P o f r e s0). Qed.
Print Assumptions C51_round.

Theorem C51_ints_unchanged :
  forall (S P : Type) other_str farith (resolve : P -> st S value) vexc z,
    gives (leaf_transform other_str farith resolve vexc LFloor (VInt z)) (VInt z) /\
    gives (leaf_transform other_str farith resolve vexc LCeil (VInt z)) (VInt z) /\
    gives (leaf_transform other_str farith resolve vexc LRound (VInt z)) (VInt z).
Proof. exact (fun S P o f r e => @rounding_int S P o f r e). Qed.
Print Assumptions C51_ints_unchanged.

(** Infinities and NaN have no nearest int: rounding them raises OverflowError and
    ValueError.  Values that are not numbers are left alone. *)
Theorem C51_not_finite :
  forall (S P : Type) other_str farith (resolve : P -> st S value) vexc l,
    l = LFloor \/ l = LCeil \/ l = LRound ->
    let run v := leaf_transform other_str farith resolve vexc l v in
    (forall n s, run (VFloat (FInf n)) s = (Err EOverflow, s)) /\
    (forall s, run (VFloat FNan) s = (Err EValueError, s)) /\
    (forall v, (forall z, v <> VInt z) -> (forall x, v <> VFloat x) -> gives (run v) v).
Proof.
  intros S P o f r e l H run. subst run.
  destruct H as [-> | [-> | ->]]; (split; [reflexivity | split; [reflexivity |]]);
    intros v Hi Hf s; destruct v; try reflexivity;
    try (exfalso; eapply Hi; reflexivity); exfalso; eapply Hf; reflexivity.
Qed.
Print Assumptions C51_not_finite.

Example C51_not_finite_example :
  forall (S P : Type) (s : S) other_str farith (resolve : P -> st S value) vexc,
    leaf_transform other_str farith resolve vexc LRound (VFloat (FInf true)) s =
      (Err EOverflow, s) /\
    leaf_transform other_str farith resolve vexc LCeil (VStr "1.5") s = (Ok (VStr "1.5"), s).
Proof.
  intros S P s o f r e. split.
  - apply (C51_not_finite S P o f r e LRound). auto.
  - apply (C51_not_finite S P o f r e LCeil); [auto | discriminate | discriminate].
Qed.

(** abs gives the one of a number and its opposite that is not negative, and leaves
    other values alone. *)
Theorem C51_abs :
  forall (S P : Type) other_str farith (resolve : P -> st S value) vexc,
    let run v := leaf_transform other_str farith resolve vexc LAbs v in
    (forall z, exists z', gives (run (VInt z)) (VInt z') /\ 0 <= z' /\ (z' = z \/ z' = - z)) /\
    (forall q, exists q', gives (run (VFloat (FFin q))) (VFloat (FFin q')) /\
                          (0 <= q' /\ (q' == q \/ q' == - q))%Q) /\
    (forall n, gives (run (VFloat (FInf n))) (VFloat (FInf false))) /\
    (forall v, ~ (exists x, number v x) -> gives (run v) v).
Proof.
  intros S P o f r e run. repeat split.
  - intros z. exists (Z.abs z). split; [intros s; reflexivity|]. lia.
  - intros q. exists (Qabs q). split; [intros s; reflexivity|].
    split; [apply Qabs_nonneg|]. destruct (Qlt_le_dec q 0) as [H|H].
    + right. apply Qabs_neg, Qlt_le_weak, H.
    + left. apply Qabs_pos, H.
  - intros v N s. destruct v as [| |z|[q|[]|]| | | | | | | |]; try reflexivity; exfalso; apply N;
      [exists (XFin (inject_Z z))|exists (XFin q)|exists XNegInf]; constructor.
Qed.
Print Assumptions C51_abs.

Example C51_example :
  gives (leaf_transform (fun _ => ""%string) no_float_arith const_resolve
           (fun m => EValidation [("x", m)]%string) LRound (VFloat (FFin (5 # 2)))) (VInt 2) /\
  gives (leaf_transform (fun _ => ""%string) no_float_arith const_resolve
           (fun m => EValidation [("x", m)]%string) LFloor (VFloat (FFin (-5 # 2)))) (VInt (-3)).
Proof. split; intros s; reflexivity. Qed.

(** C52: the arithmetic modifiers on ints: add(n), sub(n), mul(n) and mod(n) compute
    v + n, v - n, v * n and the remainder of v by n with the sign of n. *)
Theorem C52_int_arithmetic :
  forall (S P : Type) other_str farith (resolve : P -> st S value) vexc p n v,
    resolves resolve p (VInt n) ->
    let run op := leaf_transform other_str farith resolve vexc (LArith op p) (VInt v) in
    gives (run AAdd) (VInt (v + n)) /\ gives (run ASub) (VInt (v - n)) /\
    gives (run AMul) (VInt (v * n)) /\
    (n <> 0 -> exists r q, gives (run AMod) (VInt r) /\ v = q * n + r /\
                         (0 < n -> 0 <= r < n) /\ (n < 0 -> n < r <= 0)) /\
    (n = 0 -> raises (run AMod) EZeroDivision).
Proof. exact (fun S P o f r e => @int_arith S P o f r e). Qed.
Print Assumptions C52_int_arithmetic.

(** Division by zero raises and any other division is the float division of v by n; pow(n)
    is the int n to the power of v, or the float power when v is negative.  Values that
    are not numbers are left alone by all of them. *)
Theorem C52_div_pow :
  forall (S P : Type) other_str farith (resolve : P -> st S value) vexc p n,
    resolves resolve p (VInt n) ->
    let run op v := leaf_transform other_str farith resolve vexc (LArith op p) v in
    (forall v, n = 0 -> raises (run ADiv (VInt v)) EZeroDivision) /\
    (forall v s, n <> 0 -> run ADiv (VInt v) s = (farith ADiv (VInt v) (VInt n), s)) /\
    (forall v, 0 <= v -> gives (run APow (VInt v)) (VInt (n ^ v))) /\
    (forall v s, v < 0 -> run APow (VInt v) s = (farith APow (VInt n) (VInt v), s)) /\
    (forall op v, ~ (exists x, number v x) -> gives (run op v) v).
Proof.
  intros S P o f r e p n H run. subst run. unfold resolves in H.
  split; [| split; [| split; [| split]]].
  - intros v -> s. cbn. unfold t_arith, bind. cbn. rewrite H. reflexivity.
  - intros v s Hn. cbn. unfold t_arith, bind. cbn. rewrite H. cbn.
    rewrite (proj2 (Z.eqb_neq n 0) Hn). unfold lift. destruct (f _ _ _); reflexivity.
  - intros v Hv s. cbn. unfold t_arith, bind. cbn. rewrite H. cbn.
    rewrite (proj2 (Z.ltb_ge v 0) Hv). reflexivity.
  - intros v s Hv. cbn. unfold t_arith, bind. cbn. rewrite H. cbn.
    rewrite (proj2 (Z.ltb_lt v 0) Hv). unfold lift. destruct (f _ _ _); reflexivity.
  - intros op v Hv s. cbn. unfold t_arith.
    destruct v as [| |z|[q|[]|]| | | | | | | |]; try reflexivity; exfalso; apply Hv;
      [exists (XFin (inject_Z z))|exists (XFin q)|exists XNegInf|exists XPosInf|exists XNan];
      constructor.
Qed.
Print Assumptions C52_div_pow.

Example C52_div_pow_example :
  forall (S P : Type) other_str farith (resolve : P -> st S value) vexc p,
    resolves resolve p (VInt (-2)) ->
    gives (leaf_transform other_str farith resolve vexc (LArith APow p) (VInt 3)) (VInt (-8)) /\
    gives (leaf_transform other_str farith resolve vexc (LArith ADiv p) (VStr "a")) (VStr "a").
Proof.
  intros S P o f r e p H. destruct (C52_div_pow S P o f r e p (-2) H) as (_ & _ & A & _ & B).
  split; [apply (A 3); lia | apply B]. intros [x X]. inversion X.
Qed.

(** C52, exception: pow(n) computes n to the power of the value, not the value to the
    power of n. *)
Theorem C52_pow_refuted :
  forall (S P : Type) (s0 : S) other_str farith (resolve : P -> st S value) vexc p,
    resolves resolve p (VInt 3) ->
    gives (leaf_transform other_str farith resolve vexc (LArith APow p) (VInt 2)) (VInt 9) /\
    ~ gives (leaf_transform other_str farith resolve vexc (LArith APow p) (VInt 2)) (VInt 8).
Proof. exact (fun S P s0 o f r e => @pow_swapped S P o f r e s0). Qed.
Print Assumptions C52_pow_refuted.
