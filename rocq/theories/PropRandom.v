(** PropRandom.v -- C74: the modifiers that make a random value. *)
From Coq Require Import QArith Permutation.
From Verif Require Import Base Mon Values PyStr LeafModel LeafSpec RandomModel RandomSpec.
Open Scope list_scope.
Open Scope Z_scope.

(** ** Lemmas *)

Lemma swap_remove_perm : forall A (pool : list A) j x, nth_error pool j = Some x ->
  Permutation pool (x :: swap_remove j pool).
Proof.
  intros A pool j x H. unfold swap_remove.
  destruct (rev pool) as [|y r] eqn:E.
  { apply (f_equal (@rev A)) in E. rewrite rev_involutive in E. subst pool. destruct j; discriminate H. }
  apply (f_equal (@rev A)) in E. rewrite rev_involutive in E. cbn in E. subst pool.
  set (l := rev r) in *. destruct (Nat.eqb j (length l)) eqn:Q.
  - apply Nat.eqb_eq in Q. subst j. rewrite nth_error_app2 in H by lia. rewrite Nat.sub_diag in H.
    injection H as <-. symmetry. apply Permutation_cons_append.
  - apply Nat.eqb_neq in Q.
    assert (L : (j < length l)%nat).
    { assert (j < length (l ++ [y]))%nat by (apply nth_error_Some; congruence).
      rewrite app_length in H0. cbn in H0. lia. }
    rewrite nth_error_app1 in H by exact L.
    destruct (nth_error_split _ _ H) as (a & b & -> & La).
    subst j. rewrite firstn_app, firstn_all, Nat.sub_diag. cbn [firstn]. rewrite app_nil_r.
    assert (SK : skipn (S (length a)) (a ++ x :: b) = b).
    { change (S (length a)) with (1 + length a)%nat. rewrite Nat.add_comm.
      rewrite skipn_app. rewrite skipn_all2 by lia.
      replace (length a + 1 - length a)%nat with 1%nat by lia. reflexivity. }
    rewrite SK. rewrite <- app_assoc. cbn [app].
    transitivity (x :: a ++ b ++ [y]).
    + symmetry. apply Permutation_middle.
    + constructor. apply Permutation_app_head. symmetry. apply Permutation_cons_append.
Qed.

Lemma sample_loop_sound : forall S A (rb : nat -> st S nat), source rb -> forall k (pool : list A) s,
  (k <= length pool)%nat -> NoDup pool ->
  exists l s', sample_loop rb k pool s = (Ok l, s') /\ length l = k /\ NoDup l /\ incl l pool.
Proof.
  intros S A rb SRC. induction k as [|k IH]; intros pool s L N.
  - exists [], s. split; [reflexivity|]. split; [reflexivity|]. split; [constructor|]. intros x [].
  - cbn [sample_loop]. unfold bind at 1.
    destruct (SRC (length pool) s) as (j & s1 & E & J); [lia|]. rewrite E.
    destruct (nth_error pool j) as [x|] eqn:X; [|apply nth_error_None in X; lia].
    pose proof (swap_remove_perm _ _ _ _ X) as PM.
    assert (N' : NoDup (x :: swap_remove j pool)) by (apply (Permutation_NoDup PM N)).
    assert (L' : (k <= length (swap_remove j pool))%nat).
    { apply Permutation_length in PM. cbn in PM. lia. }
    inversion N'; subst.
    destruct (IH (swap_remove j pool) s1 L' H2) as (l & s2 & E2 & LL & NL & IL).
    exists (x :: l), s2. unfold bind. rewrite E2. split; [reflexivity|].
    split; [cbn; congruence|]. split.
    + constructor; [|exact NL]. intros IN. apply H1, IL, IN.
    + intros y [<-|IN].
      * apply (Permutation_in _ (Permutation_sym PM)). left. reflexivity.
      * apply (Permutation_in _ (Permutation_sym PM)). right. apply IL, IN.
Qed.

Lemma any_is_source : source any_source.
Proof.
  intros n s L. destruct s as [|i r]; cbn.
  - exists 0%nat, []. split; [reflexivity|exact L].
  - exists (if Nat.ltb i n then i else 0%nat), r. split; [reflexivity|].
    destruct (Nat.ltb i n) eqn:E; [apply Nat.ltb_lt; exact E|exact L].
Qed.

Lemma sample_loop_complete : forall A (t pool : list A), NoDup t -> NoDup pool -> incl t pool ->
  exists draws s', sample_loop any_source (length t) pool draws = (Ok t, s').
Proof.
  induction t as [|x t IH]; intros pool NT NP I.
  - exists [], []. reflexivity.
  - inversion NT; subst.
    destruct (In_nth_error pool x (I x (or_introl eq_refl))) as (j & J).
    pose proof (swap_remove_perm _ _ _ _ J) as PM.
    assert (NP' : NoDup (x :: swap_remove j pool)) by (apply (Permutation_NoDup PM NP)).
    inversion NP'; subst.
    destruct (IH (swap_remove j pool)) as (d & s' & E); [assumption|assumption| |].
    + intros y IN. assert (Y : In y (x :: swap_remove j pool)).
      { apply (Permutation_in _ PM). apply I. right. exact IN. }
      destruct Y as [<-|Y]; [contradiction|exact Y].
    + exists (j :: d), s'. cbn [length sample_loop]. unfold bind at 1. cbn [any_source].
      assert (LT : Nat.ltb j (length pool) = true).
      { apply Nat.ltb_lt. apply nth_error_Some. congruence. }
      rewrite LT, J. unfold bind. rewrite E. reflexivity.
Qed.

(** The three alphabets *)
Inductive makes {S P} (resolve : P -> st S value) (rb : nat -> st S nat) :
  (P -> value -> st S value) -> string -> Prop :=
| mk_digits : makes resolve rb (t_randomdigits resolve rb) "0123456789"
| mk_alnums : makes resolve rb (t_randomalnums resolve rb)
    "abcdefghijklmnopqrstuvwxyzABCDEFGHIJKLMNOPQRSTUVWXYZ0123456789"
| mk_alnumpuncs : makes resolve rb (t_randomalnumpuncs resolve rb)
    "!""#$%&'()*+,-./:;<=>?@[\]^_`{|}~abcdefghijklmnopqrstuvwxyzABCDEFGHIJKLMNOPQRSTUVWXYZ0123456789".

Fixpoint nodupb (l : list ascii) : bool :=
  match l with [] => true | c :: r => negb (existsb (Ascii.eqb c) r) && nodupb r end.
Lemma nodupb_ok : forall l, nodupb l = true -> NoDup l.
Proof.
  induction l as [|c r IH]; intros H; constructor; cbn in H; apply andb_prop in H; destruct H as [A B].
  - intros IN. apply negb_true_iff in A. rewrite <- not_true_iff_false in A. apply A.
    apply existsb_exists. exists c. split; [exact IN|apply Ascii.eqb_refl].
  - apply IH, B.
Qed.

Lemma makes_random : forall S P (resolve : P -> st S value) rb m a, makes resolve rb m a ->
  m = t_random resolve rb a /\ NoDup (chars a).
Proof.
  intros S P resolve rb m a H. destruct H; (split; [reflexivity|apply nodupb_ok; vm_compute; reflexivity]).
Qed.

Lemma chars_unchars_len : forall l, String.length (unchars l) = length l.
Proof. induction l; cbn; [reflexivity|f_equal; assumption]. Qed.

(** ** C74

    A length that the alphabet allows: whatever the source of randomness does and whatever
    the value was, the result is a string of that many different characters of the
    alphabet.  Other lengths raise ValueError, things that are no length TypeError. *)
Theorem C74_random_strings : forall S P (resolve : P -> st S value) rb m a p,
  source rb -> makes resolve rb m a ->
  (forall n v s, resolves resolve p (VInt (Z.of_nat n)) -> (n <= String.length a)%nat ->
     exists r s', m p v s = (Ok (VStr r), s') /\ selection a n r) /\
  (forall z v, resolves resolve p (VInt z) -> z < 0 \/ Z.of_nat (String.length a) < z ->
     raises (m p v) EValueError) /\
  (forall w v, resolves resolve p w -> (forall z, w <> VInt z) -> (forall b, w <> VBool b) ->
     raises (m p v) ETypeError).
Proof.
  intros S P resolve rb m a p SRC MK. destruct (makes_random _ _ _ _ _ _ MK) as [-> ND].
  assert (LA : length (chars a) = String.length a).
  { rewrite <- (chars_unchars_len (chars a)), string_of_list_ascii_of_string. reflexivity. }
  split; [|split].
  - intros n v s R L. unfold t_random, bind at 1. rewrite R.
    unfold sample, bind, lift. cbn [as_index].
    replace ((Z.of_nat n <? 0) || (Z.of_nat (length (chars a)) <? Z.of_nat n)) with false.
    2:{ symmetry. apply orb_false_iff. split; apply Z.ltb_ge; lia. }
    rewrite Nat2Z.id.
    destruct (sample_loop_sound S ascii rb SRC n (chars a) s ltac:(lia) ND) as (l & s' & E & LL & NL & IL).
    rewrite E. exists (unchars l), s'. split; [reflexivity|].
    split; [rewrite chars_unchars_len; exact LL|].
    rewrite list_ascii_of_string_of_list_ascii. split; [exact NL|exact IL].
  - intros z v R B s. unfold t_random, bind at 1. rewrite R.
    unfold sample, bind, lift. cbn [as_index].
    replace ((z <? 0) || (Z.of_nat (length (chars a)) <? z)) with true; [reflexivity|].
    symmetry. apply orb_true_iff. destruct B; [left|right]; apply Z.ltb_lt; lia.
  - intros w v R NI NB s. unfold t_random, bind at 1. rewrite R. unfold sample, bind, lift.
    destruct w; try reflexivity; [destruct (NB b eq_refl)|destruct (NI z eq_refl)].
Qed.
Print Assumptions C74_random_strings.

(** Every such string can come out. *)
Theorem C74_every_selection : forall (P : Type) (resolve : P -> st (list nat) value) m a p n r v,
  makes resolve any_source m a -> resolves resolve p (VInt (Z.of_nat n)) -> selection a n r ->
  source any_source /\ exists draws s', m p v draws = (Ok (VStr r), s').
Proof.
  intros P resolve m a p n r v MK R (L & N & I). split; [exact any_is_source|].
  destruct (makes_random _ _ _ _ _ _ MK) as [-> ND].
  destruct (sample_loop_complete ascii (chars r) (chars a) N ND I) as (d & s' & E).
  assert (LR : length (chars r) = n).
  { rewrite <- L, <- (chars_unchars_len (chars r)), string_of_list_ascii_of_string. reflexivity. }
  exists d, s'. unfold t_random, bind at 1. rewrite R. unfold sample, bind, lift. cbn [as_index].
  replace ((Z.of_nat n <? 0) || (Z.of_nat (length (chars a)) <? Z.of_nat n)) with false.
  2:{ symmetry. apply orb_false_iff. split; apply Z.ltb_ge; [lia|].
      assert (length (chars r) <= length (chars a))%nat by (apply NoDup_incl_length; assumption). lia. }
  rewrite Nat2Z.id, <- LR, E. rewrite string_of_list_ascii_of_string. reflexivity.
Qed.
Print Assumptions C74_every_selection.

(** Two equal characters never come out, and ten digits is all that can be had: most codes
    of a given length are impossible. *)
Theorem C74_repeats_refuted : forall S (rb : nat -> st S nat), source rb ->
  (forall v s c a b b', fst (t_randomdigits (@ret S value) rb (VInt 4) v s) <>
       Ok (VStr (a ++ String c (b ++ String c b')))) /\
  (forall v, raises (t_randomdigits (@ret S value) rb (VInt 11) v) EValueError).
Proof.
  intros S rb SRC.
  destruct (C74_random_strings S value (@ret S value) rb _ _ (VInt 4) SRC (mk_digits _ _)) as (A & _ & _).
  destruct (C74_random_strings S value (@ret S value) rb _ _ (VInt 11) SRC (mk_digits _ _)) as (_ & B & _).
  split.
  - intros v s c a b b' H.
    destruct (A 4%nat v s) as (r & s' & E & L & N & _); [intros s'; reflexivity|cbn; lia|].
    rewrite E in H. cbn [fst] in H. injection H as ->. clear - N.
    assert (AP : forall x y, chars (x ++ y) = chars x ++ chars y).
    { induction x as [|k x IH]; intros y; cbn; [reflexivity|f_equal; apply IH]. }
    rewrite AP in N. cbn [list_ascii_of_string] in N. rewrite AP in N. cbn [list_ascii_of_string] in N.
    assert (DR : forall (x y : list ascii), NoDup (x ++ y) -> NoDup y).
    { induction x as [|k x IH]; intros y H; [exact H|]. apply IH. inversion H; assumption. }
    apply DR in N. inversion N; subst. apply H1. apply in_or_app. right. left. reflexivity.
  - intros v. apply (B 11 v); [intros s; reflexivity|right; cbn; lia].
Qed.
Print Assumptions C74_repeats_refuted.

(** randomint gives an int from the lower bound up to, and without, the upper one; bounds
    in any other order are reported. *)
Lemma int_lt : forall a b, py_lt (VInt a) (VInt b) = Ok (a <? b).
Proof.
  intros a b. unfold py_lt, py_cmp. cbn [num_of]. f_equal. cbn [xlt]. unfold Qltb.
  destruct (a <? b) eqn:E.
  - apply Z.ltb_lt in E. apply negb_true_iff. apply not_true_iff_false. intros H.
    apply Qle_bool_iff in H. rewrite <- Zle_Qle in H. lia.
  - apply Z.ltb_ge in E. apply negb_false_iff. apply Qle_bool_iff. rewrite <- Zle_Qle. exact E.
Qed.

Theorem C74_randomint : forall S P (resolve : P -> st S value) vexc rb p q a b,
  source rb -> resolves resolve p (VInt a) -> resolves resolve q (VInt b) ->
  (a < b -> forall v s, exists z s',
     t_randomint resolve vexc rb p q v s = (Ok (VInt z), s') /\ a <= z < b) /\
  (b <= a -> forall v, exists msg, raises (t_randomint resolve vexc rb p q v) (vexc msg)).
Proof.
  intros S P resolve vexc rb p q a b SRC RA RB. split.
  - intros L v s. unfold t_randomint, bind. rewrite RA, RB. unfold lift. rewrite int_lt.
    replace (a <? b) with true by (symmetry; apply Z.ltb_lt; exact L). cbn [as_index].
    destruct (SRC (Z.to_nat (b - a)) s) as (i & s' & E & I); [lia|]. rewrite E.
    exists (a + Z.of_nat i), s'. split; [reflexivity|lia].
  - intros L v. eexists. intros s. unfold t_randomint, bind. rewrite RA, RB. unfold lift. rewrite int_lt.
    replace (a <? b) with false by (symmetry; apply Z.ltb_ge; exact L). reflexivity.
Qed.
Print Assumptions C74_randomint.

(** Every int of the range can come out. *)
Theorem C74_every_int : forall P (resolve : P -> st (list nat) value) vexc p q a b z v,
  resolves resolve p (VInt a) -> resolves resolve q (VInt b) -> a <= z < b ->
  exists draws s', t_randomint resolve vexc any_source p q v draws = (Ok (VInt z), s').
Proof.
  intros P resolve vexc p q a b z v RA RB L. exists [Z.to_nat (z - a)], [].
  unfold t_randomint, bind. rewrite RA, RB. unfold lift. rewrite int_lt.
  replace (a <? b) with true by (symmetry; apply Z.ltb_lt; lia). cbn [as_index any_source].
  replace (Nat.ltb (Z.to_nat (z - a)) (Z.to_nat (b - a))) with true by (symmetry; apply Nat.ltb_lt; lia).
  cbv [ret]. repeat f_equal. lia.
Qed.
Print Assumptions C74_every_int.

(** The upper bound never comes out, and equal bounds are refused with a message that says
    they are not less than or equal. *)
Theorem C74_randomint_refuted : forall S (rb : nat -> st S nat) vexc v, source rb ->
  (forall s, fst (t_randomint (@ret S value) vexc rb (VInt 1) (VInt 6) v s) <> Ok (VInt 6)) /\
  raises (t_randomint (@ret S value) vexc rb (VInt 6) (VInt 6) v) (vexc "is not less than or equal").
Proof.
  intros S rb vexc v SRC. split; [|intros s; reflexivity]. intros s H.
  destruct (C74_randomint S value (@ret S value) vexc rb (VInt 1) (VInt 6) 1 6 SRC) as [A _];
    [intros x; reflexivity|intros x; reflexivity|].
  destruct (A ltac:(lia) v s) as (z & s' & E & L). rewrite E in H. injection H as H. lia.
Qed.
Print Assumptions C74_randomint_refuted.

(** randomfloat gives a float between the bounds, in whichever order they are given. *)
Inductive finite_number : value -> Q -> Prop :=
| fn_int : forall z, finite_number (VInt z) (inject_Z z)
| fn_float : forall q, finite_number (VFloat (FFin q)) q.

Theorem C74_randomfloat : forall S P (resolve : P -> st S value) ud p q v w a b,
  unit_source ud -> resolves resolve p v -> resolves resolve q w ->
  finite_number v a -> finite_number w b ->
  forall x s, exists r s', t_randomfloat resolve ud p q x s = (Ok (VFloat (FFin r)), s') /\
    ((a <= b)%Q -> (a <= r)%Q /\ (r <= b)%Q) /\ ((b <= a)%Q -> (b <= r)%Q /\ (r <= a)%Q).
Proof.
  intros S P resolve ud p q v w a b U RA RB FA FB x s.
  assert (EA : finite v = Some a) by (destruct FA; reflexivity).
  assert (EB : finite w = Some b) by (destruct FB; reflexivity).
  destruct (U s) as (u & s' & E & U0 & U1).
  exists (a + (b - a) * u)%Q, s'. split.
  - unfold t_randomfloat, bind. rewrite RA, RB, EA, EB, E. reflexivity.
  - split; intros L; split.
    + setoid_replace a with (a + 0)%Q at 1 by ring. apply Qplus_le_compat; [apply Qle_refl|].
      apply Qmult_le_0_compat; [|exact U0]. apply Qle_minus_iff in L. exact L.
    + setoid_replace b with (a + (b - a) * 1)%Q at 2 by ring.
      apply Qplus_le_compat; [apply Qle_refl|]. rewrite !(Qmult_comm (b - a)).
      apply Qmult_le_compat_r; [apply Qlt_le_weak, U1|]. apply Qle_minus_iff in L. exact L.
    + assert (L' : (0 <= a - b)%Q) by (apply Qle_minus_iff in L; exact L).
      setoid_replace b with (a + - ((a - b) * 1))%Q at 1 by ring.
      setoid_replace (a + (b - a) * u)%Q with (a + - ((a - b) * u))%Q by ring.
      apply Qplus_le_compat; [apply Qle_refl|]. apply Qopp_le_compat.
      rewrite !(Qmult_comm (a - b)). apply Qmult_le_compat_r; [apply Qlt_le_weak, U1|exact L'].
    + assert (L' : (0 <= a - b)%Q) by (apply Qle_minus_iff in L; exact L).
      setoid_replace (a + (b - a) * u)%Q with (a + - ((a - b) * u))%Q by ring.
      setoid_replace a with (a + - 0)%Q at 3 by ring.
      apply Qplus_le_compat; [apply Qle_refl|]. apply Qopp_le_compat.
      apply Qmult_le_0_compat; assumption.
Qed.
Print Assumptions C74_randomfloat.

(** A source exists, and a code of four digits is drawn with it. *)
Example C74_example : source any_source /\
  makes (@ret (list nat) value) any_source (t_randomdigits (@ret (list nat) value) any_source) "0123456789" /\
  t_randomdigits (@ret (list nat) value) any_source (VInt 4) VNone [7; 0; 7; 2]%nat = (Ok (VStr "7092"), []) /\
  selection "0123456789" 4 "7092" /\
  t_randomint (@ret (list nat) value) (fun m => EValidation [("n", m)]%string) any_source (VInt 1) (VInt 6) VNone [4]%nat
    = (Ok (VInt 5), []).
Proof.
  split; [exact any_is_source|]. split; [constructor|]. split; [vm_compute; reflexivity|]. split; [|vm_compute; reflexivity].
  split; [reflexivity|]. split; [apply nodupb_ok; reflexivity|].
  intros c H. cbn in H. cbn. intuition.
Qed.
