(** PyInt.v -- Python's [int(s)] of a string with ASCII digits.  This models the
    language, not the repository. *)
From Verif Require Import Base PyStr KeypathModel.
From Coq Require Import DecimalString Decimal DecimalPos DecimalN DecimalZ.
Open Scope Z_scope.
Open Scope list_scope.

Definition digit_val (c : ascii) : Z := Z.of_nat (nat_of_ascii c) - 48.

(** The digits after the first one; an underscore may stand between two digits. *)
Fixpoint digits_go (acc : Z) (l : list ascii) : option Z :=
  match l with
  | [] => Some acc
  | c :: r =>
      if is_digit c then digits_go (10 * acc + digit_val c) r
      else if Ascii.eqb c "_" then
        match r with
        | d :: r' => if is_digit d then digits_go (10 * acc + digit_val d) r' else None
        | [] => None
        end
      else None
  end.

Definition read_digits (l : list ascii) : option Z :=
  match l with
  | c :: r => if is_digit c then digits_go (digit_val c) r else None
  | [] => None
  end.

(** [int(s)]; [None] for ValueError: white space around it, a sign, and digits *)
Definition py_int (s : string) : option Z :=
  match chars (str_strip s) with
  | c :: r =>
      if Ascii.eqb c "-" then option_map Z.opp (read_digits r)
      else if Ascii.eqb c "+" then read_digits r
      else read_digits (c :: r)
  | [] => None
  end.

(** ** [int(str(z)) == z] *)

Lemma digits_cons : forall acc c r, is_digit c = true ->
  digits_go acc (c :: r) = digits_go (10 * acc + digit_val c) r.
Proof. intros acc c r H. cbn [digits_go]. rewrite H. reflexivity. Qed.

Lemma digits_pos : forall u acc,
  digits_go (Zpos acc) (chars (NilEmpty.string_of_uint u)) = Some (Zpos (Pos.of_uint_acc u acc)).
Proof.
  induction u; intros acc; cbn [NilEmpty.string_of_uint list_ascii_of_string];
    [reflexivity|..]; rewrite digits_cons by reflexivity;
    cbn [Pos.of_uint_acc]; rewrite <- IHu; f_equal;
    match goal with |- _ = Zpos ?e => rewrite ?Pos2Z.inj_add, ?Pos2Z.inj_mul end;
    match goal with |- context [digit_val ?c] =>
      let v := eval vm_compute in (digit_val c) in change (digit_val c) with v end; lia.
Qed.

Lemma digits_zero : forall u,
  digits_go 0 (chars (NilEmpty.string_of_uint u)) = Some (Z.of_N (Pos.of_uint u)).
Proof.
  induction u; cbn [NilEmpty.string_of_uint list_ascii_of_string];
    [reflexivity|..]; rewrite digits_cons by reflexivity;
    cbn [Pos.of_uint Z.of_N]; [exact IHu|..];
    rewrite <- digits_pos; reflexivity.
Qed.

Lemma read_uint : forall u, u <> Nil ->
  read_digits (chars (NilEmpty.string_of_uint u)) = Some (Z.of_uint u).
Proof.
  intros u N. change (Z.of_uint u) with (Z.of_N (Pos.of_uint u)).
  rewrite <- (digits_zero u). destruct u; [congruence|..]; reflexivity.
Qed.

Definition digit_string (s : string) : Prop :=
  s <> ""%string /\ Forall (fun c => is_digit c = true) (chars s).

Lemma uint_digits : forall u,
  Forall (fun c => is_digit c = true) (chars (NilEmpty.string_of_uint u)).
Proof. induction u; cbn; constructor; auto. Qed.

Lemma digit_not_space : forall c, is_digit c = true -> is_space c = false.
Proof.
  intros c H. unfold is_digit, between in H. apply andb_prop in H. destruct H as [A B].
  apply Nat.leb_le in A. apply Nat.leb_le in B. cbn in A, B.
  unfold is_space. destruct (Nat.leb 9 _ && Nat.leb _ 13) eqn:E1.
  { apply andb_prop in E1. destruct E1 as [_ E1]. apply Nat.leb_le in E1. lia. }
  destruct (Nat.leb 28 _ && Nat.leb _ 32) eqn:E2.
  { apply andb_prop in E2. destruct E2 as [_ E2]. apply Nat.leb_le in E2. lia. }
  cbn. apply orb_false_iff. split; apply Nat.eqb_neq; lia.
Qed.

Lemma strip_solid : forall l, l <> [] ->
  (forall c r, l = c :: r -> is_space c = false) ->
  (forall c r, l = r ++ [c] -> is_space c = false) ->
  str_strip (unchars l) = unchars l.
Proof.
  intros l N H1 H2. unfold str_strip.
  rewrite list_ascii_of_string_of_list_ascii. f_equal.
  assert (E : lstrip l = l).
  { destruct l as [|c r]; [congruence|]. cbn. rewrite (H1 c r eq_refl). reflexivity. }
  rewrite E.
  destruct (exists_last N) as (r & c & ->).
  rewrite rev_app_distr. cbn. rewrite (H2 c r eq_refl). cbn.
  rewrite rev_involutive. reflexivity.
Qed.

Lemma nilzero_of : forall u, u <> Nil ->
  NilZero.string_of_uint u = NilEmpty.string_of_uint u.
Proof. intros u N. destruct u; [congruence|..]; reflexivity. Qed.

Lemma to_uint_not_nil : forall p, Pos.to_uint p <> Nil.
Proof.
  intros p E. pose proof (DecimalPos.Unsigned.of_to p) as H. rewrite E in H. discriminate H.
Qed.

Lemma last_forall : forall (A : Type) (P : A -> Prop) r c, Forall P (r ++ [c]) -> P c.
Proof.
  intros A P r c H. apply Forall_app in H. destruct H as [_ H]. inversion H. assumption.
Qed.

Theorem int_of_str : forall z, py_int (string_of_Z z) = Some z.
Proof.
  intros z. unfold string_of_Z.
  destruct z as [|p|p].
  - reflexivity.
  - cbn [Z.to_int NilZero.string_of_int].
    assert (N := to_uint_not_nil p). rewrite (nilzero_of _ N).
    set (u := Pos.to_uint p) in *.
    assert (F := uint_digits u).
    assert (NE : chars (NilEmpty.string_of_uint u) <> []) by (destruct u; [congruence|..]; discriminate).
    unfold py_int.
    rewrite <- (string_of_list_ascii_of_string (NilEmpty.string_of_uint u)).
    rewrite strip_solid; [|exact NE| |].
    2:{ intros c r E. rewrite E in F. inversion F. apply digit_not_space. assumption. }
    2:{ intros c r E. rewrite E in F. apply digit_not_space. exact (last_forall _ (fun c => is_digit c = true) r c F). }
    rewrite list_ascii_of_string_of_list_ascii.
    assert (R := read_uint u N).
    assert (V : Z.of_uint u = Zpos p).
    { unfold Z.of_uint, u. rewrite DecimalPos.Unsigned.of_to. reflexivity. }
    rewrite V in R.
    destruct (chars (NilEmpty.string_of_uint u)) as [|c r] eqn:E; [congruence|].
    inversion F as [|? ? Hc F']; subst.
    assert (M : Ascii.eqb c "-" = false) by (apply Ascii.eqb_neq; intros ->; discriminate Hc).
    assert (Pl : Ascii.eqb c "+" = false) by (apply Ascii.eqb_neq; intros ->; discriminate Hc).
    rewrite M, Pl. exact R.
  - cbn [Z.to_int NilZero.string_of_int].
    assert (N := to_uint_not_nil p). rewrite (nilzero_of _ N).
    set (u := Pos.to_uint p) in *.
    assert (F := uint_digits u).
    assert (NE : chars (NilEmpty.string_of_uint u) <> []) by (destruct u; [congruence|..]; discriminate).
    unfold py_int.
    rewrite <- (string_of_list_ascii_of_string (String "-" (NilEmpty.string_of_uint u))).
    cbn [list_ascii_of_string].
    rewrite strip_solid; [|discriminate| |].
    2:{ intros c r E. injection E as <- _. reflexivity. }
    2:{ intros c r E. destruct r as [|d r].
        - cbn in E. injection E as _ E. congruence.
        - cbn in E. injection E as _ E. rewrite E in F.
          apply digit_not_space. exact (last_forall _ (fun c => is_digit c = true) r c F). }
    rewrite list_ascii_of_string_of_list_ascii.
    assert (R := read_uint u N).
    assert (V : Z.of_uint u = Zpos p).
    { unfold Z.of_uint, u. rewrite DecimalPos.Unsigned.of_to. reflexivity. }
    rewrite V in R. cbn iota. change (Ascii.eqb "-" "-") with true. cbn iota.
    rewrite R. reflexivity.
Qed.
