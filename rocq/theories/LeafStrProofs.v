(** LeafStrProofs.v -- proofs about the string, list and membership modifiers. *)
From Coq Require Import QArith.
From Verif Require Import Base Mon PyList KeypathModel Values PyStr CalModel LeafModel
  LeafSpec LeafNumProofs.
Open Scope Z_scope.
Open Scope list_scope.

(** ** Strings and lists of characters *)
Lemma chars_app : forall a b, chars (a ++ b)%string = chars a ++ chars b.
Proof. induction a as [|c a IH]; intros b; simpl; [reflexivity|]. rewrite IH. reflexivity. Qed.

Lemma unchars_app : forall a b, unchars (a ++ b) = (unchars a ++ unchars b)%string.
Proof. induction a as [|c a IH]; intros b; simpl; [reflexivity|]. rewrite IH. reflexivity. Qed.

Lemma chars_unchars : forall l, chars (unchars l) = l.
Proof. exact list_ascii_of_string_of_list_ascii. Qed.
Lemma unchars_chars : forall s, unchars (chars s) = s.
Proof. exact string_of_list_ascii_of_string. Qed.

Lemma chars_inj : forall a b, chars a = chars b -> a = b.
Proof. intros a b H. rewrite <- (unchars_chars a), <- (unchars_chars b), H. reflexivity. Qed.

Lemma chars_length : forall s, length (chars s) = String.length s.
Proof. induction s; simpl; congruence. Qed.

Lemma unchars_length : forall l, String.length (unchars l) = length l.
Proof. induction l; simpl; congruence. Qed.

Lemma str_app_assoc : forall a b c : string, (a ++ (b ++ c) = (a ++ b) ++ c)%string.
Proof. induction a as [|x a IH]; intros; simpl; [reflexivity|]. rewrite IH. reflexivity. Qed.

Lemma str_app_nil : forall a : string, (a ++ "" = a)%string.
Proof. induction a as [|x a IH]; simpl; congruence. Qed.

Lemma str_app_length : forall a b : string,
  String.length (a ++ b)%string = (String.length a + String.length b)%nat.
Proof. induction a as [|x a IH]; intros; simpl; [reflexivity|]. rewrite IH. reflexivity. Qed.

Lemma prefix_iff : forall p s, String.prefix p s = true <-> str_is_prefix p s.
Proof.
  induction p as [|c p IH]; intros s.
  - split; [intros _; exists s; reflexivity|destruct s; reflexivity].
  - destruct s as [|d s]; simpl.
    + split; [discriminate|]. intros [r H]. discriminate H.
    + destruct (Ascii.ascii_dec c d) as [->|N].
      * rewrite IH. split; intros [r H]; exists r; simpl in *; congruence.
      * split; [discriminate|]. intros [r H]. simpl in H. congruence.
Qed.

Lemma rev_str_prefix : forall p s,
  str_is_prefix (str_rev p) (str_rev s) <-> str_is_suffix p s.
Proof.
  intros p s. unfold str_rev. split; intros [r H].
  - exists (str_rev r). apply chars_inj. apply (f_equal chars) in H.
    rewrite chars_app, !chars_unchars in H. apply (f_equal (@rev ascii)) in H.
    rewrite rev_involutive, rev_app_distr, rev_involutive in H.
    unfold str_rev. rewrite chars_app, chars_unchars. exact H.
  - exists (str_rev r). subst s. unfold str_rev. rewrite chars_app, rev_app_distr, unchars_app.
    reflexivity.
Qed.

Lemma startswith_iff : forall s p, startswith s p = true <-> str_is_prefix p s.
Proof. intros. apply prefix_iff. Qed.
Lemma endswith_iff : forall s p, endswith s p = true <-> str_is_suffix p s.
Proof. intros. unfold endswith. rewrite prefix_iff. apply rev_str_prefix. Qed.

(** ** Slices *)
Lemma take_drop : forall A i (l : list A), l = py_take i l ++ py_drop i l.
Proof. intros. symmetry. apply firstn_skipn. Qed.

Lemma take_nonneg : forall A n (l : list A), 0 <= n -> py_take n l = firstn (Z.to_nat n) l.
Proof.
  intros A n l Hn. unfold py_take, py_insert_pos, clamp, norm_idx, zlen.
  destruct (n <? 0) eqn:E; [apply Z.ltb_lt in E; lia|].
  destruct (Z.leb_spec n (Z.of_nat (length l))) as [L|L].
  - f_equal. lia.
  - replace (Z.to_nat (Z.max 0 (Z.min (Z.of_nat (length l)) n))) with (length l) by lia.
    rewrite firstn_all, firstn_all2 by lia. reflexivity.
Qed.

Lemma drop_neg : forall A n (l : list A), 0 < n ->
  py_drop (- n) l = skipn (length l - Z.to_nat n) l.
Proof.
  intros A n l Hn. unfold py_drop, py_insert_pos, clamp, norm_idx, zlen.
  destruct (- n <? 0) eqn:E; [|apply Z.ltb_ge in E; lia]. f_equal. lia.
Qed.

Lemma take_all : forall A (l : list A), py_take (zlen l) l = l.
Proof. intros. rewrite take_nonneg by (unfold zlen; lia). unfold zlen. rewrite Nat2Z.id. apply firstn_all. Qed.

Lemma drop_zero : forall A (l : list A), py_drop 0 l = l.
Proof.
  intros. unfold py_drop, py_insert_pos, clamp, norm_idx, zlen. simpl.
  replace (Z.to_nat (Z.max 0 (Z.min (Z.of_nat (length l)) 0))) with 0%nat by lia. reflexivity.
Qed.

Lemma pos_length : forall A i (l : list A), (py_insert_pos i l <= length l)%nat.
Proof. intros. unfold py_insert_pos, clamp, zlen. lia. Qed.

Lemma take_length : forall A i (l : list A), length (py_take i l) = py_insert_pos i l.
Proof. intros. unfold py_take. rewrite firstn_length. pose proof (pos_length A i l). lia. Qed.

(** ** Repetition *)
Lemma repeat_list_length : forall A n (l : list A),
  length (repeat_list n l) = (n * length l)%nat.
Proof. induction n; intros; simpl; [reflexivity|]. rewrite app_length, IHn. reflexivity. Qed.

Lemma repeat_list_In : forall A n (l : list A) x, In x (repeat_list n l) -> In x l.
Proof.
  induction n; intros l x H; simpl in H; [contradiction|].
  apply in_app_or in H. destruct H; [assumption|]. eapply IHn. eassumption.
Qed.

Lemma str_mul_length : forall n c,
  Z.of_nat (String.length (str_mul n c)) = Z.max 0 n * Z.of_nat (String.length c).
Proof.
  intros. unfold str_mul, py_imul. rewrite unchars_length, repeat_list_length, chars_length. lia.
Qed.

Lemma str_mul_chars : forall n c, only_chars_of c (str_mul n c).
Proof.
  intros n c x H. unfold str_mul, py_imul in H. rewrite chars_unchars in H.
  eapply repeat_list_In. exact H.
Qed.

Lemma str_mul_nonpos : forall n c, n <= 0 -> str_mul n c = ""%string.
Proof.
  intros. unfold str_mul, py_imul. replace (Z.to_nat n) with 0%nat by lia. reflexivity.
Qed.

(** ** split and join *)
Lemma join_cons : forall sep x l, l <> [] ->
  join sep (x :: l) = (x ++ sep ++ join sep l)%string.
Proof. intros sep x [|y l] H; [contradiction|reflexivity]. Qed.

Lemma split_go_nonempty : forall sep s skip cur, split_go sep s skip cur <> [].
Proof.
  induction s as [|c s IH]; intros skip cur; cbn [split_go]; [discriminate|].
  destruct skip; [|apply IH].
  destruct (String.prefix sep (String c s)); [discriminate|apply IH].
Qed.

Fixpoint str_skip (n : nat) (s : string) : string :=
  match n, s with
  | O, _ => s
  | _, EmptyString => EmptyString
  | Datatypes.S n', String _ s' => str_skip n' s'
  end.

Lemma str_skip_app : forall p r, str_skip (String.length p) (p ++ r)%string = r.
Proof. induction p as [|c p IH]; intros r; simpl; [destruct r; reflexivity|apply IH]. Qed.

Lemma join_split_go : forall sep, sep <> ""%string -> forall s skip cur,
  join sep (split_go sep s skip cur) = (cur ++ str_skip skip s)%string.
Proof.
  intros sep Hsep. induction s as [|c s IH]; intros skip cur.
  - simpl. destruct skip; simpl; rewrite str_app_nil; reflexivity.
  - destruct skip as [|k].
    + cbn [split_go]. destruct (String.prefix sep (String c s)) eqn:E.
      * rewrite join_cons by apply split_go_nonempty. rewrite IH.
        apply prefix_iff in E. destruct E as [r E].
        destruct sep as [|d sep]; [contradiction|].
        assert (Es : s = (sep ++ r)%string) by (simpl in E; congruence).
        rewrite E. cbn [String.length pred str_skip]. rewrite Es at 1. rewrite str_skip_app.
        reflexivity.
      * rewrite IH. simpl. rewrite <- str_app_assoc. destruct s; reflexivity.
    + cbn [split_go]. rewrite IH. reflexivity.
Qed.

Lemma split_join : forall sep s, sep <> ""%string ->
  join sep (split_go sep s 0%nat ""%string) = s.
Proof. intros. rewrite join_split_go by assumption. destruct s; reflexivity. Qed.

Lemma app_split_str : forall a b c d : string, (a ++ b = c ++ d)%string ->
  (String.length a <= String.length c)%nat -> exists e, c = (a ++ e)%string /\ b = (e ++ d)%string.
Proof.
  induction a as [|x a IH]; intros b c d H L.
  - exists c. split; [reflexivity|exact H].
  - destruct c as [|y c]; [simpl in L; lia|]. simpl in H. injection H as -> H.
    simpl in L. destruct (IH b c d H) as [e [H1 H2]]; [lia|].
    exists e. split; [rewrite H1; reflexivity|exact H2].
Qed.

(** No piece of a split contains the separator. *)
Lemma split_go_pieces : forall sep, sep <> ""%string -> forall s skip cur,
  (skip <> 0%nat -> cur = ""%string) ->
  (skip = 0%nat -> forall a b, cur = (a ++ b)%string -> b <> ""%string ->
     ~ str_is_prefix sep (b ++ s)) ->
  Forall (fun x => ~ occurs sep x) (split_go sep s skip cur).
Proof.
  intros sep Hsep. induction s as [|c s IH]; intros skip cur Hskip Hcur.
  - simpl. constructor; [|constructor]. intros [a [b H]].
    destruct skip as [|k].
    + apply (Hcur eq_refl a (sep ++ b)%string H).
      * destruct sep; [contradiction|discriminate].
      * exists (b ++ "")%string. apply eq_sym, str_app_assoc.
    + rewrite (Hskip) in H by discriminate. destruct a; simpl in H; [|discriminate H].
      destruct sep; [contradiction|discriminate H].
  - destruct skip as [|k]; cbn [split_go].
    + destruct (String.prefix sep (String c s)) eqn:E.
      * constructor.
        -- intros [a [b H]]. apply (Hcur eq_refl a (sep ++ b)%string H).
           ++ destruct sep; [contradiction|discriminate].
           ++ exists (b ++ String c s)%string. apply eq_sym, str_app_assoc.
        -- apply IH; [reflexivity|]. intros _ a b H Hb.
           destruct a; simpl in H; [|discriminate H]. congruence.
      * apply IH; [congruence|]. intros _ a b H Hb [r Hp].
        destruct (Nat.le_gt_cases (String.length b) 1) as [L|L].
        -- (* b is the last character *)
           assert (b = String c "").
           { destruct b as [|d [|e b]]; [contradiction| |simpl in L; lia].
             assert (Hl : chars (cur ++ String c "")%string = chars (a ++ String d "")%string)
               by congruence.
             rewrite !chars_app in Hl. simpl in Hl. apply app_inj_tail in Hl.
             destruct Hl as [_ ->]. reflexivity. }
           subst b. simpl in Hp. assert (String.prefix sep (String c s) = true).
           { apply prefix_iff. exists r. exact Hp. }
           congruence.
        -- assert (La : (String.length a <= String.length cur)%nat).
           { apply (f_equal String.length) in H. rewrite !str_app_length in H. simpl in H. lia. }
           symmetry in H. destruct (app_split_str _ _ _ _ H La) as [e [H1 H2]].
           apply (Hcur eq_refl a e H1).
           ++ intros ->. subst b. simpl in L. lia.
           ++ exists r. rewrite <- Hp, H2, <- str_app_assoc. reflexivity.
    + apply IH.
      * intros _. apply Hskip. discriminate.
      * intros _ a b H Hb. rewrite (Hskip) in H by discriminate.
        destruct a; simpl in H; [|discriminate H]. congruence.
Qed.

(** ** strip *)
Lemma lstrip_spec : forall l, exists a, l = a ++ lstrip l /\
  Forall (fun c => is_space c = true) a.
Proof.
  induction l as [|c l IH]; simpl.
  - exists []. split; constructor.
  - destruct (is_space c) eqn:E.
    + destruct IH as [a [H1 H2]]. exists (c :: a). split; [simpl; congruence|constructor; assumption].
    + exists []. split; [reflexivity|constructor].
Qed.

Lemma lstrip_head : forall l c r, lstrip l = c :: r -> is_space c = false.
Proof.
  induction l as [|d l IH]; intros c r H; simpl in H; [discriminate H|].
  destruct (is_space d) eqn:E; [eapply IH; exact H|]. injection H as <- <-. exact E.
Qed.

Lemma strip_trimmed : forall s, trimmed s (str_strip s).
Proof.
  intros s. unfold str_strip.
  destruct (lstrip_spec (chars s)) as [a [Ha Fa]].
  set (m := lstrip (chars s)) in *.
  destruct (lstrip_spec (rev m)) as [b [Hb Fb]].
  set (n := lstrip (rev m)) in *.
  assert (Hm : m = rev n ++ rev b).
  { rewrite <- rev_app_distr, <- Hb, rev_involutive. reflexivity. }
  split; [|split].
  - exists (unchars a), (unchars (rev b)). split; [|split].
    + apply chars_inj. rewrite !chars_app, !chars_unchars, <- Hm. exact Ha.
    + rewrite chars_unchars. exact Fa.
    + rewrite chars_unchars. apply Forall_rev. exact Fb.
  - intros c r H. apply (f_equal chars) in H. rewrite chars_unchars in H. simpl in H.
    assert (Hl : m = c :: (chars r ++ rev b)) by (rewrite Hm, H; reflexivity).
    unfold m in Hl. eapply lstrip_head. exact Hl.
  - intros c r H. apply (f_equal chars) in H. rewrite chars_unchars, chars_app in H.
    simpl in H. apply (f_equal (@rev ascii)) in H. rewrite rev_involutive, rev_app_distr in H.
    simpl in H. eapply lstrip_head. exact H.
Qed.

Lemma lstrip_id : forall l, (forall c r, l = c :: r -> is_space c = false) -> lstrip l = l.
Proof.
  intros [|c l] H; [reflexivity|]. simpl. rewrite (H c l eq_refl). reflexivity.
Qed.

Lemma strip_fixed : forall m,
  (forall c r, m = String c r -> is_space c = false) ->
  (forall c r, m = (r ++ String c "")%string -> is_space c = false) ->
  str_strip m = m.
Proof.
  intros m H1 H2. unfold str_strip. rewrite (lstrip_id (chars m)).
  - rewrite lstrip_id; [rewrite rev_involutive; apply unchars_chars|].
    intros c r H. apply (f_equal (@rev ascii)) in H. rewrite rev_involutive in H. simpl in H.
    apply (H2 c (unchars (rev r))). apply chars_inj. rewrite chars_app, chars_unchars. exact H.
  - intros c r H. destruct m as [|d m]; [discriminate H|]. simpl in H. injection H as -> _.
    apply (H1 c m eq_refl).
Qed.

Lemma strip_idem : forall s, str_strip (str_strip s) = str_strip s.
Proof. intros s. destruct (strip_trimmed s) as [_ [H1 H2]]. apply strip_fixed; assumption. Qed.

(** ** Equality of lists *)
Lemma veq_list : forall oeq l l',
  veq oeq (VList l) (VList l') = true <-> items_equal oeq l l'.
Proof.
  intros oeq l. unfold items_equal. induction l as [|x l IH]; intros l'.
  - destruct l'; simpl; split; intros H; try discriminate H; try constructor. inversion H.
  - destruct l' as [|y l']; simpl; [split; intros H; [discriminate H|inversion H]|].
    rewrite andb_true_iff. specialize (IH l'). simpl in IH. rewrite IH. split.
    + intros [H1 H2]. constructor; assumption.
    + intros H. inversion H; subst. split; assumption.
Qed.

Section Str.
  Context {S P : Type}.
  Variable oeq : oid -> oid -> bool.
  Variable other_str : value -> string.
  Variable farith : arith -> value -> value -> res value.
  Variable resolve : P -> st S value.
  Variable vexc : string -> exn.
  Notation validate := (leaf_validate oeq resolve vexc).
  Notation transform := (leaf_transform other_str farith resolve vexc).
  Notation resolves := (resolves resolve).
  Notation decides := (@decides S vexc).
  Hypothesis inhabited : S.

  Lemma list_or_str_iff : forall v n, list_or_str v = Some n <-> has_length v n.
  Proof.
    intros v n. split.
    - destruct v; simpl; intros H; try discriminate H; injection H as <-; constructor.
    - intros H. inversion H; reflexivity.
  Qed.

  Lemma lengthless_none : forall v, lengthless v -> list_or_str v = None.
  Proof.
    intros v H. destruct (list_or_str v) as [n|] eqn:E; [|reflexivity].
    exfalso. apply (H n). apply list_or_str_iff. exact E.
  Qed.

  (** ** Length *)
  Lemma py_lt_len : forall n w b, number w b -> py_lt (VInt n) w = Ok (xlt (XFin (inject_Z n)) b).
  Proof. intros n w b H. apply number_num_of in H. unfold py_lt, py_cmp. destruct H as [-> _]. reflexivity. Qed.
  Lemma gtb_len : forall n w b, number w b -> gtb (VInt n) w = Ok (xlt b (XFin (inject_Z n))).
  Proof. intros n w b H. apply number_num_of in H. unfold gtb, py_lt, py_cmp. destruct H as [-> _]. reflexivity. Qed.

  Lemma fin_ordered : forall q, ordered (XFin q).
  Proof. intros. discriminate. Qed.

  Lemma minlength_decides : forall p w b v n,
    resolves p w -> number w b -> ordered b -> has_length v n ->
    decides (validate (LMinlength p) v) (at_most b (XFin (inject_Z n))).
  Proof.
    intros p w b v n Hr Hb Ob Hn. apply list_or_str_iff in Hn.
    eapply decides_ext; [apply (xlt_false _ b (fin_ordered (inject_Z n)) Ob)|].
    apply decides_intro; [exact inhabited| | |].
    - intros H s. cbn [leaf_validate]. unfold v_minlength. rewrite Hn. unfold bind. rewrite Hr.
      unfold lift. rewrite (py_lt_len _ _ _ Hb), H. reflexivity.
    - intros H. apply not_false_is_true in H. eexists. intros s. cbn [leaf_validate].
      unfold v_minlength. rewrite Hn. unfold bind. rewrite Hr.
      unfold lift. rewrite (py_lt_len _ _ _ Hb), H. reflexivity.
    - destruct (xlt (XFin (inject_Z n)) b); [right; discriminate|left; reflexivity].
  Qed.

  Lemma maxlength_decides : forall p w b v n,
    resolves p w -> number w b -> ordered b -> has_length v n ->
    decides (validate (LMaxlength p) v) (at_most (XFin (inject_Z n)) b).
  Proof.
    intros p w b v n Hr Hb Ob Hn. apply list_or_str_iff in Hn.
    eapply decides_ext; [apply (xlt_false b _ Ob (fin_ordered (inject_Z n)))|].
    apply decides_intro; [exact inhabited| | |].
    - intros H s. cbn [leaf_validate]. unfold v_maxlength. rewrite Hn. unfold bind. rewrite Hr.
      unfold lift. rewrite (gtb_len _ _ _ Hb), H. reflexivity.
    - intros H. apply not_false_is_true in H. eexists. intros s. cbn [leaf_validate].
      unfold v_maxlength. rewrite Hn. unfold bind. rewrite Hr.
      unfold lift. rewrite (gtb_len _ _ _ Hb), H. reflexivity.
    - destruct (xlt b (XFin (inject_Z n))); [right; discriminate|left; reflexivity].
  Qed.

  Lemma length_decides : forall p q w u a b v n,
    resolves p w -> number w a -> ordered a ->
    match q with Some q => resolves q u | None => u = w end -> number u b -> ordered b ->
    has_length v n ->
    decides (validate (LLength p q) v)
      (at_most a (XFin (inject_Z n)) /\ at_most (XFin (inject_Z n)) b).
  Proof.
    intros p q w u a b v n Hp Ha Oa Hq Hb Ob Hn. apply list_or_str_iff in Hn.
    set (x := XFin (inject_Z n)). assert (Ox : ordered x) by apply fin_ordered.
    apply decides_ext with (H := xlt x a = false /\ xlt b x = false);
      [rewrite (xlt_false x a Ox Oa), (xlt_false b x Ob Ox); reflexivity|].
    assert (E : forall s, validate (LLength p q) v s =
      (if xlt b x || xlt x a
       then @fail S vexc unit (if veq oeq w u then "length of value is not"
                else "length of value is not between")%string
       else ret tt) s).
    { intros s. cbn [leaf_validate]. unfold v_length. rewrite Hn. unfold bind. rewrite Hp.
      destruct q as [q|].
      - rewrite Hq. unfold lift. rewrite (gtb_len _ _ _ Hb). fold x.
        destruct (xlt b x); cbn [orb]; unfold ret; cbv beta iota; [reflexivity|].
        rewrite (py_lt_len _ _ _ Ha). fold x. destruct (xlt x a); reflexivity.
      - subst u. unfold ret at 1. unfold lift. rewrite (gtb_len _ _ _ Hb). fold x.
        destruct (xlt b x); cbn [orb]; unfold ret; cbv beta iota; [reflexivity|].
        rewrite (py_lt_len _ _ _ Ha). fold x. destruct (xlt x a); reflexivity. }
    apply decides_intro; [exact inhabited| | |].
    - intros [H1 H2] s. rewrite E, H1, H2. reflexivity.
    - intros H. eexists. intros s. rewrite E.
      destruct (xlt b x), (xlt x a); simpl; try reflexivity. exfalso. apply H. split; reflexivity.
    - destruct (xlt b x), (xlt x a); [right|right|right|left]; try (intros [H1 H2]; congruence).
      split; reflexivity.
  Qed.

  Lemma length_skips : forall p q v, lengthless v ->
    accepts (validate (LLength p q) v) /\ accepts (validate (LMinlength p) v) /\
    accepts (validate (LMaxlength p) v).
  Proof.
    intros p q v H. apply lengthless_none in H.
    repeat split; intros s; cbn [leaf_validate]; unfold v_length, v_minlength, v_maxlength;
      rewrite H; reflexivity.
  Qed.

  (** ** Membership and equality *)
  Lemma contains_iff : forall v l,
    list_contains oeq v l = true <-> exists y, In y l /\ veq oeq v y = true.
  Proof. intros. unfold list_contains. apply existsb_exists. Qed.

  Lemma oneof_decides : forall p l v, resolves p (VList l) ->
    decides (validate (LOneOf p) v) (v = VNone \/ exists y, In y l /\ veq oeq v y = true).
  Proof.
    intros p l v Hr.
    apply decides_ext with (H := v = VNone \/ list_contains oeq v l = true);
      [rewrite contains_iff; reflexivity|].
    destruct (is_none v) eqn:N.
    - destruct v; try discriminate N. apply decides_intro; [exact inhabited| | |].
      + intros _ s. reflexivity.
      + intros H. exfalso. apply H. left. reflexivity.
      + left. left. reflexivity.
    - assert (Nv : v <> VNone) by (intros ->; discriminate N).
      assert (E : forall s, validate (LOneOf p) v s =
                (if list_contains oeq v l then ret tt
                 else @fail S vexc unit "value is not in choices") s).
      { intros s. cbn [leaf_validate]. unfold v_oneof. rewrite N. unfold bind. rewrite Hr.
        simpl. destruct (list_contains oeq v l); reflexivity. }
      apply decides_intro; [exact inhabited| | |].
      + intros [H|H] s; [contradiction|]. rewrite E, H. reflexivity.
      + intros H. eexists. intros s. rewrite E. destruct (list_contains oeq v l) eqn:C.
        * exfalso. apply H. right. reflexivity.
        * reflexivity.
      + destruct (list_contains oeq v l); [left; right; reflexivity|right].
        intros [H|H]; [contradiction|discriminate H].
  Qed.

  Lemma eq_decides : forall p y v, resolves p y ->
    decides (validate (LEq p) v) (v = VNone \/ veq oeq v y = true).
  Proof.
    intros p y v Hr. destruct (is_none v) eqn:N.
    - destruct v; try discriminate N. apply decides_intro; [exact inhabited| | |].
      + intros _ s. reflexivity.
      + intros H. exfalso. apply H. left. reflexivity.
      + left. left. reflexivity.
    - assert (Nv : v <> VNone) by (intros ->; discriminate N).
      assert (E : forall s, validate (LEq p) v s =
                (if veq oeq v y then ret tt else @fail S vexc unit "value is not equal") s).
      { intros s. cbn [leaf_validate]. unfold v_eq. rewrite N. unfold bind. rewrite Hr.
        destruct (veq oeq v y); reflexivity. }
      apply decides_intro; [exact inhabited| | |].
      + intros [H|H] s; [contradiction|]. rewrite E, H. reflexivity.
      + intros H. eexists. intros s. rewrite E. destruct (veq oeq v y) eqn:C.
        * exfalso. apply H. right. reflexivity.
        * reflexivity.
      + destruct (veq oeq v y); [left; right; reflexivity|right].
        intros [H|H]; [contradiction|discriminate H].
  Qed.

  Lemma neq_decides : forall p y v, resolves p y ->
    decides (validate (LNeq p) v) (veq oeq v y = false).
  Proof.
    intros p y v Hr.
    assert (E : forall s, validate (LNeq p) v s =
              (if veq oeq v y then @fail S vexc unit "value is not unequal" else ret tt) s).
    { intros s. cbn [leaf_validate]. unfold v_neq. unfold bind. rewrite Hr.
      destruct (veq oeq v y); reflexivity. }
    apply decides_intro; [exact inhabited| | |].
    - intros H s. rewrite E, H. reflexivity.
    - intros H. apply not_false_is_true in H. eexists. intros s. rewrite E, H. reflexivity.
    - destruct (veq oeq v y); [right; discriminate|left; reflexivity].
  Qed.

  (** ** Prefixes and suffixes *)
  Lemma decides_bool : forall (m : st S unit) (b : bool) msg (H : Prop),
    (forall s, m s = (if b then ret tt else @fail S vexc unit msg) s) ->
    (b = true <-> H) -> decides m H.
  Proof.
    intros m b msg H E Hb. apply decides_intro; [exact inhabited| | |].
    - intros h s. apply Hb in h. rewrite E, h. reflexivity.
    - intros h. exists msg. intros s. rewrite E. destruct b; [exfalso; apply h, Hb; reflexivity|reflexivity].
    - destruct b; [left; apply Hb; reflexivity|right; intros h; apply Hb in h; discriminate h].
  Qed.

  Lemma hasprefix_str : forall p x s, resolves p (VStr x) ->
    decides (validate (LHasPrefix p) (VStr s)) (str_is_prefix x s).
  Proof.
    intros p x s Hr. eapply decides_bool; [|apply startswith_iff].
    intros s0. cbn [leaf_validate v_hasprefix]. unfold bind. rewrite Hr.
    destruct (startswith s x); reflexivity.
  Qed.
  Lemma hassuffix_str : forall p x s, resolves p (VStr x) ->
    decides (validate (LHasSuffix p) (VStr s)) (str_is_suffix x s).
  Proof.
    intros p x s Hr. eapply decides_bool; [|apply endswith_iff].
    intros s0. cbn [leaf_validate v_hassuffix]. unfold bind. rewrite Hr.
    destruct (endswith s x); reflexivity.
  Qed.
  Lemma isprefixof_str : forall p x s, resolves p (VStr x) ->
    decides (validate (LIsPrefixOf p) (VStr s)) (str_is_prefix s x).
  Proof.
    intros p x s Hr. eapply decides_bool; [|apply startswith_iff].
    intros s0. cbn [leaf_validate v_isprefixof]. unfold bind. rewrite Hr.
    destruct (startswith x s); reflexivity.
  Qed.
  Lemma issuffixof_str : forall p x s, resolves p (VStr x) ->
    decides (validate (LIsSuffixOf p) (VStr s)) (str_is_suffix s x).
  Proof.
    intros p x s Hr. eapply decides_bool; [|apply endswith_iff].
    intros s0. cbn [leaf_validate v_issuffixof]. unfold bind. rewrite Hr.
    destruct (endswith x s); reflexivity.
  Qed.

  Lemma hasprefix_list : forall p x l, resolves p (VList x) ->
    decides (validate (LHasPrefix p) (VList l)) (items_equal oeq l x).
  Proof.
    intros p x l Hr. eapply decides_bool; [|apply veq_list].
    intros s0. cbn [leaf_validate v_hasprefix]. unfold bind. rewrite Hr, take_all.
    destruct (veq oeq (VList l) (VList x)); reflexivity.
  Qed.

  Lemma Forall2_len : forall A B (R : A -> B -> Prop) l l', Forall2 R l l' -> length l = length l'.
  Proof. intros A B R l l' H. induction H; simpl; congruence. Qed.

  Lemma hassuffix_list : forall p x l, resolves p (VList x) -> x <> [] ->
    decides (validate (LHasSuffix p) (VList l)) (ends_with oeq l x).
  Proof.
    intros p x l Hr Hx.
    eapply decides_bool with (b := veq oeq (VList (py_drop (- zlen x) l)) (VList x)).
    { intros s0. cbn [leaf_validate v_hassuffix]. unfold bind. rewrite Hr. cbn [py_len lift].
      rewrite Hr. destruct (veq oeq (VList (py_drop (- zlen x) l)) (VList x)); reflexivity. }
    rewrite veq_list. unfold zlen.
    assert (Lx : (0 < length x)%nat) by (destruct x; [contradiction|simpl; lia]).
    rewrite drop_neg by lia. rewrite Nat2Z.id. split.
    - intros H. exists (firstn (length l - length x) l), (skipn (length l - length x) l).
      split; [symmetry; apply firstn_skipn|exact H].
    - intros [a [b [-> H]]]. pose proof (Forall2_len _ _ _ _ _ H) as E.
      rewrite app_length, <- E. replace (length a + length b - length b)%nat with (length a) by lia.
      rewrite skipn_app, skipn_all, Nat.sub_diag. exact H.
  Qed.

  Lemma hassuffix_list_empty : forall p l, resolves p (VList []) ->
    decides (validate (LHasSuffix p) (VList l)) (l = []).
  Proof.
    intros p l Hr.
    eapply decides_bool with (b := veq oeq (VList (py_drop (- 0) l)) (VList [])).
    { intros s0. cbn [leaf_validate v_hassuffix]. unfold bind. rewrite Hr. cbn [py_len lift].
      rewrite Hr. change (zlen (@nil value)) with 0.
      destruct (veq oeq (VList (py_drop (- 0) l)) (VList [])); reflexivity. }
    change (- 0) with 0. rewrite drop_zero, veq_list. split.
    - intros H. inversion H. reflexivity.
    - intros ->. constructor.
  Qed.

  Lemma isprefixof_list : forall p x l, resolves p (VList x) ->
    decides (validate (LIsPrefixOf p) (VList l)) (starts_with oeq x l).
  Proof.
    intros p x l Hr.
    eapply decides_bool with (b := veq oeq (VList (py_take (zlen l) x)) (VList l)).
    { intros s0. cbn [leaf_validate v_isprefixof]. unfold bind. rewrite Hr. cbn [val_take lift].
      destruct (veq oeq (VList (py_take (zlen l) x)) (VList l)); reflexivity. }
    rewrite veq_list, take_nonneg by (unfold zlen; lia). unfold zlen. rewrite Nat2Z.id. split.
    - intros H. exists (firstn (length l) x), (skipn (length l) x).
      split; [symmetry; apply firstn_skipn|exact H].
    - intros [a [b [-> H]]]. pose proof (Forall2_len _ _ _ _ _ H) as E.
      rewrite <- E, firstn_app, firstn_all, Nat.sub_diag. simpl. rewrite app_nil_r. exact H.
  Qed.

  Lemma issuffixof_list : forall p x l, resolves p (VList x) -> l <> [] ->
    decides (validate (LIsSuffixOf p) (VList l)) (ends_with oeq x l).
  Proof.
    intros p x l Hr Hl.
    eapply decides_bool with (b := veq oeq (VList (py_drop (- zlen l) x)) (VList l)).
    { intros s0. cbn [leaf_validate v_issuffixof]. unfold bind. rewrite Hr. cbn [val_drop lift].
      destruct (veq oeq (VList (py_drop (- zlen l) x)) (VList l)); reflexivity. }
    rewrite veq_list. unfold zlen.
    assert (Ll : (0 < length l)%nat) by (destruct l; [contradiction|simpl; lia]).
    rewrite drop_neg by lia. rewrite Nat2Z.id. split.
    - intros H. exists (firstn (length x - length l) x), (skipn (length x - length l) x).
      split; [symmetry; apply firstn_skipn|exact H].
    - intros [a [b [-> H]]]. pose proof (Forall2_len _ _ _ _ _ H) as E.
      rewrite app_length, <- E. replace (length a + length b - length b)%nat with (length a) by lia.
      rewrite skipn_app, skipn_all, Nat.sub_diag. exact H.
  Qed.

  Lemma issuffixof_list_empty : forall p x, resolves p (VList x) ->
    decides (validate (LIsSuffixOf p) (VList [])) (x = []).
  Proof.
    intros p x Hr.
    eapply decides_bool with (b := veq oeq (VList (py_drop (- 0) x)) (VList [])).
    { intros s0. cbn [leaf_validate v_issuffixof]. unfold bind. rewrite Hr. cbn [val_drop lift].
      change (zlen (@nil value)) with 0.
      destruct (veq oeq (VList (py_drop (- 0) x)) (VList [])); reflexivity. }
    change (- 0) with 0. rewrite drop_zero, veq_list. split.
    - intros H. inversion H. reflexivity.
    - intros ->. constructor.
  Qed.

  Lemma affix_skips : forall p v, lengthless v ->
    accepts (validate (LHasPrefix p) v) /\ accepts (validate (LHasSuffix p) v) /\
    accepts (validate (LIsPrefixOf p) v) /\ accepts (validate (LIsSuffixOf p) v).
  Proof.
    intros p v H. destruct v; try (repeat split; intros s; reflexivity);
      exfalso; eapply H; constructor.
  Qed.

  (** ** Shaping *)
  Lemma truncate_str : forall p n s, resolves p (VInt n) -> 0 <= n ->
    exists r, gives (transform (LTruncate p) (VStr s)) (VStr r) /\ str_is_prefix r s /\
      slen r = Z.min n (slen s) /\ accepts (validate (LMaxlength p) (VStr r)).
  Proof.
    intros p n s Hr Hn. exists (str_take n s).
    assert (L : slen (str_take n s) = Z.min n (slen s)).
    { unfold slen, str_take. rewrite unchars_length, take_nonneg by lia.
      rewrite firstn_length, chars_length. lia. }
    repeat split.
    - intros s0. cbn [leaf_transform t_truncate]. unfold bind. rewrite Hr. reflexivity.
    - exists (str_drop n s). unfold str_take, str_drop. rewrite <- unchars_app, <- take_drop.
      symmetry. apply unchars_chars.
    - exact L.
    - apply (maxlength_decides p (VInt n) (XFin (inject_Z n)) _ (slen (str_take n s)) Hr).
      + constructor. + discriminate. + constructor.
      + apply xle_at_most. simpl. apply Qle_bool_iff. rewrite <- Zle_Qle. lia.
  Qed.

  Lemma truncate_list : forall p n l, resolves p (VInt n) -> 0 <= n ->
    exists r, gives (transform (LTruncate p) (VList l)) (VList r) /\ is_prefix r l /\
      zlen r = Z.min n (zlen l) /\ accepts (validate (LMaxlength p) (VList r)).
  Proof.
    intros p n l Hr Hn. exists (py_take n l).
    assert (L : zlen (py_take n l) = Z.min n (zlen l)).
    { unfold zlen. rewrite take_nonneg by lia. rewrite firstn_length. lia. }
    repeat split.
    - intros s0. cbn [leaf_transform t_truncate]. unfold bind. rewrite Hr. reflexivity.
    - exists (py_drop n l). apply take_drop.
    - exact L.
    - apply (maxlength_decides p (VInt n) (XFin (inject_Z n)) _ (zlen (py_take n l)) Hr).
      + constructor. + discriminate. + constructor.
      + apply xle_at_most. simpl. apply Qle_bool_iff. rewrite <- Zle_Qle. lia.
  Qed.

  Lemma truncate_dict : forall p w d, resolves p w ->
    raises (transform (LTruncate p) (VDict d)) ETypeError.
  Proof. intros p w d Hr s. cbn [leaf_transform t_truncate]. unfold bind. rewrite Hr. reflexivity. Qed.

  Lemma pad_facts : forall n s c,
    let pad := str_mul (n - slen s) c in
    only_chars_of c pad /\ (n <= slen s -> pad = ""%string) /\
    (c <> ""%string -> n <= slen pad + slen s) /\
    (String.length c = 1%nat -> slen pad + slen s = Z.max n (slen s)).
  Proof.
    intros n s c pad. pose proof (str_mul_length (n - slen s) c) as L. fold pad in L.
    unfold slen at 2 3 4 5 6. fold (slen s). unfold slen in L |- *.
    repeat split.
    - apply str_mul_chars.
    - intros H. apply str_mul_nonpos. unfold slen. lia.
    - intros H. assert (1 <= Z.of_nat (String.length c)) by (destruct c; [contradiction|simpl; lia]).
      nia.
    - intros H. rewrite H in L. lia.
  Qed.

  Lemma padstart_spec : forall p q c n s, resolves p (VStr c) -> resolves q (VInt n) ->
    exists pad, gives (transform (LPadStart p q) (VStr s)) (VStr (pad ++ s)%string) /\
      only_chars_of c pad /\ (n <= slen s -> pad = ""%string) /\
      (c <> ""%string -> n <= slen pad + slen s) /\
      (String.length c = 1%nat -> slen pad + slen s = Z.max n (slen s)).
  Proof.
    intros p q c n s Hp Hq. exists (str_mul (n - slen s) c).
    split; [|apply (pad_facts n s c)].
    intros s0. cbn [leaf_transform]. unfold t_padstart, bind. rewrite Hp, Hq. reflexivity.
  Qed.

  Lemma padend_spec : forall p q c n s, resolves p (VStr c) -> resolves q (VInt n) ->
    exists pad, gives (transform (LPadEnd p q) (VStr s)) (VStr (s ++ pad)%string) /\
      only_chars_of c pad /\ (n <= slen s -> pad = ""%string) /\
      (c <> ""%string -> n <= slen pad + slen s) /\
      (String.length c = 1%nat -> slen pad + slen s = Z.max n (slen s)).
  Proof.
    intros p q c n s Hp Hq. exists (str_mul (n - slen s) c).
    split; [|apply (pad_facts n s c)].
    intros s0. cbn [leaf_transform]. unfold t_padend, bind. rewrite Hq, Hp. reflexivity.
  Qed.

  Lemma reverse_list : forall l, gives (transform LReverse (VList l)) (VList (rev l)).
  Proof. intros l s. reflexivity. Qed.
  Lemma reverse_str : forall l, gives (transform LReverse (VStr (unchars l))) (VStr (unchars (rev l))).
  Proof. intros l s. cbn. unfold str_rev. rewrite chars_unchars. reflexivity. Qed.

  Lemma reverse_twice : forall v r, gives (transform LReverse v) r -> gives (transform LReverse r) v.
  Proof.
    intros v r H. specialize (H inhabited). cbn in H. injection H as <-. intros s. cbn.
    destruct v; try reflexivity; cbn.
    - unfold str_rev. rewrite chars_unchars, rev_involutive, unchars_chars. reflexivity.
    - rewrite rev_involutive. reflexivity.
  Qed.

  Lemma append_list : forall p y l, resolves p y ->
    gives (transform (LAppend p) (VList l)) (VList (l ++ [y])).
  Proof. intros p y l Hr s. cbn [leaf_transform t_append]. unfold bind. rewrite Hr. reflexivity. Qed.
  Lemma append_str : forall p y s, resolves p y ->
    gives (transform (LAppend p) (VStr s)) (VStr (s ++ py_str other_str y)%string).
  Proof. intros p y s Hr s0. cbn [leaf_transform t_append]. unfold bind. rewrite Hr. reflexivity. Qed.
  Lemma prepend_list : forall p y l, resolves p y ->
    gives (transform (LPrepend p) (VList l)) (VList ([y] ++ l)).
  Proof. intros p y l Hr s. cbn [leaf_transform t_prepend]. unfold bind. rewrite Hr. reflexivity. Qed.
  Lemma prepend_str : forall p y s, resolves p (VStr y) ->
    gives (transform (LPrepend p) (VStr s)) (VStr (y ++ s)%string).
  Proof. intros p y s Hr s0. cbn [leaf_transform t_prepend]. unfold bind. rewrite Hr. reflexivity. Qed.
  Lemma prepend_str_int : forall p z s, resolves p (VInt z) ->
    raises (transform (LPrepend p) (VStr s)) ETypeError.
  Proof. intros p y s Hr s0. cbn [leaf_transform t_prepend]. unfold bind. rewrite Hr. reflexivity. Qed.

  Lemma pos_position : forall A k (l : list A),
    Z.of_nat (py_insert_pos k l) = position k (zlen l).
  Proof.
    intros. unfold py_insert_pos, position, clamp, norm_idx, zlen.
    destruct (k <? 0) eqn:E; [apply Z.ltb_lt in E|apply Z.ltb_ge in E]; lia.
  Qed.

  Lemma insertat_list : forall p q y k l, resolves p y -> resolves q (VInt k) ->
    exists a b, l = a ++ b /\ zlen a = position k (zlen l) /\
      gives (transform (LInsertAt p q) (VList l)) (VList (a ++ [y] ++ b)).
  Proof.
    intros p q y k l Hp Hq. exists (py_take k l), (py_drop k l).
    split; [apply take_drop|]. split.
    - unfold zlen at 1. rewrite take_length. apply pos_position.
    - intros s. cbn [leaf_transform]. unfold t_insertat, bind. rewrite Hq, Hp. reflexivity.
  Qed.

  Lemma insertat_str : forall p q y k s, resolves p y -> resolves q (VInt k) ->
    exists a b, s = (a ++ b)%string /\ slen a = position k (slen s) /\
      gives (transform (LInsertAt p q) (VStr s)) (VStr (a ++ py_str other_str y ++ b)%string).
  Proof.
    intros p q y k s Hp Hq. exists (str_take k s), (str_drop k s).
    split; [unfold str_take, str_drop; rewrite <- unchars_app, <- take_drop; symmetry; apply unchars_chars|].
    split.
    - unfold slen at 1. unfold str_take. rewrite unchars_length, take_length, pos_position.
      unfold zlen, slen. rewrite chars_length. reflexivity.
    - intros s0. cbn [leaf_transform]. unfold t_insertat, bind. rewrite Hq, Hp. reflexivity.
  Qed.

  Lemma all_strs_map : forall l, all_strs (map VStr l) = Some l.
  Proof. induction l as [|s l IH]; simpl; [reflexivity|]. rewrite IH. reflexivity. Qed.

  Lemma split_then_join : forall p x s, resolves p (VStr x) -> x <> ""%string ->
    exists l, gives (transform (LSplit p) (VStr s)) (VList (map VStr l)) /\
      Forall (fun y => ~ occurs x y) l /\
      gives (transform (LJoin p) (VList (map VStr l))) (VStr s).
  Proof.
    intros p x s Hr Hx. exists (split_go x s 0%nat ""%string).
    assert (E : String.eqb x "" = false) by (apply String.eqb_neq; exact Hx).
    repeat split.
    - intros s0. cbn [leaf_transform t_split]. unfold bind. rewrite Hr. unfold str_split.
      rewrite E. reflexivity.
    - apply split_go_pieces; [exact Hx|congruence|]. intros _ a b H Hb.
      destruct a; simpl in H; [|discriminate H]. congruence.
    - intros s0. cbn [leaf_transform t_join]. unfold bind. rewrite Hr, all_strs_map.
      rewrite split_join by exact Hx. reflexivity.
  Qed.

  Lemma split_empty_sep : forall p s, resolves p (VStr "") ->
    raises (transform (LSplit p) (VStr s)) EValueError.
  Proof. intros p s Hr s0. cbn [leaf_transform t_split]. unfold bind. rewrite Hr. reflexivity. Qed.

  Lemma trim_spec : forall s, exists m, gives (transform LTrim (VStr s)) (VStr m) /\
    trimmed s m /\ gives (transform LTrim (VStr m)) (VStr m).
  Proof.
    intros s. exists (str_strip s). repeat split; try apply strip_trimmed.
    intros s0. cbn. rewrite strip_idem. reflexivity.
  Qed.

  Lemma shaping_skips : forall v, lengthless v -> (forall d, v <> VDict d) ->
    forall p, gives (transform (LTruncate p) v) v /\ gives (transform LReverse v) v /\
    gives (transform (LAppend p) v) v /\ gives (transform (LPrepend p) v) v /\
    gives (transform (LSplit p) v) v /\ gives (transform (LJoin p) v) v /\
    gives (transform LTrim v) v.
  Proof.
    intros v H Hd p. destruct v; try (repeat split; intros s; reflexivity);
      try (exfalso; eapply H; constructor); exfalso; eapply Hd; reflexivity.
  Qed.

  (** ** Types *)
  Lemma type_accepts_iff : forall k v, k <> TDate ->
    (type_accepts k v = true <-> v = VNone \/ has_type k v).
  Proof.
    intros k v Hk. split.
    - destruct v, k; simpl; intros H; try discriminate H; try (left; reflexivity);
        try (right; constructor); contradiction.
    - intros [->|H]; [reflexivity|]. inversion H; reflexivity.
  Qed.

  Lemma type_decides : forall k v, k <> TDate ->
    decides (validate (LType k) v) (v = VNone \/ has_type k v).
  Proof.
    intros k v Hk. eapply decides_bool; [|apply (type_accepts_iff k v Hk)].
    intros s. cbn [leaf_validate]. unfold v_type. destruct (type_accepts k v); reflexivity.
  Qed.

  Lemma date_type_decides : forall v,
    decides (validate (LType TDate) v) (v = VNone \/ has_type TDate v \/ has_type TDatetime v).
  Proof.
    intros v. apply decides_bool with (b := type_accepts TDate v) (msg := "value is not date"%string).
    - intros s. cbn [leaf_validate]. unfold v_type. destruct (type_accepts TDate v); reflexivity.
    - split.
      + destruct v; simpl; intros H; try discriminate H; auto; right; [left|right]; constructor.
      + intros [->|[H|H]]; [reflexivity| |]; inversion H; reflexivity.
  Qed.

  Lemma float_of_small : forall z, Z.abs z < 2 ^ 53 -> float_of_Z z = Ok (FFin (inject_Z z)).
  Proof.
    intros z Hz. unfold float_of_Z.
    assert (L : Z.log2 (Z.abs z) + 1 <= 53).
    { destruct (Z.eq_dec (Z.abs z) 0) as [E|E]; [rewrite E; simpl; lia|].
      assert (Z.log2 (Z.abs z) < 53) by (apply Z.log2_lt_pow2; lia). lia. }
    apply Z.leb_le in L. rewrite L.
    destruct (2 ^ 1024 <=? Z.abs z) eqn:E.
    - apply Z.leb_le in E. exfalso.
      assert (2 ^ 53 < 2 ^ 1024) by (apply Z.pow_lt_mono_r; lia). lia.
    - rewrite Z.mul_comm, Z.abs_sgn. reflexivity.
  Qed.

  Lemma float_gets_int : forall z,
    (exists f, gives (transform (LType TFloat) (VInt z)) (VFloat f)) \/
    raises (transform (LType TFloat) (VInt z)) EOverflow.
  Proof.
    intros z. cbn [leaf_transform t_type]. unfold float_of_Z.
    match goal with |- context [if ?c then _ else _] => destruct (2 ^ 1024 <=? (if Z.log2 (Z.abs z) + 1 <=? 53
        then Z.abs z else _)) end.
    - right. intros s. reflexivity.
    - left. eexists. intros s. reflexivity.
  Qed.

  Lemma float_small_int : forall z, Z.abs z < 2 ^ 53 ->
    gives (transform (LType TFloat) (VInt z)) (VFloat (FFin (inject_Z z))) /\
    veq oeq (VFloat (FFin (inject_Z z))) (VInt z) = true.
  Proof.
    intros z Hz. split.
    - intros s. cbn [leaf_transform t_type]. rewrite float_of_small by exact Hz. reflexivity.
    - simpl. apply Qeq_bool_iff. reflexivity.
  Qed.

  Lemma type_leaves : forall k v, k = TStr \/ k = TInt \/ k = TBool ->
    gives (transform (LType k) v) v.
  Proof. intros k v [->|[->| ->]] s; destruct v; reflexivity. Qed.
End Str.
