(** TextProofs.v -- lemmas about letters, words and replaced text. *)
From Verif Require Import Base PyStr KeypathModel LeafSpec LeafStrProofs TextSpec.
Open Scope string_scope.
Open Scope list_scope.

Fixpoint index_of (c : ascii) (l : list ascii) : option nat :=
  match l with
  | [] => None
  | d :: r => if Ascii.eqb c d then Some 0%nat else option_map S (index_of c r)
  end.
Lemma index_some c l : forall i, index_of c l = Some i -> nth_error l i = Some c.
Proof.
  induction l as [|d r IH]; intros i H; cbn [index_of] in H; [discriminate H|].
  destruct (Ascii.eqb c d) eqn:E.
  - apply Ascii.eqb_eq in E. subst d. injection H as <-. reflexivity.
  - destruct (index_of c r) as [j|]; [|discriminate H]. injection H as <-. apply IH. reflexivity.
Qed.
Lemma index_none c l : index_of c l = None -> ~ In c l.
Proof.
  induction l as [|d r IH]; intros H; cbn [index_of] in H; [intros []|].
  destruct (Ascii.eqb c d) eqn:E; [discriminate H|].
  destruct (index_of c r) as [j|]; [discriminate H|].
  intros [<-|I]; [rewrite Ascii.eqb_refl in E; discriminate E|]. exact (IH eq_refl I).
Qed.

Definition mapped (from to : list ascii) (c : ascii) : ascii :=
  match index_of c from with
  | Some i => match nth_error to i with Some d => d | None => c end
  | None => c
  end.
Lemma all_ascii (p : ascii -> bool) :
  forallb p (map ascii_of_nat (seq 0 256)) = true -> forall c, p c = true.
Proof.
  intros H c. rewrite forallb_forall in H. apply H. apply in_map_iff. exists (nat_of_ascii c).
  split; [apply ascii_nat_embedding|]. apply in_seq. pose proof (nat_ascii_bounded c). lia.
Qed.
Lemma upper_mapped c : to_upper c = mapped (chars small_letters) (chars capital_letters) c.
Proof.
  apply Ascii.eqb_eq. revert c.
  apply (all_ascii (fun c => Ascii.eqb (to_upper c) (mapped (chars small_letters) (chars capital_letters) c))).
  vm_compute. reflexivity.
Qed.
Lemma lower_mapped c : to_lower c = mapped (chars capital_letters) (chars small_letters) c.
Proof.
  apply Ascii.eqb_eq. revert c.
  apply (all_ascii (fun c => Ascii.eqb (to_lower c) (mapped (chars capital_letters) (chars small_letters) c))).
  vm_compute. reflexivity.
Qed.
Lemma upper_capital c : capital_of c (to_upper c).
Proof.
  rewrite upper_mapped. unfold mapped. destruct (index_of c (chars small_letters)) as [i|] eqn:E.
  - pose proof (index_some _ _ _ E) as N. assert (L : (i < 26)%nat).
    { change 26%nat with (length (chars small_letters)). apply nth_error_Some. rewrite N. discriminate. }
    destruct (nth_error (chars capital_letters) i) as [d|] eqn:D.
    + exact (co_letter i c d N D).
    + apply nth_error_None in D. change (length (chars capital_letters)) with 26%nat in D. lia.
  - apply co_other. apply index_none. exact E.
Qed.
Lemma lower_small c : small_of c (to_lower c).
Proof.
  rewrite lower_mapped. unfold mapped. destruct (index_of c (chars capital_letters)) as [i|] eqn:E.
  - pose proof (index_some _ _ _ E) as N. assert (L : (i < 26)%nat).
    { change 26%nat with (length (chars capital_letters)). apply nth_error_Some. rewrite N. discriminate. }
    destruct (nth_error (chars small_letters) i) as [d|] eqn:D.
    + exact (so_letter i c d N D).
    + apply nth_error_None in D. change (length (chars small_letters)) with 26%nat in D. lia.
  - apply so_other. apply index_none. exact E.
Qed.

(** The tests of characters *)
Definition inb (c : ascii) (l : list ascii) : bool := existsb (Ascii.eqb c) l.
Lemma inb_iff c l : inb c l = true <-> In c l.
Proof.
  unfold inb. rewrite existsb_exists. split.
  - intros (x & I & E). apply Ascii.eqb_eq in E. subst x. exact I.
  - intros I. exists c. split; [exact I|apply Ascii.eqb_refl].
Qed.
Lemma beq_all (p q : ascii -> bool) :
  forallb (fun c => Bool.eqb (p c) (q c)) (map ascii_of_nat (seq 0 256)) = true -> forall c, p c = q c.
Proof. intros H c. apply Bool.eqb_prop. exact (all_ascii _ H c). Qed.
Lemma alpha_letter c : is_alpha c = true <-> letter c.
Proof.
  rewrite (beq_all is_alpha (fun c => inb c (chars small_letters) || inb c (chars capital_letters))).
  - rewrite Bool.orb_true_iff, !inb_iff. reflexivity.
  - vm_compute. reflexivity.
Qed.
Lemma digit_decimal c : is_digit c = true <-> decimal c.
Proof.
  rewrite (beq_all is_digit (fun c => inb c (chars decimal_digits))).
  - apply inb_iff.
  - vm_compute. reflexivity.
Qed.
Lemma alnum_iff c : is_alnum c = true <-> letter c \/ decimal c.
Proof. unfold is_alnum. rewrite Bool.orb_true_iff, alpha_letter, digit_decimal. reflexivity. Qed.

Lemma str_all_made p q s : (forall c, p c = true <-> q c) -> str_all p s = true <-> made_of q s.
Proof.
  intros PQ. unfold str_all, made_of. destruct s as [|c s]; cbn [list_ascii_of_string].
  - split; [discriminate|]. intros [N _]. destruct (N eq_refl).
  - rewrite forallb_forall. split.
    + intros H. split; [discriminate|]. intros d I. apply PQ, H, I.
    + intros [_ H] d I. apply PQ, H, I.
Qed.

(** Character by character *)
Lemma map_charwise f s (change : list ascii -> nat -> ascii -> ascii -> Prop) :
  (forall l i c, change l i c (f c)) -> charwise change s (str_map f s).
Proof.
  intros F. unfold str_map, charwise. split.
  - rewrite unchars_length, map_length. apply chars_length.
  - intros i c d C D. rewrite chars_unchars, nth_error_map, C in D. injection D as <-. apply F.
Qed.

Lemma title_length b l : length (title_go b l) = length l.
Proof. revert b. induction l as [|c l IH]; intros b; cbn [title_go length]; [reflexivity|]. f_equal. apply IH. Qed.
Lemma title_nth l : forall b i c, nth_error l i = Some c ->
  nth_error (title_go b l) i = Some
    (if match i with O => b | S j => match nth_error l j with Some x => is_alpha x | None => false end end
     then to_lower c else to_upper c).
Proof.
  induction l as [|x l IH]; intros b i c H; [destruct i; discriminate H|].
  destruct i as [|j]; cbn [title_go nth_error] in *.
  - injection H as <-. reflexivity.
  - rewrite (IH (is_alpha x) j c H). destruct j; reflexivity.
Qed.

(** Replacing *)
Lemma split_skip sep s : forall k cur, split_go sep s k cur = split_go sep (str_skip k s) 0%nat cur.
Proof.
  induction s as [|c s IH]; intros [|k] cur; try reflexivity.
  cbn [split_go str_skip]. apply IH.
Qed.

Lemma replaced_go old new : old <> "" -> forall n s cur, (String.length s <= n)%nat ->
  (forall a b, (cur ++ s = a ++ old ++ b)%string -> (String.length cur <= String.length a)%nat) ->
  replaced old new (cur ++ s)%string (join new (split_go old s 0%nat cur)).
Proof.
  intros NE. assert (LO : (0 < String.length old)%nat) by (destruct old; [destruct (NE eq_refl)|cbn; lia]).
  induction n as [|n IH]; intros s cur L F.
  - destruct s; [|cbn in L; lia]. rewrite str_app_nil in *. cbn [split_go join]. apply rp_none.
    intros (a & b & E). pose proof (F a b E) as Q. apply (f_equal String.length) in E.
    rewrite !str_app_length in E. lia.
  - destruct s as [|c s].
    + rewrite str_app_nil in *. cbn [split_go join]. apply rp_none.
      intros (a & b & E). pose proof (F a b E) as Q. apply (f_equal String.length) in E.
      rewrite !str_app_length in E. lia.
    + cbn [split_go]. destruct (String.prefix old (String c s)) eqn:E.
      * rewrite join_cons by apply split_go_nonempty.
        apply prefix_iff in E. destruct E as [r E]. rewrite E in *.
        destruct old as [|d old']; [destruct (NE eq_refl)|].
        assert (ES : s = (old' ++ r)%string) by (cbn in E; congruence).
        cbn [String.length pred]. rewrite split_skip, ES, str_skip_app. apply rp_first; [exact F|].
        apply (IH r ""). 
        -- rewrite str_app_length in L. cbn [String.length] in L. lia.
        -- intros a b _. cbn. lia.
      * replace (cur ++ String c s)%string with ((cur ++ String c "") ++ s)%string
          by (rewrite <- str_app_assoc; reflexivity).
        apply IH; [cbn [String.length] in L; lia|].
        intros a b Q. assert (Q' : (cur ++ String c s = a ++ old ++ b)%string).
        { rewrite <- Q, <- str_app_assoc. reflexivity. }
        pose proof (F a b Q') as LE. rewrite str_app_length. cbn [String.length].
        destruct (Nat.eq_dec (String.length cur) (String.length a)) as [EQ|]; [|lia].
        destruct (app_split_str _ _ _ _ Q' LE) as (e & -> & E2).
        assert (e = "") as ->.
        { rewrite str_app_length in EQ. destruct e; [reflexivity|cbn in EQ; lia]. }
        exfalso. assert (P : String.prefix old (String c s) = true).
        { apply prefix_iff. exists b. exact E2. }
        congruence.
Qed.

Lemma weave_spec new s :
  weave new s = unchars (flat_map (fun c => chars new ++ [c]) (chars s) ++ chars new).
Proof.
  induction s as [|c s IH]; cbn [weave list_ascii_of_string flat_map app].
  - symmetry. apply unchars_chars.
  - rewrite IH, <- app_assoc, <- app_assoc. cbn [app]. rewrite (unchars_app (chars new)), unchars_chars. reflexivity.
Qed.
