(** RegexProofs.v -- the matcher of RegexModel.v finds exactly the matches of
    RegexSpec.v, and what the patterns of the repository match. *)
From Verif Require Import Base Mon Values PyStr LeafSpec RegexModel RegexSpec.
Open Scope nat_scope.
Open Scope list_scope.

(** ** The matcher *)

Lemma at_end_spec : forall a, at_end a = true <-> a = [] \/ a = [nl].
Proof.
  intros [|c [|d a]]; cbn.
  - split; auto.
  - split; intros H.
    + apply Ascii.eqb_eq in H. subst. auto.
    + destruct H as [H|H]; [discriminate H|]. injection H as ->. apply Ascii.eqb_refl.
  - split; intros H; [discriminate H|]. destruct H as [H|H]; discriminate H.
Qed.

Lemma begins_word_b : forall l,
  match l with [] => false | c :: _ => is_word c end = true <-> begins_in_word l.
Proof.
  intros [|c l]; split; intros H; try discriminate H.
  - destruct H as (c & l' & H & _). discriminate H.
  - exists c, l. auto.
  - destruct H as (c' & l' & H & W). injection H as -> ->. exact W.
Qed.

Lemma ends_word_b : forall l,
  match rev l with [] => false | c :: _ => is_word c end = true <-> ends_in_word l.
Proof.
  intros l. split; intros H.
  - destruct (rev l) as [|c r] eqn:E; [discriminate H|].
    exists (rev r), c. split; [|exact H].
    rewrite <- (rev_involutive l), E. reflexivity.
  - destruct H as (l' & c & -> & W). rewrite rev_app_distr. exact W.
Qed.

Lemma word_edge_spec : forall b a, word_edge (rev b) a = true <->
  (ends_in_word b /\ ~ begins_in_word a) \/ (~ ends_in_word b /\ begins_in_word a).
Proof.
  intros b a. unfold word_edge.
  pose proof (ends_word_b b) as Hb. pose proof (begins_word_b a) as Ha.
  destruct (match rev b with [] => false | c :: _ => is_word c end);
    destruct (match a with [] => false | c :: _ => is_word c end); cbn;
    destruct Hb as [Hb1 Hb2]; destruct Ha as [Ha1 Ha2];
    (split; intros H; [try discriminate H | try reflexivity]).
  - destruct H as [[_ N]|[N _]]; exfalso; apply N; auto.
  - left. split; [auto|]. intros G. apply Ha2 in G. discriminate G.
  - right. split; [|auto]. intros G. apply Hb2 in G. discriminate G.
  - destruct H as [[G _]|[_ G]]; [apply Hb2 in G | apply Ha2 in G]; discriminate G.
Qed.

(** Where a match of [s] from the place after [b] ends *)
Definition after_match (b s a : list ascii) : place := (rev (b ++ s), a).
Definition place_of (b t : list ascii) : place := (rev b, t).

(** [f] finds exactly the matches of [r]. *)
Definition finds (f : place -> list place) (r : rx) : Prop :=
  forall b t q, In q (f (place_of b t)) <->
    exists s a, t = s ++ a /\ q = after_match b s a /\ matches r b s a.

Lemma repeated_sound : forall f r, finds f r -> forall n b t q,
  In q (repeated n f (place_of b t)) ->
  exists s a, t = s ++ a /\ q = after_match b s a /\ matches (RStar r) b s a.
Proof.
  intros f r F. induction n as [|n IH]; intros b t q H; cbn [repeated] in H.
  - destruct H as [<-|[]]. exists [], t. repeat split; [|constructor].
    unfold place_of, after_match. rewrite app_nil_r. reflexivity.
  - destruct H as [<-|H].
    + exists [], t. repeat split; [|constructor].
      unfold place_of, after_match. rewrite app_nil_r. reflexivity.
    + apply in_flat_map in H. destruct H as (p & Hp & H).
      apply F in Hp. destruct Hp as (s & a & -> & -> & M).
      destruct (Nat.ltb _ _); [|destruct H].
      change (after_match b s a) with (place_of (b ++ s) a) in H.
      apply IH in H. destruct H as (s2 & a2 & -> & -> & M2).
      exists (s ++ s2), a2. rewrite app_assoc. repeat split.
      * unfold after_match. rewrite app_assoc. reflexivity.
      * apply m_more; assumption.
Qed.

Lemma repeated_complete : forall f r, finds f r -> forall b s a,
  matches (RStar r) b s a -> forall n, length (s ++ a) <= n ->
  In (after_match b s a) (repeated n f (place_of b (s ++ a))).
Proof.
  intros f r F b s a M. remember (RStar r) as x eqn:Ex. revert Ex.
  induction M as [| | | | |x b a|x b s t a M1 _ M2 IH2| | | |]; intros Ex n L;
    try discriminate Ex.
  - injection Ex as ->. destruct n; left; unfold place_of, after_match;
      rewrite app_nil_r; reflexivity.
  - injection Ex as ->. specialize (IH2 eq_refl).
    destruct s as [|c s].
    + cbn [app] in *. unfold after_match in *. rewrite app_nil_r in *.
      exact (IH2 n L).
    + destruct n as [|n]; [cbn in L; lia|].
      cbn [repeated]. right. apply in_flat_map.
      exists (after_match b (c :: s) (t ++ a)). split.
      * apply F. exists (c :: s), (t ++ a). rewrite <- app_assoc. auto.
      * assert (E : (length (snd (after_match b (c :: s) (t ++ a))) <?
                     length (snd (place_of b (((c :: s) ++ t) ++ a)))) = true).
        { apply Nat.ltb_lt. cbn. rewrite !app_length. lia. }
        rewrite E.
        assert (L2 : length (t ++ a) <= n).
        { cbn [app length] in L. rewrite !app_length in *. lia. }
        specialize (IH2 n L2). unfold after_match, place_of in *.
        rewrite app_assoc. exact IH2.
Qed.

Lemma ends_finds : forall r, finds (ends r) r.
Proof.
  induction r as [p| |x IHx y IHy|x IHx y IHy|x IHx| | | |x IHx]; intros b t q.
  - cbn [ends place_of snd fst]. destruct t as [|c t].
    + split; [intros []|]. intros (s & a & E & _ & M). inversion M; subst. discriminate E.
    + split.
      * intros H. destruct (p c) eqn:Ep; [|destruct H]. destruct H as [<-|[]].
        exists [c], t. repeat split; [|constructor; exact Ep].
        unfold after_match. rewrite rev_app_distr. reflexivity.
      * intros (s & a & E & -> & M). inversion M; subst. injection E as -> ->.
        match goal with G : p _ = true |- _ => rewrite G end.
        left. unfold after_match. rewrite rev_app_distr. reflexivity.
  - cbn [ends]. split.
    + intros [<-|[]]. exists [], t. repeat split; [|constructor].
      unfold place_of, after_match. rewrite app_nil_r. reflexivity.
    + intros (s & a & -> & -> & M). inversion M; subst. left.
      unfold place_of, after_match. rewrite app_nil_r. reflexivity.
  - cbn [ends]. rewrite in_flat_map. split.
    + intros (p & Hp & Hq). apply IHx in Hp. destruct Hp as (s & a & -> & -> & M).
      change (after_match b s a) with (place_of (b ++ s) a) in Hq.
      apply IHy in Hq. destruct Hq as (s2 & a2 & -> & -> & M2).
      exists (s ++ s2), a2. rewrite app_assoc. repeat split.
      * unfold after_match. rewrite app_assoc. reflexivity.
      * constructor; assumption.
    + intros (s & a & -> & -> & M). inversion M; subst.
      match goal with
      | M1 : matches x b ?u (?v ++ a), M2 : matches y _ ?v a |- _ =>
          exists (after_match b u (v ++ a)); split;
          [ apply IHx; exists u, (v ++ a); rewrite <- app_assoc; auto
          | change (after_match b u (v ++ a)) with (place_of (b ++ u) (v ++ a));
            apply IHy; exists v, a; repeat split; [|exact M2];
            unfold after_match; rewrite app_assoc; reflexivity ]
      end.
  - cbn [ends]. rewrite in_app_iff, (IHx b t q), (IHy b t q). split.
    + intros [(s & a & E1 & E2 & M)|(s & a & E1 & E2 & M)]; exists s, a;
        repeat split; auto; [apply m_left|apply m_right]; exact M.
    + intros (s & a & E1 & E2 & M). inversion M; subst; [left|right]; exists s, a; auto.
  - cbn [ends]. split.
    + apply repeated_sound. exact IHx.
    + intros (s & a & -> & -> & M).
      apply repeated_complete with (r := x); [exact IHx|exact M|].
      cbn. lia.
  - cbn [ends place_of fst]. split.
    + intros H. destruct (rev b) as [|c l] eqn:E; [|destruct H].
      assert (b = []) as -> by (rewrite <- (rev_involutive b), E; reflexivity).
      destruct H as [<-|[]]. exists [], t. repeat split. constructor.
    + intros (s & a & -> & -> & M). inversion M; subst. left. reflexivity.
  - cbn [ends place_of snd]. split.
    + intros H. destruct (at_end t) eqn:E; [|destruct H]. destruct H as [<-|[]].
      exists [], t. apply at_end_spec in E. repeat split; [|constructor; exact E].
      unfold after_match. rewrite app_nil_r. reflexivity.
    + intros (s & a & -> & -> & M). inversion M; subst.
      match goal with G : _ \/ _ |- _ => apply at_end_spec in G; cbn [app]; rewrite G end.
      left. unfold after_match, place_of. rewrite app_nil_r. reflexivity.
  - cbn [ends place_of fst snd]. split.
    + intros H. destruct (word_edge (rev b) t) eqn:E; [|destruct H]. destruct H as [<-|[]].
      exists [], t. apply word_edge_spec in E. repeat split; [|constructor; exact E].
      unfold after_match. rewrite app_nil_r. reflexivity.
    + intros (s & a & -> & -> & M). inversion M; subst.
      match goal with G : _ \/ _ |- _ => apply word_edge_spec in G; cbn [app]; rewrite G end.
      left. unfold after_match, place_of. rewrite app_nil_r. reflexivity.
  - cbn [ends]. split.
    + intros H. destruct (ends x (place_of b t)) as [|p l] eqn:E; [destruct H|].
      destruct H as [<-|[]].
      assert (Hp : In p (ends x (place_of b t))) by (rewrite E; left; reflexivity).
      apply IHx in Hp. destruct Hp as (s & a & -> & _ & M).
      exists [], (s ++ a). repeat split; [|constructor; exact M].
      unfold after_match, place_of. rewrite app_nil_r. reflexivity.
    + intros (s & a & -> & -> & M). inversion M; subst.
      match goal with
      | G : matches x b ?u ?v |- _ =>
          assert (Hp : In (after_match b u v) (ends x (place_of b (u ++ v))))
            by (apply IHx; exists u, v; auto)
      end.
      cbn [app]. destruct (ends x _) as [|p l]; [destruct Hp|].
      left. unfold after_match, place_of. rewrite app_nil_r. reflexivity.
Qed.

Lemma found_spec : forall r b t, found r (place_of b t) = true <->
  exists s a, t = s ++ a /\ matches r b s a.
Proof.
  intros r b t. unfold found. split.
  - intros H. destruct (ends r (place_of b t)) as [|p l] eqn:E; [discriminate H|].
    assert (Hp : In p (ends r (place_of b t))) by (rewrite E; left; reflexivity).
    apply ends_finds in Hp. destruct Hp as (s & a & E1 & _ & M). exists s, a. auto.
  - intros (s & a & -> & M).
    assert (Hp : In (after_match b s a) (ends r (place_of b (s ++ a))))
      by (apply ends_finds; exists s, a; auto).
    destruct (ends r _); [destruct Hp|reflexivity].
Qed.

Lemma re_match_spec : forall r s, re_match r s = true <-> occurs_at_start r s.
Proof. intros r s. exact (found_spec r [] (chars s)). Qed.

Lemma search_from_spec : forall r t b, search_from r (rev b) t = true <->
  exists x m a, t = x ++ m ++ a /\ matches r (b ++ x) m a.
Proof.
  induction t as [|c t IH]; intros b; cbn [search_from];
    rewrite orb_true_iff; change (rev b, ?t) with (place_of b t);
    rewrite found_spec.
  - split.
    + intros [(s & a & E & M)|H]; [|discriminate H].
      exists [], s, a. rewrite app_nil_r. auto.
    + intros (x & m & a & E & M). left.
      destruct x; [|discriminate E]. rewrite app_nil_r in M. exists m, a. auto.
  - replace (c :: rev b) with (rev (b ++ [c])) by (rewrite rev_app_distr; reflexivity).
    rewrite IH. split.
    + intros [(s & a & E & M)|(x & m & a & E & M)].
      * exists [], s, a. rewrite app_nil_r. auto.
      * exists (c :: x), m, a. rewrite <- app_assoc in M. cbn in *. subst. auto.
    + intros (x & m & a & E & M). destruct x as [|d x].
      * left. rewrite app_nil_r in M. exists m, a. auto.
      * right. injection E as -> ->. exists x, m, a. rewrite <- app_assoc. auto.
Qed.

Lemma re_search_spec : forall r s, re_search r s = true <-> occurs_in r s.
Proof.
  intros r s. unfold re_search. change (@nil ascii) with (rev (@nil ascii)).
  rewrite search_from_spec. reflexivity.
Qed.

(** ** Characters and strings *)

Lemma ascii_all : forall (f : ascii -> bool),
  forallb (fun n => f (ascii_of_nat n)) (seq 0 256) = true -> forall c, f c = true.
Proof.
  intros f H c. rewrite <- (ascii_nat_embedding c).
  rewrite forallb_forall in H. apply (H (nat_of_ascii c)). apply in_seq.
  pose proof (nat_ascii_bounded c). lia.
Qed.

Definition class_agrees (p : ascii -> bool) (alphabet : string) : bool :=
  forallb (fun n => Bool.eqb (p (ascii_of_nat n))
                      (existsb (Ascii.eqb (ascii_of_nat n)) (chars alphabet))) (seq 0 256).

Lemma one_of_spec : forall s c, one_of s c = true <-> among s c.
Proof.
  intros s c. unfold one_of, among. rewrite existsb_exists. split.
  - intros (d & H & E). apply Ascii.eqb_eq in E. subst. exact H.
  - intros H. exists c. split; [exact H|apply Ascii.eqb_refl].
Qed.

Lemma all_among_b : forall al s, forallb (one_of al) (chars s) = true -> all_among al s.
Proof.
  intros al s H. unfold all_among. apply Forall_forall. intros c Hc.
  rewrite forallb_forall in H. apply one_of_spec. apply H. exact Hc.
Qed.

Lemma class_spec : forall p alphabet, class_agrees p alphabet = true ->
  forall c, p c = true <-> among alphabet c.
Proof.
  intros p al H c.
  assert (E : Bool.eqb (p c) (one_of al c) = true).
  { apply (ascii_all (fun c => Bool.eqb (p c) (one_of al c))). exact H. }
  apply Bool.eqb_prop in E. rewrite E. apply one_of_spec.
Qed.

Lemma class_all : forall p alphabet, class_agrees p alphabet = true ->
  forall l, Forall (fun c => p c = true) l <-> Forall (among alphabet) l.
Proof.
  intros p al H l. split; intros G; (eapply Forall_impl; [|exact G]); intros c;
    apply (class_spec p al H).
Qed.

Lemma chars_cat : forall a b, chars (a ++ b) = chars a ++ chars b.
Proof. induction a as [|c a IH]; intros b; cbn; [|rewrite IH]; reflexivity. Qed.

Lemma unchars_cat : forall a b, unchars (a ++ b) = (unchars a ++ unchars b)%string.
Proof. induction a as [|c a IH]; intros b; cbn; [|rewrite IH]; reflexivity. Qed.

Lemma chars_of : forall l, chars (unchars l) = l.
Proof. exact list_ascii_of_string_of_list_ascii. Qed.

Lemma of_chars : forall s, unchars (chars s) = s.
Proof. exact string_of_list_ascii_of_string. Qed.

Lemma chars_inj : forall a b, chars a = chars b -> a = b.
Proof. intros a b H. rewrite <- (of_chars a), H. apply of_chars. Qed.

Lemma chars_length : forall s, length (chars s) = String.length s.
Proof. induction s as [|c s IH]; cbn; [|rewrite IH]; reflexivity. Qed.

Lemma unchars_length : forall l, String.length (unchars l) = length l.
Proof. intros l. rewrite <- chars_length, chars_of. reflexivity. Qed.

(** ** Combinators *)

Lemma M_char : forall p b s a,
  matches (RChar p) b s a <-> exists c, s = [c] /\ p c = true.
Proof.
  intros p b s a. split.
  - intros M. inversion M; subst. eauto.
  - intros (c & -> & H). constructor. exact H.
Qed.

Lemma M_empty : forall b s a, matches REmpty b s a <-> s = [].
Proof.
  intros b s a. split; [intros M; inversion M; reflexivity | intros ->; constructor].
Qed.

Lemma M_seq : forall x y b s a, matches (RSeq x y) b s a <->
  exists u v, s = u ++ v /\ matches x b u (v ++ a) /\ matches y (b ++ u) v a.
Proof.
  intros x y b s a. split.
  - intros M. inversion M; subst. eauto.
  - intros (u & v & -> & H & G). constructor; assumption.
Qed.

Lemma M_alt : forall x y b s a, matches (RAlt x y) b s a <->
  matches x b s a \/ matches y b s a.
Proof.
  intros x y b s a. split.
  - intros M. inversion M; subst; auto.
  - intros [H|H]; [apply m_left|apply m_right]; exact H.
Qed.

Lemma M_opt : forall x b s a, matches (ropt x) b s a <-> matches x b s a \/ s = [].
Proof. intros. unfold ropt. rewrite M_alt, M_empty. reflexivity. Qed.

Lemma M_star_class : forall p b s a,
  matches (RStar (RChar p)) b s a <-> Forall (fun c => p c = true) s.
Proof.
  intros p b s a. split.
  - intros M. remember (RStar (RChar p)) as x eqn:Ex. revert Ex.
    induction M as [| | | | |x b a|x b s t a M1 _ M2 IH2| | | |]; intros Ex;
      try discriminate Ex.
    + constructor.
    + injection Ex as ->. apply M_char in M1. destruct M1 as (c & -> & H).
      constructor; [exact H|apply IH2; reflexivity].
  - revert b. induction s as [|c s IH]; intros b H; [constructor|].
    inversion H; subst. change (c :: s) with ([c] ++ s). apply m_more.
    + constructor. assumption.
    + apply IH. assumption.
Qed.

Lemma M_plus_class : forall p b s a,
  matches (rplus (RChar p)) b s a <-> s <> [] /\ Forall (fun c => p c = true) s.
Proof.
  intros p b s a. unfold rplus. rewrite M_seq. split.
  - intros (u & v & -> & H & G). apply M_char in H. destruct H as (c & -> & H).
    apply M_star_class in G. split; [discriminate|]. constructor; assumption.
  - intros (N & H). destruct s as [|c s]; [congruence|]. inversion H; subst.
    exists [c], s. rewrite M_char, M_star_class. eauto.
Qed.

Lemma M_times_class : forall p n b s a,
  matches (rtimes n (RChar p)) b s a <-> length s = n /\ Forall (fun c => p c = true) s.
Proof.
  intros p. induction n as [|n IH]; intros b s a; cbn [rtimes].
  - rewrite M_empty. split; [intros ->; auto|]. intros [H _]. destruct s; [|discriminate H].
    reflexivity.
  - rewrite M_seq. split.
    + intros (u & v & -> & H & G). apply M_char in H. destruct H as (c & -> & H).
      apply IH in G. destruct G as [<- G]. split; [reflexivity|]. constructor; assumption.
    + intros (L & H). destruct s as [|c s]; [discriminate L|]. inversion H; subst.
      exists [c], s. rewrite M_char, IH. injection L as L. eauto 6.
Qed.

Lemma M_upto_class : forall p n b s a,
  matches (rupto n (RChar p)) b s a <-> length s <= n /\ Forall (fun c => p c = true) s.
Proof.
  intros p. induction n as [|n IH]; intros b s a; cbn [rupto].
  - rewrite M_empty. split; [intros ->; auto|]. intros [H _]. destruct s; [|cbn in H; lia].
    reflexivity.
  - rewrite M_opt, M_seq. split.
    + intros [(u & v & -> & H & G)| ->].
      * apply M_char in H. destruct H as (c & -> & H).
        apply IH in G. destruct G as [L G]. split; [cbn; lia|]. constructor; assumption.
      * split; [cbn; lia|constructor].
    + intros (L & H). destruct s as [|c s]; [auto|]. left. inversion H; subst.
      exists [c], s. rewrite M_char, IH. cbn in L.
      repeat split; eauto; lia.
Qed.

Lemma Forall_app_1 : forall (A : Type) (P : A -> Prop) l r,
  Forall P l -> Forall P r -> Forall P (l ++ r).
Proof. intros. apply Forall_app. auto. Qed.

Lemma M_atleast_class : forall p n b s a,
  matches (ratleast n (RChar p)) b s a <-> n <= length s /\ Forall (fun c => p c = true) s.
Proof.
  intros p n b s a. unfold ratleast. rewrite M_seq. split.
  - intros (u & v & -> & H & G). apply M_times_class in H. apply M_star_class in G.
    destruct H as [<- H]. split; [rewrite app_length; lia|]. apply Forall_app. auto.
  - intros (L & H). exists (firstn n s), (skipn n s).
    rewrite firstn_skipn, M_times_class, M_star_class, firstn_length.
    rewrite <- (firstn_skipn n s) in H. apply Forall_app in H. destruct H.
    repeat split; auto. lia.
Qed.

Lemma M_range_class : forall p m n b s a, m <= n ->
  matches (rrange m n (RChar p)) b s a <->
  m <= length s <= n /\ Forall (fun c => p c = true) s.
Proof.
  intros p m n b s a Le. unfold rrange. rewrite M_seq. split.
  - intros (u & v & -> & H & G). apply M_times_class in H. apply M_upto_class in G.
    destruct H as [<- H]. destruct G as [L G].
    split; [rewrite app_length; lia|]. apply Forall_app. auto.
  - intros (L & H). exists (firstn m s), (skipn m s).
    rewrite firstn_skipn, M_times_class, M_upto_class, firstn_length, skipn_length.
    rewrite <- (firstn_skipn m s) in H. apply Forall_app in H. destruct H.
    repeat split; auto; lia.
Qed.

Lemma to_lower_twice : forall c, to_lower (to_lower c) = to_lower c.
Proof.
  intros c. apply Ascii.eqb_eq.
  apply (ascii_all (fun c => Ascii.eqb (to_lower (to_lower c)) (to_lower c))).
  vm_compute. reflexivity.
Qed.

Lemma M_ilit : forall lit b s a,
  matches (ilit lit) b s a <-> same_but_case lit (unchars s).
Proof.
  unfold ilit, same_but_case, str_lower, str_map.
  induction lit as [|c lit IH]; intros b s a; cbn [rlit].
  - rewrite M_empty. split; [intros ->; reflexivity|].
    intros H. rewrite chars_of in H. destruct s; [reflexivity|discriminate H].
  - rewrite M_seq. split.
    + intros (u & v & -> & H & G). apply M_char in H. destruct H as (d & -> & H).
      apply IH in G. unfold same_letter in H. apply Ascii.eqb_eq in H.
      rewrite chars_of in *. cbn. f_equal; assumption.
    + intros H. rewrite chars_of in H. destruct s as [|d s]; [discriminate H|].
      cbn in H. injection H as Hd Hs. exists [d], s. repeat split.
      * constructor. unfold same_letter. apply Ascii.eqb_eq. exact Hd.
      * apply IH. rewrite chars_of. exact Hs.
Qed.

(** ** Colours *)

Lemma hex_class : class_agrees hexd hex_digits = true.
Proof. vm_compute. reflexivity. Qed.

Lemma hex_regex_spec : forall s, re_match hex_color_regex s = true <->
  exists color rest, s = (color ++ rest)%string /\ hex_color color.
Proof.
  intros s. rewrite re_match_spec. unfold occurs_at_start, hex_color_regex. split.
  - intros (m & a & E & M). apply M_times_class in M. destruct M as [L F].
    exists (unchars m), (unchars a). split.
    + rewrite <- unchars_cat, <- E. symmetry. apply of_chars.
    + split; [rewrite unchars_length; exact L|]. unfold all_among. rewrite chars_of.
      apply (class_all hexd). exact hex_class. exact F.
  - intros (x & y & -> & L & F). exists (chars x), (chars y).
    rewrite chars_cat. split; [reflexivity|]. apply M_times_class.
    rewrite chars_length. split; [exact L|]. apply (class_all _ _ hex_class). exact F.
Qed.

(** ** Passwords *)

Lemma M_ahead : forall x b s a, matches (RAhead x) b s a <->
  s = [] /\ exists u v, a = u ++ v /\ matches x b u v.
Proof.
  intros x b s a. split.
  - intros M. inversion M; subst. eauto 6.
  - intros (-> & u & v & -> & M). constructor. exact M.
Qed.

Lemma M_start : forall b s a, matches RStart b s a <-> b = [] /\ s = [].
Proof.
  intros b s a. split; [intros M; inversion M; auto | intros [-> ->]; constructor].
Qed.

Lemma M_end : forall b s a, matches REnd b s a <-> s = [] /\ (a = [] \/ a = [nl]).
Proof.
  intros b s a. split; [intros M; inversion M; auto | intros [-> H]; constructor; exact H].
Qed.

Lemma M_has_ahead : forall p b s a, matches (has_ahead p) b s a <->
  s = [] /\ exists u c v, a = u ++ c :: v /\ Forall (fun c => dot c = true) u /\ p c = true.
Proof.
  intros p b s a. unfold has_ahead. rewrite M_ahead. split.
  - intros (-> & u & v & -> & M). split; [reflexivity|].
    apply M_seq in M. destruct M as (x & y & -> & M1 & M2).
    apply M_star_class in M1. apply M_char in M2. destruct M2 as (c & -> & H).
    exists x, c, v. rewrite <- app_assoc. auto.
  - intros (-> & u & c & v & -> & F & H). split; [reflexivity|].
    exists (u ++ [c]), v. rewrite <- app_assoc. split; [reflexivity|].
    apply M_seq. exists u, [c]. rewrite M_star_class, M_char. eauto.
Qed.

Lemma dot_line : forall l, Forall (fun c => dot c = true) l <-> ~ In nl l.
Proof.
  intros l. rewrite Forall_forall. split.
  - intros H G. apply H in G. discriminate G.
  - intros H c G. unfold dot. apply negb_true_iff. apply Ascii.eqb_neq. intros ->. auto.
Qed.

(** In a line that a newline may follow, a character with a property other than the
    newline is within reach of [.*] exactly when it is in the line. *)
Lemma ahead_line : forall p line a, ~ In nl line -> a = [] \/ a = [nl] -> p nl = false ->
  ((exists u c v, line ++ a = u ++ c :: v /\ Forall (fun c => dot c = true) u /\ p c = true)
   <-> Exists (fun c => p c = true) line).
Proof.
  intros p line a N A Pn. rewrite Exists_exists. split.
  - intros (u & c & v & E & _ & H). exists c. split; [|exact H].
    assert (G : In c (line ++ a)) by (rewrite E; apply in_elt).
    apply in_app_iff in G. destruct G as [G|G]; [exact G|].
    destruct A as [->| ->]; [destruct G|]. destruct G as [<-|[]]. congruence.
  - intros (c & G & H). apply in_split in G. destruct G as (u & v & ->).
    exists u, c, (v ++ a). rewrite <- app_assoc. repeat split; [|exact H].
    apply dot_line. intros G. apply N. apply in_app_iff. auto.
Qed.

Lemma has_class : forall p alphabet, class_agrees p alphabet = true ->
  forall l, Exists (fun c => p c = true) l <-> Exists (among alphabet) l.
Proof.
  intros p al H l. split; intros G; (eapply Exists_impl; [|exact G]); intros c;
    apply (class_spec p al H).
Qed.

Lemma securepw_list : forall t,
  (exists b m a, t = b ++ m ++ a /\ matches securepw_regex b m a) <->
  exists line a, t = line ++ a /\ (a = [] \/ a = [nl]) /\ ~ In nl line /\
    Exists (among uppers) line /\ Exists (among symbols) line /\
    Exists (among digits) line /\ Exists (among lowers) line.
Proof.
  intros t. unfold securepw_regex.
  assert (U : class_agrees is_upper uppers = true) by (vm_compute; reflexivity).
  assert (L : class_agrees is_lower lowers = true) by (vm_compute; reflexivity).
  assert (D : class_agrees is_digit digits = true) by (vm_compute; reflexivity).
  assert (Y : class_agrees (one_of symbols) symbols = true) by (vm_compute; reflexivity).
  split.
  - intros (b & m & a & -> & M).
    apply M_seq in M. destruct M as (u0 & m1 & -> & M0 & M).
    apply M_start in M0. destruct M0 as [-> ->].
    apply M_seq in M. destruct M as (u1 & m2 & -> & M1 & M).
    apply M_seq in M. destruct M as (u2 & m3 & -> & M2 & M).
    apply M_seq in M. destruct M as (u3 & m4 & -> & M3 & M).
    apply M_seq in M. destruct M as (u4 & m5 & -> & M4 & M).
    apply M_seq in M. destruct M as (line & e & -> & M5 & M).
    apply M_has_ahead in M1. destruct M1 as [-> M1].
    apply M_has_ahead in M2. destruct M2 as [-> M2].
    apply M_has_ahead in M3. destruct M3 as [-> M3].
    apply M_has_ahead in M4. destruct M4 as [-> M4].
    apply M_end in M. destruct M as [-> E].
    apply M_star_class in M5. apply dot_line in M5.
    cbn [app] in *. rewrite app_nil_r in *.
    exists line, a.
    apply ahead_line in M1; [|assumption|assumption|reflexivity].
    apply ahead_line in M2; [|assumption|assumption|reflexivity].
    apply ahead_line in M3; [|assumption|assumption|reflexivity].
    apply ahead_line in M4; [|assumption|assumption|reflexivity].
    apply (has_class _ _ U) in M1. apply (has_class _ _ Y) in M2.
    apply (has_class _ _ D) in M3. apply (has_class _ _ L) in M4.
    repeat apply conj; auto.
  - intros (line & a & -> & E & N & H1 & H2 & H3 & H4).
    exists [], line, a. split; [reflexivity|].
    apply (has_class _ _ U) in H1. apply (has_class _ _ Y) in H2.
    apply (has_class _ _ D) in H3. apply (has_class _ _ L) in H4.
    pose proof (proj2 (ahead_line is_upper line a N E eq_refl) H1) as G1.
    pose proof (proj2 (ahead_line (one_of symbols) line a N E eq_refl) H2) as G2.
    pose proof (proj2 (ahead_line is_digit line a N E eq_refl) H3) as G3.
    pose proof (proj2 (ahead_line is_lower line a N E eq_refl) H4) as G4.
    apply M_seq. exists [], line. split; [reflexivity|]. split; [constructor|].
    apply M_seq. exists [], line. split; [reflexivity|].
    split; [apply M_has_ahead; auto|].
    apply M_seq. exists [], line. split; [reflexivity|].
    split; [apply M_has_ahead; auto|].
    apply M_seq. exists [], line. split; [reflexivity|].
    split; [apply M_has_ahead; auto|].
    apply M_seq. exists [], line. split; [reflexivity|].
    split; [apply M_has_ahead; auto|].
    apply M_seq. exists line, []. split; [symmetry; apply app_nil_r|].
    split; [apply M_star_class; apply dot_line; exact N|].
    apply M_end. auto.
Qed.

Lemma securepw_spec : forall s, re_search securepw_regex s = true <-> secure s.
Proof.
  intros s. rewrite re_search_spec. unfold occurs_in. rewrite securepw_list.
  unfold secure, one_line, has_one. split.
  - intros (line & a & E & A & N & H1 & H2 & H3 & H4). exists (unchars line).
    rewrite chars_of. repeat apply conj; auto.
    destruct A as [->| ->]; [left|right]; apply chars_inj; rewrite E.
    + rewrite app_nil_r, chars_of. reflexivity.
    + rewrite chars_cat, chars_of. reflexivity.
  - intros (line & A & N & H1 & H2 & H3 & H4).
    destruct A as [->| ->]; [exists (chars line), [] | exists (chars line), [nl]];
      repeat apply conj; auto.
    + symmetry. apply app_nil_r.
    + rewrite chars_cat. reflexivity.
Qed.

(** ** Email addresses *)

Lemma M_edge : forall b s a, matches RWordEdge b s a <-> s = [] /\
  ((ends_in_word b /\ ~ begins_in_word a) \/ (~ ends_in_word b /\ begins_in_word a)).
Proof.
  intros b s a. split; [intros M; inversion M; auto | intros [-> H]; constructor; exact H].
Qed.

Lemma M_the : forall c b s a, matches (RChar (Ascii.eqb c)) b s a <-> s = [c].
Proof.
  intros c b s a. rewrite M_char. split.
  - intros (d & -> & H). apply Ascii.eqb_eq in H. subst. reflexivity.
  - intros ->. exists c. split; [reflexivity|apply Ascii.eqb_refl].
Qed.

Definition word_chars : string := alnums ++ "_".

Lemma word_class : class_agrees is_word word_chars = true.
Proof. vm_compute. reflexivity. Qed.

Lemma word_among : forall c, word_char c <-> among word_chars c.
Proof. exact (class_spec _ _ word_class). Qed.

Lemma begins_among : forall l, begins_in_word l <->
  exists c r, unchars l = String c r /\ among word_chars c.
Proof.
  intros l. split.
  - intros (c & r & -> & W). exists c, (unchars r). split; [reflexivity|].
    apply word_among. exact W.
  - intros (c & r & E & W). exists c, (chars r). split; [|apply word_among; exact W].
    rewrite <- (chars_of l), E. reflexivity.
Qed.

Lemma not_ends_nil : ~ ends_in_word [].
Proof. intros (l & c & E & _). destruct l; discriminate E. Qed.

Lemma email_list : forall t,
  (exists m a, t = m ++ a /\ matches email_regex [] m a) <->
  exists local domain tld rest,
    t = local ++ "@"%char :: domain ++ "."%char :: tld ++ rest /\
    local <> [] /\ Forall (fun c => email_local c = true) local /\ begins_in_word local /\
    domain <> [] /\ Forall (fun c => email_domain c = true) domain /\
    2 <= length tld /\ Forall (fun c => email_tld c = true) tld /\
    ((ends_in_word tld /\ ~ begins_in_word rest) \/ (~ ends_in_word tld /\ begins_in_word rest)).
Proof.
  assert (HE : forall (p tld : list ascii), tld <> [] ->
            (ends_in_word (p ++ tld) <-> ends_in_word tld)).
  { intros p tld N. split.
    - intros (l & c & E & W). destruct (exists_last N) as (x & d & ->).
      rewrite app_assoc in E. apply app_inj_tail in E. destruct E as [_ ->].
      exists x, c. auto.
    - intros (l & c & -> & W). exists (p ++ l), c. rewrite <- app_assoc. auto. }
  intros t. unfold email_regex. split.
  - intros (m & a & -> & M).
    apply M_seq in M. destruct M as (u0 & m1 & -> & M0 & M).
    apply M_edge in M0. destruct M0 as [-> M0].
    apply M_seq in M. destruct M as (local & m2 & -> & M1 & M).
    apply M_seq in M. destruct M as (u2 & m3 & -> & M2 & M).
    apply M_seq in M. destruct M as (domain & m4 & -> & M3 & M).
    apply M_seq in M. destruct M as (u4 & m5 & -> & M4 & M).
    apply M_seq in M. destruct M as (tld & u6 & -> & M5 & M).
    apply M_edge in M. destruct M as [-> M].
    apply M_the in M2. subst u2. apply M_the in M4. subst u4.
    apply M_plus_class in M1. apply M_plus_class in M3. apply M_atleast_class in M5.
    destruct M1 as [N1 F1]. destruct M3 as [N3 F3]. destruct M5 as [L5 F5].
    exists local, domain, tld, a.
    cbn [app] in *. rewrite app_nil_r in *. rewrite <- ?app_assoc in *. cbn [app] in *.
    rewrite <- ?app_assoc in *. cbn [app] in *.
    repeat apply conj; auto.
    + destruct M0 as [[G _]|[_ G]]; [destruct (not_ends_nil G)|].
      destruct local as [|c l]; [congruence|].
      destruct G as (c' & r & E & W). cbn in E. injection E as -> _. exists c', l. auto.
    + assert (N5 : tld <> []) by (destruct tld; [cbn in L5; lia|discriminate]).
      assert (X : forall q, ends_in_word (local ++ "@"%char :: q ++ "."%char :: tld) <->
                            ends_in_word tld).
      { intros q. replace (local ++ "@"%char :: q ++ "."%char :: tld)
          with ((local ++ "@"%char :: q ++ ["."%char]) ++ tld)
          by (rewrite <- !app_assoc; cbn; rewrite <- !app_assoc; reflexivity).
        apply HE. exact N5. }
      specialize (X domain).
      destruct M as [[G1 G2]|[G1 G2]]; [left|right]; (split; [|exact G2]).
      * apply X. exact G1.
      * intros G. apply G1. apply X. exact G.
  - intros (local & domain & tld & rest & -> & N1 & F1 & B & N3 & F3 & L5 & F5 & E).
    exists (local ++ "@"%char :: domain ++ "."%char :: tld), rest. split.
    { rewrite <- !app_assoc. cbn. rewrite <- !app_assoc. reflexivity. }
    apply M_seq. exists [], (local ++ "@"%char :: domain ++ "."%char :: tld).
    split; [reflexivity|]. split.
    { apply M_edge. split; [reflexivity|]. right. split; [apply not_ends_nil|].
      destruct B as (c & l & -> & W). exists c. eexists. split; [reflexivity|exact W]. }
    apply M_seq. exists local, ("@"%char :: domain ++ "."%char :: tld).
    split; [reflexivity|]. split; [apply M_plus_class; auto|].
    apply M_seq. exists ["@"%char], (domain ++ "."%char :: tld).
    split; [reflexivity|]. split; [apply M_the; reflexivity|].
    apply M_seq. exists domain, ("."%char :: tld).
    split; [reflexivity|]. split; [apply M_plus_class; auto|].
    apply M_seq. exists ["."%char], tld.
    split; [reflexivity|]. split; [apply M_the; reflexivity|].
    apply M_seq. exists tld, []. rewrite app_nil_r.
    split; [reflexivity|]. split; [apply M_atleast_class; auto|].
    apply M_edge. split; [reflexivity|].
    assert (N5 : tld <> []) by (destruct tld; [cbn in L5; lia|discriminate]).
    rewrite (HE _ _ N5). exact E.
Qed.

Lemma tld_letter : forall c, email_tld c = true -> (word_char c <-> among letters c) /\
  (~ word_char c <-> c = "|"%char).
Proof.
  intros c H.
  assert (A : implb (email_tld c) (Bool.eqb (is_word c) (one_of letters c) &&
              Bool.eqb (negb (is_word c)) (Ascii.eqb c "|")) = true).
  { apply (ascii_all (fun c => implb (email_tld c) (Bool.eqb (is_word c) (one_of letters c) &&
              Bool.eqb (negb (is_word c)) (Ascii.eqb c "|")))). vm_compute. reflexivity. }
  rewrite H in A. cbn [implb] in A. apply andb_prop in A. destruct A as [A B].
  apply Bool.eqb_prop in A. apply Bool.eqb_prop in B. unfold word_char.
  rewrite <- one_of_spec, <- A. split; [reflexivity|].
  rewrite not_true_iff_false, <- negb_true_iff, B. apply Ascii.eqb_eq.
Qed.

Lemma begins_email_spec : forall s,
  re_match email_regex s = true <-> begins_with_email s.
Proof.
  assert (C1 : class_agrees email_local (alnums ++ "._%+-") = true)
    by (vm_compute; reflexivity).
  assert (C2 : class_agrees email_domain (alnums ++ ".-") = true)
    by (vm_compute; reflexivity).
  assert (C3 : class_agrees email_tld (letters ++ "|") = true)
    by (vm_compute; reflexivity).
  intros s. rewrite re_match_spec. unfold occurs_at_start. rewrite email_list.
  unfold begins_with_email, email_parts, email_edge, all_among. split.
  - intros (local & domain & tld & rest & E & N1 & F1 & B & N3 & F3 & L5 & F5 & W).
    exists (unchars local), (unchars domain), (unchars tld), (unchars rest).
    rewrite !chars_of, unchars_length. repeat apply conj; auto.
    + apply chars_inj. rewrite E, !chars_cat, !chars_of. reflexivity.
    + intros G. apply N1. rewrite <- (chars_of local), G. reflexivity.
    + apply (class_all _ _ C1). exact F1.
    + apply begins_among. exact B.
    + intros G. apply N3. rewrite <- (chars_of domain), G. reflexivity.
    + apply (class_all _ _ C2). exact F3.
    + apply (class_all _ _ C3). exact F5.
    + destruct W as [[W1 W2]|[W1 W2]].
      * left. destruct W1 as (l & c & -> & W1). exists (unchars l), c. split.
        { rewrite unchars_cat. reflexivity. }
        split.
        { apply Forall_app in F5. destruct F5 as [_ F5]. inversion F5; subst.
          apply tld_letter; assumption. }
        intros G. apply W2. apply begins_among. exact G.
      * right. destruct (@exists_last _ tld) as (l & c & ->).
        { destruct tld; [cbn in L5; lia|discriminate]. }
        exists (unchars l). split; [|apply begins_among; exact W2].
        rewrite unchars_cat. apply Forall_app in F5. destruct F5 as [_ F5].
        inversion F5; subst.
        assert (c = "|"%char) as ->; [|reflexivity].
        apply tld_letter; [assumption|]. intros G. apply W1. exists l, c. auto.
  - intros (local & domain & tld & rest & -> & (N1 & F1 & B & N3 & F3 & L5 & F5) & W).
    apply (class_all _ _ C1) in F1. apply (class_all _ _ C2) in F3.
    apply (class_all _ _ C3) in F5.
    exists (chars local), (chars domain), (chars tld), (chars rest).
    rewrite chars_length. repeat apply conj; auto.
    + rewrite !chars_cat. reflexivity.
    + intros G. apply N1. apply chars_inj. exact G.
    + apply begins_among. rewrite of_chars. exact B.
    + intros G. apply N3. apply chars_inj. exact G.
    + destruct W as [(t & c & -> & W1 & W2)|(t & -> & W2)].
      * left. split.
        { rewrite chars_cat in F5 |- *. exists (chars t), c. split; [reflexivity|].
          apply Forall_app in F5. destruct F5 as [_ F5]. inversion F5; subst.
          apply tld_letter; assumption. }
        intros G. apply W2. apply begins_among in G. rewrite of_chars in G. exact G.
      * right. split.
        { rewrite chars_cat. intros (l & c & E & G). apply app_inj_tail in E.
          destruct E as [_ <-]. discriminate G. }
        apply begins_among. rewrite of_chars. exact W2.
Qed.

(** ** Web addresses *)

(** Each piece matches independently of what surrounds it. *)
Definition piece (r : rx) (L : string -> Prop) : Prop :=
  forall b s a, matches r b s a <-> L (unchars s).

Lemma p_char : forall p alphabet, class_agrees p alphabet = true ->
  piece (RChar p) (fun s => exists c, s = String c "" /\ among alphabet c).
Proof.
  intros p al H b s a. rewrite M_char. split.
  - intros (c & -> & G). exists c. split; [reflexivity|]. apply (class_spec _ _ H). exact G.
  - intros (c & E & G). exists c. split; [|apply (class_spec _ _ H); exact G].
    rewrite <- (chars_of s), E. reflexivity.
Qed.

Lemma p_the : forall c, piece (RChar (Ascii.eqb c)) (fun s => s = String c "").
Proof.
  intros c b s a. rewrite M_the. split; [intros ->; reflexivity|].
  intros E. rewrite <- (chars_of s), E. reflexivity.
Qed.

Lemma p_seq : forall x y X Y, piece x X -> piece y Y ->
  piece (RSeq x y) (fun s => exists u v, s = (u ++ v)%string /\ X u /\ Y v).
Proof.
  intros x y X Y HX HY b s a. rewrite M_seq. split.
  - intros (u & v & -> & H & G). exists (unchars u), (unchars v).
    rewrite unchars_cat. split; [reflexivity|]. split; [apply HX in H|apply HY in G]; assumption.
  - intros (u & v & E & H & G). exists (chars u), (chars v). repeat apply conj.
    + rewrite <- (chars_of s), E. apply chars_cat.
    + apply HX. rewrite of_chars. exact H.
    + apply HY. rewrite of_chars. exact G.
Qed.

Lemma p_alt : forall x y X Y, piece x X -> piece y Y ->
  piece (RAlt x y) (fun s => X s \/ Y s).
Proof. intros x y X Y HX HY b s a. rewrite M_alt, (HX b s a), (HY b s a). reflexivity. Qed.

Lemma p_opt : forall x X, piece x X -> piece (ropt x) (fun s => X s \/ s = ""%string).
Proof.
  intros x X HX b s a. rewrite M_opt, (HX b s a).
  assert (E : s = [] <-> unchars s = ""%string).
  { destruct s; split; try reflexivity; discriminate. }
  rewrite E. reflexivity.
Qed.

Lemma p_iff : forall x X Y, piece x X -> (forall s, X s <-> Y s) -> piece x Y.
Proof. intros x X Y H E b s a. rewrite (H b s a). apply E. Qed.

Lemma p_ilit : forall lit, piece (ilit lit) (same_but_case lit).
Proof. intros lit b s a. apply M_ilit. Qed.

Lemma p_plus : forall p alphabet, class_agrees p alphabet = true ->
  piece (rplus (RChar p)) (fun s => s <> ""%string /\ all_among alphabet s).
Proof.
  intros p al H b s a. rewrite M_plus_class, (class_all _ _ H). unfold all_among.
  rewrite chars_of. split; intros [N F]; (split; [|exact F]).
  - intros E. apply N. rewrite <- (chars_of s), E. reflexivity.
  - intros ->. apply N. reflexivity.
Qed.

Lemma p_atleast : forall n p alphabet, class_agrees p alphabet = true ->
  piece (ratleast n (RChar p)) (fun s => n <= String.length s /\ all_among alphabet s).
Proof.
  intros n p al H b s a. rewrite M_atleast_class, (class_all _ _ H). unfold all_among.
  rewrite chars_of, unchars_length. reflexivity.
Qed.

Lemma p_upto : forall n p alphabet, class_agrees p alphabet = true ->
  piece (rupto n (RChar p)) (fun s => String.length s <= n /\ all_among alphabet s).
Proof.
  intros n p al H b s a. rewrite M_upto_class, (class_all _ _ H). unfold all_among.
  rewrite chars_of, unchars_length. reflexivity.
Qed.

Lemma p_range : forall m n p alphabet, m <= n -> class_agrees p alphabet = true ->
  piece (rrange m n (RChar p))
    (fun s => m <= String.length s <= n /\ all_among alphabet s).
Proof.
  intros m n p al Le H b s a. rewrite M_range_class, (class_all _ _ H) by exact Le.
  unfold all_among. rewrite chars_of, unchars_length. reflexivity.
Qed.

(** repetition of a piece *)
Lemma p_star : forall x X, piece x X ->
  piece (RStar x) (fun s => exists l, Forall X l /\ s = fold_right append ""%string l).
Proof.
  intros x X HX b s a. split.
  - intros M. remember (RStar x) as r eqn:Er. revert Er.
    induction M as [| | | | |r b a|r b s t a M1 _ M2 IH2| | | |]; intros Er;
      try discriminate Er.
    + exists []. split; [constructor|reflexivity].
    + injection Er as ->. destruct (IH2 eq_refl) as (l & F & E).
      exists (unchars s :: l). split.
      * constructor; [|exact F]. apply HX in M1. exact M1.
      * rewrite unchars_cat, E. reflexivity.
  - intros (l & F & E). revert b s E. induction F as [|u l Hu F IH]; intros b s E.
    + assert (s = []) as -> by (rewrite <- (chars_of s), E; reflexivity). constructor.
    + cbn in E.
      assert (s = chars u ++ chars (fold_right append ""%string l)) as ->
        by (rewrite <- (chars_of s), E; apply chars_cat).
      apply m_more.
      * apply HX. rewrite of_chars. exact Hu.
      * apply IH. apply of_chars.
Qed.

Lemma str_app_assoc : forall a b c, ((a ++ b) ++ c = a ++ b ++ c)%string.
Proof. induction a as [|x a IH]; intros b c; cbn; [|rewrite IH]; reflexivity. Qed.

Lemma str_app_nil : forall a, (a ++ "" = a)%string.
Proof. induction a as [|x a IH]; cbn; [|rewrite IH]; reflexivity. Qed.

Lemma alnum_class : class_agrees is_alnum alnums = true.
Proof. vm_compute. reflexivity. Qed.
Lemma hyphen_class : class_agrees (orc is_alnum (Ascii.eqb "-")) (alnums ++ "-") = true.
Proof. vm_compute. reflexivity. Qed.
Lemma digit_class : class_agrees is_digit digits = true.
Proof. vm_compute. reflexivity. Qed.
Lemma alpha_class : class_agrees is_alpha letters = true.
Proof. vm_compute. reflexivity. Qed.

Lemma p_label : piece url_label label.
Proof.
  eapply p_iff.
  { unfold url_label. apply p_seq; [apply (p_char _ _ alnum_class)|].
    apply p_opt. apply p_seq; [apply (p_upto 61 _ _ hyphen_class)|].
    apply (p_char _ _ alnum_class). }
  intros s. cbn beta. unfold label. split.
  - intros (u & v & -> & (c & -> & A) & [(m & w & -> & (L & F) & (d & -> & D))| ->]).
    + right. exists c, m, d. auto 6.
    + left. exists c. rewrite str_app_nil. auto.
  - intros [(c & -> & A)|(c & m & d & -> & A & D & F & L)].
    + exists (String c ""), ""%string. eauto 6.
    + exists (String c ""), (m ++ String d "")%string. cbn. split; [reflexivity|].
      split; [eauto|]. left. exists m, (String d ""). eauto 6.
Qed.

Lemma dots_fold : forall labels (tail : string),
  fold_right (fun l r => l ++ "." ++ r)%string tail labels =
  (fold_right append ""%string (map (fun l => l ++ ".")%string labels) ++ tail)%string.
Proof.
  induction labels as [|l ls IH]; intros tail; cbn [fold_right map]; [reflexivity|].
  rewrite IH, !str_app_assoc. reflexivity.
Qed.

Lemma p_domain : piece url_domain domain_name.
Proof.
  eapply p_iff.
  { unfold url_domain. apply p_seq.
    - unfold rplus. apply p_seq.
      + apply p_seq; [apply p_label|apply p_the].
      + apply p_star. apply p_seq; [apply p_label|apply p_the].
    - apply p_alt.
      + apply p_seq; [apply (p_range 2 6); [lia|exact alpha_class]|].
        apply p_opt. apply p_the.
      + apply p_seq; [apply (p_atleast 2 _ _ hyphen_class)|]. apply p_opt. apply p_the. }
  intros s. cbn beta. unfold domain_name, opt_dot. split.
  - intros (u & t & -> & (d1 & ds & -> & (l1 & p1 & -> & Hl1 & ->) & (l & F & ->)) & T).
    assert (exists labels, Forall label labels /\
              l = map (fun x => x ++ ".")%string labels) as (labels & FL & ->).
    { clear - F. induction F as [|x l (a & p & -> & Ha & ->) F (ls & FL & ->)].
      - exists []. split; [constructor|reflexivity].
      - exists (a :: ls). split; [constructor; assumption|reflexivity]. }
    assert (exists last dot, 2 <= String.length last /\ all_among (alnums ++ "-") last /\
              (dot = "" \/ dot = ".")%string /\ t = (last ++ dot)%string)
      as (last & dot & L & A & O & ->).
    { destruct T as [(a & b & -> & (L & A) & B)|(a & b & -> & (L & A) & B)];
        exists a, b; repeat apply conj; try lia; try tauto.
      unfold all_among in *. eapply Forall_impl; [|exact A].
      intros c H. unfold among in *. unfold alnums. rewrite !chars_cat, !in_app_iff. auto. }
    exists (l1 :: labels), last, dot. repeat apply conj; auto.
    + discriminate.
    + cbn [fold_right]. rewrite dots_fold, !str_app_assoc. reflexivity.
  - intros (labels & last & dot & N & F & L & A & O & ->).
    destruct labels as [|l1 labels]; [congruence|]. inversion F as [|? ? F1 F2]; subst.
    exists (fold_right append ""%string (map (fun l => l ++ ".")%string (l1 :: labels)))%string,
      (last ++ dot)%string.
    rewrite dots_fold. split; [reflexivity|]. split.
    + exists (l1 ++ ".")%string, (fold_right append ""%string (map (fun l => l ++ ".")%string labels))%string.
      split; [reflexivity|]. split; [exists l1, "."%string; auto|].
      exists (map (fun l => l ++ ".")%string labels). split; [|reflexivity].
      apply Forall_map. eapply Forall_impl; [|exact F2].
      intros x Hx. exists x, "."%string. auto.
    + right. exists last, dot. repeat apply conj; auto. tauto.
Qed.

Lemma p_number13 : piece digits13 number13.
Proof. apply (p_range 1 3); [lia|exact digit_class]. Qed.

Lemma p_ip : piece url_ip ip_address.
Proof.
  eapply p_iff.
  { unfold url_ip, dotlit. apply p_seq; [apply p_number13|].
    apply p_seq; [apply p_the|]. apply p_seq; [apply p_number13|].
    apply p_seq; [apply p_the|]. apply p_seq; [apply p_number13|].
    apply p_seq; [apply p_the|]. apply p_number13. }
  intros s. cbn beta. unfold ip_address. split.
  - intros (a & ? & -> & Ha & ? & ? & -> & -> & b & ? & -> & Hb & ? & ? & -> & -> &
            c & ? & -> & Hc & ? & d & -> & -> & Hd).
    exists a, b, c, d. auto 6.
  - intros (a & b & c & d & Ha & Hb & Hc & Hd & ->).
    do 2 eexists. split; [reflexivity|]. split; [exact Ha|].
    exists "."%string. eexists. split; [reflexivity|]. split; [reflexivity|].
    do 2 eexists. split; [reflexivity|]. split; [exact Hb|].
    exists "."%string. eexists. split; [reflexivity|]. split; [reflexivity|].
    do 2 eexists. split; [reflexivity|]. split; [exact Hc|].
    exists "."%string, d. auto.
Qed.

Lemma p_host : piece (RAlt url_domain (RAlt (ilit "localhost") url_ip)) url_host.
Proof. apply p_alt; [exact p_domain|]. apply p_alt; [apply p_ilit|exact p_ip]. Qed.

Lemma p_port : piece url_port port_part.
Proof.
  eapply p_iff.
  { unfold url_port. apply p_opt. apply p_seq; [apply p_the|].
    apply (p_plus _ _ digit_class). }
  intros s. cbn beta. unfold port_part. split.
  - intros [(u & v & -> & -> & N & F)| ->]; [right; eauto|auto].
  - intros [->|(d & -> & N & F)]; [auto|]. left. exists ":"%string, d. auto.
Qed.

Lemma p_tail : piece url_tail path_part.
Proof.
  assert (C : class_agrees (one_of "/?") "/?" = true) by (vm_compute; reflexivity).
  eapply p_iff.
  { unfold url_tail. apply p_alt.
    - apply p_opt. apply p_the.
    - apply p_seq; [apply (p_char _ _ C)|].
      assert (P : piece (rplus (RChar not_space)) (fun s => s <> ""%string /\ no_space s)).
      { intros b s a. rewrite M_plus_class. unfold no_space. rewrite chars_of. split.
        - intros [N F]. split.
          + intros E. apply N. rewrite <- (chars_of s), E. reflexivity.
          + eapply Forall_impl; [|exact F]. intros c. apply negb_true_iff.
        - intros [N F]. split.
          + intros ->. apply N. reflexivity.
          + eapply Forall_impl; [|exact F]. intros c. apply negb_true_iff. }
      exact P. }
  intros s. cbn beta. unfold path_part. split.
  - intros [[->| ->]|(u & v & -> & (c & -> & A) & N & F)]; auto.
    right. right. exists c, v. auto.
  - intros [->|[->|(c & r & -> & A & N & F)]]; auto.
    right. exists (String c ""), r. split; [reflexivity|]. split; [eauto|]. auto.
Qed.

Definition scheme_name (s : string) : Prop :=
  same_but_case "http" s \/ same_but_case "https" s \/
  same_but_case "ftp" s \/ same_but_case "ftps" s.

Lemma lower_cat : forall a b, str_lower (a ++ b) = (str_lower a ++ str_lower b)%string.
Proof.
  intros a b. unfold str_lower, str_map. rewrite chars_cat, map_app. apply unchars_cat.
Qed.

Lemma p_scheme : piece (RSeq (RAlt (ilit "http") (ilit "ftp")) (ropt (ilit "s"))) scheme_name.
Proof.
  eapply p_iff.
  { apply p_seq; [apply p_alt; apply p_ilit|]. apply p_opt. apply p_ilit. }
  assert (CUT : forall x y s, same_but_case (x ++ y) s ->
            exists u v, s = (u ++ v)%string /\ same_but_case x u /\ same_but_case y v).
  { induction x as [|c x IH]; intros y s H.
    - exists ""%string, s. repeat split; auto.
    - destruct s as [|d s]; [discriminate H|].
      unfold same_but_case, str_lower, str_map in H. cbn in H. injection H as Hc H.
      destruct (IH y s H) as (u & v & -> & Hu & Hv).
      exists (String d u), v. split; [reflexivity|]. split; [|exact Hv].
      unfold same_but_case, str_lower, str_map in *. cbn. congruence. }
  intros s. cbn beta. unfold scheme_name. split.
  - intros (u & v & -> & [U|U] & [V| ->]); rewrite ?str_app_nil; auto;
      [right; left | right; right; right]; unfold same_but_case in *;
      rewrite lower_cat, <- U, <- V; reflexivity.
  - intros [H|[H|[H|H]]].
    + exists s, ""%string. rewrite str_app_nil. auto.
    + destruct (CUT "http" "s" s H)%string as (u & v & -> & Hu & Hv). exists u, v. auto.
    + exists s, ""%string. rewrite str_app_nil. auto.
    + destruct (CUT "ftp" "s" s H)%string as (u & v & -> & Hu & Hv). exists u, v. auto.
Qed.

Lemma p_colon : piece (ilit "://") (fun s => s = "://"%string).
Proof.
  eapply p_iff; [apply p_ilit|]. intros s. split; [|intros ->; reflexivity].
  assert (L : forall c d, one_of ":/" c = true ->
            same_letter c d = true -> c = d).
  { intros c d Hc H. apply Ascii.eqb_eq.
    assert (G : forall c, implb (one_of ":/" c)
              (forallb (fun n => implb (same_letter c (ascii_of_nat n))
                                       (Ascii.eqb c (ascii_of_nat n))) (seq 0 256)) = true).
    { apply ascii_all. vm_compute. reflexivity. }
    specialize (G c). rewrite Hc in G. cbn [implb] in G.
    rewrite forallb_forall in G. specialize (G (nat_of_ascii d)).
    rewrite ascii_nat_embedding, H in G. apply G. apply in_seq.
    pose proof (nat_ascii_bounded d). lia. }
  intros H. unfold same_but_case, str_lower, str_map in H.
  destruct s as [|a [|b [|c [|d s]]]]; try discriminate H.
  cbn in H. injection H as H1 H2 H3.
  assert (X : forall u v, one_of ":/" u = true -> to_lower u = to_lower v -> u = v).
  { intros u v Hu E. apply L; [exact Hu|]. apply Ascii.eqb_eq. exact E. }
  rewrite <- (X ":"%char a), <- (X "/"%char b), <- (X "/"%char c); auto.
Qed.

Lemma url_spec : forall s, re_match url_regex s = true <->
  exists u, url_text u /\ (s = u \/ s = (u ++ newline)%string).
Proof.
  intros s. rewrite re_match_spec. unfold occurs_at_start, url_regex, url_text. split.
  - intros (m & a & E & M).
    apply M_seq in M. destruct M as (u0 & m1 & -> & M0 & M).
    apply M_start in M0. destruct M0 as [_ ->].
    apply M_seq in M. destruct M as (s1 & m2 & -> & M1 & M).
    apply M_seq in M. destruct M as (s2 & m3 & -> & M2 & M).
    apply M_seq in M. destruct M as (col & m4 & -> & M3 & M).
    apply M_seq in M. destruct M as (host & m5 & -> & M4 & M).
    apply M_seq in M. destruct M as (port & m6 & -> & M5 & M).
    apply M_seq in M. destruct M as (path & m7 & -> & M6 & M).
    apply M_end in M. destruct M as [-> A].
    assert (SC : scheme_name (unchars (s1 ++ s2))).
    { apply (p_scheme [] _ (col ++ host ++ port ++ path ++ [] ++ a)).
      apply M_seq. exists s1, s2. split; [reflexivity|]. split.
      - rewrite <- ?app_assoc in M1. cbn [app] in M1. exact M1.
      - rewrite <- ?app_assoc in M2. cbn [app] in M2. exact M2. }
    apply p_colon in M3. apply p_host in M4. apply p_port in M5. apply p_tail in M6.
    exists (unchars (s1 ++ s2) ++ "://" ++ unchars host ++ unchars port ++ unchars path)%string.
    split.
    + exists (unchars (s1 ++ s2)), (unchars host), (unchars port), (unchars path). auto 6.
    + assert (W : s = ((unchars (s1 ++ s2) ++ "://" ++ unchars host ++ unchars port ++
                       unchars path) ++ unchars a)%string).
      { apply chars_inj. rewrite E. rewrite <- M3. rewrite !chars_cat, !chars_of.
        rewrite <- !app_assoc. cbn [app]. rewrite <- ?app_assoc. reflexivity. }
      destruct A as [->| ->]; [left|right]; rewrite W.
      * apply str_app_nil.
      * reflexivity.
  - intros (u & (scheme & host & port & path & SC & H & PO & PA & ->) & E).
    assert (exists a, chars s = chars (scheme ++ "://" ++ host ++ port ++ path) ++ a /\
              (a = [] \/ a = [nl])) as (a & Ea & A).
    { destruct E as [->| ->].
      - exists []. rewrite app_nil_r. auto.
      - exists [nl]. rewrite chars_cat. auto. }
    exists (chars (scheme ++ "://" ++ host ++ port ++ path)), a. split; [exact Ea|].
    rewrite !chars_cat.
    assert (SM := proj2 (p_scheme [] (chars scheme)
       ((chars "://" ++ chars host ++ chars port ++ chars path) ++ a))).
    rewrite of_chars in SM. specialize (SM SC).
    apply M_seq in SM. destruct SM as (s1 & s2 & E12 & SM1 & SM2). rewrite E12.
    set (rest := chars "://" ++ chars host ++ chars port ++ chars path) in *.
    apply M_seq. exists [], ((s1 ++ s2) ++ rest). split; [reflexivity|]. split; [constructor|].
    apply M_seq. exists s1, (s2 ++ rest). rewrite <- !app_assoc in *. split; [reflexivity|].
    split; [exact SM1|].
    apply M_seq. exists s2, rest. split; [reflexivity|]. split; [exact SM2|].
    unfold rest. apply M_seq. exists (chars "://"), (chars host ++ chars port ++ chars path).
    split; [reflexivity|]. split; [apply p_colon; reflexivity|].
    apply M_seq. exists (chars host), (chars port ++ chars path).
    split; [reflexivity|]. split; [apply p_host; rewrite of_chars; exact H|].
    apply M_seq. exists (chars port), (chars path).
    split; [reflexivity|]. split; [apply p_port; rewrite of_chars; exact PO|].
    apply M_seq. exists (chars path), [].
    split; [symmetry; apply app_nil_r|]. split; [apply p_tail; rewrite of_chars; exact PA|].
    apply M_end. auto.
Qed.
