(** SubProofs.v -- lemmas about [re_sub]. *)
From Verif Require Import Base Mon Values PyStr RegexModel RegexSpec RegexProofs SubModel SubSpec.
Open Scope nat_scope.
Open Scope list_scope.

(** ** The ordered matcher finds the same places as the unordered one. *)

Lemma place_split : forall pl : place, pl = place_of (rev (fst pl)) (snd pl).
Proof. intros [b a]. unfold place_of. cbn. rewrite rev_involutive. reflexivity. Qed.

Lemma still : forall g r, finds g r -> forall pl q, In q (g pl) ->
  Nat.ltb (length (snd q)) (length (snd pl)) = false -> q = pl.
Proof.
  intros g r F [b0 a0] q H L. rewrite (place_split (b0, a0)) in H. apply F in H.
  destruct H as (s & a & E & -> & _). cbn [snd fst after_match] in *.
  apply Nat.ltb_ge in L. rewrite E, app_length in L.
  destruct s as [|c s]; [|cbn in L; lia].
  cbn [app] in E. subst a0.
  unfold after_match. rewrite app_nil_r, rev_involutive. reflexivity.
Qed.

Lemma repeated_here : forall n g pl, In pl (repeated n g pl).
Proof. intros [|n] g pl; left; reflexivity. Qed.

Lemma rounds_repeated : forall f g r, finds g r ->
  (forall pl q, In q (f pl) <-> In q (g pl)) ->
  forall n pl q, In q (rounds n f pl) <-> In q (repeated n g pl).
Proof.
  intros f g r F E. induction n as [|n IH]; intros pl q; cbn [rounds repeated].
  - cbn. tauto.
  - rewrite in_app_iff, in_flat_map. cbn [In]. rewrite in_flat_map. split.
    + intros [(x & Hx & H)|[<-|[]]]; [|left; reflexivity].
      apply E in Hx. destruct (Nat.ltb _ _) eqn:L.
      * right. exists x. rewrite L. split; [exact Hx|]. apply IH. exact H.
      * destruct H as [<-|[]]. left. symmetry. eapply still; eauto.
    + intros [<-|(x & Hx & H)]; [right; left; reflexivity|].
      destruct (Nat.ltb _ _) eqn:L; [|destruct H].
      left. exists x. rewrite L. split; [apply E; exact Hx|]. apply IH. exact H.
Qed.

Lemma tries_ends : forall r pl q, In q (tries r pl) <-> In q (ends r pl).
Proof.
  induction r as [p| |x IHx y IHy|x IHx y IHy|x IHx| | | |x IHx]; intros pl q;
    cbn [tries ends]; try tauto.
  - rewrite !in_flat_map. split; intros (z & H1 & H2); exists z;
      (split; [apply IHx; exact H1|apply IHy; exact H2]).
  - rewrite !in_app_iff, IHx, IHy. tauto.
  - apply rounds_repeated with (r := x); [apply ends_finds|exact IHx].
  - destruct (tries x pl) as [|u l] eqn:E1; destruct (ends x pl) as [|v l'] eqn:E2; try tauto.
    + exfalso. assert (H : In v (tries x pl)) by (apply IHx; rewrite E2; left; reflexivity).
      rewrite E1 in H. exact H.
    + exfalso. assert (H : In u (ends x pl)) by (apply IHx; rewrite E1; left; reflexivity).
      rewrite E2 in H. exact H.
Qed.

Lemma tries_finds : forall r, finds (tries r) r.
Proof. intros r b t q. rewrite tries_ends. apply ends_finds. Qed.

(** ** Replacing cuts the text rightly. *)

Lemma text_app : forall x y, text (x ++ y) = text x ++ text y.
Proof. intros. unfold text. apply flat_map_app. Qed.

(** The conditions of [cut_right] for the pieces [ps2] behind the pieces [ps1] *)
Definition cut_from (r : rx) (ps1 ps2 : list piece) : Prop :=
  (forall x m y, ps2 = x ++ Replaced m :: y ->
     matches r (text (ps1 ++ x)) m (text y) /\ ~ (m = [] /\ empty_last (ps1 ++ x))) /\
  (forall x c y, ps2 = x ++ Copied c :: y -> nothing_begins r (ps1 ++ x) (c :: text y)) /\
  nothing_begins r (ps1 ++ ps2) [].

Lemma cut_replaced : forall r ps1 m ps2,
  matches r (text ps1) m (text ps2) -> ~ (m = [] /\ empty_last ps1) ->
  cut_from r (ps1 ++ [Replaced m]) ps2 -> cut_from r ps1 (Replaced m :: ps2).
Proof.
  intros r ps1 m ps2 M N (C1 & C2 & C3). split; [|split].
  - intros [|p x] m' y E; cbn [app] in E.
    + injection E as <- <-. rewrite app_nil_r. auto.
    + injection E as <- E. specialize (C1 x m' y E).
      rewrite <- app_assoc in C1. exact C1.
  - intros [|p x] c y E; cbn [app] in E; [discriminate E|].
    injection E as <- E. specialize (C2 x c y E). rewrite <- app_assoc in C2. exact C2.
  - rewrite <- app_assoc in C3. exact C3.
Qed.

Lemma cut_copied : forall r ps1 c ps2, nothing_begins r ps1 (c :: text ps2) ->
  cut_from r (ps1 ++ [Copied c]) ps2 -> cut_from r ps1 (Copied c :: ps2).
Proof.
  intros r ps1 c ps2 N (C1 & C2 & C3). split; [|split].
  - intros [|p x] m' y E; cbn [app] in E; [discriminate E|].
    injection E as <- E. specialize (C1 x m' y E). rewrite <- app_assoc in C1. exact C1.
  - intros [|p x] c' y E; cbn [app] in E.
    + injection E as <- <-. rewrite app_nil_r. exact N.
    + injection E as <- E. specialize (C2 x c' y E). rewrite <- app_assoc in C2. exact C2.
  - rewrite <- app_assoc in C3. exact C3.
Qed.

Lemma empty_last_snoc : forall ps p, empty_last (ps ++ [p]) <-> p = Replaced [].
Proof.
  intros ps p. split.
  - intros (ps' & E). apply app_inj_tail in E. tauto.
  - intros ->. exists ps. reflexivity.
Qed.

Lemma find_none_in : forall (A : Type) (f : A -> bool) l x,
  find f l = None -> In x l -> f x = false.
Proof. intros A f l x H I. exact (find_none f l H x I). Qed.

Lemma nothing_of_find : forall r ps1 a adv,
  (adv = true -> empty_last ps1) ->
  find (fun q : place => negb adv || Nat.ltb (length (snd q)) (length a))
       (tries r (rev (text ps1), a)) = None ->
  nothing_begins r ps1 a.
Proof.
  intros r ps1 a adv A H m a' E M.
  assert (I : In (after_match (text ps1) m a') (tries r (place_of (text ps1) a))).
  { apply tries_finds. exists m, a'. auto. }
  pose proof (find_none_in _ _ _ _ H I) as F. cbn [after_match snd] in F.
  apply orb_false_iff in F. destruct F as [F1 F2].
  apply negb_false_iff in F1. apply Nat.ltb_ge in F2.
  rewrite E, app_length in F2. destruct m as [|c m]; [|cbn in F2; lia].
  split; [reflexivity|auto].
Qed.

Lemma firstn_part : forall (m a : list ascii),
  firstn (length (m ++ a) - length a) (m ++ a) = m.
Proof.
  intros m a. rewrite app_length, Nat.add_sub, firstn_app, Nat.sub_diag, firstn_all.
  cbn. apply app_nil_r.
Qed.

Lemma sub_cuts : forall t r fuel ps1 adv a,
  (adv = true <-> empty_last ps1) ->
  2 * length a + (if adv then 1 else 2) <= fuel ->
  exists ps2, a = text ps2 /\
    sub_from fuel t r adv (rev (text ps1)) a = outcome t ps2 /\ cut_from r ps1 ps2.
Proof.
  intros t r. induction fuel as [|n IH]; intros ps1 adv a A L.
  { destruct adv; lia. }
  cbn [sub_from].
  destruct (find _ _) as [[b' a']|] eqn:E.
  - apply find_some in E. destruct E as [I F]. cbn [snd] in F.
    change (rev (text ps1), a) with (place_of (text ps1) a) in I.
    apply tries_finds in I. destruct I as (m & a2 & Ea & Eq & M).
    unfold after_match in Eq. injection Eq as -> <-.
    assert (N : ~ (m = [] /\ empty_last ps1)).
    { intros [-> X]. apply A in X. rewrite X in F. cbn [negb orb] in F.
      apply Nat.ltb_lt in F. rewrite Ea in F. cbn in F. lia. }
    rewrite Ea, firstn_part.
    assert (T : text (ps1 ++ [Replaced m]) = text ps1 ++ m).
    { rewrite text_app. cbn. rewrite app_nil_r. reflexivity. }
    destruct (IH (ps1 ++ [Replaced m]) (Nat.eqb (length a') (length (m ++ a'))) a')
      as (ps2 & T2 & O2 & C2).
    + rewrite empty_last_snoc, Nat.eqb_eq, app_length. split.
      * intros X. destruct m; [reflexivity|cbn in X; lia].
      * intros X. injection X as ->. reflexivity.
    + rewrite Ea, app_length in L. rewrite app_length.
      destruct m as [|c m]; cbn [length] in *.
      * assert (adv = false) as ->.
        { destruct adv; [|reflexivity]. exfalso. apply N. split; [reflexivity|].
          apply A. reflexivity. }
        rewrite Nat.add_0_l, Nat.eqb_refl. lia.
      * destruct (Nat.eqb _ _); destruct adv; lia.
    + exists (Replaced m :: ps2). split; [|split].
      * cbn. f_equal. exact T2.
      * rewrite <- T, O2. reflexivity.
      * apply cut_replaced; [|exact N|exact C2]. rewrite <- T2. exact M.
  - pose proof (nothing_of_find r ps1 a adv (proj1 A) E) as NB.
    destruct a as [|c a'].
    + exists []. split; [reflexivity|split; [reflexivity|]]. split; [|split].
      * intros x m y X. destruct x; discriminate X.
      * intros x m y X. destruct x; discriminate X.
      * rewrite app_nil_r. exact NB.
    + assert (T : text (ps1 ++ [Copied c]) = text ps1 ++ [c]) by (rewrite text_app; reflexivity).
      destruct (IH (ps1 ++ [Copied c]) false a') as (ps2 & T2 & O2 & C2).
      * rewrite empty_last_snoc. split; discriminate.
      * cbn [length] in L. destruct adv; lia.
      * exists (Copied c :: ps2). split; [|split].
        -- cbn. f_equal. exact T2.
        -- cbn. f_equal. rewrite T, rev_app_distr in O2. cbn in O2. exact O2.
        -- apply cut_copied; [|exact C2]. rewrite <- T2. exact NB.
Qed.

Lemma re_sub_cuts : forall r t s, substituted r t s (re_sub r t s).
Proof.
  intros r t s. unfold re_sub.
  destruct (sub_cuts t r (2 * length (chars s) + 2) [] false (chars s)) as (ps & T & O & C).
  - split; [discriminate|]. intros (ps' & E). destruct ps'; discriminate E.
  - lia.
  - exists ps. split; [exact T|]. split; [|exact C].
    rewrite list_ascii_of_string_of_list_ascii. exact O.
Qed.

(** ** Patterns that are a single character or a run *)

Lemma tries_char : forall p b c a,
  tries (RChar p) (b, c :: a) = if p c then [(c :: b, a)] else [].
Proof. reflexivity. Qed.

(** What [class*] tries: the whole run, then one character less, and so on. *)
Lemma rounds_char : forall p n b a, length a <= n ->
  exists u w l, a = u ++ w /\ all_in p u /\
    match w with [] => True | c :: _ => p c = false end /\
    rounds n (tries (RChar p)) (b, a) = (rev u ++ b, w) :: l.
Proof.
  intros p. induction n as [|n IH]; intros b a L.
  - destruct a; [|cbn in L; lia]. exists [], [], []. repeat split. constructor.
  - destruct a as [|c a].
    + exists [], [], []. repeat split. constructor.
    + cbn [rounds]. rewrite tries_char. destruct (p c) eqn:Ep.
      * cbn [flat_map snd app].
        replace (Nat.ltb (length a) (length (c :: a))) with true
          by (symmetry; apply Nat.ltb_lt; cbn; lia).
        destruct (IH (c :: b) a) as (u & w & l & E & U & W & R); [cbn in L; lia|].
        exists (c :: u), w. rewrite R. cbn [app]. rewrite app_nil_r. eexists.
        split; [cbn; f_equal; exact E|]. split; [constructor; assumption|]. split; [exact W|].
        cbn [rev]. rewrite <- app_assoc. reflexivity.
      * cbn. exists [], (c :: a), []. repeat split; [constructor|exact Ep].
Qed.

Lemma run_unique : forall p m rest u w, all_in p m -> all_in p u ->
  match rest with [] => True | c :: _ => p c = false end ->
  match w with [] => True | c :: _ => p c = false end ->
  m ++ rest = u ++ w -> m = u /\ rest = w.
Proof.
  intros p. induction m as [|x m IH]; intros rest [|y u] w M U R W E; cbn [app] in E.
  - auto.
  - subst rest. inversion U; subst. congruence.
  - subst w. inversion M; subst. congruence.
  - injection E as -> E. inversion M; inversion U; subst.
    destruct (IH rest u w) as [-> ->]; auto.
Qed.

Lemma plus_first : forall p c m rest b, p c = true -> all_in p m ->
  match rest with [] => True | c :: _ => p c = false end ->
  exists l, tries (rplus (RChar p)) (b, (c :: m) ++ rest) = (rev m ++ c :: b, rest) :: l.
Proof.
  intros p c m rest b Hc Hm Hr. unfold rplus.
  assert (Q : forall x y pl, tries (RSeq x (RStar y)) pl =
    flat_map (fun q => rounds (length (snd q)) (tries y) q) (tries x pl)) by reflexivity.
  rewrite Q. cbn [app]. rewrite tries_char, Hc.
  cbn [flat_map]. cbn [snd].
  destruct (rounds_char p (length (m ++ rest)) (c :: b) (m ++ rest) (le_n _))
    as (u & w & l & E & U & W & R).
  destruct (run_unique p m rest u w Hm U Hr W E) as [-> ->].
  rewrite R. cbn [app]. eexists. reflexivity.
Qed.

Lemma plus_none : forall p c a b, p c = false -> tries (rplus (RChar p)) (b, c :: a) = [].
Proof. intros p c a b H. unfold rplus. cbn [tries snd fst]. rewrite H. reflexivity. Qed.

Lemma sub_run : forall t p n m rest b, all_in p m -> m <> [] ->
  match rest with [] => True | c :: _ => p c = false end ->
  sub_from (Datatypes.S n) t (rplus (RChar p)) false b (m ++ rest) =
  t m ++ sub_from n t (rplus (RChar p)) false (rev m ++ b) rest.
Proof.
  intros t p n [|c m] rest b M N R; [contradiction|]. inversion M; subst.
  destruct (plus_first p c m rest b) as (l & E); auto.
  cbn [sub_from]. rewrite E. cbn [find negb orb snd].
  rewrite firstn_part.
  replace (Nat.eqb (length rest) (length ((c :: m) ++ rest))) with false
    by (symmetry; apply Nat.eqb_neq; rewrite app_length; cbn; lia).
  cbn [rev]. rewrite <- app_assoc. reflexivity.
Qed.

Lemma sub_skip : forall t p u n rest b, none_in p u ->
  sub_from (length u + n) t (rplus (RChar p)) false b (u ++ rest) =
  u ++ sub_from n t (rplus (RChar p)) false (rev u ++ b) rest.
Proof.
  intros t p. induction u as [|c u IH]; intros n rest b H; [reflexivity|].
  inversion H; subst. cbn [length Nat.add sub_from app]. rewrite plus_none by assumption.
  cbn [find]. f_equal. rewrite IH by assumption. cbn [rev]. rewrite <- app_assoc. reflexivity.
Qed.

Lemma sub_end : forall t p n b, sub_from n t (rplus (RChar p)) false b [] = [].
Proof. intros t p [|n] b; reflexivity. Qed.

Lemma run_head : forall p runs tail,
  Forall (fun e => none_in p (fst e) /\ all_in p (snd e) /\ snd e <> []) runs ->
  Forall (fun e : list ascii * list ascii => fst e <> []) runs -> none_in p tail ->
  match run_text runs tail with [] => True | c :: _ => p c = false end.
Proof.
  intros p [|[u m] runs] tail F G T; unfold run_text; cbn [flat_map app fst snd].
  - destruct tail as [|c tail]; [exact Logic.I|]. inversion T; assumption.
  - inversion F as [|? ? (U & _) _]; subst. inversion G as [|? ? N _]; subst. cbn [fst] in *.
    destruct u as [|c u]; [contradiction|]. inversion U; assumption.
Qed.

Lemma runs_replaced : forall t p tail runs n b,
  Forall (fun e => none_in p (fst e) /\ all_in p (snd e) /\ snd e <> []) runs ->
  Forall (fun e : list ascii * list ascii => fst e <> []) (tl runs) -> none_in p tail ->
  2 * length (run_text runs tail) + 2 <= n ->
  sub_from n t (rplus (RChar p)) false b (run_text runs tail) = run_out t runs tail.
Proof.
  intros t p tail. induction runs as [|[u m] runs IH]; intros n b F G T L.
  - unfold run_text, run_out in *. cbn [flat_map app] in *.
    pose proof (sub_skip t p tail (n - length tail) [] b T) as K.
    rewrite sub_end, !app_nil_r in K.
    replace (length tail + (n - length tail)) with n in K by lia. exact K.
  - inversion F as [|? ? (U & M & N) F']; subst. cbn [fst snd tl] in *.
    assert (X : run_text ((u, m) :: runs) tail = u ++ m ++ run_text runs tail).
    { unfold run_text. cbn [flat_map fst snd]. rewrite <- !app_assoc. reflexivity. }
    assert (Y : run_out t ((u, m) :: runs) tail = u ++ t m ++ run_out t runs tail).
    { unfold run_out. cbn [flat_map fst snd]. rewrite <- !app_assoc. reflexivity. }
    rewrite X in *. rewrite Y. rewrite !app_length in L.
    replace n with (length u + Datatypes.S (n - length u - 1)) by lia.
    rewrite sub_skip by exact U. f_equal.
    rewrite sub_run; [|exact M|exact N|apply run_head; assumption]. f_equal.
    assert (1 <= length m) by (destruct m; [contradiction|cbn; lia]).
    apply IH; [exact F'| |exact T|lia].
    destruct runs; [constructor|]. inversion G; assumption.
Qed.

Lemma chars_replaced : forall t p a n b, 2 * length a + 2 <= n ->
  sub_from n t (RChar p) false b a = flat_map (fun c => if p c then t [c] else [c]) a.
Proof.
  intros t p. induction a as [|c a IH]; intros [|n] b L; try (cbn in L; lia); [reflexivity|].
  cbn [sub_from tries snd fst flat_map]. destruct (p c).
  - cbn [find negb orb snd]. pose proof (firstn_part [c] a) as K. cbn [app] in K. rewrite K. clear K.
    replace (Nat.eqb (length a) (length (c :: a))) with false
      by (symmetry; apply Nat.eqb_neq; cbn; lia).
    f_equal. apply IH. cbn in L. lia.
  - cbn [find app]. f_equal. apply IH. cbn in L. lia.
Qed.

Lemma no_pieces : forall ps, (forall m, ~ In (Replaced m) ps) -> forall t, outcome t ps = text ps.
Proof.
  induction ps as [|[c|m] ps IH]; intros H t; [reflexivity| |].
  - cbn. f_equal. apply IH. intros m I. apply (H m). right. exact I.
  - exfalso. apply (H m). left. reflexivity.
Qed.

Lemma unchars_inj : forall a b, chars a = chars b -> a = b.
Proof.
  intros a b E. rewrite <- (string_of_list_ascii_of_string a), E.
  apply string_of_list_ascii_of_string.
Qed.
