(** PropSides.v -- C87: the two sides of a relation find each other. *)
From Verif Require Import Base StrDict Values TypesModel ClassModel ClassSpec ClassProofs.
From Verif Require Import LinkSpec ObjExample.
Open Scope string_scope.
Open Scope list_scope.

Lemma look_up_first s f a b r : s_owner s (jf_id f) = Some a -> is_ref (jf_fdef f) = true -> refers s f b ->
  look_up s f = Ok r -> first_declared s a f b r.
Proof.
  intros O R B. unfold look_up. rewrite O. apply class_of_refers in B. rewrite B.
  unfold is_ref in R. unfold first_declared, declared.
  destruct (s_class s b) as [k |] eqn:EK; [| destruct (f_fstore (jf_fdef f)); discriminate].
  destruct (f_fstore (jf_fdef f)) eqn:EF; try discriminate R; intros H; exists k; (split; [reflexivity |]).
  - apply (find_other_first s (k_fields k) a None (Some (jf_name f)) _ r); [| exact H]. intros g. reflexivity.
  - apply (find_other_first s (k_fields k) a (f_foreign_key (jf_fdef f)) None _ r); [| exact H]. intros g.
    destruct (f_foreign_key (jf_fdef f)) as [n |]; split; intros [H1 H2]; split; try exact H1; try congruence.
    destruct H2.
Qed.
Lemma look_up_total s a k f : sane s -> s_class s a = Some k -> In f (k_fields k) -> known_classes s a ->
  (forall b, refers s f b -> known_classes s b) -> exists r, look_up s f = Ok r.
Proof.
  intros SA HC I KA KB. unfold look_up. destruct (sa_owned _ SA _ _ _ HC I) as [o ->].
  assert (E : exists o, class_of s f = Ok o).
  { unfold class_of. destruct (class_name f) as [n |] eqn:E; [| eauto].
    destruct (KA k f n HC I E) as [c ->]. eauto. }
  destruct E as [oc E]. rewrite E. destruct oc as [b |]; [| destruct (f_fstore _); eauto].
  apply class_of_refers in E. pose proof (KB b E) as K. destruct E as (n & _ & G).
  destruct (sa_graph _ SA _ _ G) as (kb & HB & _). rewrite HB.
  destruct (f_fstore (jf_fdef f)); eauto; apply find_other_total; intros x m Ix Ex; eapply K; eauto.
Qed.

(** ** C87 The other side of a field

    In whatever order classes are defined and fields used, as long as no [Types] object is
    in fields of two classes: the other side that the program works with for a reference
    field is the first field, in the class it refers to, that is declared as such; it
    is none if there is none; and a field that is no reference has none. *)
Theorem C87_other_side :
  forall xs a k f r s',
    let s := run_steps xs start in
    unshared s ->
    s_class s a = Some k -> In f (k_fields k) ->
    other a (jf_name f) s = (Ok r, s') ->
    (is_ref (jf_fdef f) = true -> forall b, refers s f b -> first_declared s a f b r) /\
    (is_ref (jf_fdef f) = false \/ class_name f = None -> r = None).
Proof.
  intros xs a k f r s' s U HC I H. destruct (run_sane xs start sane_start) as [SA _]. fold s in SA.
  assert (F : fresh_cache s). { apply run_cache; [apply sane_start | intros c n x; discriminate | exact U]. }
  pose proof (other_look_up s a k f _ s' SA F HC I H) as L. pose proof (owner_is s a k f SA U HC I) as O.
  split.
  - intros R b B. eapply look_up_first; eassumption.
  - unfold look_up in L. rewrite O in L. unfold is_ref. unfold class_of in L.
    intros [R | N].
    + destruct (f_fstore (jf_fdef f)); try discriminate R; injection L as <-; reflexivity.
    + rewrite N in L. destruct (f_fstore (jf_fdef f)); injection L as <-; reflexivity.
Qed.
Print Assumptions C87_other_side.

(** Two fields that are declared as the two sides of a relation, and that no third field is
    declared with, find each other. *)
Theorem C87_mutual :
  forall xs a ka f b kb g,
    let s := run_steps xs start in
    unshared s ->
    s_class s a = Some ka -> In f (k_fields ka) -> s_class s b = Some kb -> In g (k_fields kb) ->
    known_classes s a -> known_classes s b ->
    two_sides s a f b g -> no_third s a f b g -> no_third s b g a f ->
    fst (other a (jf_name f) s) = Ok (Some g) /\ fst (other b (jf_name g) s) = Ok (Some f).
Proof.
  intros xs. 
  assert (ONE : forall a ka f b kb g,
    let s := run_steps xs start in
    unshared s ->
    s_class s a = Some ka -> In f (k_fields ka) -> s_class s b = Some kb -> In g (k_fields kb) ->
    known_classes s a -> known_classes s b ->
    two_sides s a f b g -> no_third s a f b g ->
    fst (other a (jf_name f) s) = Ok (Some g)).
  { intros a ka f b kb g s U HA IF HB IG KA KB [Rf Rg LK] NT.
    destruct (run_sane xs start sane_start) as [SA _]. fold s in SA.
    assert (F : fresh_cache s). { apply run_cache; [apply sane_start | intros c n x; discriminate | exact U]. }
    destruct (other a (jf_name f) s) as [r s'] eqn:E. cbn [fst].
    pose proof (other_look_up s a ka f _ s' SA F HA IF E) as L.
    destruct (look_up_total s a ka f SA HA IF KA) as [r0 L0].
    { intros b' Rb'. assert (b' = b) as ->; [| exact KB]. destruct Rf as (n & E1 & E2), Rb' as (m & E3 & E4). congruence. }
    rewrite L0 in L. subst r. f_equal.
    assert (ISR : is_ref (jf_fdef f) = true).
    { unfold is_ref. destruct LK as [(-> & _) | [(_ & -> & _) | (-> & _)]]; reflexivity. }
    pose proof (look_up_first s f a b r0 (owner_is s a ka f SA U HA IF) ISR Rf L0) as (kb' & EB & FD).
    rewrite HB in EB. injection EB as <-.
    assert (DG : declared s a f g).
    { split; [exact Rg |]. destruct LK as [(-> & _ & K) | [(G & -> & K) | (-> & _ & K & K2)]]; assumption. }
    destruct r0 as [x |].
    - destruct FD as (l1 & l2 & El & D & _). f_equal. apply (NT kb x HB); [| left; exact D].
      rewrite El. apply in_elt.
    - exfalso. exact (FD g IG DG). }
  intros a ka f b kb g s U HA IF HB IG KA KB TS N1 N2. split.
  - apply (ONE a ka f b kb g); assumption.
  - apply (ONE b kb g a ka f); try assumption. destruct TS as [R1 R2 L]. constructor; try assumption.
    destruct L as [L | [L | (L1 & L2 & L3 & L4)]]; [auto | auto |]. right; right. split; [exact L2 |]. auto.
Qed.
Print Assumptions C87_mutual.

(** Without that condition: the first time the other side of a field is needed, it is
    looked up for the last class that has the [Types] object of the field, whichever
    class the field is of.  After that it is kept. *)
Theorem C87_last_class :
  forall xs a k f b r s',
    let s := run_steps xs start in
    s_class s a = Some k -> In f (k_fields k) ->
    ~ In (Other a (jf_name f)) xs -> is_ref (jf_fdef f) = true -> refers s f b ->
    other a (jf_name f) s = (Ok r, s') ->
    (exists o, last_user s (jf_id f) o /\ first_declared s o f b r) /\
    forall ys, fst (other a (jf_name f) (run_steps ys s')) = Ok r.
Proof.
  intros xs a k f b r s' s HC I N R B H. destruct (run_sane xs start sane_start) as [SA _]. fold s in SA.
  assert (NC : forall ys s0, s_other s0 a (jf_name f) = None -> ~ In (Other a (jf_name f)) ys ->
             s_other (run_steps ys s0) a (jf_name f) = None).
  { induction ys as [| y ys IH]; intros s0 E NI; [exact E |]. cbn [run_steps fold_left]. apply IH; [| intros Q; apply NI; right; exact Q].
    destruct y as [nm name base own | c n]; cbn [run_step].
    - unfold define. destruct (sget name (s_graph s0)); exact E.
    - unfold other. destruct (s_class s0 c); [| exact E]. destruct (k_named n c0); [| exact E].
      destruct (s_other s0 c n); [exact E |]. destruct (look_up s0 a0); [| exact E]. cbn [snd s_other].
      destruct (Nat.eqb a c && String.eqb (jf_name f) n) eqn:Q; [| exact E]. exfalso. apply NI. left.
      apply andb_true_iff in Q. destruct Q as [Q1 Q2]. apply Nat.eqb_eq in Q1. apply String.eqb_eq in Q2. congruence. }
  pose proof (NC xs start eq_refl N) as E0. fold s in E0.
  pose proof (proj2 (named_k s a k (jf_name f) f SA HC) (conj I eq_refl)) as EN.
  assert (KEEP : s_class s' a = Some k /\ s_other s' a (jf_name f) = Some r /\ look_up s f = Ok r).
  { unfold other in H. rewrite HC, EN, E0 in H. destruct (look_up s f) as [x | e]; [| discriminate H].
    injection H as -> <-. cbn. rewrite Nat.eqb_refl, String.eqb_refl. auto. }
  destruct KEEP as (K1 & K2 & L). split.
  - destruct (sa_owned _ SA _ _ _ HC I) as [o O]. exists o. split.
    + split; [exact (sa_owner _ SA _ _ O) | exact (sa_last _ SA _ _ O)].
    + eapply look_up_first; eassumption.
  - intros ys.
    assert (SA' : sane s').
    { pose proof (sane_step (Other a (jf_name f)) s SA) as [X _]. cbn [run_step] in X. rewrite H in X. exact X. }
    assert (G : forall ys s0, sane s0 -> s_class s0 a = Some k -> s_other s0 a (jf_name f) = Some r ->
              s_class (run_steps ys s0) a = Some k /\ s_other (run_steps ys s0) a (jf_name f) = Some r).
    { clear - EN. induction ys as [| y ys IH]; intros s0 SA0 C0 O0; [auto |]. cbn [run_steps fold_left].
      destruct (sane_step y s0 SA0) as [SA1 X]. apply IH; [exact SA1 | apply X; exact C0 |].
      destruct y as [nm name base own | c n]; cbn [run_step].
      - unfold define. destruct (sget name (s_graph s0)); exact O0.
      - unfold other. destruct (s_class s0 c) as [k0 |] eqn:E1; [| exact O0]. destruct (k_named n k0); [| exact O0].
        destruct (s_other s0 c n) eqn:E3; [exact O0 |]. destruct (look_up s0 a0); [| exact O0]. cbn [snd s_other].
        destruct (Nat.eqb a c && String.eqb (jf_name f) n) eqn:Q; [| exact O0]. exfalso.
        apply andb_true_iff in Q. destruct Q as [Q1 Q2]. apply Nat.eqb_eq in Q1. apply String.eqb_eq in Q2. congruence. }
    destruct (G ys s' SA' K1 K2) as [G1 G2]. unfold other. rewrite G1, EN, G2. reflexivity.
Qed.
Print Assumptions C87_last_class.

(** The look-up is the one that the models of objects use ([foreign_field] of
    TypesModel.v, over the table of the classes defined so far). *)
Lemma graph_name s n a k : sane s -> defined s a k -> (sget n (s_graph s) = Some a <-> n = k_name k).
Proof.
  intros SA [D1 D2]. split; [| intros ->; exact D2]. intros H. destruct (sa_graph _ SA _ _ H) as (k' & E & <-). congruence.
Qed.
Lemma find_other_table s fs a ka fn fk r : sane s -> defined s a ka ->
  find_other s fs a fn fk = Ok r ->
  option_map jf_field r =
  find (fun x => eq_opt_str (foreign_class x) (k_name ka) &&
         match fn with Some n => String.eqb (fl_name x) n
         | None => match fk with Some k => eq_opt_str (f_foreign_key (fl_fdef x)) k | None => false end end)
       (map jf_field fs).
Proof.
  intros SA D. induction fs as [| f fs IH]; cbn [find_other map find]; [intros H; injection H as <-; reflexivity |].
  destruct (class_of s f) as [o | e] eqn:E; [| discriminate].
  assert (EQ : opt_is o a = eq_opt_str (foreign_class (jf_field f)) (k_name ka)).
  { unfold class_of, class_name in E. destruct (foreign_class (jf_field f)) as [n |]; [| injection E as <-; reflexivity].
    destruct (sget n (s_graph s)) as [c |] eqn:G; [| discriminate E]. injection E as <-. cbn.
    apply Bool.eq_iff_eq_true. rewrite Nat.eqb_eq, String.eqb_eq, <- (graph_name s n a ka SA D). rewrite G. split; congruence. }
  rewrite <- EQ. destruct (opt_is o a); cbn [andb]; [| exact IH].
  destruct fn as [n |]; [change (fl_name (jf_field f)) with (jf_name f); destruct (String.eqb _ n); [| exact IH]; intros H; injection H as <-; reflexivity |].
  destruct fk as [k |]; [| exact IH]. change (fl_fdef (jf_field f)) with (jf_fdef f).
  destruct (eq_opt_str _ k); [| exact IH]. intros H; injection H as <-; reflexivity.
Qed.
Theorem C87_as_in_the_object_model :
  forall xs a k f r s' conf,
    let s := run_steps xs start in
    unshared s -> defined s a k -> In f (k_fields k) ->
    other a (jf_name f) s = (Ok r, s') ->
    foreign_field (table conf s) (k_name k) (jf_field f) = option_map jf_field r.
Proof.
  intros xs a k f r s' conf s U D I H. pose proof (proj1 D) as HC. destruct (run_sane xs start sane_start) as [SA _]. fold s in SA.
  assert (F : fresh_cache s). { apply run_cache; [apply sane_start | intros c n x; discriminate | exact U]. }
  pose proof (other_look_up s a k f _ s' SA F HC I H) as L. pose proof (owner_is s a k f SA U HC I) as O.
  unfold look_up in L. rewrite O in L. unfold foreign_field. change (fl_fdef (jf_field f)) with (jf_fdef f).
  destruct (f_fstore (jf_fdef f)); try (injection L as <-; reflexivity).
  1, 2: unfold class_of, class_name in L; destruct (foreign_class (jf_field f)) as [n |]; [| injection L as <-; reflexivity];
    unfold table; destruct (sget n (s_graph s)) as [b |] eqn:G; [| discriminate L];
    destruct (s_class s b) as [kb |] eqn:EB; [| discriminate L];
    pose proof (find_other_table s (k_fields kb) a k _ _ r SA D L) as E; rewrite E; try reflexivity.
  destruct (f_foreign_key (jf_fdef f)); [reflexivity |].
  clear. induction (map jf_field (k_fields kb)) as [| x l IH]; [reflexivity |]. cbn. rewrite andb_false_r. exact IH.
Qed.
Print Assumptions C87_as_in_the_object_model.

(** The theorems about linked objects ask that a relation is [relation_ok]: declarations that
    pair two fields, and no third, make it so. *)
Theorem C87_relation :
  forall xs a ka f b kb g conf,
    let s := run_steps xs start in
    unshared s ->
    defined s a ka -> In f (k_fields ka) -> defined s b kb -> In g (k_fields kb) ->
    (forall c k, defined s c k -> known_classes s c) ->
    two_sides s a f b g -> no_third s a f b g -> no_third s b g a f ->
    (a = b -> f <> g) ->
    relation_ok (table conf s)
      {| ra_class := k_name ka; ra_field := jf_field f; rb_class := k_name kb; rb_field := jf_field g |}.
Proof.
  intros xs. 
  assert (ONE : forall a ka f b kb g conf,
    let s := run_steps xs start in
    unshared s ->
    defined s a ka -> In f (k_fields ka) -> defined s b kb -> In g (k_fields kb) ->
    (forall c k, defined s c k -> known_classes s c) ->
    two_sides s a f b g -> no_third s a f b g -> no_third s b g a f ->
    one_side (table conf s)
      {| ra_class := k_name ka; ra_field := jf_field f; rb_class := k_name kb; rb_field := jf_field g |}).
  { intros a ka f b kb g conf s U DA IF DB IG KN TS N1 N2.
    destruct (run_sane xs start sane_start) as [SA _]. fold s in SA.
    pose proof (C87_mutual xs a ka f b kb g U (proj1 DA) IF (proj1 DB) IG (KN _ _ DA) (KN _ _ DB) TS N1 N2) as [M _]. fold s in M.
    destruct (other a (jf_name f) s) as [r s'] eqn:EO. cbn [fst] in M. subst r.
    pose proof (C87_as_in_the_object_model xs a ka f (Some g) s' conf U DA IF EO) as FF. fold s in FF.
    destruct TS as [Rf Rg LK].
    assert (FC : foreign_class (jf_field f) = Some (k_name kb)).
    { destruct Rf as (n & E1 & E2). apply (graph_name s n b kb SA DB) in E2. subst n. exact E1. }
    constructor; cbn [ra_class ra_field rb_class rb_field].
    - exists {| cd_name := k_name ka; cd_fields := map jf_field (k_fields ka);
                                  cd_abstract := cd_abstract (conf ka); cd_reset_all := cd_reset_all (conf ka);
                                  cd_strict := cd_strict (conf ka); cd_validate_all := cd_validate_all (conf ka);
                                  cd_output_null := cd_output_null (conf ka); cd_outkey := cd_outkey (conf ka) |}.
      split; [| cbn; apply in_map; exact IF]. unfold table. destruct DA as [D1 D2]. rewrite D2, D1. reflexivity.
    - change (fl_fdef (jf_field f)) with (jf_fdef f). unfold is_ref.
      destruct LK as [(-> & _) | [(_ & -> & _) | (-> & _)]]; reflexivity.
    - unfold foreign_class in FC. destruct (f_ftype (fl_fdef (jf_field f))) as [[] |]; try discriminate FC; auto.
    - exact FC.
    - exact FF.
    - intros c h (d & HT & Ih) FC2 FH.
      unfold table in HT. destruct (sget c (s_graph s)) as [cn |] eqn:G; [| discriminate HT].
      destruct (s_class s cn) as [kc |] eqn:EC; [| discriminate HT]. injection HT as <-. cbn [cd_fields] in Ih.
      apply in_map_iff in Ih. destruct Ih as (x & <- & Ix).
      assert (DC : defined s cn kc). { destruct (sa_graph _ SA _ _ G) as (k' & E1 & E2). rewrite EC in E1. injection E1 as <-. split; [exact EC | rewrite E2; exact G]. }
      assert (EN : c = k_name kc). { apply (graph_name s c cn kc SA DC). exact G. } subst c.
      destruct (other cn (jf_name x) s) as [r s2] eqn:EX.
      assert (OKX : exists r0, look_up s x = Ok r0).
      { apply (look_up_total s cn kc x SA EC Ix (KN _ _ DC)). intros b' (n & _ & G'). 
        destruct (sa_graph _ SA _ _ G') as (k' & E1 & E2). apply (KN b' k'). split; [exact E1 | rewrite E2; exact G']. }
      destruct OKX as [r0 LX].
      assert (FR : fresh_cache s). { apply run_cache; [apply sane_start | intros ? ? ?; discriminate | exact U]. }
      pose proof (other_look_up s cn kc x _ s2 SA FR EC Ix EX) as LX2. rewrite LX in LX2. subst r.
      pose proof (C87_as_in_the_object_model xs cn kc x r0 s2 conf U DC Ix EX) as FX. fold s in FX.
      rewrite FH in FX. destruct r0 as [y |]; [| discriminate FX]. injection FX as FX.
      destruct (C87_other_side xs cn kc x (Some y) s2 U EC Ix EX) as [OS1 OS2]. fold s in OS1, OS2.
      assert (RX : is_ref (jf_fdef x) = true). { destruct (is_ref (jf_fdef x)) eqn:Q; [reflexivity |]. discriminate (OS2 (or_introl eq_refl)). }
      assert (RFX : refers s x a). { exists (k_name ka). split; [exact FC2 | apply DA]. }
      destruct (OS1 RX a RFX) as (ka' & EA & l1 & l2 & El & DY & _). rewrite (proj1 DA) in EA. injection EA as <-.
      assert (y = f) as ->.
      { assert (IY : In y (k_fields ka)) by (rewrite El; apply in_elt).
        pose proof (proj2 (named_k s a ka (jf_name y) y SA (proj1 DA)) (conj IY eq_refl)) as Q1.
        pose proof (proj2 (named_k s a ka (jf_name f) f SA (proj1 DA)) (conj IF eq_refl)) as Q2.
        unfold jf_name in Q1, Q2. rewrite <- FX in Q1. congruence. }
      assert (cn = b) as ->.
      { destruct DY as [(n & Q1 & Q2) _]. destruct Rf as (m & Q3 & Q4). congruence. }
      pose proof (proj1 DB) as EB. rewrite EC in EB. injection EB as ->. split; [reflexivity |].
      f_equal. apply (N1 kb x EC Ix). right. exact DY. }
  intros a ka f b kb g conf s U DA IF DB IG KN TS N1 N2 NE. destruct (run_sane xs start sane_start) as [SA _]. fold s in SA.
  constructor.
  - apply (ONE a ka f b kb g conf); assumption.
  - apply (ONE b kb g a ka f conf); try assumption. destruct TS as [R1 R2 L]. constructor; try assumption.
    destruct L as [L | [L | (L1 & L2 & L3 & L4)]]; [auto | auto |]. right; right. split; [exact L2 |]. auto.
  - cbn. intros EN EF. assert (a = b).
    { destruct DA as [_ G1], DB as [_ G2]. rewrite EN in G1. congruence. } subst b.
    apply (NE eq_refl). pose proof (proj1 DA) as HA. rewrite (proj1 DB) in HA. injection HA as ->.
    pose proof (proj2 (named_k s a ka (jf_name f) f SA (proj1 DA)) (conj IF eq_refl)) as Q1.
    pose proof (proj2 (named_k s a ka (jf_name g) g SA (proj1 DA)) (conj IG eq_refl)) as Q2.
    unfold jf_name in Q1, Q2. rewrite EF in Q1. congruence.
Qed.
Print Assumptions C87_relation.

(** ** The exception: inherited reference fields

    A program with a user who has many posts, and a subclass of the user.  Every condition of
    [C87_mutual] but one holds: the subclass has the [Types] object of [posts] too.  Then a
    post knows the other side of its author, but the user does not know the other side of
    its posts; unless it was asked before the subclass was defined. *)
Definition side_names : naming := {| n_out := fun n => n; n_ref := fun n _ => (n ++ "_id")%string |}.
Definition tdef (name : string) (i : nat) (ts : types) : dfield :=
  {| df_name := name; df_ann := [MAny]; df_default := ATypes i ts; df_factory := false |}.
Definition user_fields : list dfield :=
  [ tdef "id" 0 [tint; MPrimary];
    tdef "posts" 1 [MListOf [MInstance "Post"]; MLinkedby "author"];
    tdef "teams" 2 [MListOf [MInstance "Team"]; MLinkedthru "users"] ].
Definition post_fields : list dfield :=
  [ tdef "id" 3 [tint; MPrimary]; tdef "author" 4 [MInstance "User"; MLinkto] ].
Definition team_fields : list dfield :=
  [ tdef "id" 5 [tint; MPrimary]; tdef "users" 6 [MListOf [MInstance "User"]; MLinkedthru "teams"] ].
Definition three_classes : list step :=
  [ Define side_names "User" None user_fields; Define side_names "Post" None post_fields;
    Define side_names "Team" None team_fields ].
Definition subclass : step := Define side_names "Admin" (Some 0%nat) [ tdef "level" 7 [tint] ].
Definition j_posts := make_field side_names 0 (tdef "posts" 1 [MListOf [MInstance "Post"]; MLinkedby "author"]).
Definition j_author := make_field side_names 1 (tdef "author" 4 [MInstance "User"; MLinkto]).
Definition j_teams := make_field side_names 0 (tdef "teams" 2 [MListOf [MInstance "Team"]; MLinkedthru "users"]).
Definition j_users := make_field side_names 2 (tdef "users" 6 [MListOf [MInstance "User"]; MLinkedthru "teams"]).

Theorem C87_subclass_refuted :
  let s := run_steps (three_classes ++ [subclass]) start in
  let s' := run_steps (three_classes ++ [Other 0 "posts"; subclass]) start in
  two_sides s 0 j_posts 1 j_author /\
  fst (other 0 "posts" s) = Ok None /\ fst (other 1 "author" s) = Ok (Some j_posts) /\
  fst (other 0 "posts" s') = Ok (Some j_author) /\ fst (other 1 "author" s') = Ok (Some j_posts) /\
  fst (other 3 "posts" s) = Ok None.
Proof.
  cbv zeta. split.
  - constructor; [exists "Post"; split; reflexivity | exists "User"; split; reflexivity |].
    right; left. repeat split; reflexivity.
  - repeat split; vm_compute; reflexivity.
Qed.
Print Assumptions C87_subclass_refuted.

(** ** The hypotheses can be met: the same program without the subclass *)
Lemma three_class s c k : s = run_steps three_classes start -> s_class s c = Some k ->
  (c = 0%nat /\ k = class_init side_names 0 "User" user_fields) \/
  (c = 1%nat /\ k = class_init side_names 1 "Post" post_fields) \/
  (c = 2%nat /\ k = class_init side_names 2 "Team" team_fields).
Proof.
  intros -> H. do 3 (destruct c as [| c]; [vm_compute in H; injection H as <-; vm_compute; tauto |]).
  vm_compute in H. discriminate H.
Qed.
Ltac each_field I := cbn in I; repeat (destruct I as [<- | I]); try (destruct I).
Example C87_example :
  let s := run_steps three_classes start in
  unshared s /\ (forall c k, defined s c k -> known_classes s c) /\
  two_sides s 0 j_posts 1 j_author /\ two_sides s 0 j_teams 2 j_users /\
  no_third s 0 j_posts 1 j_author /\ no_third s 1 j_author 0 j_posts /\
  no_third s 0 j_teams 2 j_users /\ no_third s 2 j_users 0 j_teams /\
  fst (other 0 "posts" s) = Ok (Some j_author) /\ fst (other 2 "users" s) = Ok (Some j_teams).
Proof.
  cbv zeta. set (s := run_steps three_classes start).
  split; [| split; [| split; [| split; [| split; [| split; [| split; [| split]]]]]]].
  - intros a b ka kb f g HA HB I J E.
    destruct (three_class s a ka eq_refl HA) as [[-> ->] | [[-> ->] | [-> ->]]];
      destruct (three_class s b kb eq_refl HB) as [[-> ->] | [[-> ->] | [-> ->]]]; try reflexivity;
      exfalso; each_field I; each_field J; vm_compute in E; discriminate E.
  - intros c k [H _] k' f n H' I E. rewrite H in H'. injection H' as <-.
    destruct (three_class s c k eq_refl H) as [[-> ->] | [[-> ->] | [-> ->]]]; each_field I; vm_compute in E;
      try discriminate E; injection E as <-; eexists; reflexivity.
  - constructor; [exists "Post"; split; reflexivity | exists "User"; split; reflexivity |].
    right; left. repeat split; reflexivity.
  - constructor; [exists "Team"; split; reflexivity | exists "User"; split; reflexivity |].
    right; right. repeat split; reflexivity.
  - intros kb x HB I D. destruct (three_class s 1%nat kb eq_refl HB) as [[Q _] | [[_ ->] | [Q _]]]; try discriminate Q.
    each_field I; [| reflexivity]. exfalso. destruct D as [[(n & D & _) _] | [_ D]]; [discriminate D | exact D].
  - intros kb x HB I D. destruct (three_class s 0%nat kb eq_refl HB) as [[_ ->] | [[Q _] | [Q _]]]; try discriminate Q.
    each_field I; [| reflexivity |]; exfalso.
    + destruct D as [[(n & D & _) _] | [_ D]]; [discriminate D | exact D].
    + destruct D as [[(n & D & D2) _] | [_ D]]; [vm_compute in D; injection D as <-; vm_compute in D2; discriminate D2 | vm_compute in D; discriminate D].
  - intros kb x HB I D. destruct (three_class s 2%nat kb eq_refl HB) as [[Q _] | [[Q _] | [_ ->]]]; try discriminate Q.
    each_field I; [| reflexivity]. exfalso. destruct D as [[(n & D & _) _] | [_ D]]; [discriminate D | exact D].
  - intros kb x HB I D. destruct (three_class s 0%nat kb eq_refl HB) as [[_ ->] | [[Q _] | [Q _]]]; try discriminate Q.
    each_field I; [| | reflexivity]; exfalso.
    + destruct D as [[(n & D & _) _] | [_ D]]; [discriminate D | exact D].
    + destruct D as [[(n & D & D2) _] | [_ D]]; [vm_compute in D; injection D as <-; vm_compute in D2; discriminate D2 | vm_compute in D; discriminate D].
  - split; vm_compute; reflexivity.
Qed.
