(** TypesProofs.v -- lemmas for PropTypes.v *)
From Verif Require Import Base Values LeafModel TypesModel TypesSpec.

Section Decided.
  Context {A : Type} (get : fdef -> A) (k : mdf -> option A) (dflt : A).
  Hypothesis step : forall m d, get (define m d) = match k m with Some x => x | None => get d end.
  Hypothesis init : get fdef0 = dflt.

  Lemma fold_no_mark : forall ts d,
    (forall m, In m ts -> k m = None) ->
    get (fold_left (fun d m => define m d) ts d) = get d.
  Proof.
    induction ts as [| m ts IH]; intros d H; [reflexivity |].
    cbn [fold_left]. rewrite IH by (intros m' Hm'; apply H; right; exact Hm').
    rewrite step, (H m (or_introl eq_refl)). reflexivity.
  Qed.

  Lemma decided : decided_by get k dflt.
  Proof.
    split.
    - intros before m after x Hm Ha. unfold fdef_of.
      rewrite fold_left_app. cbn [fold_left].
      rewrite fold_no_mark by exact Ha. rewrite step, Hm. reflexivity.
    - intros ts H. unfold fdef_of. rewrite fold_no_mark by exact H. exact init.
  Qed.
End Decided.

Ltac crush_define :=
  intros m d; destruct m; try reflexivity;
  repeat match goal with
         | |- context [match ?l with LType _ => _ | _ => _ end] => destruct l; try reflexivity
         | p : option string |- _ => destruct p
         | b : bool |- _ => destruct b
         end;
  try reflexivity;
  cbv [define link_list_nonnull default_nullify nonnull_if_undefined add_input];
  cbn;
  repeat match goal with
         | |- context [match ?x with _ => _ end] => destruct x; cbn; try reflexivity
         end; try reflexivity.

Lemma write_step : forall m d,
  f_write_rule (define m d) = match write_mark m with Some x => x | None => f_write_rule d end.
Proof. crush_define. Qed.

Lemma read_step : forall m d,
  f_read_rule (define m d) = match read_mark m with Some x => x | None => f_read_rule d end.
Proof. crush_define. Qed.

Lemma store_step : forall m d,
  f_fstore (define m d) = match store_mark m with Some x => x | None => f_fstore d end.
Proof. crush_define. Qed.

Lemma item_null_step : forall m d,
  f_item_null (define m d)
  = match item_null_mark m with Some x => x | None => f_item_null d end.
Proof. crush_define. Qed.

Lemma strict_step : forall m d,
  f_strictness (define m d) = match strict_mark m with Some x => x | None => f_strictness d end.
Proof. crush_define. Qed.

Lemma query_step : forall m d,
  f_query (define m d)
  = match option_map (@Some queryability) (query_mark m) with Some x => x | None => f_query d end.
Proof. crush_define. Qed.

(** The collection nullability starts as nullable, so the tests for "undefined"
    (linkto_modifier.py:14 and the like) never succeed. *)
Lemma nonnull_if_id : forall d, f_collection_null d <> NUndefined -> nonnull_if_undefined d = d.
Proof.
  intros d H. unfold nonnull_if_undefined. destruct (f_collection_null d); cbn; congruence.
Qed.

Lemma default_nullify_coll : forall d,
  f_collection_null (default_nullify d) = f_collection_null d.
Proof. intros d. unfold default_nullify. destruct (f_delete_rule d); reflexivity. Qed.

Lemma coll_step : forall m d,
  f_collection_null d <> NUndefined ->
  f_collection_null (define m d)
  = match collection_null_mark m with Some x => x | None => f_collection_null d end.
Proof.
  intros m d H.
  assert (L : forall e, f_collection_null e = f_collection_null d ->
                f_collection_null (link_list_nonnull (default_nullify e)) = f_collection_null d).
  { intros e He. unfold link_list_nonnull.
    destruct (is_list_type _); [rewrite nonnull_if_id |]; rewrite default_nullify_coll; congruence. }
  assert (L2 : forall e, f_collection_null e = f_collection_null d ->
                f_collection_null (nonnull_if_undefined e) = f_collection_null d).
  { intros e He. rewrite nonnull_if_id; congruence. }
  destruct m; cbn [define collection_null_mark]; try reflexivity;
    try (apply L; reflexivity).
  - destruct l; reflexivity.
  - destruct (_ || _); [apply L2 |]; reflexivity.
  - cbn. destruct (f_enum_input d); cbn; destruct (f_enum_output d) eqn:Eo; cbn; rewrite ?Eo; reflexivity.
  - rewrite default_nullify_coll. reflexivity.
  - destruct name; destruct unique; reflexivity.
  - destruct force; reflexivity.
Qed.

Lemma coll_never_undefined : forall m d,
  f_collection_null d <> NUndefined -> f_collection_null (define m d) <> NUndefined.
Proof.
  intros m d H. rewrite (coll_step m d H).
  destruct m; cbn; try exact H; discriminate.
Qed.

Lemma coll_decided : decided_by f_collection_null collection_null_mark NNullable.
Proof.
  assert (Fold : forall ts d, f_collection_null d <> NUndefined ->
            f_collection_null (fold_left (fun d m => define m d) ts d) <> NUndefined).
  { induction ts as [| m ts IH]; intros d H; [exact H |].
    cbn [fold_left]. apply IH, coll_never_undefined, H. }
  assert (No : forall ts d, f_collection_null d <> NUndefined ->
            (forall m, In m ts -> collection_null_mark m = None) ->
            f_collection_null (fold_left (fun d m => define m d) ts d) = f_collection_null d).
  { induction ts as [| m ts IH]; intros d Hd H; [reflexivity |].
    cbn [fold_left]. rewrite IH.
    - rewrite (coll_step m d Hd), (H m (or_introl eq_refl)). reflexivity.
    - apply coll_never_undefined, Hd.
    - intros m' Hm'. apply H. right. exact Hm'. }
  split.
  - intros before m after x Hm Ha. unfold fdef_of. rewrite fold_left_app. cbn [fold_left].
    assert (H0 : f_collection_null (fold_left (fun d m => define m d) before fdef0) <> NUndefined)
      by (apply Fold; discriminate).
    rewrite No; [| apply coll_never_undefined, H0 | exact Ha].
    rewrite (coll_step _ _ H0), Hm. reflexivity.
  - intros ts H. unfold fdef_of. rewrite No; [reflexivity | discriminate | exact H].
Qed.

(** Settings that an ordinary mark fills in only when they are missing. *)
Section Sticky.
  Context {A : Type} (get : fdef -> option A) (k fill : mdf -> option A).
  Hypothesis step : forall m d,
    get (define m d)
    = match k m with
      | Some x => Some x
      | None => match get d with Some y => Some y | None => fill m end
      end.
  Hypothesis init : get fdef0 = None.

  Lemma sticky_decided : forall before m after x,
    k m = Some x -> (forall m', In m' after -> k m' = None) ->
    get (fdef_of (before ++ m :: after)) = Some x.
  Proof.
    assert (Keep : forall ts d x, get d = Some x -> (forall m, In m ts -> k m = None) ->
              get (fold_left (fun d m => define m d) ts d) = Some x).
    { induction ts as [| m ts IH]; intros d x Hd H; [exact Hd |].
      cbn [fold_left]. apply IH; [| intros m' Hm'; apply H; right; exact Hm'].
      rewrite step, (H m (or_introl eq_refl)), Hd. reflexivity. }
    intros before m after x Hm Ha. unfold fdef_of. rewrite fold_left_app. cbn [fold_left].
    apply Keep; [| exact Ha]. rewrite step, Hm. reflexivity.
  Qed.
End Sticky.

Lemma output_step : forall m d,
  f_enum_output (define m d)
  = match output_mark m with
    | Some x => Some x
    | None => match f_enum_output d with
              | Some y => Some y
              | None => match m with MEnum _ => Some OutName | _ => None end
              end
    end.
Proof.
  assert (N : forall e, f_enum_output (nonnull_if_undefined e) = f_enum_output e)
    by (intros e; unfold nonnull_if_undefined; destruct (is_nundefined _); reflexivity).
  assert (L : forall e, f_enum_output (link_list_nonnull (default_nullify e)) = f_enum_output e).
  { intros e. unfold link_list_nonnull, default_nullify.
    destruct (f_delete_rule e); destruct (is_list_type _); rewrite ?N; reflexivity. }
  assert (X : forall o : option enumoutput, o = match o with Some y => Some y | None => None end)
    by (intros [|]; reflexivity).
  intros m d. destruct m; cbn [define output_mark]; rewrite ?L, ?N; try apply X; try reflexivity.
  - destruct l; apply X.
  - destruct (_ || _); rewrite ?N; apply X.
  - cbn. destruct (f_enum_input d); cbn; destruct (f_enum_output d) eqn:Eo; cbn; rewrite ?Eo; reflexivity.
  - unfold default_nullify; cbn. destruct (f_delete_rule d); apply X.
  - destruct name; destruct unique; apply X.
  - destruct force; apply X.
Qed.

Lemma delete_step : forall m d,
  f_delete_rule (define m d)
  = match delete_mark m with
    | Some x => Some x
    | None => match f_delete_rule d with
              | Some y => Some y
              | None => match m with
                        | MLinkto | MLinkedby _ | MLinkedthru _ | MLinkedin _ => Some DNullify
                        | _ => None
                        end
              end
    end.
Proof.
  assert (N : forall e, f_delete_rule (nonnull_if_undefined e) = f_delete_rule e)
    by (intros e; unfold nonnull_if_undefined; destruct (is_nundefined _); reflexivity).
  assert (L : forall e, f_delete_rule (link_list_nonnull (default_nullify e))
                        = match f_delete_rule e with Some y => Some y | None => Some DNullify end).
  { intros e. unfold link_list_nonnull, default_nullify.
    destruct (f_delete_rule e) eqn:E; destruct (is_list_type _); rewrite ?N, ?E; reflexivity. }
  assert (X : forall o : option deleterule, o = match o with Some y => Some y | None => None end)
    by (intros [|]; reflexivity).
  intros m d. destruct m; cbn [define delete_mark]; rewrite ?L, ?N; try apply X; try reflexivity.
  - destruct l; apply X.
  - destruct (_ || _); rewrite ?N; apply X.
  - cbn. destruct (f_enum_input d); cbn; destruct (f_enum_output d); cbn; apply X.
  - unfold default_nullify; cbn. destruct (f_delete_rule d) eqn:E; cbn; rewrite ?E; reflexivity.
  - destruct name; destruct unique; apply X.
  - destruct force; apply X.
Qed.

(** ** The store of [Types] objects *)
Definition ts_ok (s : tstore) : Prop :=
  (forall i t, nth_error (ts_types s) i = Some t ->
     nth_error (ts_fdefs s) (to_fdef t) = Some (fdef_of (to_chain t))).

Lemma set_nth_other : forall {A} (l : list A) i j x,
  i <> j -> nth_error (set_nth i x l) j = nth_error l j.
Proof.
  intros A. unfold set_nth. induction l as [| a l IH]; intros i j x H.
  - destruct i; destruct j; reflexivity.
  - destruct i; destruct j; cbn; try reflexivity; try congruence.
    apply (IH i j x). lia.
Qed.

Lemma set_nth_same : forall {A} (l : list A) i x,
  (i < length l)%nat -> nth_error (set_nth i x l) i = Some x.
Proof.
  intros A. unfold set_nth. induction l as [| a l IH]; intros i x H; [cbn in H; lia |].
  destruct i; cbn; [reflexivity |]. apply IH. cbn in H. lia.
Qed.

Lemma set_nth_length : forall {A} (l : list A) i x, length (set_nth i x l) = length l.
Proof.
  intros A. unfold set_nth. induction l as [| a l IH]; intros i x; destruct i; cbn; try reflexivity.
  rewrite IH. reflexivity.
Qed.

Lemma define_fold : forall args fresh (ch : types) s d,
  nth_error (ts_fdefs s) fresh = Some d ->
  let r := fold_left (fun (acc : types * tstore) m => (fst acc ++ [m], define_at fresh m (snd acc))) args (ch, s) in
  fst r = ch ++ args /\
  ts_types (snd r) = ts_types s /\
  length (ts_fdefs (snd r)) = length (ts_fdefs s) /\
  nth_error (ts_fdefs (snd r)) fresh = Some (fold_left (fun d m => define m d) args d) /\
  (forall j, j <> fresh -> nth_error (ts_fdefs (snd r)) j = nth_error (ts_fdefs s) j).
Proof.
  induction args as [| m args IH]; intros fresh ch s d Hd; cbn [fold_left].
  - cbn. rewrite app_nil_r. repeat split; auto.
  - cbn [fst snd].
    assert (Hs : define_at fresh m s
                 = {| ts_fdefs := set_nth fresh (define m d) (ts_fdefs s); ts_types := ts_types s |})
      by (unfold define_at; rewrite Hd; reflexivity).
    assert (Hlt : (fresh < length (ts_fdefs s))%nat) by (apply nth_error_Some; congruence).
    rewrite Hs.
    specialize (IH fresh (ch ++ [m])
                  {| ts_fdefs := set_nth fresh (define m d) (ts_fdefs s); ts_types := ts_types s |}
                  (define m d)).
    cbn [ts_fdefs ts_types] in IH.
    destruct (IH (set_nth_same _ _ _ Hlt)) as (A1 & A2 & A3 & A4 & A5).
    repeat split.
    + etransitivity; [exact A1 |]. rewrite <- app_assoc. reflexivity.
    + exact A2.
    + etransitivity; [exact A3 |]. apply set_nth_length.
    + exact A4.
    + intros j Hj. etransitivity; [exact (A5 j Hj) |]. apply set_nth_other. congruence.
Qed.

Lemma new_types_frame : forall orig args s,
  ts_ok s ->
  ts_ok (snd (new_types orig args s)) /\
  (forall i, (i < length (ts_types s))%nat -> see (snd (new_types orig args s)) i = see s i) /\
  (length (ts_types s) <= length (ts_types (snd (new_types orig args s))))%nat.
Proof.
  intros orig args s Hok. unfold new_types.
  destruct orig as [o |].
  - destruct (nth_error (ts_types s) o) as [t |] eqn:Ho.
    2:{ cbn. repeat split; auto. }
    pose proof (Hok o t Ho) as Ht.
    assert (Hd : nth (to_fdef t) (ts_fdefs s) fdef0 = fdef_of (to_chain t))
      by (apply nth_error_nth; exact Ht).
    rewrite Hd.
    set (s1 := {| ts_fdefs := ts_fdefs s ++ [fdef_of (to_chain t)]; ts_types := ts_types s |}).
    assert (H1 : nth_error (ts_fdefs s1) (length (ts_fdefs s)) = Some (fdef_of (to_chain t))).
    { cbn. rewrite nth_error_app2 by lia. rewrite Nat.sub_diag. reflexivity. }
    destruct (define_fold args (length (ts_fdefs s)) (to_chain t) s1 _ H1) as (A1 & A2 & A3 & A4 & A5).
    match goal with |- context [fold_left ?F args (to_chain t, s1)] =>
      destruct (fold_left F args (to_chain t, s1)) as [chain s2] eqn:E end.
    assert (B1 : fst (chain, s2) = to_chain t ++ args) by (rewrite <- E; exact A1).
    assert (B2 : ts_types (snd (chain, s2)) = ts_types s1) by (rewrite <- E; exact A2).
    assert (B4 : nth_error (ts_fdefs (snd (chain, s2))) (length (ts_fdefs s))
                 = Some (fold_left (fun d m => define m d) args (fdef_of (to_chain t))))
      by (rewrite <- E; exact A4).
    assert (B5 : forall j, j <> length (ts_fdefs s) ->
                 nth_error (ts_fdefs (snd (chain, s2))) j = nth_error (ts_fdefs s1) j)
      by (rewrite <- E; exact A5).
    clear A1 A2 A3 A4 A5. rename B1 into A1, B2 into A2, B4 into A4, B5 into A5.
    cbn [fst snd] in *.
    assert (Hch : fold_left (fun d m => define m d) args (fdef_of (to_chain t)) = fdef_of chain).
    { rewrite A1. unfold fdef_of. rewrite fold_left_app. reflexivity. }
    assert (Old : forall i t', nth_error (ts_types s) i = Some t' ->
              nth_error (ts_fdefs s2) (to_fdef t') = nth_error (ts_fdefs s) (to_fdef t')).
    { intros i t' Hi. pose proof (Hok i t' Hi) as Hf.
      assert (to_fdef t' < length (ts_fdefs s))%nat by (apply nth_error_Some; congruence).
      rewrite A5 by lia. cbn. rewrite nth_error_app1 by lia. reflexivity. }
    repeat split.
    + intros i t' Hi. cbn [ts_types ts_fdefs] in *. rewrite A2 in Hi. cbn in Hi.
      destruct (Nat.lt_ge_cases i (length (ts_types s))) as [Hlt | Hge].
      * rewrite nth_error_app1 in Hi by exact Hlt.
        rewrite (Old i t' Hi). exact (Hok i t' Hi).
      * rewrite nth_error_app2 in Hi by exact Hge.
        destruct (i - length (ts_types s))%nat as [| n] eqn:En.
        -- cbn in Hi. inversion Hi; subst t'; clear Hi. cbn. rewrite A4, Hch. reflexivity.
        -- destruct n; discriminate Hi.
    + intros i Hi. unfold see. cbn [ts_types ts_fdefs]. rewrite A2. cbn [ts_types s1].
      rewrite nth_error_app1 by exact Hi.
      destruct (nth_error (ts_types s) i) as [t' |] eqn:Et; [| reflexivity].
      rewrite (Old i t' Et). reflexivity.
    + cbn [ts_types]. rewrite A2, app_length. cbn. lia.
  - cbn. repeat split.
    + intros i t' Hi. cbn in *.
      destruct (Nat.lt_ge_cases i (length (ts_types s))) as [Hlt | Hge].
      * rewrite nth_error_app1 in Hi by exact Hlt.
        pose proof (Hok i t' Hi) as Hf.
        assert (to_fdef t' < length (ts_fdefs s))%nat by (apply nth_error_Some; congruence).
        rewrite nth_error_app1 by lia. exact Hf.
      * rewrite nth_error_app2 in Hi by exact Hge.
        destruct (i - length (ts_types s))%nat as [| n] eqn:En.
        -- cbn in Hi. inversion Hi; subst t'; clear Hi. cbn.
           rewrite nth_error_app2 by lia. rewrite Nat.sub_diag. reflexivity.
        -- destruct n; discriminate Hi.
    + intros i Hi. unfold see. cbn. rewrite nth_error_app1 by exact Hi.
      destruct (nth_error (ts_types s) i) as [t' |] eqn:Et; [| reflexivity].
      pose proof (Hok i t' Et) as Hf.
      assert (to_fdef t' < length (ts_fdefs s))%nat by (apply nth_error_Some; congruence).
      rewrite nth_error_app1 by lia. reflexivity.
    + rewrite app_length. cbn. lia.
Qed.

Lemma build_ok : forall steps s, ts_ok s ->
  let s' := fold_left (fun s st => snd (new_types (fst st) (snd st) s)) steps s in
  ts_ok s' /\ (forall i, (i < length (ts_types s))%nat -> see s' i = see s i) /\
  (length (ts_types s) <= length (ts_types s'))%nat.
Proof.
  induction steps as [| st steps IH]; intros s Hs; cbn [fold_left].
  - cbn. auto.
  - destruct (new_types_frame (fst st) (snd st) s Hs) as (B1 & B2 & B3).
    destruct (IH _ B1) as (C1 & C2 & C3).
    cbn zeta. repeat split; [exact C1 | | lia].
    intros i Hi. rewrite C2 by lia. apply B2. exact Hi.
Qed.

Lemma empty_ok : ts_ok {| ts_fdefs := []; ts_types := [] |}.
Proof. intros i t Hi. destruct i; discriminate Hi. Qed.

Lemma build_see : forall steps i d ts,
  see (build steps) i = Some (d, ts) -> d = fdef_of ts.
Proof.
  intros steps i d ts H.
  destruct (build_ok steps _ empty_ok) as (Hok & _).
  unfold see in H. fold (build steps) in Hok.
  destruct (nth_error (ts_types (build steps)) i) as [t |] eqn:Et; [| discriminate].
  rewrite (Hok i t Et) in H. inversion H. reflexivity.
Qed.

Lemma build_stable : forall steps more i x,
  see (build steps) i = Some x -> see (build (steps ++ more)) i = Some x.
Proof.
  intros steps more i x H. unfold build. rewrite fold_left_app.
  destruct (build_ok steps _ empty_ok) as (Hok & _).
  destruct (build_ok more _ Hok) as (_ & Hsee & _).
  assert (Hi : (i < length (ts_types (build steps)))%nat).
  { apply nth_error_Some. unfold see in H.
    destruct (nth_error (ts_types (build steps)) i); [discriminate | discriminate H]. }
  cbn zeta in Hsee. rewrite Hsee by exact Hi. exact H.
Qed.

(** Extending a [Types] object gives its chain with the new modifiers at the end. *)
Lemma build_extends : forall steps o args d ts,
  see (build steps) o = Some (d, ts) ->
  see (build (steps ++ [(Some o, args)])) (length (ts_types (build steps)))
  = Some (fdef_of (ts ++ args), ts ++ args).
Proof.
  intros steps o args d ts H.
  pose proof (build_see steps o d ts H) as Hd. subst d.
  unfold build. rewrite fold_left_app. cbn [fold_left fst snd]. fold (build steps).
  destruct (build_ok steps _ empty_ok) as (Hok & _). fold (build steps) in Hok.
  set (s := build steps) in *.
  unfold see in H.
  destruct (nth_error (ts_types s) o) as [t |] eqn:Ho; [| discriminate].
  pose proof (Hok o t Ho) as Ht. rewrite Ht in H. inversion H as [[H1 H2]]; clear H.
  unfold new_types. rewrite Ho.
  rewrite (nth_error_nth _ _ fdef0 Ht).
  set (s1 := {| ts_fdefs := ts_fdefs s ++ [fdef_of (to_chain t)]; ts_types := ts_types s |}).
  assert (E1 : nth_error (ts_fdefs s1) (length (ts_fdefs s)) = Some (fdef_of (to_chain t))).
  { cbn. rewrite nth_error_app2 by lia. rewrite Nat.sub_diag. reflexivity. }
  destruct (define_fold args (length (ts_fdefs s)) (to_chain t) s1 _ E1) as (A1 & A2 & A3 & A4 & A5).
  match goal with |- context [fold_left ?F args (to_chain t, s1)] =>
      destruct (fold_left F args (to_chain t, s1)) as [chain s2] eqn:E end.
    assert (B1 : fst (chain, s2) = to_chain t ++ args) by (rewrite <- E; exact A1).
    assert (B2 : ts_types (snd (chain, s2)) = ts_types s1) by (rewrite <- E; exact A2).
    assert (B4 : nth_error (ts_fdefs (snd (chain, s2))) (length (ts_fdefs s))
                 = Some (fold_left (fun d m => define m d) args (fdef_of (to_chain t))))
      by (rewrite <- E; exact A4).
    assert (B5 : forall j, j <> length (ts_fdefs s) ->
                 nth_error (ts_fdefs (snd (chain, s2))) j = nth_error (ts_fdefs s1) j)
      by (rewrite <- E; exact A5).
    clear A1 A2 A3 A4 A5. rename B1 into A1, B2 into A2, B4 into A4, B5 into A5.
  cbn [fst snd] in *. unfold see. cbn [ts_types ts_fdefs]. rewrite A2. cbn [ts_types s1].
  rewrite nth_error_app2 by lia. rewrite Nat.sub_diag. cbn [nth_error to_fdef to_chain].
  rewrite A4, A1, H2. unfold fdef_of. rewrite fold_left_app. reflexivity.
Qed.
