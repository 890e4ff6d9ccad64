(** PropLive.v -- C100: extending a list by the list that another object holds. *)
From Verif Require Import Base Mon PyList PyDict KeypathModel Values OGraphModel OListModel TypesModel ObjModel ObjSpec ObjTrack ObjExample LiveModel LinkSpec LinkRun PropLink.
From Coq Require Import Lia.
Open Scope string_scope.
Open Scope list_scope.
Open Scope nat_scope.

Definition no_container (v : value) : Prop := match v with VList _ | VDict _ => False | _ => True end.

(** The attribute [a] of [o] is a list of data: no references, and no stored keys. *)
Definition data_list (ct : string -> option cdef) (h : heap) (o : Values.oid) (a : string) : Prop :=
  (exists f, ofield ct h o a = Some f /\ is_ref (fl_fdef f) = false) /\
  local_field_of h o a = None /\ ~ In a (o_raw (h_obj h o)).

Section Live.
  Context (ct : string -> option cdef)
          (oeq : heap -> Values.oid -> Values.oid -> bool)
          (getter : heap -> Values.oid -> string -> res value)
          (setter : Values.oid -> string -> value -> st heap unit)
          (pystr : value -> string).

  Lemma add_is_mark rec o a cur x h : data_list ct h o a -> no_container x ->
    olist_add ct rec o a [] a cur x h = mark o a h.
  Proof.
    intros ((f & F & R) & L & _) C. unfold olist_add, bind, gets. rewrite L, F, R.
    destruct x; try contradiction; reflexivity.
  Qed.

  Lemma mark_attr o a h r h' : mark o a h = (r, h') ->
    r = Ok tt /\ (forall p b, attr h' p b = attr h p b) /\
    (forall p, o_class (h_obj h' p) = o_class (h_obj h p) /\ o_lkeys (h_obj h' p) = o_lkeys (h_obj h p) /\
               o_raw (h_obj h' p) = o_raw (h_obj h p)).
  Proof.
    unfold mark, updm, modify, upd, attr. intros E.
    injection E as <- <-. cbn [h_obj]. split; [reflexivity |]. split.
    - intros p b. destruct (Nat.eqb p o) eqn:Q; [apply Nat.eqb_eq in Q; subst p |]; [| reflexivity].
      destruct (o_new (h_obj h o)); reflexivity.
    - intros p. destruct (Nat.eqb p o) eqn:Q; [apply Nat.eqb_eq in Q; subst p |]; [| auto].
      destruct (o_new (h_obj h o)); auto.
  Qed.

  Lemma data_same h h' o a :
    (forall p, o_class (h_obj h' p) = o_class (h_obj h p) /\ o_lkeys (h_obj h' p) = o_lkeys (h_obj h p) /\
               o_raw (h_obj h' p) = o_raw (h_obj h p)) -> data_list ct h o a -> data_list ct h' o a.
  Proof.
    intros E D. unfold data_list, ofield, cdef_of, local_field_of in *. destruct (E o) as (-> & -> & ->). exact D.
  Qed.

  Lemma adds_cons (cur : Z) (x : value) xs l :
    adds_from cur 1 (x :: xs) l = (CAdd cur x, l) :: adds_from (cur + 1)%Z 1 xs l.
  Proof.
    unfold adds_from. cbn [length seq combine map fst snd]. f_equal; [f_equal; f_equal; lia |].
    assert (K : forall (ys : list value) j,
      map (fun p => (CAdd (cur + Z.of_nat (fst p) * 1)%Z (snd p), l)) (combine (seq (Datatypes.S j) (length ys)) ys) =
      map (fun p => (CAdd (cur + 1 + Z.of_nat (fst p) * 1)%Z (snd p), l)) (combine (seq j (length ys)) ys)).
    { induction ys as [| y ys IH]; intros j; [reflexivity |]. cbn [length seq combine map fst snd].
      rewrite IH. f_equal. f_equal. f_equal. lia. }
    apply K.
  Qed.

  Lemma skip_one {A} : forall i (xs : list A) x rest, skipn i xs = x :: rest -> skipn (Datatypes.S i) xs = rest.
  Proof.
    induction i as [| i IH]; intros [| y xs] x rest E; cbn [skipn] in E; try discriminate E.
    - injection E as _ <-. reflexivity.
    - apply (IH xs x rest E).
  Qed.

  Lemma live_is_events n o a from b XS l : Forall no_container XS ->
    forall rest i cur h, skipn i XS = rest -> attr h from b = Some (VList XS) -> data_list ct h o a ->
      live_adds ct oeq getter setter pystr n (length rest) o a from b i cur h =
      for_st (adds_from cur 1 rest l) (list_event ct oeq getter (run ct oeq getter setter pystr n) o a [] a) h.
  Proof.
    intros NC. induction rest as [| x rest IH]; intros i cur h SK A D.
    - reflexivity.
    - rewrite adds_cons. cbn [length live_adds for_st list_event fst]. rewrite A.
      assert (NE : nth_error XS i = Some x).
      { rewrite <- (firstn_skipn i XS), SK. assert (L : length (firstn i XS) = i).
        { apply firstn_length_le. destruct (Nat.le_gt_cases i (length XS)) as [|G]; [assumption |].
          rewrite skipn_all2 in SK; [discriminate SK | lia]. }
        rewrite nth_error_app2 by lia. rewrite L, Nat.sub_diag. reflexivity. }
      rewrite NE.
      assert (NX : no_container x).
      { rewrite Forall_forall in NC. apply NC, (nth_error_In _ _ NE). }
      unfold bind. rewrite (add_is_mark _ o a cur x h D NX).
      destruct (mark o a h) as [r h'] eqn:M. destruct (mark_attr _ _ _ _ _ M) as (-> & EA & EC).
      apply IH.
      + apply (skip_one _ _ _ _ SK).
      + rewrite EA. exact A.
      + apply (data_same _ _ _ _ EC D).
  Qed.
End Live.

(** For a list of data (strings, numbers, dates, objects that are no references), the list
    of another object, or another list of the same object, is as good as its items:
    [o.a.extend(from.b)] is [o.a.extend([x1, ..., xn])]. *)
Theorem C100_data :
  forall ct oeq getter setter pystr n o a from b l xs h,
    attr h o a = Some (VList l) -> attr h from b = Some (VList xs) -> (o, a) <> (from, b) ->
    data_list ct h o a -> Forall no_container xs ->
    extend_live ct oeq getter setter pystr n o a from b h =
    run ct oeq getter setter pystr (Datatypes.S n) (TOp o a [] a (LExtend (ItList xs))) h.
Proof.
  intros ct oeq getter setter pystr n o a from b l xs h A B NE D NC.
  cbn [run body]. unfold extend_live, do_list, attr_at. rewrite A, B. cbn [vget].
  assert (RW : sinb a (o_raw (h_obj h o)) = false).
  { destruct (sinb a (o_raw (h_obj h o))) eqn:E; [| reflexivity]. exfalso. apply (proj2 (proj2 D)). apply sinb_In, E. }
  rewrite RW. cbn [owned_step]. unfold o_extend. cbn [iter_len iter_items iter_again].
  assert (PT : forall h1, quiet h h1 -> let h2 := put_at o a [] (VList (l ++ xs)) h1 in
            attr h2 from b = Some (VList xs) /\ data_list ct h2 o a).
  { intros h1 Q. cbv zeta. unfold put_at. rewrite (quiet_attr h h1 o a Q), A. cbn [vput]. split.
    - rewrite <- B, <- (quiet_attr h h1 from b Q). unfold attr. destruct (Nat.eq_dec from o) as [-> | N].
      + rewrite upd_same. unfold set_attr. cbn [o_attr]. destruct (String.eqb b a) eqn:E; [| reflexivity].
        apply String.eqb_eq in E. subst b. contradiction NE; reflexivity.
      + rewrite upd_other by exact N. reflexivity.
    - apply (data_same ct h); [| exact D]. intros p. destruct (Q p) as (Q1 & _ & Q3 & Q4 & _).
      destruct (Nat.eq_dec p o) as [-> | N]; [rewrite upd_same | rewrite upd_other by exact N];
        unfold set_attr; cbn [o_class o_lkeys o_raw]; auto. }
  destruct xs as [| x xs'].
  - cbn [zlen length Z.of_nat Z.ltb Z.compare existsb app]. reflexivity.
  - set (xs := x :: xs') in *.
    assert (LT : (0 <? zlen xs)%Z = true) by (apply Z.ltb_lt; unfold zlen, xs; cbn [length]; lia).
    rewrite LT. cbn [existsb app is_will fst orb].
    unfold xs at 1. unfold bind at 1. unfold bind at 2.
    destruct (olist_will ct getter o a h) as [[[] | e] h1] eqn:W; [| reflexivity].
    assert (Q : quiet h h1) by (eapply olist_will_quiet; exact W).
    unfold bind, modify. cbn [for_st list_event fst]. unfold bind, ret.
    destruct (PT h1 Q) as (P1 & P2).
    apply (live_is_events ct oeq getter setter pystr n o a from b xs (l ++ xs) NC xs 0 (zlen l)); [reflexivity | exact P1 | exact P2].
Qed.
Print Assumptions C100_data.

Definition live_heap : heap :=
  snd (ex_history 20 [HSet 0 "tags" (VList [VStr "x"]); HSet 1 "tags" (VList [VStr "y"; VStr "z"])] (ex_heap false)).
Example C100_example :
  attr live_heap 0 "tags" = Some (VList [VStr "x"]) /\ attr live_heap 1 "tags" = Some (VList [VStr "y"; VStr "z"]) /\
  data_list ex_ct live_heap 0 "tags" /\ Forall no_container [VStr "y"; VStr "z"] /\
  let '(r, h) := extend_live ex_ct ex_oeq ex_getter ex_setter ex_str 20 0 "tags" 1 "tags" live_heap in
  r = Ok tt /\ attr h 0 "tags" = Some (VList [VStr "x"; VStr "y"; VStr "z"]) /\
  attr h 1 "tags" = Some (VList [VStr "y"; VStr "z"]).
Proof.
  split; [vm_compute; reflexivity |]. split; [vm_compute; reflexivity |]. split.
  - split; [eexists; split; vm_compute; reflexivity |]. split; [vm_compute; reflexivity |]. vm_compute. intros [].
  - split; [repeat constructor |]. vm_compute. repeat split.
Qed.

(** For references it is not.  User 1 has the posts 2 and 3, user 0 has none.  After
    [user0.posts.extend(user1.posts)], which returns normally, user 0 lists both posts, but
    only post 2 has moved: while it was given its new author it left the list that is
    walked over, and so post 3 was skipped.  Post 3 is in the lists of both users, and its
    author is still user 1.  Extending by a copy of the list moves both. *)
Theorem C100_reference_refuted :
  let h0 := snd (ex_history 20 [HSet 1 "posts" (VList [VObj 2; VObj 3]); HSet 0 "posts" (VList [])] (ex_heap true)) in
  let '(r, h) := extend_live ex_ct ex_oeq ex_getter ex_setter ex_str 20 0 "posts" 1 "posts" h0 in
  let '(r', h') := ex_run 20 (TOp 0 "posts" [] "posts" (LExtend (ItList [VObj 2; VObj 3]))) h0 in
  (r = Ok tt /\ refs h 0 (ra_field r_posts) = [2; 3] /\ refs h 1 (ra_field r_posts) = [3] /\
   attr h 2 "author" = Some (VObj 0) /\ attr h 3 "author" = Some (VObj 1)) /\
  (r' = Ok tt /\ refs h' 0 (ra_field r_posts) = [2; 3] /\ refs h' 1 (ra_field r_posts) = [] /\
   attr h' 2 "author" = Some (VObj 0) /\ attr h' 3 "author" = Some (VObj 0)).
Proof. vm_compute. repeat split. Qed.
Print Assumptions C100_reference_refuted.
