(** PropEq.v -- C78: when two objects are equal. *)
From Coq Require Import QArith.
From Verif Require Import Base Mon PyDict KeypathModel Values TypesModel ObjModel ObjSpec ObjTrack ObjExample
  LinkSpec PropLink EqModel EqSpec EqProofs.
Open Scope nat_scope.
Open Scope string_scope.
Open Scope list_scope.

(** ** C78 Equality of objects *)

Section Equality.
  Context (ct : string -> option cdef).
  Context (getter : heap -> Values.oid -> string -> res value).
  Notation obj_eq := (obj_eq ct getter).
  Notation same := (same ct getter).

  (** [a == b] gives True, with enough stack, exactly if the objects have the same
      content; it never gives False for these; and more stack does not change an answer. *)
  Theorem C78_equal : forall h a b,
    ((exists fuel, obj_eq fuel h a b = Ok true) <-> same h (VObj a) (VObj b)) /\
    (forall fuel, obj_eq fuel h a b = Ok false -> ~ same h (VObj a) (VObj b)) /\
    (forall n m r, n <= m -> obj_eq n h a b = Ok r -> obj_eq m h a b = Ok r).
  Proof.
    intros h a b. split; [apply eq_same|]. split.
    - intros fuel H. destruct (Nat.eq_dec a b) as [->|AB].
      + destruct fuel; [discriminate H|]. cbn in H. rewrite Nat.eqb_refl in H. discriminate H.
      + apply (obj_eq_right ct getter h fuel a b AB). exact H.
    - intros n m r L. apply obj_eq_mono, L.
  Qed.

  (** It is an equivalence: an object is equal to itself, and what is equal stays so when
      the sides are exchanged or an object is put in between. *)
  Theorem C78_equivalence : forall h, proper_heap ct getter h ->
    let eq a b := exists fuel, obj_eq fuel h a b = Ok true in
    (forall a, eq a a) /\ (forall a b, eq a b -> eq b a) /\ (forall a b c, eq a b -> eq b c -> eq a c).
  Proof.
    intros h PH eq. split; [|split].
    - intros a. apply eq_same. apply sm_self.
    - intros a b H. apply eq_same in H. apply eq_same. apply same_sym; auto; apply pr_object.
    - intros a b c H K. apply eq_same in H. apply eq_same in K. apply eq_same.
      eapply same_trans; eassumption.
  Qed.

  (** Objects of different classes are not equal. *)
  Theorem C78_classes : forall h a b n, o_class (h_obj h a) <> o_class (h_obj h b) ->
    obj_eq (S n) h a b = Ok false.
  Proof.
    intros h a b n N. cbn [EqModel.obj_eq].
    destruct (Nat.eqb a b) eqn:E; [apply Nat.eqb_eq in E; congruence|].
    destruct (String.eqb (o_class (h_obj h b)) (o_class (h_obj h a))) eqn:C; [|reflexivity].
    apply String.eqb_eq in C. congruence.
  Qed.

  Lemma first_field h a c d f r xs : o_class (h_obj h a) = c -> ct c = Some d -> cd_fields d = f :: r ->
    primary_field d = Some f -> ~ In (fl_name f) (map fl_name r) -> is_calc f = false ->
    fields_of ct getter h a = Ok xs -> exists r', xs = id_of ct h a :: r'.
  Proof.
    intros C D F P N NC X. unfold fields_of, cdef_of in X. rewrite C, D, F in X. cbn [read_all] in X.
    unfold rbind in X.
    assert (FN : field_named (fl_name f) d = Some f).
    { unfold field_named. rewrite F. cbn [rev]. 
      assert (G : forall l, ~ In (fl_name f) (map fl_name l) ->
                find (fun g => String.eqb (fl_name f) (fl_name g)) (l ++ [f]) = Some f).
      { induction l as [|g l IH]; cbn [app find map]; intros NI.
        - rewrite String.eqb_refl. reflexivity.
        - destruct (String.eqb (fl_name f) (fl_name g)) eqn:E.
          + apply String.eqb_eq in E. destruct NI. left. auto.
          + apply IH. intros I. apply NI. right. exact I. }
      apply G. rewrite map_rev. intros I. apply in_rev in I. exact (N I). }
    destruct (fst (getattr ct getter a (fl_name f) h)) as [v|e] eqn:G; [|discriminate X].
    destruct (read_all ct getter h a r) as [l|e]; [|discriminate X]. injection X as <-. exists l. f_equal.
    unfold getattr, ofield, cdef_of in G. rewrite C, D, FN, NC in G. cbn [fst] in G.
    unfold id_of, cdef_of. rewrite C, D, P. destruct (attr h a (fl_name f)); [|discriminate G].
    injection G as ->. reflexivity.
  Qed.

  Lemma keys_differ oq v w : key v -> key w -> v <> w -> veqr oq v w = Ok false.
  Proof.
    intros [(z & ->)|(s & ->)] [(z' & ->)|(s' & ->)] N; try reflexivity; cbn.
    - unfold Qeq_bool. cbn. destruct (Zeq_bool (z * 1) (z' * 1)) eqn:E; [|reflexivity].
      apply Zeq_bool_eq in E. rewrite !Z.mul_1_r in E. congruence.
    - destruct (String.eqb s s') eqn:E; [|reflexivity]. apply String.eqb_eq in E. congruence.
  Qed.

  (** If a class declares its primary key first, two objects with different keys are not
      equal; that is found out without following any reference. *)
  Theorem C78_keys : forall h c a b n, key_first ct c -> a <> b ->
    o_class (h_obj h a) = c -> o_class (h_obj h b) = c ->
    key (id_of ct h a) -> key (id_of ct h b) -> id_of ct h a <> id_of ct h b ->
    (exists xs, fields_of ct getter h a = Ok xs) -> (exists ys, fields_of ct getter h b = Ok ys) ->
    obj_eq (S n) h a b = Ok false.
  Proof.
    intros h c a b n (d & f & r & D & F & P & N & NC) AB CA CB KA KB ID (xs & FA) (ys & FB).
    cbn [EqModel.obj_eq]. apply Nat.eqb_neq in AB. rewrite AB, CA, CB, String.eqb_refl.
    unfold rbind. rewrite FA, FB.
    destruct (first_field h a c d f r xs CA D F P N NC FA) as (xr & ->).
    destruct (first_field h b c d f r ys CB D F P N NC FB) as (yr & ->).
    cbn [tuple_eq]. unfold rbind. rewrite (keys_differ _ _ _ KA KB ID). reflexivity.
  Qed.

  (** What C34 to C38 ask of equality holds for [==] as soon as the classes of the relation
      declare their keys first and no two of their objects have the same key. *)
  Theorem C78_distinct_objects : forall R h fuel,
    keyed ct h (ra_class R) -> keyed ct h (rb_class R) ->
    distinct_objects ct (oeq_of ct getter fuel) R h.
  Proof.
    intros R h fuel KA KB h' a b HC HI IN. unfold oeq_of.
    destruct (Nat.eqb a b) eqn:E.
    - apply Nat.eqb_eq in E. subst b. cbn [EqModel.obj_eq]. rewrite Nat.eqb_refl. reflexivity.
    - pose proof E as AB. apply Nat.eqb_neq in AB.
      destruct (string_dec (o_class (h_obj h a)) (o_class (h_obj h b))) as [C|C].
      + assert (K : keyed ct h (o_class (h_obj h a))).
        { destruct IN as [[I|I]|[I|I]]; [rewrite I|rewrite I|rewrite C, I|rewrite C, I]; assumption. }
        destruct K as ((d & f & r & D & F & P & N & NC) & K1 & K2).
        assert (CA : o_class (h_obj h' a) = o_class (h_obj h a)) by apply HC.
        assert (CB : o_class (h_obj h' b) = o_class (h_obj h a)) by (rewrite HC; auto).
        cbn [EqModel.obj_eq]. rewrite E, CA, CB, String.eqb_refl. unfold rbind.
        destruct (fields_of ct getter h' a) as [xs|e] eqn:FA; [|reflexivity].
        destruct (fields_of ct getter h' b) as [ys|e] eqn:FB; [|reflexivity].
        destruct (first_field h' a _ d f r xs CA D F P N NC FA) as (xr & ->).
        destruct (first_field h' b _ d f r ys CB D F P N NC FB) as (yr & ->).
        cbn [tuple_eq]. unfold rbind. rewrite (keys_differ _ _ _); [reflexivity| | |]; rewrite ?HI; auto.
      + rewrite C78_classes; [reflexivity|]. rewrite !HC. exact C.
  Qed.
End Equality.
Print Assumptions C78_equal.
Print Assumptions C78_equivalence.
Print Assumptions C78_classes.
Print Assumptions C78_keys.
Print Assumptions C78_distinct_objects.

(** The keys of the example classes are declared first and told apart. *)
Example C78_example :
  keyed ex_ct (ex_heap false) "User" /\ keyed ex_ct (ex_heap false) "Post" /\
  proper_heap ex_ct ex_getter (ex_heap false) /\
  distinct_objects ex_ct (oeq_of ex_ct ex_getter 3) r_posts (ex_heap false).
Proof.
  assert (U : keyed ex_ct (ex_heap false) "User").
  { split; [|split].
    - exists c_user, f_id, (tl (cd_fields c_user)). repeat apply conj; try reflexivity.
      cbn. intuition discriminate.
    - intros a H. do 10 (destruct a as [|a]; [try discriminate H; left; eexists; reflexivity|]). discriminate H.
    - intros a b HA HB. 
      do 10 (destruct a as [|a]; [try discriminate HA;
        do 10 (destruct b as [|b]; [try discriminate HB; intros Q; try discriminate Q; reflexivity|]); discriminate HB|]).
      discriminate HA. }
  assert (P : keyed ex_ct (ex_heap false) "Post").
  { split; [|split].
    - exists c_post, f_id, (tl (cd_fields c_post)). repeat apply conj; try reflexivity.
      cbn. intuition discriminate.
    - intros a H. do 10 (destruct a as [|a]; [try discriminate H; left; eexists; reflexivity|]). discriminate H.
    - intros a b HA HB. 
      do 10 (destruct a as [|a]; [try discriminate HA;
        do 10 (destruct b as [|b]; [try discriminate HB; intros Q; try discriminate Q; reflexivity|]); discriminate HB|]).
      discriminate HA. }
  split; [exact U|]. split; [exact P|]. split.
  - intros a n v H. unfold getattr in H.
    assert (A : forall v', attr (ex_heap false) a n = Some v' -> proper v').
    { intros v' E. destruct (ex_attr false a n) as [Q|[Q|(z & Q)]]; rewrite Q in E; injection E as <-.
      - apply pr_plain. exact Logic.I.
      - apply pr_list. constructor.
      - apply pr_plain. exact Logic.I. }
    destruct (ofield ex_ct (ex_heap false) a n) as [f|].
    + destruct (is_calc f).
      * cbn in H. injection H as <-. apply pr_plain. exact Logic.I.
      * cbn [fst] in H. destruct (attr (ex_heap false) a n); [|discriminate H]. injection H as <-. apply A. reflexivity.
    + cbn [fst] in H. destruct (attr (ex_heap false) a n); [|discriminate H]. injection H as <-. apply A. reflexivity.
  - apply C78_distinct_objects; assumption.
Qed.

(** *** Findings *)

(** Two unsaved users with a profile each, everything else empty: comparing them never
    ends, as each comparison of users compares profiles and the other way round. *)
Definition twins : heap :=
  let none o h := upd o (set_attr "id" VNone) h in
  let link u p h := upd u (set_attr "profile" (VObj p)) (upd p (set_attr "user" (VObj u)) h) in
  link 0 4 (link 1 5 (none 0 (none 1 (none 4 (none 5 (ex_heap true)))))).
Theorem C78_cycle_refuted : forall fuel, obj_eq ex_ct ex_getter fuel twins 0 1 = Err ERecursion.
Proof.
  assert (U0 : fields_of ex_ct ex_getter twins 0 = Ok [VNone; VNone; VNone; VNone; VNone; VObj 4; VNone; VNone]) by (vm_compute; reflexivity).
  assert (U1 : fields_of ex_ct ex_getter twins 1 = Ok [VNone; VNone; VNone; VNone; VNone; VObj 5; VNone; VNone]) by (vm_compute; reflexivity).
  assert (P4 : fields_of ex_ct ex_getter twins 4 = Ok [VNone; VObj 0]) by (vm_compute; reflexivity).
  assert (P5 : fields_of ex_ct ex_getter twins 5 = Ok [VNone; VObj 1]) by (vm_compute; reflexivity).
  assert (E : forall fuel, obj_eq ex_ct ex_getter fuel twins 0 1 = Err ERecursion /\
                           obj_eq ex_ct ex_getter fuel twins 4 5 = Err ERecursion).
  { induction fuel as [|n [I1 I2]]; [split; reflexivity|]. split.
    - change (obj_eq ex_ct ex_getter (S n) twins 0 1) with
        (let* xs := fields_of ex_ct ex_getter twins 0 in let* ys := fields_of ex_ct ex_getter twins 1 in
         tuple_eq (obj_eq ex_ct ex_getter n twins) xs ys).
      rewrite U0, U1. cbn [rbind tuple_eq veqr veq Nat.eqb]. rewrite I2. reflexivity.
    - change (obj_eq ex_ct ex_getter (S n) twins 4 5) with
        (let* xs := fields_of ex_ct ex_getter twins 4 in let* ys := fields_of ex_ct ex_getter twins 5 in
         tuple_eq (obj_eq ex_ct ex_getter n twins) xs ys).
      rewrite P4, P5. cbn [rbind tuple_eq veqr veq Nat.eqb]. rewrite I1. reflexivity. }
  intros fuel. apply E.
Qed.
Print Assumptions C78_cycle_refuted.

(** Stored keys are not compared: two unsaved posts of different authors that have not been
    loaded are equal. *)
Definition two_posts : heap :=
  upd 2 (set_attr "author_id" (VInt 1)) (upd 3 (set_attr "author_id" (VInt 2))
    (upd 2 (set_attr "id" VNone) (upd 3 (set_attr "id" VNone) (ex_heap true)))).
Theorem C78_stored_keys_refuted :
  obj_eq ex_ct ex_getter 2 two_posts 2 3 = Ok true /\
  attr two_posts 2 "author_id" <> attr two_posts 3 "author_id".
Proof. split; [vm_compute; reflexivity|]. vm_compute. discriminate. Qed.
Print Assumptions C78_stored_keys_refuted.
