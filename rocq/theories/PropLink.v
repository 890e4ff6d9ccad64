(** PropLink.v -- C34 to C38: the two sides of a relation agree. *)
From Verif Require Import Base Mon PyList PyDict KeypathModel Values OListModel OListSpec TypesModel ObjModel ObjSpec ObjTrack
  LinkOps LinkSpec LinkHist ObjExample.
Open Scope nat_scope.

(** What the theorems have in common: the objects are in a consistent state, and a
    history of operations, each of them lawful in the heap it finds, returns normally. *)
Section Common.
  Context (ct : string -> option cdef)
          (oeq : heap -> Values.oid -> Values.oid -> bool)
          (getter : heap -> Values.oid -> string -> res value)
          (setter : Values.oid -> string -> value -> st heap unit)
          (pystr : value -> string) (R : relation) (fuel : nat).
  Definition after (xs : list hop) (h h' : heap) : Prop :=
    lawful (fun x => run ct oeq getter setter pystr fuel (task_of x)) (link_op ct R) xs h /\
    history ct oeq getter setter pystr fuel xs h = (Ok tt, h').
  (** the same, with list methods that keep stored key lists in step *)
  Definition after_in_step (xs : list hop) (h h' : heap) : Prop :=
    lawful (fun x => run ct oeq getter setter pystr fuel (task_of x))
      (fun h x => link_op ct R h x /\ in_step R h x) xs h /\
    history ct oeq getter setter pystr fuel xs h = (Ok tt, h').

  Lemma lawful_mono run1 (P Q : heap -> hop -> Prop) : (forall h x, P h x -> Q h x) ->
    forall xs h, lawful run1 P xs h -> lawful run1 Q xs h.
  Proof.
    intros PQ. induction xs as [| x xs IH]; intros h L; [exact I |]. destruct L as [L1 L2].
    split; [apply PQ, L1 | intros h1 H1; apply IH, L2, H1].
  Qed.

  Lemma after_sets xs h h' : setting ct oeq R h -> after xs h h' ->
    setting ct oeq R h' /\ (forall z, o_class (h_obj h' z) = o_class (h_obj h z)) /\
    (forall z, id_of ct h' z = id_of ct h z).
  Proof.
    intros [W PP RO TY OB KA KB CO] [L H].
    apply (end_setting ct oeq getter setter pystr W PP R RO false h TY OB KA KB fuel xs h' CO eq_refl L H).
  Qed.
  Lemma after_known xs h h' a b : setting ct oeq R h -> after xs h h' ->
    o_class (h_obj h a) = ra_class R -> o_class (h_obj h b) = rb_class R ->
    In b (refs h a (ra_field R)) ->
    In b (refs h' a (ra_field R)) \/ (In b (unlinked h' a (ra_field R)) /\ In a (unlinked h' b (rb_field R))).
  Proof.
    intros [W PP RO TY OB KA KB CO] [L H] A B HB.
    destruct (history_links ct oeq getter setter pystr W PP R RO false h TY OB KA KB fuel xs h' CO) as (_ & _ & K).
    - discriminate.
    - revert L. apply lawful_mono. intros h1 x Hx. split; [exact Hx | discriminate].
    - exact H.
    - apply (K a b A B HB).
  Qed.
  Lemma after_keys xs h h' : setting ct oeq R h -> after_in_step xs h h' ->
    keys_agree ct h (ra_class R) (ra_field R) -> keys_agree ct h (rb_class R) (rb_field R) ->
    keys_agree ct h' (ra_class R) (ra_field R) /\ keys_agree ct h' (rb_class R) (rb_field R).
  Proof.
    intros [W PP RO TY OB KA KB CO] [L H] A B.
    destruct (history_links ct oeq getter setter pystr W PP R RO true h TY OB KA KB fuel xs h' CO) as (_ & K & _).
    - auto.
    - revert L. apply lawful_mono. intros h1 x [Hx Hy]. split; [exact Hx | auto].
    - exact H.
    - apply K. reflexivity.
  Qed.

  (** If no list of the relation stores keys, every list method is in step. *)
  Lemma step_free h x : relation_ok ct R ->
    (is_local (ra_field R) = true -> is_list_type (ra_field R) = false) ->
    (is_local (rb_field R) = true -> is_list_type (rb_field R) = false) ->
    link_op ct R h x -> in_step R h x.
  Proof.
    intros RO FA FB L. destruct x as [o n v | o n p lab op | o n p lab op]; cbn [in_step]; try exact I.
    intros [(C & -> & K) | (C & -> & K)]; exfalso; destruct L as [[_ L] | [L | L]]; cbn [on_side flip ra_class ra_field] in L.
    - apply L. left. split; [exact C | left; reflexivity].
    - destruct L as (_ & _ & _ & _ & L & _). rewrite (FA K) in L. discriminate L.
    - destruct L as (C' & E & _). apply (ro_two _ _ RO); [congruence | exact E].
    - apply L. right; left. split; [exact C | left; reflexivity].
    - destruct L as (C' & E & _). apply (ro_two _ _ RO); [congruence | symmetry; exact E].
    - destruct L as (_ & _ & _ & _ & L & _). rewrite (FB K) in L. discriminate L.
  Qed.
  Lemma after_free xs h h' : setting ct oeq R h -> after xs h h' ->
    (is_local (ra_field R) = true -> is_list_type (ra_field R) = false) ->
    (is_local (rb_field R) = true -> is_list_type (rb_field R) = false) ->
    after_in_step xs h h'.
  Proof.
    intros ST [L H] FA FB. split; [| exact H]. revert L. apply lawful_mono. intros h1 x Hx.
    split; [exact Hx | apply (step_free h1 x (st_rel _ _ _ _ ST) FA FB Hx)].
  Qed.
End Common.

Lemma one_ref h c f o b : side_fine h c f -> is_list_type f = false -> o_class (h_obj h o) = c ->
  (In b (refs h o f) <-> attr h o (fl_name f) = Some (VObj b)).
Proof.
  intros F L C. unfold refs. destruct (sf_shape _ _ _ F o C) as [E | E].
  - rewrite E. cbn. split; [intros [] | discriminate].
  - rewrite L in E. destruct E as (x & E). rewrite E. cbn. split; [intros [-> | []]; reflexivity | intros K; injection K as ->; auto].
Qed.

Lemma one_keys ct h c f o : side_fine h c f -> is_list_type f = false -> o_class (h_obj h o) = c ->
  keys_shown ct h o f = match attr h o (fl_name f) with Some (VObj a) => id_of ct h a | _ => VNone end.
Proof.
  intros F L C. unfold keys_shown, refs. rewrite L. destruct (sf_shape _ _ _ F o C) as [E | E].
  - rewrite E. reflexivity.
  - rewrite L in E. destruct E as (x & ->). reflexivity.
Qed.

(** ** C34 One to many

    The [a] side is a list, the [b] side a single reference that stores its key.  After
    any lawful history that returns normally, of any length, over any number of objects:
    an item is in the list of an owner exactly when its back reference is that owner, no
    list holds an item twice, and the stored key of the item is the primary key of its
    owner, or None when it has none. *)
Theorem C34_one_to_many :
  forall ct oeq getter setter pystr fuel R xs h h',
    setting ct oeq R h ->
    is_list_type (ra_field R) = true -> is_local (ra_field R) = false ->
    is_list_type (rb_field R) = false -> is_local (rb_field R) = true ->
    keys_agree ct h (rb_class R) (rb_field R) ->
    after ct oeq getter setter pystr R fuel xs h h' ->
    forall b, o_class (h_obj h b) = rb_class R ->
      (forall a, o_class (h_obj h a) = ra_class R ->
         (In b (refs h' a (ra_field R)) <-> attr h' b (fl_name (rb_field R)) = Some (VObj a)) /\
         NoDup (refs h' a (ra_field R))) /\
      attr h' b (fl_ref (rb_field R)) =
        Some (match attr h' b (fl_name (rb_field R)) with Some (VObj a) => id_of ct h' a | _ => VNone end).
Proof.
  intros ct oeq getter setter pystr fuel R xs h h' ST LA NA LB KB KA AF b B.
  destruct (after_sets _ _ _ _ _ _ _ _ _ _ ST AF) as (ST' & EC & _). pose proof (st_consistent _ _ _ _ ST') as CO.
  assert (B' : o_class (h_obj h' b) = rb_class R) by (rewrite EC; exact B).
  split.
  - intros a A. assert (A' : o_class (h_obj h' a) = ra_class R) by (rewrite EC; exact A).
    split; [| apply (sf_once _ _ _ (co_a _ _ CO) a A')].
    rewrite (co_sym _ _ CO a b A' B'). apply (one_ref h' _ _ b a (co_b _ _ CO) LB B').
  - destruct (after_keys ct oeq getter setter pystr R fuel xs h h' ST) as [_ K].
    + apply after_free; [exact ST | exact AF | congruence | auto].
    + intros L. congruence.
    + exact KA.
    + specialize (K KB b B'). unfold stored in K. rewrite K. f_equal. apply (one_keys ct h' (rb_class R)); [apply CO | exact LB | exact B'].
Qed.
Print Assumptions C34_one_to_many.

(** ** C35 One to one

    Both sides are single references: [a] refers to [b] exactly when [b] refers to [a],
    and a stored key is that of the object referred to. *)
Theorem C35_one_to_one :
  forall ct oeq getter setter pystr fuel R xs h h',
    setting ct oeq R h ->
    is_list_type (ra_field R) = false -> is_list_type (rb_field R) = false ->
    keys_agree ct h (ra_class R) (ra_field R) -> keys_agree ct h (rb_class R) (rb_field R) ->
    after ct oeq getter setter pystr R fuel xs h h' ->
    forall a b, o_class (h_obj h a) = ra_class R -> o_class (h_obj h b) = rb_class R ->
      (attr h' a (fl_name (ra_field R)) = Some (VObj b) <-> attr h' b (fl_name (rb_field R)) = Some (VObj a)) /\
      (is_local (rb_field R) = true -> attr h' b (fl_ref (rb_field R)) =
         Some (match attr h' b (fl_name (rb_field R)) with Some (VObj x) => id_of ct h' x | _ => VNone end)).
Proof.
  intros ct oeq getter setter pystr fuel R xs h h' ST LA LB KA KB AF a b A B.
  destruct (after_sets _ _ _ _ _ _ _ _ _ _ ST AF) as (ST' & EC & _). pose proof (st_consistent _ _ _ _ ST') as CO.
  assert (B' : o_class (h_obj h' b) = rb_class R) by (rewrite EC; exact B).
  assert (A' : o_class (h_obj h' a) = ra_class R) by (rewrite EC; exact A).
  split.
  - rewrite <- (one_ref h' _ _ a b (co_a _ _ CO) LA A'), <- (one_ref h' _ _ b a (co_b _ _ CO) LB B').
    apply (co_sym _ _ CO a b A' B').
  - intros L. destruct (after_keys ct oeq getter setter pystr R fuel xs h h' ST) as [_ K].
    + apply after_free; auto.
    + exact KA.
    + exact KB.
    + specialize (K L b B'). unfold stored in K. rewrite K. f_equal. apply (one_keys ct h' (rb_class R)); [apply CO | exact LB | exact B'].
Qed.
Print Assumptions C35_one_to_one.

(** ** C36 Many to many

    Both sides are lists: [a] lists [b] exactly when [b] lists [a], and no list holds an
    object twice. *)
Theorem C36_many_to_many :
  forall ct oeq getter setter pystr fuel R xs h h',
    setting ct oeq R h ->
    is_list_type (ra_field R) = true -> is_list_type (rb_field R) = true ->
    after ct oeq getter setter pystr R fuel xs h h' ->
    forall a b, o_class (h_obj h a) = ra_class R -> o_class (h_obj h b) = rb_class R ->
      (In b (refs h' a (ra_field R)) <-> In a (refs h' b (rb_field R))) /\
      NoDup (refs h' a (ra_field R)) /\ NoDup (refs h' b (rb_field R)).
Proof.
  intros ct oeq getter setter pystr fuel R xs h h' ST LA LB AF a b A B.
  destruct (after_sets _ _ _ _ _ _ _ _ _ _ ST AF) as (ST' & EC & _). pose proof (st_consistent _ _ _ _ ST') as CO.
  rewrite <- EC in A, B. split; [apply (co_sym _ _ CO a b A B) |].
  split; [apply (sf_once _ _ _ (co_a _ _ CO) a A) | apply (sf_once _ _ _ (co_b _ _ CO) b B)].
Qed.
Print Assumptions C36_many_to_many.

(** ** C37 Stored key lists

    A list that stores the keys of its objects: after any lawful history without [sort],
    [reverse] and assignment to an index or a slice on it, the stored keys are the
    primary keys of the listed objects, in the same order. *)
Theorem C37_stored_key_lists :
  forall ct oeq getter setter pystr fuel R xs h h',
    setting ct oeq R h ->
    is_list_type (ra_field R) = true -> is_local (ra_field R) = true ->
    keys_agree ct h (ra_class R) (ra_field R) -> keys_agree ct h (rb_class R) (rb_field R) ->
    after_in_step ct oeq getter setter pystr R fuel xs h h' ->
    forall a, o_class (h_obj h a) = ra_class R ->
      attr h' a (fl_ref (ra_field R)) = Some (VList (map (id_of ct h') (refs h' a (ra_field R)))).
Proof.
  intros ct oeq getter setter pystr fuel R xs h h' ST LA KL KA KB AF a A.
  destruct (after_keys ct oeq getter setter pystr R fuel xs h h' ST AF KA KB) as [K _].
  destruct AF as [L H].
  assert (AF : after ct oeq getter setter pystr R fuel xs h h').
  { split; [| exact H]. revert L. apply lawful_mono. intros h1 x [Hx _]. exact Hx. }
  destruct (after_sets _ _ _ _ _ _ _ _ _ _ ST AF) as (ST' & EC & _). rewrite <- EC in A.
  specialize (K KL a A). unfold stored, keys_shown in K. rewrite LA in K. exact K.
Qed.
Print Assumptions C37_stored_key_lists.

(** ** C38 Unlinked objects

    Two objects that were linked at some point of a lawful history are, at any later
    point, linked or each recorded among the unlinked objects of the other; and an object
    that is linked through a field is not recorded as unlinked for that field. *)
Theorem C38_unlinked_are_recorded :
  forall ct oeq getter setter pystr fuel R xs ys h h1 h',
    setting ct oeq R h ->
    after ct oeq getter setter pystr R fuel xs h h1 ->
    after ct oeq getter setter pystr R fuel ys h1 h' ->
    forall a b, o_class (h_obj h a) = ra_class R -> o_class (h_obj h b) = rb_class R ->
      In b (refs h1 a (ra_field R)) ->
      (In b (refs h' a (ra_field R)) /\ ~ In b (unlinked h' a (ra_field R)) /\
       In a (refs h' b (rb_field R)) /\ ~ In a (unlinked h' b (rb_field R))) \/
      (~ In b (refs h' a (ra_field R)) /\ In b (unlinked h' a (ra_field R)) /\
       ~ In a (refs h' b (rb_field R)) /\ In a (unlinked h' b (rb_field R))).
Proof.
  intros ct oeq getter setter pystr fuel R xs ys h h1 h' ST AX AY a b A B HB.
  destruct (after_sets _ _ _ _ _ _ _ _ _ _ ST AX) as (ST1 & EC1 & _). rewrite <- EC1 in A, B.
  pose proof (after_known _ _ _ _ _ _ _ _ _ _ a b ST1 AY A B HB) as K.
  destruct (after_sets _ _ _ _ _ _ _ _ _ _ ST1 AY) as (ST2 & EC2 & _). rewrite <- EC2 in A, B.
  pose proof (st_consistent _ _ _ _ ST2) as CO. pose proof (co_sym _ _ CO a b A B) as SY.
  pose proof (sf_apart _ _ _ (co_a _ _ CO) a b A) as PA. pose proof (sf_apart _ _ _ (co_b _ _ CO) b a B) as PB.
  destruct K as [K | [K1 K2]]; [left; tauto | right]. split; [intros Q; apply (PA Q K1) |]. tauto.
Qed.
Print Assumptions C38_unlinked_are_recorded.

(** The operations of a lawful history do what they are called for: the field that is
    assigned refers to the assigned objects, and the list that is changed holds what the
    method leaves in a plain list. *)
Theorem C34_operations_take_effect :
  forall ct oeq getter setter pystr fuel R x h h',
    setting ct oeq R h -> on_side R h x ->
    run ct oeq getter setter pystr fuel (task_of x) h = (Ok tt, h') ->
    takes_effect oeq R h h' x.
Proof.
  intros ct oeq getter setter pystr fuel R x h h' [W PP RO TY OB KA KB CO] OS H.
  apply (effect ct oeq getter setter pystr W PP R RO false h TY OB KA KB fuel x h' eq_refl CO OS H).
Qed.
Print Assumptions C34_operations_take_effect.

(** And nothing else: the other objects of the class keep exactly the links they had,
    except that an object with a single reference is taken away from the others by the one
    that links it.  Since the two sides agree, this decides every link after the
    operation. *)
Theorem C34_nothing_else_changes :
  forall ct oeq getter setter pystr fuel R x h h',
    setting ct oeq R h -> on_side R h x ->
    run ct oeq getter setter pystr fuel (task_of x) h = (Ok tt, h') ->
    leaves_others R h h' x.
Proof.
  intros ct oeq getter setter pystr fuel R x h h' [W PP RO TY OB KA KB CO] OS H.
  apply (others ct oeq getter setter pystr W PP R RO false h TY OB KA KB fuel x h' eq_refl CO OS H).
Qed.
Print Assumptions C34_nothing_else_changes.

(** ** The hypotheses can be met *)

(** Equality of two objects as the generated [__eq__] gives it for objects with different
    primary keys. *)
Definition key_oeq (h : heap) (a b : Values.oid) : bool :=
  String.eqb (o_class (h_obj h a)) (o_class (h_obj h b)) &&
  (if String.eqb (o_class (h_obj h a)) "" then Nat.eqb a b else
   match id_of ex_ct h a, id_of ex_ct h b with VInt x, VInt y => Z.eqb x y | _, _ => false end).

Definition fld_of (d : cdef) (n : string) : field :=
  match field_named n d with Some f => f | None => f_id end.
Definition r_posts : relation :=
  {| ra_class := "User"; ra_field := fld_of c_user "posts"; rb_class := "Post"; rb_field := fld_of c_post "author" |}.
Definition r_profile : relation :=
  {| ra_class := "User"; ra_field := fld_of c_user "profile"; rb_class := "Profile"; rb_field := fld_of c_profile "user" |}.
Definition r_groups : relation :=
  {| ra_class := "User"; ra_field := fld_of c_user "groups"; rb_class := "Group"; rb_field := fld_of c_group "members" |}.
Definition r_teams : relation :=
  {| ra_class := "User"; ra_field := fld_of c_user "teams"; rb_class := "Team"; rb_field := fld_of c_team "users" |}.

Lemma ex_classes c d : ex_ct c = Some d ->
  (c = "User" /\ d = c_user \/ c = "Post" /\ d = c_post \/ c = "Profile" /\ d = c_profile
   \/ c = "Group" /\ d = c_group \/ c = "Team" /\ d = c_team)%string.
Proof.
  intros H. unfold ex_ct in H.
  repeat match type of H with
         | (if String.eqb c ?s then _ else _) = _ =>
             let E := fresh "E" in destruct (String.eqb c s) eqn:E;
             [apply String.eqb_eq in E; subst c; inversion H; subst; clear; intuition |]
         end. discriminate H.
Qed.

Ltac ex_side :=
  constructor;
  [ eexists; split; [reflexivity | cbn; tauto] | reflexivity | (left; reflexivity) || (right; reflexivity)
  | reflexivity | reflexivity |
    let c := fresh "c" in let f := fresh "f" in let d := fresh "d" in let Hd := fresh "Hd" in let Hf := fresh "Hf" in
    let Hc := fresh "Hc" in let Ho := fresh "Ho" in
    intros c f (d & Hd & Hf) Hc Ho;
    destruct (ex_classes c d Hd) as [[-> ->] | [[-> ->] | [[-> ->] | [[-> ->] | [-> ->]]]]]; cbn in Hf;
    repeat (destruct Hf as [<- | Hf]; [first [split; reflexivity | discriminate Hc | vm_compute in Ho; discriminate Ho] |]);
    destruct Hf ].
Lemma ex_relation R : In R [r_posts; r_profile; r_groups; r_teams] -> relation_ok ex_ct R.
Proof.
  intros H. cbn in H.
  repeat (destruct H as [<- | H]; [constructor; [ex_side | ex_side | discriminate] |]). destruct H.
Qed.
Lemma ex_primary : plain_primary ex_ct.
Proof.
  intros c d f H P. destruct (ex_classes c d H) as [[-> ->] | [[-> ->] | [[-> ->] | [[-> ->] | [-> ->]]]]];
    injection P as <-; reflexivity.
Qed.
Lemma ex_objects R new : distinct_objects ex_ct key_oeq R (ex_heap new).
Proof.
  intros h' a b C I _. unfold key_oeq. rewrite !C, !I.
  do 10 (destruct a as [| a]; [do 10 (destruct b as [| b]; [reflexivity |]); reflexivity |]).
  do 10 (destruct b as [| b]; [reflexivity |]). reflexivity.
Qed.
Lemma ex_none new o n : n <> "id"%string -> n <> "group_ids"%string -> attr (ex_heap new) o n = Some VNone.
Proof.
  intros N1 N2. apply String.eqb_neq in N1, N2.
  unfold attr, ex_heap, h_obj.
  do 10 (destruct o as [| o]; [cbn; rewrite N1, N2; reflexivity |]). cbn. rewrite N1, N2. reflexivity.
Qed.
Lemma ex_unl new o : o_unlinked (h_obj (ex_heap new) o) = [].
Proof. do 10 (destruct o as [| o]; [reflexivity |]). reflexivity. Qed.
Lemma ex_fine new c f : fl_name f <> "id"%string -> fl_name f <> "group_ids"%string ->
  (is_local f = true -> is_list_type f = true -> fl_ref f = "group_ids"%string) ->
  side_fine (ex_heap new) c f.
Proof.
  intros N1 N2 L. assert (E : forall o, refs (ex_heap new) o f = []) by (intros o; unfold refs; rewrite ex_none by assumption; reflexivity).
  assert (U : forall o, recorded (ex_heap new) o f = []) by (intros o; unfold recorded; rewrite ex_unl; reflexivity).
  constructor; intros o.
  - intros _. left. apply ex_none; assumption.
  - intros _. rewrite E. constructor.
  - intros _. unfold unlinked. rewrite U. split; [reflexivity | constructor].
  - intros b _ H. rewrite E in H. destruct H.
  - intros _ Lo. unfold stored. destruct (is_list_type f) eqn:T.
    + rewrite (L Lo eq_refl). exists (VList []). split; [| eauto].
      do 10 (destruct o as [| o]; [reflexivity |]). reflexivity.
    + destruct (ex_attr new o (fl_ref f)) as [A | [A | (z & A)]]; eexists; (split; [exact A | discriminate]).
Qed.

(** The four relations of the example, among ten unlinked objects. *)
Lemma ex_setting R new oeq : In R [r_posts; r_profile; r_groups; r_teams] -> oeq = ex_oeq \/ oeq = key_oeq ->
  setting ex_ct oeq R (ex_heap new).
Proof.
  intros H HQ. constructor.
  - apply ex_wf.
  - apply ex_primary.
  - apply ex_relation, H.
  - apply ex_typed.
  - destruct HQ as [-> | ->]; [intros h' a b _ _ _; reflexivity | apply ex_objects].
  - cbn in H. repeat (destruct H as [<- | H]; [first [discriminate 1 | discriminate 2 | intros _ _ h' a b Ha Hb] |]); [| destruct H].
    do 10 (destruct a as [| a]; [try discriminate Ha; do 10 (destruct b as [| b]; [first [discriminate Hb | reflexivity] |]); discriminate Hb |]).
    discriminate Ha.
  - cbn in H. repeat (destruct H as [<- | H]; [first [discriminate 1 | discriminate 2] |]). destruct H.
  - cbn in H.
    repeat (destruct H as [<- | H];
      [constructor; [apply ex_fine; first [discriminate | reflexivity] | apply ex_fine; discriminate
                    | intros a b _ _; unfold refs; rewrite !ex_none by discriminate; reflexivity] |]).
    destruct H.
Qed.

Lemma lawful_cons run1 (P : heap -> hop -> Prop) x xs h : P h x -> lawful run1 P xs (snd (run1 x h)) -> lawful run1 P (x :: xs) h.
Proof. intros H1 H2. split; [exact H1 |]. intros h' H. rewrite H in H2. exact H2. Qed.
Notation ex_after := (after ex_ct ex_oeq ex_getter ex_setter ex_str).
Notation ex_after_in_step := (after_in_step ex_ct ex_oeq ex_getter ex_setter ex_str).
Lemma ex_after_intro R n xs h :
  lawful (fun x => ex_run n (task_of x)) (link_op ex_ct R) xs h -> fst (ex_history n xs h) = Ok tt ->
  ex_after R n xs h (snd (ex_history n xs h)).
Proof.
  intros L E. split; [exact L |]. unfold ex_history in *.
  destruct (history ex_ct ex_oeq ex_getter ex_setter ex_str n xs h) as [r a]. cbn in E. rewrite E. reflexivity.
Qed.
Lemma ex_step_intro R n xs h :
  lawful (fun x => ex_run n (task_of x)) (fun h x => link_op ex_ct R h x /\ in_step R h x) xs h ->
  fst (ex_history n xs h) = Ok tt ->
  ex_after_in_step R n xs h (snd (ex_history n xs h)).
Proof.
  intros L E. split; [exact L |]. unfold ex_history in *.
  destruct (history ex_ct ex_oeq ex_getter ex_setter ex_str n xs h) as [r a]. cbn in E. rewrite E. reflexivity.
Qed.

(** Each operation of an example is an assignment or a list method on one of the sides
    ([ex_on new], with the objects it brings in), or about something else ([ex_off]). *)
Ltac nodup := vm_compute; repeat constructor; cbn; intuition discriminate.
Ltac classes := intros ? Hb; cbn in Hb; repeat (destruct Hb as [<- | Hb]; [vm_compute; reflexivity |]); destruct Hb.
Ltac ex_on new :=
  first
  [ split; [vm_compute; reflexivity | split; [reflexivity |]]; exists new;
    split; [nodup | split; [classes |]];
    first [left; split; reflexivity | right; first [reflexivity | eexists; split; reflexivity]]
  | split; [vm_compute; reflexivity | split; [reflexivity | split; [reflexivity | split; [reflexivity | split; [reflexivity | split; [exact I |]]]]]];
    exists new; split; [vm_compute; reflexivity | split; [nodup | classes]] ].
Ltac ex_off :=
  split; [left; eexists; split; [vm_compute; reflexivity | split; [reflexivity | discriminate]] |];
  intros [[C D] | [[C D] | (d & f & D1 & D2 & D3)]];
  [ destruct D as [D | [_ D]]; vm_compute in D; discriminate D
  | vm_compute in C; discriminate C
  | 
    assert (Dc : d = c_user) by (vm_compute in D1; injection D1 as <-; reflexivity); subst d;
    injection D2 as <-; discriminate D3 ].

(** Posts are given to a user, moved to another through either side, and released. *)
Definition ex_posts : list hop :=
  [ HSet 0 "posts" (VList [VObj 2; VObj 3]); HSet 2 "author" (VObj 1);
    HSet 0 "name" (VStr "n"); HSet 1 "posts" (VList [VObj 3]); HList 1 "posts" [] "posts" (LAppend (VObj 2));
    HList 1 "posts" [] "posts" LReverse; HSet 3 "author" VNone ]%string.
Example C34_example : exists h', ex_after r_posts 20 ex_posts (ex_heap false) h' /\
  refs h' 0 (ra_field r_posts) = [] /\ refs h' 1 (ra_field r_posts) = [2] /\
  attr h' 2 "author" = Some (VObj 1) /\ attr h' 2 "author_id" = Some (VInt 2%Z) /\
  attr h' 3 "author" = Some VNone /\ attr h' 3 "author_id" = Some VNone /\
  unlinked h' 0 (ra_field r_posts) = [2; 3] /\ unlinked h' 1 (ra_field r_posts) = [3].
Proof.
  exists (snd (ex_history 20 ex_posts (ex_heap false))). split.
  - apply ex_after_intro; [| vm_compute; reflexivity]. unfold ex_posts.
    apply lawful_cons; [right; left; ex_on [2; 3] |].
    apply lawful_cons; [right; right; ex_on [1] |].
    apply lawful_cons; [left; ex_off |].
    apply lawful_cons; [right; left; ex_on [3] |].
    apply lawful_cons; [right; left; ex_on [2] |].
    apply lawful_cons; [right; left; ex_on (@nil nat) |].
    apply lawful_cons; [right; right; ex_on (@nil nat) |]. exact I.
  - vm_compute. repeat split.
Qed.

(** A profile is taken over by another user, from either side. *)
Definition ex_profiles : list hop :=
  [ HSet 0 "profile" (VObj 4); HSet 1 "profile" (VObj 5); HSet 4 "user" (VObj 1); HSet 0 "profile" (VObj 5) ]%string.
Example C35_example : exists h', ex_after r_profile 20 ex_profiles (ex_heap false) h' /\
  attr h' 0 "profile" = Some (VObj 5) /\ attr h' 5 "user" = Some (VObj 0) /\ attr h' 5 "user_id" = Some (VInt 1%Z) /\
  attr h' 1 "profile" = Some (VObj 4) /\ attr h' 4 "user" = Some (VObj 1) /\ attr h' 4 "user_id" = Some (VInt 2%Z).
Proof.
  exists (snd (ex_history 20 ex_profiles (ex_heap false))). split.
  - apply ex_after_intro; [| vm_compute; reflexivity]. unfold ex_profiles.
    apply lawful_cons; [right; left; ex_on [4] |].
    apply lawful_cons; [right; left; ex_on [5] |].
    apply lawful_cons; [right; right; ex_on [1] |].
    apply lawful_cons; [right; left; ex_on [5] |]. exact I.
  - vm_compute. repeat split.
Qed.

(** Teams and groups: lists on both sides, without and with stored keys. *)
Definition ex_teams : list hop :=
  [ HSet 0 "teams" (VList [VObj 8; VObj 9]); HList 8 "users" [] "users" (LExtend (ItList [VObj 1]));
    HList 9 "users" [] "users" (LPop (Some 0%Z)); HList 1 "teams" [] "teams" (LSetInt 0%Z (VObj 9)) ]%string.
Example C36_example : exists h', ex_after r_teams 20 ex_teams (ex_heap false) h' /\
  refs h' 0 (ra_field r_teams) = [8] /\ refs h' 1 (ra_field r_teams) = [9] /\
  refs h' 8 (rb_field r_teams) = [0] /\ refs h' 9 (rb_field r_teams) = [1] /\
  unlinked h' 0 (ra_field r_teams) = [9] /\ unlinked h' 8 (rb_field r_teams) = [1].
Proof.
  exists (snd (ex_history 20 ex_teams (ex_heap false))). split.
  - apply ex_after_intro; [| vm_compute; reflexivity]. unfold ex_teams.
    apply lawful_cons; [right; left; ex_on [8; 9] |].
    apply lawful_cons; [right; right; ex_on [1] |].
    apply lawful_cons; [right; right; ex_on (@nil nat) |].
    apply lawful_cons; [right; left; ex_on [9] |]. exact I.
  - vm_compute. repeat split.
Qed.
Definition ex_groups : list hop :=
  [ HSet 0 "groups" (VList [VObj 6; VObj 7]); HList 6 "members" [] "members" (LAppend (VObj 1));
    HList 0 "groups" [] "groups" (LPop (Some 0%Z)); HList 0 "groups" [] "groups" (LInsert 0%Z (VObj 6)) ]%string.
Example C37_example : exists h', ex_after_in_step r_groups 20 ex_groups (ex_heap false) h' /\
  refs h' 0 (ra_field r_groups) = [6; 7] /\ attr h' 0 "group_ids" = Some (VList [VInt 30%Z; VInt 31%Z]) /\
  refs h' 1 (ra_field r_groups) = [6] /\ attr h' 1 "group_ids" = Some (VList [VInt 30%Z]) /\
  refs h' 6 (rb_field r_groups) = [1; 0] /\ refs h' 7 (rb_field r_groups) = [0].
Proof.
  exists (snd (ex_history 20 ex_groups (ex_heap false))). split.
  - apply ex_step_intro; [| vm_compute; reflexivity]. unfold ex_groups.
    apply lawful_cons; [split; [right; left; ex_on [6; 7] | exact I] |].
    apply lawful_cons; [split; [right; right; ex_on [1] | intros _; reflexivity] |].
    apply lawful_cons; [split; [right; left; ex_on (@nil nat) | intros _; reflexivity] |].
    apply lawful_cons; [split; [right; left; ex_on [6] | intros _; reflexivity] |]. exact I.
  - vm_compute. repeat split.
Qed.
Example ex_keys R c f : In R [r_posts; r_profile; r_groups; r_teams] ->
  (c = ra_class R /\ f = ra_field R) \/ (c = rb_class R /\ f = rb_field R) -> keys_agree ex_ct (ex_heap false) c f.
Proof.
  intros H K L o C. cbn in H.
  repeat (destruct H as [<- | H];
    [ destruct K as [[-> ->] | [-> ->]]; try discriminate L;
      do 10 (destruct o as [| o]; [first [discriminate C | reflexivity] |]); discriminate C |]).
  destruct H.
Qed.

(** ** What the conditions exclude *)

(** Owners that are equal without being the same object (no primary key, or the same
    one): appending an item of one to the list of the other does not move its back
    reference, so that both list it. *)
Theorem C34_equal_objects_refuted :
  let same_class (h : heap) (a b : Values.oid) := String.eqb (o_class (h_obj h a)) (o_class (h_obj h b)) in
  let '(r, h) := history ex_ct same_class ex_getter ex_setter ex_str 20
    [HSet 0 "posts" (VList [VObj 2]); HSet 1 "posts" (VList []); HList 1 "posts" [] "posts" (LAppend (VObj 2))] (ex_heap true) in
  r = Ok tt /\ refs h 0 (ra_field r_posts) = [2] /\ refs h 1 (ra_field r_posts) = [2] /\ attr h 2 "author" = Some (VObj 0).
Proof. vm_compute. repeat split. Qed.
Print Assumptions C34_equal_objects_refuted.

(** An item that is in a list twice: removing one copy clears the back reference while
    the other copy stays. *)
Theorem C34_duplicate_item_refuted :
  let '(r, h) := ex_history 20
    [HSet 0 "posts" (VList [VObj 2; VObj 2]); HList 0 "posts" [] "posts" (LPop (Some 0%Z))] (ex_heap true) in
  r = Ok tt /\ refs h 0 (ra_field r_posts) = [2] /\ attr h 2 "author" = Some VNone.
Proof. vm_compute. repeat split. Qed.
Print Assumptions C34_duplicate_item_refuted.

(** Assigning a generator to a slice stores its objects without linking them. *)
Theorem C34_slice_iterator_refuted :
  let '(r, h) := ex_history 20
    [HSet 0 "posts" (VList []);
     HList 0 "posts" [] "posts" (LSetSlice {| sl_start := None; sl_stop := None; sl_step := None |} (ItOnce [VObj 2]))]
    (ex_heap true) in
  r = Ok tt /\ refs h 0 (ra_field r_posts) = [2] /\ attr h 2 "author" = Some VNone.
Proof. vm_compute. repeat split. Qed.
Print Assumptions C34_slice_iterator_refuted.

(** An object that the method puts into a list that has it: [user.teams[0] = user.teams[0]]
    moves the team to the end of the list, and adding a team twice and popping it once
    removes both. *)
Theorem C36_same_item_refuted :
  let '(r, h) := ex_history 20
    [HSet 0 "teams" (VList [VObj 8; VObj 9]); HList 0 "teams" [] "teams" (LSetInt 0%Z (VObj 8))] (ex_heap true) in
  let '(r2, h2) := ex_history 20
    [HSet 0 "teams" (VList [VObj 8; VObj 9]); HList 0 "teams" [] "teams" (LAppend (VObj 8));
     HList 0 "teams" [] "teams" (LPop None)] (ex_heap true) in
  r = Ok tt /\ refs h 0 (ra_field r_teams) = [9; 8] /\ r2 = Ok tt /\ refs h2 0 (ra_field r_teams) = [9].
Proof. vm_compute. repeat split. Qed.
Print Assumptions C36_same_item_refuted.

(** Assigning to an index, reversing and sorting leave a stored key list behind. *)
Theorem C37_reordering_refuted :
  let '(r, h) := ex_history 20
    [HSet 0 "groups" (VList [VObj 6; VObj 7]); HList 0 "groups" [] "groups" LReverse] (ex_heap true) in
  let '(r2, h2) := ex_history 20
    [HSet 0 "groups" (VList [VObj 6; VObj 7]); HList 0 "groups" [] "groups" (LSort (fun _ _ => false))] (ex_heap true) in
  let '(r3, h3) := ex_history 20
    [HSet 0 "groups" (VList [VObj 6]); HList 0 "groups" [] "groups" (LSetInt 0%Z (VObj 7))] (ex_heap true) in
  r = Ok tt /\ refs h 0 (ra_field r_groups) = [7; 6] /\ attr h 0 "group_ids" = Some (VList [VInt 30%Z; VInt 31%Z]) /\
  r2 = Ok tt /\ refs h2 0 (ra_field r_groups) = [7; 6] /\ attr h2 0 "group_ids" = Some (VList [VInt 30%Z; VInt 31%Z]) /\
  r3 = Ok tt /\ refs h3 0 (ra_field r_groups) = [7] /\ attr h3 0 "group_ids" = Some (VList [VInt 30%Z]).
Proof. vm_compute. repeat split. Qed.
Print Assumptions C37_reordering_refuted.

(** An assignment that raises is not undone, and leaves the two sides of the relation
    in disagreement.  Objects 2 and 3 are different posts with the same primary key, 4 is
    another post.  Object 0 has had post 3, so that post 2 cannot join its object graph:
    assigning [2; 4] raises after the list is stored and before post 4 gets to know its
    author; post 2 and post 3, which was taken away, are settled. *)
Definition conflict_heap : heap :=
  {| h_obj := fun o =>
       match o with
       | 0%nat => ex_obj "User" 1 [("group_ids", "groups")]%string true
       | 4%nat => ex_obj "Post" 12 [("author_id", "author")]%string true
       | _ => ex_obj "Post" 10 [("author_id", "author")]%string true
       end;
     h_next := 5%nat;
     h_graph := h_graph (ex_heap true) |}.
Theorem C34_raised_refuted :
  let h0 := snd (ex_history 20 [HSet 0 "posts" (VList [VObj 3])] conflict_heap) in
  let '(r, h) := ex_history 20 [HSet 0 "posts" (VList [VObj 2; VObj 4])] h0 in
  refs h0 0 (ra_field r_posts) = [3] /\ attr h0 3 "author" = Some (VObj 0) /\
  r = Err EGraphConflict /\
  refs h 0 (ra_field r_posts) = [2; 4] /\ attr h 2 "author" = Some (VObj 0) /\
  attr h 3 "author" = Some VNone /\ attr h 4 "author" = Some VNone.
Proof. vm_compute. repeat split. Qed.
Print Assumptions C34_raised_refuted.

(** A reference list whose class has no counterpart for it: when it is replaced, only the
    first object taken away is remembered as unlinked (jsonclassify.py:936-938 returns
    from the loop over the items). *)
Definition lone_user : cdef := mkc "User"
  [ f_id; mkf "groups" "group_ids" [MListOf [MInstance "Group"]; MLinkto] ].
Definition lone_group : cdef := mkc "Group" [ f_id ].
Definition lone_ct (c : string) : option cdef :=
  if String.eqb c "User" then Some lone_user else if String.eqb c "Group" then Some lone_group else None.
Definition lone_groups : field := mkf "groups" "group_ids" [MListOf [MInstance "Group"]; MLinkto].
Theorem C38_no_counterpart_refuted :
  let '(r, h) := history lone_ct ex_oeq ex_getter ex_setter ex_str 20
    [HSet 0 "groups" (VList [VObj 6; VObj 7]); HSet 0 "groups" (VList [])] (ex_heap true) in
  r = Ok tt /\ refs h 0 lone_groups = [] /\ unlinked h 0 lone_groups = [6].
Proof. vm_compute. repeat split. Qed.
Print Assumptions C38_no_counterpart_refuted.
