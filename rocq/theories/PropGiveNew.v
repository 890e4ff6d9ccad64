(** PropGiveNew.v -- C94: the constructor with objects among its arguments makes an empty object
    and does the assignments, and the two sides of every relation agree about the new object. *)
From Coq Require Import Lia.
From Verif Require Import Base Mon PyList PyDict StrDict KeypathModel KeypathSpec PyStr Values OListModel OListSpec LeafSpec ChainModel
  TypesModel ObjModel ObjSpec LinkOps LinkSpec LinkHist ObjExample PropLink IoModel IoExample InitProofs RoundSpec
  StrictSpec MakeSpec GiveSpec GiveProofs GiveLink GiveNew PropGive.
From Verif Require LeafModel.
Open Scope list_scope.
Open Scope nat_scope.

(** [cls(k1=v1, ...)] with values that need no conversion makes an object all of whose
    attributes are None or empty lists of keys, changing no other object, and then does exactly
    the assignments of the values, or of the defaults, in the order of the fields. *)
Theorem C94_constructor_is_assignment :
  forall P cls d o kwargs xss,
    p_ct P cls = Some d -> cd_abstract d = false -> 2 <= p_lim P -> proper_names d -> own_keys d ->
    names_known d kwargs -> Forall (fun kv => plain (fst kv)) kwargs ->
    Forall2 (assigns P true o kwargs) (cd_fields d) xss ->
    exists N, forall n w, N <= n -> h_next (w_heap w) = o ->
      exists h1, empty cls d o (w_heap w) h1 /\
        match given P o d kwargs xss h1 with
        | (Ok tt, h2) => exists w', construct P n cls kwargs w = (Ok o, w') /\ h_obj (w_heap w') = h_obj h2
        | (Err e, h2) => exists w', construct P n cls kwargs w = (Err e, w') /\ h_obj (w_heap w') = h_obj h2
        end.
Proof.
  intros P cls d o kw xss D Ab Lim Pn Ok_ Kn Pl F. destruct (construct_steps P cls d o kw xss D Ab Lim Pn Ok_ Kn Pl F) as (N & H).
  exists N. intros n w L Eo. destruct (H n w L Eo) as (h1 & O1 & B1 & R1 & G). exists h1. split; [| exact G].
  constructor; [constructor | | | apply B1 | apply B1].
  - exact O1.
  - apply B1.
  - intros f Hf Lf. apply (rd_keys _ _ R1 f Hf Lf).
  - intros f Hf Cf. apply (bl_fields _ _ _ B1 f Hf Cf).
  - intros f Hf Lf. apply (rd_keys _ _ R1 f Hf Lf).
Qed.

(** If the fields of the relation come after the primary key, the two sides of the relation
    agree for all objects, the new one included: whoever it refers to refers to it, and the
    other way round. *)
Theorem C94_both_sides :
  forall P R cls d o kwargs fs1 fs2 xss1 xss2,
    p_ct P cls = Some d -> cd_abstract d = false -> 2 <= p_lim P -> own_keys d ->
    names_known d kwargs -> Forall (fun kv => plain (fst kv)) kwargs ->
    cd_fields d = fs1 ++ fs2 ->
    Forall2 (assigns P true o kwargs) fs1 xss1 -> Forall2 (assigns P true o kwargs) fs2 xss2 ->
    wf_classes (p_ct P) -> plain_primary (p_ct P) -> relation_ok (p_ct P) R ->
    exists N, forall n w x w', N <= n -> h_next (w_heap w) = o ->
      typed_heap (p_ct P) (w_heap w) -> consistent R (w_heap w) -> unborn (w_heap w) o ->
      (forall h1, born cls d o (w_heap w) h1 ->
         Forall (beside P R h1) (concat xss1) /\ Forall (link_op (p_ct P) R h1) (concat xss2)) ->
      construct P n cls kwargs w = (Ok x, w') ->
      distinct_objects (p_ct P) (p_oeq P) R (w_heap w') ->
      distinct_keys (p_ct P) (p_oeq P) R (w_heap w') -> distinct_keys (p_ct P) (p_oeq P) (flip R) (w_heap w') ->
      x = o /\ o_class (h_obj (w_heap w') o) = cls /\
      consistent R (w_heap w') /\
      (forall z, z <> o -> o_class (h_obj (w_heap w') z) = o_class (h_obj (w_heap w) z) /\
                           id_of (p_ct P) (w_heap w') z = id_of (p_ct P) (w_heap w) z) /\
      (forall a b, a <> o -> b <> o -> o_class (h_obj (w_heap w) a) = ra_class R -> o_class (h_obj (w_heap w) b) = rb_class R ->
         In b (refs (w_heap w) a (ra_field R)) ->
         In b (refs (w_heap w') a (ra_field R)) \/
         In b (unlinked (w_heap w') a (ra_field R)) /\ In a (unlinked (w_heap w') b (rb_field R))) /\
      (keys_agree (p_ct P) (w_heap w) (ra_class R) (ra_field R) -> keys_agree (p_ct P) (w_heap w) (rb_class R) (rb_field R) ->
       keys_agree (p_ct P) (w_heap w') (ra_class R) (ra_field R) /\ keys_agree (p_ct P) (w_heap w') (rb_class R) (rb_field R)) /\
      (forall u, cls = ra_class R -> ra_class R <> rb_class R -> In (HSet o (fl_name (ra_field R)) u) (concat xss2) ->
         refs (w_heap w') o (ra_field R) = objs (Some u)).
Proof.
  intros P R cls d o kw fs1 fs2 xss1 xss2 D Ab Lim Ok_ Kn Pl Ed F1 F2 W PP RO.
  assert (Pn : proper_names d) by (split; [apply (wf_names _ _ _ (W _ _ D)) | apply (wf_refname _ _ _ (W _ _ D))]).
  assert (F : Forall2 (assigns P true o kw) (cd_fields d) (xss1 ++ xss2)) by (rewrite Ed; apply Forall2_app; assumption).
  destruct (construct_steps P cls d o kw _ D Ab Lim Pn Ok_ Kn Pl F) as (N & H). exists N.
  intros n w x w' L Eo Ty Co Un Law E DO DA DB. destruct (H n w L Eo) as (h1 & O1 & B1 & R1 & G).
  destruct (given P o d kw (xss1 ++ xss2) h1) as [[[] | e] h2] eqn:Eg; destruct G as (w2 & E2 & Eh); rewrite E2 in E; [| discriminate E].
  injection E as <- <-. destruct (Law h1) as [L1 L2].
  { constructor; [exact O1 | apply B1 | intros f Hf Lf; apply (rd_keys _ _ R1 f Hf Lf)]. }
  set (h3 := w_heap w2) in *. rename Eh into E3.
  assert (At : forall z k, attr h3 z k = attr h2 z k) by (intros; unfold attr; rewrite E3; reflexivity).
  assert (Id : forall z, id_of (p_ct P) h3 z = id_of (p_ct P) h2 z) by (intros; unfold id_of, cdef_of, attr; rewrite E3; reflexivity).
  assert (Tr : consistent R h2 -> consistent R h3).
  { assert (Fine : forall c f, side_fine h2 c f -> side_fine h3 c f).
    { intros c f [S1 S2 S3 S4 S5]. constructor; unfold refs, unlinked, recorded, stored, attr in *; rewrite E3; assumption. }
    intros [C1 C2 C3]. constructor; [apply Fine, C1 | apply Fine, C2 |]. unfold refs, attr in *. rewrite E3. exact C3. }
  assert (Ky : forall c f, keys_agree (p_ct P) h2 c f -> keys_agree (p_ct P) h3 c f).
  { intros c f K Lf z Cz. rewrite E3 in Cz. specialize (K Lf z Cz). unfold stored, keys_shown, refs in *. rewrite !At, K. f_equal.
    destruct (is_list_type f); [f_equal; apply map_ext; intros; symmetry; apply Id |]. destruct (objs _); [reflexivity | symmetry; apply Id]. }
  destruct (new_linked P R W PP RO o cls d (w_heap w) h1 D O1 B1 R1 Ty Co (unborn_newcomer _ _ _ _ Un) kw fs1 fs2 xss1 xss2 h2 Ed F1 F2 L1 L2 Eg) as (Q1 & Q2 & Q3 & Q4 & Q5 & Q6).
  - intros h' a b HC HI HR. apply DO; [intros z; rewrite E3; apply HC | intros z; rewrite Id; apply HI |]. unfold in_relation in *. rewrite E3. exact HR.
  - intros La Ls h' a b Ha Hb. rewrite <- !Id. apply DA; rewrite ?E3; assumption.
  - intros La Ls h' a b Ha Hb. rewrite <- !Id. apply DB; rewrite ?E3; assumption.
  - split; [reflexivity |]. split; [rewrite E3, Q2; apply B1 |]. split; [apply Tr, Q1 |]. split.
    + intros z Nz. rewrite E3, Q2, (O1 z Nz), Id. split; [reflexivity | apply Q3, Nz].
    + split; [| split].
      * unfold refs, unlinked, recorded, attr in *. rewrite E3. exact Q4.
      * intros KA KB. destruct (Q5 KA KB) as [X1 X2]. split; apply Ky; assumption.
      * unfold refs, attr in *. rewrite E3. exact Q6.
Qed.

Print Assumptions C94_constructor_is_assignment.
Print Assumptions C94_both_sides.

(** ** A user is made with a post and a group *)
Definition new_kw : list (string * value) :=
  [("groups", VList [VObj 6]); ("id", VInt 3); ("posts", VList [VObj 3; VObj 2])]%string.
Definition new_sets1 : list (list hop) :=
  [[HSet 10 "id" (VInt 3)]; [HSet 10 "name" VNone]; [HSet 10 "tags" VNone]; [HSet 10 "meta" VNone]].
Definition new_sets2 : list (list hop) :=
  [[HSet 10 "posts" (VList [VObj 3; VObj 2])]; []; [HSet 10 "groups" (VList [VObj 6])]; []].
Lemma new_gives1 : Forall2 (assigns ex_prog true 10 new_kw) (firstn 4 (cd_fields c_user)) new_sets1.
Proof.
  unfold new_sets1. cbn [cd_fields c_user mkc firstn].
  repeat apply Forall2_cons; try apply Forall2_nil.
  - apply (as_input ex_prog true 10 new_kw f_id (VInt 3) (VInt 3)); try reflexivity; try exact Logic.I; try discriminate. constructor.
    apply (tn_cons _ _ _ _ _ (VInt 3)); [apply t_leaf; reflexivity |]. apply (tn_cons _ _ _ _ _ (VInt 3)); [apply t_silent; reflexivity | apply tn_nil].
  - apply (as_default ex_prog true 10 new_kw (fld_of c_user "name") VNone); try reflexivity. constructor.
    apply (tn_cons _ _ _ _ _ VNone); [apply t_leaf; reflexivity | apply tn_nil].
  - apply (as_default ex_prog true 10 new_kw (fld_of c_user "tags") VNone); try reflexivity. constructor.
    apply (tn_cons _ _ _ _ _ VNone); [apply (t_no_list ex_prog (fl_fdef (fld_of c_user "tags"))) | apply tn_nil].
  - apply (as_default ex_prog true 10 new_kw (fld_of c_user "meta") VNone); try reflexivity. constructor.
    apply (tn_cons _ _ _ _ _ VNone); [apply (t_no_dict ex_prog (fl_fdef (fld_of c_user "meta"))) | apply tn_nil].
Qed.
Lemma new_gives2 : Forall2 (assigns ex_prog true 10 new_kw) (skipn 4 (cd_fields c_user)) new_sets2.
Proof.
  unfold new_sets2. cbn [cd_fields c_user mkc skipn].
  repeat apply Forall2_cons; try apply Forall2_nil.
  - apply (as_input ex_prog true 10 new_kw (fld_of c_user "posts") (VList (map VObj [3; 2])) (VList (map VObj [3; 2]))); try reflexivity; try exact Logic.I; try discriminate. constructor.
    apply (tn_cons _ _ _ _ _ (VList (map VObj [3; 2]))); [apply (ex_turns_objects "Post"); reflexivity |].
    apply (tn_cons _ _ _ _ _ (VList (map VObj [3; 2]))); [apply t_silent; reflexivity | apply tn_nil].
  - apply (as_key ex_prog true 10 new_kw (fld_of c_user "profile")); reflexivity.
  - apply (as_input ex_prog true 10 new_kw (fld_of c_user "groups") (VList (map VObj [6])) (VList (map VObj [6]))); try reflexivity; try exact Logic.I; try discriminate. constructor.
    apply (tn_cons _ _ _ _ _ (VList (map VObj [6]))); [apply (ex_turns_objects "Group"); reflexivity |].
    apply (tn_cons _ _ _ _ _ (VList (map VObj [6]))); [apply t_silent; reflexivity | apply tn_nil].
  - apply (as_key ex_prog true 10 new_kw (fld_of c_user "teams")); reflexivity.
Qed.
Definition new_world : world := snd (construct ex_prog 20 "User" new_kw (ex_world false)).
Lemma new_law : forall h1, born "User" c_user 10 (ex_heap false) h1 ->
  Forall (beside ex_prog r_posts h1) (concat new_sets1) /\ Forall (link_op ex_ct r_posts h1) (concat new_sets2).
Proof.
  intros h1 [O1 C1 _].
  assert (OF : forall n, ofield ex_ct h1 10 n = field_named n c_user) by (intros; unfold ofield, cdef_of; rewrite C1; reflexivity).
  assert (B : forall n v, In n ["id"; "name"; "tags"; "meta"]%string -> beside ex_prog r_posts h1 (HSet 10 n v)).
  { intros n v Hn. split.
    - left. change (p_ct ex_prog) with ex_ct. rewrite OF. cbn in Hn.
      repeat (destruct Hn as [<- | Hn]; [eexists; split; [vm_compute; reflexivity | split; [reflexivity | discriminate]] |]). destruct Hn.
    - split; intros [Cz Dn]; [| rewrite C1 in Cz; discriminate Cz]. cbn in Hn.
      repeat (destruct Hn as [<- | Hn]; [destruct Dn as [Dn | [_ Dn]]; discriminate Dn |]). destruct Hn. }
  split; [repeat (apply Forall_cons; [apply B; cbn; tauto |]); apply Forall_nil |].
  cbn [new_sets2 concat app]. repeat apply Forall_cons; try apply Forall_nil.
  - right. left. split; [exact C1 | split; [reflexivity |]]. exists [3; 2]. split; [nodup |]. split; [| right; reflexivity].
    intros b Hb. cbn in Hb. destruct Hb as [<- | [<- | []]]; rewrite O1 by discriminate; reflexivity.
  - left. split.
    + left. rewrite OF. eexists. split; [vm_compute; reflexivity | split; [reflexivity |]].
      intros _ b Hb. cbn in Hb. destruct Hb as [Hb | []]. injection Hb as <-. rewrite O1 by discriminate. reflexivity.
    + intros [[C D] | [[C D] | (d & f & D1 & D2 & D3)]].
      * destruct D as [D | [_ D]]; discriminate D.
      * rewrite C1 in C. discriminate C.
      * rewrite C1 in D1. change (ex_ct "User") with (Some c_user) in D1. injection D1 as <-. injection D2 as <-. discriminate D3.
Qed.
Example C94_example :
  fst (construct ex_prog 20 "User" new_kw (ex_world false)) = Ok 10 /\ h_next (ex_heap false) = 10 /\
  own_keys c_user /\ names_known c_user new_kw /\ Forall (fun kv => plain (fst kv)) new_kw /\
  Forall2 (assigns ex_prog true 10 new_kw) (firstn 4 (cd_fields c_user)) new_sets1 /\
  Forall2 (assigns ex_prog true 10 new_kw) (skipn 4 (cd_fields c_user)) new_sets2 /\
  unborn (ex_heap false) 10 /\
  (forall h1, born "User" c_user 10 (ex_heap false) h1 ->
     Forall (beside ex_prog r_posts h1) (concat new_sets1) /\ Forall (link_op ex_ct r_posts h1) (concat new_sets2)) /\
  setting ex_ct ex_oeq r_posts (ex_heap false) /\
  distinct_objects ex_ct ex_oeq r_posts (w_heap new_world) /\
  distinct_keys ex_ct ex_oeq r_posts (w_heap new_world) /\ distinct_keys ex_ct ex_oeq (flip r_posts) (w_heap new_world) /\
  refs (w_heap new_world) 10 (ra_field r_posts) = [3; 2] /\ refs (w_heap new_world) 2 (rb_field r_posts) = [10] /\
  attr (w_heap new_world) 2 "author_id" = Some (VInt 3) /\ attr (w_heap new_world) 10 "group_ids" = Some (VList [VInt 30]).
Proof.
  split; [vm_compute; reflexivity |]. split; [reflexivity |]. split.
  { intros f g Hf Hg Lf Lg E. cbn in Hf, Hg.
    repeat (destruct Hf as [<- | Hf]; [try discriminate Lf; repeat (destruct Hg as [<- | Hg]; [first [reflexivity | discriminate Lg | discriminate E] |]); destruct Hg |]).
    destruct Hf. }
  split; [discriminate |]. split; [repeat (constructor; [cbn; unfold KeypathSpec.plain; cbn; intuition discriminate |]); constructor |].
  split; [exact new_gives1 |]. split; [exact new_gives2 |]. split.
  { intros z n _ H. destruct (ex_attr false z n) as [E | [E | (k & E)]]; rewrite E in H; destruct H. }
  split; [exact new_law |]. split; [apply ex_setting; [cbn; tauto | auto] |].
  split; [intros h' a b _ _ _; reflexivity |]. split; [intros L; discriminate L |]. split; [intros L1 L; discriminate L |].
  vm_compute. repeat split.
Qed.

(** ** The primary key has to be declared first: when the class declares a reference before it,
    the objects referred to are linked while the new object has no key yet, and they store None
    as its key. *)
Definition c_late : cdef := mkc "User"
  [ mkf "posts" "post_ids" [MListOf [MInstance "Post"]; MLinkedby "author"]; f_id ].
Definition late_ct (c : string) : option cdef :=
  if String.eqb c "User" then Some c_late else if String.eqb c "Post" then Some c_post else None.
Definition late_heap : heap :=
  {| h_obj := fun o => if Nat.eqb o 0 then ex_obj "Post" 10 [("author_id", "author")]%string false else ex_obj "" 0 [] false;
     h_next := 1; h_graph := h_graph (ex_heap false) |}.
Theorem C94_key_after_refuted :
  exists P w w' o, p_ct P = late_ct /\
    keys_agree (p_ct P) (w_heap w) "Post" (fld_of c_post "author") /\
    construct P 20 "User" [("id", VInt 3); ("posts", VList [VObj 0])]%string w = (Ok o, w') /\
    id_of (p_ct P) (w_heap w') o = VInt 3 /\ refs (w_heap w') 0 (fld_of c_post "author") = [o] /\
    stored (w_heap w') 0 (fld_of c_post "author") = Some VNone.
Proof.
  exists (mkprog late_ct no_guards no_hooks), (mkw late_heap).
  exists (snd (construct (mkprog late_ct no_guards no_hooks) 20 "User" [("id", VInt 3); ("posts", VList [VObj 0])]%string (mkw late_heap))), 1.
  split; [reflexivity |]. split.
  - intros _ z C. destruct z as [| z]; [reflexivity | discriminate C].
  - split; [| vm_compute; repeat split].
    assert (E : fst (construct (mkprog late_ct no_guards no_hooks) 20 "User" [("id", VInt 3); ("posts", VList [VObj 0])]%string (mkw late_heap)) = Ok 1) by (vm_compute; reflexivity).
    destruct (construct _ 20 "User" _ _) as [r w']. cbn [fst snd] in *. rewrite E. reflexivity.
Qed.
Print Assumptions C94_key_after_refuted.
