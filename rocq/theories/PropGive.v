(** PropGive.v -- C93: [set] with finished values is the assignments it stands for, and so keeps
    the two sides of every relation in step. *)
From Coq Require Import Lia.
From Verif Require Import Base Mon PyList PyDict StrDict KeypathModel KeypathSpec PyStr Values OListModel OListSpec LeafSpec ChainModel
  TypesModel ObjModel ObjSpec LinkOps LinkSpec LinkHist ObjExample PropLink IoModel IoExample RoundSpec
  StrictSpec MakeSpec GiveSpec GiveProofs GiveLink.
From Verif Require LeafModel.
Open Scope list_scope.
Open Scope nat_scope.

(** [o.set(k1=v1, ...)] with values that need no conversion is exactly the assignments of them
    to the fields, in the order in which the class declares the fields, and then of empty lists
    to the lists of references that may not be None: the same outcome and the same objects,
    whatever the objects are, and nothing else is done. *)
Theorem C93_set_is_assignment :
  forall P o kwargs cls d xss,
    p_ct P cls = Some d -> names_known d kwargs -> Forall (fun kv => plain (fst kv)) kwargs ->
    Forall2 (assigns P false o kwargs) (cd_fields d) xss ->
    exists N, forall n w, N <= n -> o_class (h_obj (w_heap w) o) = cls ->
      jset P n o kwargs w =
        (let (r, h) := given P o d kwargs xss (w_heap w) in
         (r, {| w_heap := h; w_ext := w_ext w; w_mg := w_mg w; w_log := w_log w |})).
Proof.
  intros P o kw cls d xss Ed Kn Pl F. destruct (jset_eq P o kw cls d xss Ed Kn Pl F) as (N & H). exists N. intros n w L C.
  rewrite (H n w L C). unfold liftH. destruct (given P o d kw xss (w_heap w)) as [r h]. reflexivity.
Qed.

(** If each of the assignments is lawful for the relation -- to a field that is not of the
    relation, or to a field of it, of objects of the right class, each once -- then after [set]
    the two sides of the relation refer to each other, the stored keys are those of the objects
    referred to, no object changes its class or its primary key, and what was referred to is
    still referred to or recorded as unlinked on both sides. *)
Theorem C93_both_sides :
  forall P R o kwargs cls d xss,
    p_ct P cls = Some d -> names_known d kwargs -> Forall (fun kv => plain (fst kv)) kwargs ->
    Forall2 (assigns P false o kwargs) (cd_fields d) xss ->
    exists N, forall n w w', N <= n -> o_class (h_obj (w_heap w) o) = cls ->
      setting (p_ct P) (p_oeq P) R (w_heap w) -> Forall (link_op (p_ct P) R (w_heap w)) (concat xss) ->
      jset P n o kwargs w = (Ok tt, w') ->
      consistent R (w_heap w') /\
      (forall z, o_class (h_obj (w_heap w') z) = o_class (h_obj (w_heap w) z)) /\
      (forall z, id_of (p_ct P) (w_heap w') z = id_of (p_ct P) (w_heap w) z) /\
      (forall a b, o_class (h_obj (w_heap w) a) = ra_class R -> o_class (h_obj (w_heap w) b) = rb_class R ->
         In b (refs (w_heap w) a (ra_field R)) ->
         In b (refs (w_heap w') a (ra_field R)) \/
         In b (unlinked (w_heap w') a (ra_field R)) /\ In a (unlinked (w_heap w') b (rb_field R))) /\
      (keys_agree (p_ct P) (w_heap w) (ra_class R) (ra_field R) -> keys_agree (p_ct P) (w_heap w) (rb_class R) (rb_field R) ->
       keys_agree (p_ct P) (w_heap w') (ra_class R) (ra_field R) /\ keys_agree (p_ct P) (w_heap w') (rb_class R) (rb_field R)).
Proof.
  intros P R o kw cls d xss Ed Kn Pl F. destruct (C93_set_is_assignment P o kw cls d xss Ed Kn Pl F) as (N & H). exists N.
  intros n w w' L C S Lw E. rewrite (H n w L C) in E. destruct (given P o d kw xss (w_heap w)) as [r h] eqn:G. injection E as -> <-. cbn [w_heap].
  destruct (given_after P R false o cls d kw (cd_fields d) xss (w_heap w) h Ed F S C Lw G) as (ys & Hs & _ & A).
  destruct (after_sets _ _ _ _ _ _ _ _ _ _ S A) as (S' & C' & I'). split; [apply S' | split; [exact C' | split; [exact I' |]]].
  split; [intros a b Ha Hb Hr; apply (after_known _ _ _ _ _ _ _ _ _ _ a b S A Ha Hb Hr) |].
  intros K1 K2. destruct A as [A1 A2]. eapply after_keys; [exact S | split; [| exact A2] | exact K1 | exact K2].
  apply set_in_step; assumption.
Qed.

(** And the objects that were given for the field of the relation are the ones it refers to, in
    the order given. *)
Theorem C93_takes_effect :
  forall P R o kwargs d xss u,
    p_ct P (ra_class R) = Some d -> names_known d kwargs -> Forall (fun kv => plain (fst kv)) kwargs ->
    Forall2 (assigns P false o kwargs) (cd_fields d) xss -> ra_class R <> rb_class R ->
    In (HSet o (fl_name (ra_field R)) u) (concat xss) ->
    exists N, forall n w w', N <= n -> o_class (h_obj (w_heap w) o) = ra_class R ->
      setting (p_ct P) (p_oeq P) R (w_heap w) -> Forall (link_op (p_ct P) R (w_heap w)) (concat xss) ->
      jset P n o kwargs w = (Ok tt, w') ->
      refs (w_heap w') o (ra_field R) = objs (Some u).
Proof.
  intros P R o kw d xss u Ed Kn Pl F Ne Hu. destruct (C93_set_is_assignment P o kw _ d xss Ed Kn Pl F) as (N & H). exists N.
  intros n w w' L C S Lw E. rewrite (H n w L C) in E. destruct (given P o d kw xss (w_heap w)) as [r h] eqn:G. injection E as -> <-. cbn [w_heap].
  apply (given_refs P R false o (ra_class R) d kw (cd_fields d) xss (w_heap w) h u Ed F (incl_refl _)); auto.
  apply (wf_names _ _ _ (st_wf _ _ _ _ S _ _ Ed)).
Qed.

Print Assumptions C93_set_is_assignment.
Print Assumptions C93_both_sides.
Print Assumptions C93_takes_effect.

(** ** A user gets a name, two posts and a group, all at once *)
Definition ex_kw : list (string * value) :=
  [("groups", VList [VObj 6]); ("posts", VList [VObj 3; VObj 2]); ("name", VStr "n")]%string.
Definition ex_sets : list (list hop) :=
  [[]; [HSet 0 "name" (VStr "n")]; []; []; [HSet 0 "posts" (VList [VObj 3; VObj 2])]; [];
   [HSet 0 "groups" (VList [VObj 6])]; []].
Lemma ex_turns_objects c d raw l : item_types d = Some [MInstance c; MRequired] -> turn1 ex_prog d (MListOf raw) (VList (map VObj l)) (VList (map VObj l)).
Proof.
  intros E. apply (t_list _ _ _ [MInstance c; MRequired]); [exact E | |].
  - intros _ m H. apply in_map_iff in H. destruct H as (b & H & _). discriminate H.
  - induction l as [| b l IH]; constructor; [| exact IH]. constructor. apply (tn_cons _ _ _ _ _ (VObj b)); [apply t_object |].
    apply (tn_cons _ _ _ _ _ (VObj b)); [apply t_silent; reflexivity | apply tn_nil].
Qed.
Lemma ex_gives : Forall2 (assigns ex_prog false 0 ex_kw) (cd_fields c_user) ex_sets.
Proof.
  unfold ex_sets. cbn [cd_fields c_user mkc].
  repeat apply Forall2_cons; try apply Forall2_nil.
  - apply as_absent; [reflexivity | reflexivity | auto].
  - apply (as_input ex_prog false 0 ex_kw (fld_of c_user "name") (VStr "n") (VStr "n")); try reflexivity; try exact Logic.I; try discriminate. constructor.
    apply (tn_cons _ _ _ _ _ (VStr "n")); [apply t_leaf; reflexivity | apply tn_nil].
  - apply as_absent; [reflexivity | reflexivity | auto].
  - apply as_absent; [reflexivity | reflexivity | auto].
  - apply (as_input ex_prog false 0 ex_kw (fld_of c_user "posts") (VList (map VObj [3; 2])) (VList (map VObj [3; 2]))); try reflexivity; try exact Logic.I; try discriminate. constructor.
    apply (tn_cons _ _ _ _ _ (VList (map VObj [3; 2]))); [apply (ex_turns_objects "Post"); reflexivity |].
    apply (tn_cons _ _ _ _ _ (VList (map VObj [3; 2]))); [apply t_silent; reflexivity | apply tn_nil].
  - apply (as_key ex_prog false 0 ex_kw (fld_of c_user "profile")); reflexivity.
  - apply (as_input ex_prog false 0 ex_kw (fld_of c_user "groups") (VList (map VObj [6])) (VList (map VObj [6]))); try reflexivity; try exact Logic.I; try discriminate. constructor.
    apply (tn_cons _ _ _ _ _ (VList (map VObj [6]))); [apply (ex_turns_objects "Group"); reflexivity |].
    apply (tn_cons _ _ _ _ _ (VList (map VObj [6]))); [apply t_silent; reflexivity | apply tn_nil].
  - apply (as_key ex_prog false 0 ex_kw (fld_of c_user "teams")); reflexivity.
Qed.
Example C93_example :
  exists w', fst (jset ex_prog 20 0 ex_kw (ex_world false)) = Ok tt /\ w' = snd (jset ex_prog 20 0 ex_kw (ex_world false)) /\
    names_known c_user ex_kw /\ Forall (fun kv => plain (fst kv)) ex_kw /\
    Forall2 (assigns ex_prog false 0 ex_kw) (cd_fields c_user) ex_sets /\
    setting ex_ct ex_oeq r_posts (ex_heap false) /\ Forall (link_op ex_ct r_posts (ex_heap false)) (concat ex_sets) /\
    refs (w_heap w') 0 (ra_field r_posts) = [3; 2] /\ refs (w_heap w') 3 (rb_field r_posts) = [0] /\
    refs (w_heap w') 6 (rb_field r_groups) = [0] /\ attr (w_heap w') 0 "group_ids" = Some (VList [VInt 30]).
Proof.
  eexists. split; [vm_compute; reflexivity | split; [reflexivity |]].
  split; [discriminate |]. split; [repeat (constructor; [cbn; unfold KeypathSpec.plain; cbn; intuition discriminate |]); constructor |].
  split; [exact ex_gives |]. split; [apply ex_setting; [cbn; tauto | auto] |]. split.
  - cbn [ex_sets concat app]. repeat apply Forall_cons; try apply Forall_nil; [left; ex_off | right; left; ex_on [3; 2] | left].
    split; [left; eexists; split; [vm_compute; reflexivity | split; [reflexivity |]] |].
    + intros _ b Hb. cbn in Hb. destruct Hb as [Hb | []]; try injection Hb as <-; try subst b; vm_compute; reflexivity.
    + intros [[C D] | [[C D] | (d & f & D1 & D2 & D3)]];
      [ destruct D as [D | [_ D]]; vm_compute in D; discriminate D
      | vm_compute in C; discriminate C
      | assert (Dc : d = c_user) by (vm_compute in D1; injection D1 as <-; reflexivity); subst d; injection D2 as <-; discriminate D3 ].
  - vm_compute. repeat split.
Qed.
