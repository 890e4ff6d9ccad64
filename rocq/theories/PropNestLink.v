(** PropNestLink.v -- C105: objects described inside the input of an object are linked to it, on
    both sides of every relation. *)
From Coq Require Import Lia.
From Verif Require Import Base Mon PyList PyDict StrDict KeypathModel KeypathSpec PyStr Values OListModel OListSpec LeafSpec ChainModel
  TypesModel ObjModel ObjSpec LinkOps LinkSpec LinkHist ObjExample PropLink IoModel IoExample InitProofs TameSpec RoundSpec GiveSpec
  NestLinkSpec NestLinkProofs.
From Verif Require LeafModel.
Open Scope list_scope.
Open Scope nat_scope.

(** [cls(k1=v1, ...)] with input that describes objects to any depth: afterwards, for every
    relation, whoever refers to an object is referred to by it, the new objects included.
    Objects that were there keep their class, and keep exactly their links if none of them is
    in the input. *)
Theorem C105_new :
  forall D P R n cls d kwargs old w o w',
    plain_program D P -> relation_ok (p_ct P) R -> no_key_list R -> sound_heap P R (w_heap w) ->
    p_ct P cls = Some d -> Forall (fun kv => plain (fst kv)) kwargs -> entries D P (w_heap w) old d kwargs ->
    construct P n cls kwargs w = (Ok o, w') ->
    sound_heap P R (w_heap w') /\
    o = h_next (w_heap w) /\ o_class (h_obj (w_heap w') o) = cls /\
    (forall z, z < h_next (w_heap w) -> o_class (h_obj (w_heap w') z) = o_class (h_obj (w_heap w) z)) /\
    ((forall b, ~ old b) -> forall a b, a < h_next (w_heap w) ->
       (o_class (h_obj (w_heap w) a) = ra_class R -> In b (refs (w_heap w') a (ra_field R)) <-> In b (refs (w_heap w) a (ra_field R))) /\
       (o_class (h_obj (w_heap w) a) = rb_class R -> In b (refs (w_heap w') a (rb_field R)) <-> In b (refs (w_heap w) a (rb_field R)))).
Proof.
  intros D P R n cls d kw old w o w' PL RO NK S Ed Pl En E.
  destruct (construct_goes P D R PL RO NK (w_heap w) old n (h_next (w_heap w)) cls d kw w o w' Ed En S (grow_refl _) Pl (le_n _) E) as ((F & [_ G] & K) & Eo & _ & C).
  split; [exact F | split; [exact Eo | split; [exact C | split; [exact G |]]]].
  intros U a b La. specialize (K U (le_n _) (below_next P D R PL RO _ S)). split; intros Ca; [apply (K true a b La Ca) | apply (K false a b La Ca)].
Qed.

(** The field of the relation refers to one new object for every object that the input
    describes for it, and each of them refers back. *)
Theorem C105_links :
  forall D P R n d kwargs w o w',
    plain_program D P -> relation_ok (p_ct P) R -> no_key_list R -> sound_heap P R (w_heap w) ->
    p_ct P (ra_class R) = Some d -> Forall (fun kv => plain (fst kv)) kwargs -> entries D P (w_heap w) (fun _ => False) d kwargs ->
    ra_class R <> rb_class R -> f_write_rule (fl_fdef (ra_field R)) = WriteUnlimited -> get_field_value (ra_field R) kwargs <> VNone ->
    construct P n (ra_class R) kwargs w = (Ok o, w') ->
    List.length (refs (w_heap w') o (ra_field R)) = described_objects (get_field_value (ra_field R) kwargs) /\
    NoDup (refs (w_heap w') o (ra_field R)) /\
    forall b, In b (refs (w_heap w') o (ra_field R)) ->
      o < b < h_next (w_heap w') /\ o_class (h_obj (w_heap w') b) = rb_class R /\ In o (refs (w_heap w') b (rb_field R)).
Proof.
  intros D P R n d kw w o w' PL RO NK S Ed Pl En Two Wr Gv E.
  destruct (construct_links P D R PL RO NK (w_heap w) (fun _ => False) n d kw w o w' Ed En S (grow_refl _) Pl (fun _ X => X) Two Wr Gv E) as [A B].
  destruct (construct_goes P D R PL RO NK (w_heap w) _ n 0 _ d kw w o w' Ed En S (grow_refl _) Pl (Nat.le_0_l _) E) as ((F & _) & _ & _ & C).
  split; [exact A | split; [| exact B]]. apply (sf_once _ _ _ (co_a _ _ (sd_agree _ _ _ F))), C.
Qed.

(** The same of [o.set(k1=v1, ...)] *)
Theorem C105_set :
  forall D P R n o cls d kwargs old w w',
    plain_program D P -> relation_ok (p_ct P) R -> no_key_list R -> sound_heap P R (w_heap w) ->
    p_ct P cls = Some d -> Forall (fun kv => plain (fst kv)) kwargs -> entries D P (w_heap w) old d kwargs ->
    o < h_next (w_heap w) -> o_class (h_obj (w_heap w) o) = cls ->
    jset P n o kwargs w = (Ok tt, w') ->
    sound_heap P R (w_heap w') /\ h_next (w_heap w) <= h_next (w_heap w') /\
    (forall z, z < h_next (w_heap w) -> o_class (h_obj (w_heap w') z) = o_class (h_obj (w_heap w) z)).
Proof.
  intros D P R n o cls d kw old w w' PL RO NK S Ed Pl En L C E.
  destruct (set_goes P D R PL RO NK (w_heap w) old n o cls d kw w w' Ed En S (grow_refl _) Pl L C E) as (F & [G1 G2] & _). auto.
Qed.

Print Assumptions C105_new.
Print Assumptions C105_links.
Print Assumptions C105_set.

(** ** A user is made with two posts, one of which names another author, a profile, and a group
    with a member *)
Definition nl_kw : list (string * value) :=
  [("name", VStr "n");
   ("posts", VList [VDict [("title", VStr "a")]; VDict [("title", VStr "b"); ("author", VDict [("name", VStr "m")])]]);
   ("tags", VList [VStr "x"]);
   ("profile", VDict [("user", VNone)]);
   ("groups", VList [VDict [("members", VList [VDict [("name", VStr "l")]])]])]%string.
Definition nl_world : world := snd (construct ex_prog 30 "User" nl_kw (ex_world false)).

Lemma shape_one D f s cl : shaped D f s -> is_ref (fl_fdef f) = true -> f_ftype (fl_fdef f) = Some FTInstance -> foreign_class f = Some cl -> s = One cl.
Proof. intros [_ K] Rf T C. destruct (K Rf) as [_ X]. destruct s; [destruct X | |]; destruct X as [X1 X2]; congruence. Qed.
Lemma shape_many D f s cl : shaped D f s -> is_ref (fl_fdef f) = true -> f_ftype (fl_fdef f) = Some FTList -> foreign_class f = Some cl -> s = Many cl.
Proof. intros [_ K] Rf T C. destruct (K Rf) as [_ X]. destruct s; [destruct X | |]; destruct X as [X1 X2]; congruence. Qed.
Definition no_instance (ts : types) : bool := forallb (fun m => match m with MInstance _ => false | _ => true end) ts.
Lemma no_inst cl ts : no_instance ts = true -> ~ one_chain cl ts.
Proof.
  intros H (b & a & -> & _). unfold no_instance in H. rewrite forallb_app in H. cbn in H. rewrite andb_false_r in H. discriminate H.
Qed.
Lemma shape_data D f s : shaped D f s -> no_instance (fl_types f) = true ->
  match item_types (fl_fdef f) with Some it => no_instance it | None => true end = true -> s = Data.
Proof.
  intros [K _] N1 N2. destruct s as [| cl | cl]; [reflexivity | |]; exfalso.
  - apply (no_inst cl _ N1 K).
  - destruct K as (_ & _ & _ & it & _ & _ & E & O). unfold fl_fdef in N2. rewrite E in N2. apply (no_inst cl _ N2 O).
Qed.
Ltac nl_silent := solve [intros ? Hm; cbn in Hm; repeat (destruct Hm as [<- | Hm]; [reflexivity |]); destruct Hm].
Ltac nl_flat := solve [intros ? Hm; cbn in Hm; repeat (destruct Hm as [<- | Hm]; [cbn; intuition discriminate |]); destruct Hm].
Lemma nl_shapes : shapely 3 ex_prog.
Proof.
  assert (O : forall cl, one_chain cl [MInstance cl; MRequired]) by (intros cl; exists [], [MRequired]; split; [reflexivity | nl_silent]).
  intros cls d f Ed Hf. destruct (ex_classes cls d Ed) as [[-> ->] | [[-> ->] | [[-> ->] | [[-> ->] | [-> ->]]]]]; cbn in Hf.
  all: repeat (destruct Hf as [<- | Hf]; [
    first
    [ exists Data; constructor; [left; nl_flat | discriminate]
    | exists Data; constructor; [right; exists []; eexists; exists []; eexists; eexists;
        split; [reflexivity | split; [solve [left; reflexivity | right; reflexivity] | split; [nl_silent | split; [reflexivity | split; [reflexivity | nl_flat]]]]] | discriminate]
    | eexists (One _); constructor; [exists []; eexists; split; [reflexivity | nl_silent] | intros _; split; [reflexivity | split; reflexivity]]
    | eexists (Many _); constructor; [exists []; eexists; eexists; eexists; split; [reflexivity | split; [nl_silent | split; [reflexivity | apply O]]] | intros _; split; [reflexivity | split; reflexivity]] ]
    |]).
  all: destruct Hf.
Qed.
Lemma nl_plain : plain_program 3 ex_prog.
Proof.
  constructor.
  - intros f c args h. unfold ex_prog, mkprog, p_call, ex_call. do 5 (destruct f as [| f]; [reflexivity |]). reflexivity.
  - reflexivity.
  - reflexivity.
  - cbn. lia.
  - exact ex_wf.
  - exact ex_primary.
  - intros cls d Ed. split; [split; [apply (wf_names _ _ _ (ex_wf _ _ Ed)) | apply (wf_refname _ _ _ (ex_wf _ _ Ed))] |].
    intros f g Hf Hg Lf Lg E. destruct (ex_classes cls d Ed) as [[-> ->] | [[-> ->] | [[-> ->] | [[-> ->] | [-> ->]]]]]; cbn in Hf, Hg.
    all: repeat (destruct Hf as [<- | Hf]; [try discriminate Lf; repeat (destruct Hg as [<- | Hg]; [first [reflexivity | discriminate Lg | discriminate E] |]); destruct Hg |]); destruct Hf.
  - intros cls d f cl Ed Hf Rf Fc. destruct (ex_classes cls d Ed) as [[-> ->] | [[-> ->] | [[-> ->] | [[-> ->] | [-> ->]]]]]; cbn in Hf.
    all: repeat (destruct Hf as [<- | Hf]; [first [discriminate Rf | injection Fc as <-; discriminate] |]); destruct Hf.
  - exact nl_shapes.
Qed.

Ltac nl_field H Hs :=
  first [ apply shape_data in Hs; [subst; constructor | reflexivity | reflexivity]
        | (eapply shape_one in Hs; [| reflexivity | reflexivity | reflexivity]); subst
        | (eapply shape_many in Hs; [| reflexivity | reflexivity | reflexivity]); subst ].
Ltac nl_entries :=
  constructor;
  [ let f := fresh "f" in let Hf := fresh "Hf" in let Lf := fresh "Lf" in intros f Hf Lf; cbn in Hf;
    repeat (destruct Hf as [<- | Hf]; [first [discriminate Lf | split; reflexivity] |]); destruct Hf
  | let f := fresh "f" in let s := fresh "s" in let Hf := fresh "Hf" in let Hs := fresh "Hs" in intros f s Hf Hs; cbn in Hf;
    repeat (destruct Hf as [<- | Hf]; [nl_field Hf Hs; try apply ds_none |]); try solve [destruct Hf] ].
Ltac nl_dict :=
  apply ds_dict; let d := fresh "d" in let Hd := fresh "Hd" in intros d Hd; injection Hd as <-;
  split; [intros f Ef; injection Ef as <-; reflexivity | nl_entries].
Ltac nl_list :=
  apply ds_list; [let v := fresh "v" in let Hv := fresh "Hv" in intros v Hv; cbn in Hv;
    repeat (destruct Hv as [<- | Hv]; [split; [discriminate | split; [split; reflexivity |]] |]); try solve [destruct Hv] | constructor].
Lemma nl_entries : entries 3 ex_prog (ex_heap false) (fun _ => False) c_user nl_kw.
Proof.
  nl_entries.
  - change (get_field_value _ _) with (VList [VDict [("title", VStr "a")]; VDict [("title", VStr "b"); ("author", VDict [("name", VStr "m")])]]%string). nl_list; nl_dict.
    change (get_field_value _ _) with (VDict [("name", VStr "m")]%string). nl_dict.
  - change (get_field_value _ _) with (VDict [("user", VNone)]%string). nl_dict.
  - change (get_field_value _ _) with (VList [VDict [("members", VList [VDict [("name", VStr "l")]])]]%string). nl_list; nl_dict.
    change (get_field_value _ _) with (VList [VDict [("name", VStr "l")]]%string). nl_list; nl_dict.
Qed.
Lemma nl_sound R : In R [r_posts; r_profile; r_groups; r_teams] -> sound_heap ex_prog R (ex_heap false).
Proof.
  intros H. destruct (ex_setting R false ex_oeq H (or_introl eq_refl)). constructor; [assumption | assumption |].
  intros o L. do 10 (destruct o as [| o]; [cbn in L; lia |]). reflexivity.
Qed.
(** The user is object 10; the posts, the profile and the group refer to it, also the post that
    named another author, and the member of the group is linked to the group beside it. *)
Example C105_example :
  fst (construct ex_prog 30 "User" nl_kw (ex_world false)) = Ok 10 /\
  plain_program 3 ex_prog /\ entries 3 ex_prog (ex_heap false) (fun _ => False) c_user nl_kw /\ Forall (fun kv => plain (fst kv)) nl_kw /\
  (forall R, In R [r_posts; r_profile; r_teams] -> relation_ok ex_ct R /\ no_key_list R /\ sound_heap ex_prog R (ex_heap false)) /\
  f_write_rule (fl_fdef (ra_field r_posts)) = WriteUnlimited /\ described_objects (get_field_value (ra_field r_posts) nl_kw) = 2 /\
  List.length (refs (w_heap nl_world) 10 (ra_field r_posts)) = 2 /\
  map (fun b => refs (w_heap nl_world) b (rb_field r_posts)) (refs (w_heap nl_world) 10 (ra_field r_posts)) = [[10]; [10]] /\
  map (fun b => attr (w_heap nl_world) b "title") (refs (w_heap nl_world) 10 (ra_field r_posts)) = [Some (VStr "a"); Some (VStr "b")] /\
  map (fun b => refs (w_heap nl_world) b (rb_field r_profile)) (refs (w_heap nl_world) 10 (ra_field r_profile)) = [[10]].
Proof.
  split; [vm_compute; reflexivity |]. split; [exact nl_plain |]. split; [exact nl_entries |].
  split; [repeat (constructor; [cbn; unfold KeypathSpec.plain; cbn; intuition discriminate |]); constructor |]. split.
  - intros R HR. assert (H4 : In R [r_posts; r_profile; r_groups; r_teams]) by (cbn in *; tauto).
    split; [apply ex_relation, H4 | split; [| apply nl_sound, H4]]. cbn in HR. destruct HR as [<- | [<- | [<- | []]]]; split; discriminate.
  - vm_compute. repeat split.
Qed.

(** ** Two dicts with the same primary key in one list: they are one object, which the list
    holds twice; taken out once, it no longer refers back, although the list still holds it. *)
Definition twice_kw : list (string * value) :=
  [("posts", VList [VDict [("id", VInt 5)]; VDict [("id", VInt 5)]])]%string.
Theorem C105_twice_refuted :
  exists P R w o w' h,
    plain_program 3 P /\ relation_ok (p_ct P) R /\ sound_heap P R (w_heap w) /\
    construct P 30 (ra_class R) twice_kw w = (Ok o, w') /\
    (exists b, refs (w_heap w') o (ra_field R) = [b; b]) /\ ~ consistent R (w_heap w') /\
    run (p_ct P) (p_oeq P) (p_getter P) (p_setter P) (LeafModel.py_str (p_str P)) (p_lim P)
        (TOp o (fl_name (ra_field R)) [] (fl_name (ra_field R)) (LPop (Some 0%Z))) (w_heap w') = (Ok tt, h) /\
    exists b, refs h o (ra_field R) = [b] /\ refs h b (rb_field R) = [].
Proof.
  set (w := snd (construct ex_prog 30 "User" twice_kw (ex_world false))).
  set (r := run ex_ct ex_oeq ex_getter ex_setter (LeafModel.py_str ex_str) 50 (TOp 10 "posts" [] "posts" (LPop (Some 0%Z))) (w_heap w)).
  exists ex_prog, r_posts, (ex_world false), 10, w, (snd r).
  split; [exact nl_plain |]. split; [apply ex_relation; cbn; tauto |]. split; [apply nl_sound; cbn; tauto |]. split.
  { assert (E : fst (construct ex_prog 30 "User" twice_kw (ex_world false)) = Ok 10) by (vm_compute; reflexivity). unfold w.
    change (ra_class r_posts) with "User"%string. destruct (construct _ 30 _ _ _) as [x w']. cbn [fst snd] in *. rewrite E. reflexivity. }
  assert (E : refs (w_heap w) 10 (ra_field r_posts) = [11; 11]) by (vm_compute; reflexivity).
  split; [exists 11; exact E |]. split.
  { intros C. assert (N : NoDup (refs (w_heap w) 10 (ra_field r_posts))) by (apply (sf_once _ _ _ (co_a _ _ C)); vm_compute; reflexivity).
    rewrite E in N. inversion N as [| ? ? X]. apply X. left. reflexivity. }
  split.
  - assert (F : fst r = Ok tt) by (vm_compute; reflexivity). change (r = (Ok tt, snd r)). destruct r as [x h']. cbn [fst snd] in *. rewrite F. reflexivity.
  - exists 11. vm_compute. split; reflexivity.
Qed.
Print Assumptions C105_twice_refuted.
