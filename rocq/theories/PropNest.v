(** PropNest.v -- C89: the objects that the input of a constructor or of [set] describes. *)
From Coq Require Import Lia.
From Verif Require Import Base Mon PyList PyDict KeypathModel Values OGraphModel MGraphModel ChainModel TypesModel ObjModel ObjSpec ObjExample IoModel
  IoBase IoExample TameSpec WriteSpec WriteFrame InitProofs MakeSpec SetInSpec RoundSpec PropGraph PropWrite PropMake InErrSpec NestSpec NestProofs.
From Verif Require LeafModel KeypathSpec PropInErr.
Open Scope string_scope.
Open Scope list_scope.

(** After a successful constructor call, a data field that the input names holds what the
    input describes, to any depth: dicts for objects are new objects of the declared class,
    each of whose data fields had its default and then took its entry; lists and dicts are
    taken item by item.  All of it is so at the end of the call. *)
Theorem C89_construct : forall P D cls d f kwargs n w x w',
  polite P -> tame_classes D P -> late_classes D P -> (forall o, newborn P o) ->
  (forall c d, p_ct P c = Some d -> proper_names d) -> (2 <= p_lim P)%nat ->
  p_ct P cls = Some d -> In f (cd_fields d) -> described P f ->
  (key_given d kwargs -> nowhere_held cls D P) ->
  Forall (fun kv => KeypathSpec.plain (fst kv)) kwargs ->
  construct P n cls kwargs w = (Ok x, w') ->
  exists z, attr (w_heap w') x (fl_name f) = Some z /\
    forall depth, outcome P true (nested P (w_heap w') true (h_next (w_heap w)) depth) (VObj x) x f kwargs VNone z.
Proof.
  intros P D cls d f kwargs n w x w' PO TC LC NB PN Lim Ed Hf Df Kg Pl E.
  apply (construct_nested P D PO TC LC NB PN Lim cls d f kwargs x n w w' Ed Hf Df); try assumption.
  intros c0 d0 g m Hc Hg Hm. apply if_given; [apply (TC _ _ _ _ Hc Hg Hm) | intros k; apply (Kg k _ _ _ _ Hc Hg Hm)].
Qed.
Print Assumptions C89_construct.

(** After a successful [set], the same; but the fields that the input does not name keep
    what they held, in the object and in the new ones. *)
Theorem C89_set : forall P D d f kwargs x cur n w w',
  polite P -> tame_classes D P -> late_classes D P -> (forall o, newborn P o) ->
  (forall c d, p_ct P c = Some d -> proper_names d) -> (2 <= p_lim P)%nat ->
  p_ct P (o_class (h_obj (w_heap w) x)) = Some d -> In f (cd_fields d) -> described P f -> holds_data P (w_heap w) x f ->
  (key_given d kwargs -> nowhere_held (o_class (h_obj (w_heap w) x)) D P) ->
  Forall (fun kv => KeypathSpec.plain (fst kv)) kwargs ->
  attr (w_heap w) x (fl_name f) = Some cur ->
  jset P n x kwargs w = (Ok tt, w') ->
  exists z, attr (w_heap w') x (fl_name f) = Some z /\
    forall depth, outcome P false (nested P (w_heap w') false (h_next (w_heap w)) depth) (VObj x) x f kwargs cur z.
Proof.
  intros P D d f kwargs x cur n w w' PO TC LC NB PN Lim Ed Hf Df HD Kg Pl Ha E.
  apply (jset_nested P D PO TC LC NB PN Lim _ d f kwargs x cur n w w' Ed Hf Df HD eq_refl); try assumption.
  intros c0 d0 g m Hc Hg Hm. apply if_given; [apply (TC _ _ _ _ Hc Hg Hm) | intros k; apply (Kg k _ _ _ _ Hc Hg Hm)].
Qed.
Print Assumptions C89_set.

(** ** A program that meets the hypotheses: baskets with items and parts of items *)
Definition nf_label : field := mkf "label" "label_id" [tstr; MDefault (PVal (VStr "plain"))].
Definition nf_qty : field := mkf "qty" "qty_id" [tint; MDefault (PVal (VInt 1))].
Definition nf_rank : field := mkf "rank" "rank_id" [MWriteonce; tint; MDefault (PVal (VInt 5))].
Definition nf_part : field := mkf "part" "part_id" [MInstance "Part"].
Definition nf_main : field := mkf "main" "main_id" [MInstance "Item"; MRequired].
Definition nf_rows : field := mkf "rows" "row_ids" [MNonnull; MListOf [MInstance "Item"]].
Definition nf_by : field := mkf "by" "by_id" [MDictOf [MListOf [MInstance "Item"]]].
Definition c_part : cdef := mkc "Part" [ nf_label ].
Definition c_item : cdef := mkc "Item" [ f_id; nf_qty; nf_rank; nf_part ].
Definition c_basket : cdef := mkc "Basket" [ f_id; nf_main; nf_rows; nf_by ].
Definition nest_ct (c : string) : option cdef :=
  if String.eqb c "Basket" then Some c_basket else if String.eqb c "Item" then Some c_item else if String.eqb c "Part" then Some c_part else None.
Definition nest_prog : program := mkprog nest_ct no_guards no_hooks.
Definition nest_input : list (string * value) :=
  [("main", VDict [("qty", VInt 4); ("part", VDict [("label", VStr "a")])]);
   ("rows", VList [VDict [("rank", VInt 9)]; VDict [("part", VDict [])]]);
   ("by", VDict [("x", VList [VDict [("qty", VInt 8)]]); ("y", VList [])])].
Definition nest_made := construct nest_prog 20 "Basket" nest_input make_world.

Lemma nest_cases cls d : p_ct nest_prog cls = Some d -> d = c_basket \/ d = c_item \/ d = c_part.
Proof.
  cbn. unfold nest_ct. destruct (String.eqb cls "Basket"); [intros E; injection E; auto |]. destruct (String.eqb cls "Item"); [intros E; injection E; auto |].
  destruct (String.eqb cls "Part"); [intros E; injection E; auto | discriminate].
Qed.
Ltac in_nest Hc Hf := destruct (nest_cases _ _ Hc) as [-> | [-> | ->]]; cbn in Hf;
  repeat (destruct Hf as [<- | Hf]; [| try contradiction]); try contradiction.
Lemma nest_tame : tame_classes 4 nest_prog.
Proof. intros cls c f m Hc Hf Hm. apply tame_b. in_nest Hc Hf; in_chain Hm; reflexivity. Qed.
Lemma nest_late : late_classes 4 nest_prog.
Proof. intros cls c f Hc Hf. in_nest Hc Hf; (split; [apply no_eager; reflexivity | intros m Hm; apply late_b; in_chain Hm; reflexivity]). Qed.
Lemma nest_names c d : p_ct nest_prog c = Some d -> proper_names d.
Proof.
  intros Hc. destruct (nest_cases _ _ Hc) as [-> | [-> | ->]]; (split;
    [cbn; repeat (constructor; [cbn; intuition discriminate |]); constructor |
     intros f g Hf Hg L; cbn in Hf; repeat (destruct Hf as [<- | Hf]; [discriminate L |]); contradiction]).
Qed.
Lemma nest_described cls d f : p_ct nest_prog cls = Some d -> In f (cd_fields d) -> described nest_prog f.
Proof.
  intros Hc Hf. split.
  - in_nest Hc Hf; reflexivity.
  - split.
    + intros c cls' d' g g' Hc' Hg Hf'. exfalso. clear Hf. in_nest Hc' Hg; discriminate Hf'.
    + intros cls' d' g Hc' Hg E. in_nest Hc Hf; in_nest Hc' Hg; discriminate E.
  - intros x. apply (calls_nothing nest_prog x (fl_name f)); reflexivity.
Qed.
Lemma id_none x y : default_of nest_prog x f_id y -> y = VNone.
Proof.
  intros (n & c & w1 & w2 & Ev & _ & _ & _ & E). cbn [fl_types f_id mkf] in E. destruct n as [| n]; cbn in E; [discriminate E |].
  unfold LeafModel.leaf_transform in E. cbn in E. rewrite Ev in E. cbn in E. injection E as <- _. reflexivity.
Qed.
Lemma nest_unkeyed cls d m : p_ct nest_prog cls = Some d -> sget "id" m = None -> unkeyed nest_prog d m.
Proof.
  intros Hc Hm. destruct (nest_cases _ _ Hc) as [-> | [-> | ->]]; try exact Logic.I;
    (split; [apply (nest_described _ _ _ Hc); left; reflexivity | split; [left; exact Hm | exact id_none]]).
Qed.

Definition held_in (w : world) (x : oid) (ks : list string) : list (option value) := map (attr (w_heap w) x) ks.
(** The main item is object 1 and its part 2; the rows are 3 and 4, the part of the second
    one is 5, and the item under x is 6. *)
Example C89_example :
  polite nest_prog /\ tame_classes 4 nest_prog /\ late_classes 4 nest_prog /\ (forall o, newborn nest_prog o) /\
  (forall c d, p_ct nest_prog c = Some d -> proper_names d) /\ (2 <= p_lim nest_prog)%nat /\
  (forall f, In f [nf_main; nf_rows; nf_by] -> In f (cd_fields c_basket) /\ described nest_prog f) /\
  (key_given c_basket nest_input -> nowhere_held "Basket" 4 nest_prog) /\ Forall (fun kv => KeypathSpec.plain (fst kv)) nest_input /\
  object_types "Item" (fl_types nf_main) /\ list_types [MInstance "Item"; MRequired] (fl_types nf_rows) /\
  dict_types [MListOf [MInstance "Item"]; MRequired] (fl_types nf_by) /\ object_types "Part" (fl_types nf_part) /\
  unkeyed nest_prog c_item [("qty", VInt 4); ("part", VDict [("label", VStr "a")])] /\
  fst nest_made = Ok 0%nat /\
  held_in (snd nest_made) 0%nat ["main"; "rows"; "by"] =
    [Some (VObj 1%nat); Some (VList [VObj 3%nat; VObj 4%nat]); Some (VDict [("x", VList [VObj 6%nat]); ("y", VList [])])] /\
  held_in (snd nest_made) 1%nat ["qty"; "rank"; "part"] = [Some (VInt 4); Some (VInt 5); Some (VObj 2%nat)] /\
  held_in (snd nest_made) 2%nat ["label"] = [Some (VStr "a")] /\
  held_in (snd nest_made) 3%nat ["qty"; "rank"; "part"] = [Some (VInt 1); Some (VInt 5); Some VNone] /\
  held_in (snd nest_made) 4%nat ["qty"; "rank"; "part"] = [Some (VInt 1); Some (VInt 5); Some (VObj 5%nat)] /\
  held_in (snd nest_made) 5%nat ["label"] = [Some (VStr "plain")] /\
  held_in (snd nest_made) 6%nat ["qty"; "rank"; "part"] = [Some (VInt 8); Some (VInt 5); Some VNone].
Proof.
  pose proof (nest_unkeyed "Item" c_item [("qty", VInt 4); ("part", VDict [("label", VStr "a")])] eq_refl eq_refl) as Uk.
  repeat apply conj; try (match goal with |- _ = Ok _ => vm_compute; reflexivity | |- _ = (_ :: _)%list => vm_compute; reflexivity end); try apply Uk.
  - apply PropInErr.mkprog_polite.
  - apply nest_tame.
  - apply nest_late.
  - intros o. apply (calls_nothing nest_prog o ""); reflexivity.
  - apply nest_names.
  - cbn. lia.
  - intros f Hf. assert (I : In f (cd_fields c_basket)) by (cbn in Hf |- *; tauto). split; [exact I | apply (nest_described "Basket" c_basket); [reflexivity | exact I]].
  - intros (pf & v & E & X & _). injection E as <-. discriminate X.
  - repeat (constructor; [cbn; unfold KeypathSpec.plain; cbn; intuition discriminate |]). constructor.
  - exists [], [MRequired]. split; [reflexivity | split; repeat constructor].
  - exists [MNonnull], [MInstance "Item"], []. split; [reflexivity | split; [repeat constructor | split; [constructor | split; reflexivity]]].
  - exists [], [MListOf [MInstance "Item"]], []. split; [reflexivity | split; [constructor | split; [constructor | reflexivity]]].
  - exists [], []. split; [reflexivity | split; constructor].
Qed.

(** The object exists and holds something before [set]. *)
Definition nest_set_input : list (string * value) := [("main", VDict [("part", VDict [("label", VStr "b")])])].
Definition nest_set := jset nest_prog 20 0%nat nest_set_input (snd nest_made).
Example C89_set_example :
  holds_data nest_prog (w_heap (snd nest_made)) 0%nat nf_main /\ o_class (h_obj (w_heap (snd nest_made)) 0%nat) = "Basket" /\
  attr (w_heap (snd nest_made)) 0%nat "main" = Some (VObj 1%nat) /\ Forall (fun kv => KeypathSpec.plain (fst kv)) nest_set_input /\
  (key_given c_basket nest_set_input -> nowhere_held "Basket" 4 nest_prog) /\
  fst nest_set = Ok tt /\ attr (w_heap (snd nest_set)) 0%nat "main" = Some (VObj 7%nat) /\
  held_in (snd nest_set) 7%nat ["qty"; "rank"; "part"] = [Some (VInt 1); Some (VInt 5); Some (VObj 8%nat)] /\
  held_in (snd nest_set) 8%nat ["label"] = [Some (VStr "b")].
Proof.
  assert (C : o_class (h_obj (w_heap (snd nest_made)) 0%nat) = "Basket") by (vm_compute; reflexivity).
  assert (K : o_lkeys (h_obj (w_heap (snd nest_made)) 0%nat) = []) by (vm_compute; reflexivity).
  assert (N : h_next (w_heap (snd nest_made)) = 7%nat) by (vm_compute; reflexivity).
  split; [split |].
  - rewrite N. lia.
  - exists c_basket. rewrite C. split; [reflexivity | split; [cbn; tauto |]]. intros g Hg E. cbn in Hg.
    repeat (destruct Hg as [<- | Hg]; [try reflexivity; discriminate E |]). contradiction.
  - reflexivity.
  - rewrite K. discriminate.
  - rewrite K. reflexivity.
  - split; [exact C | split; [vm_compute; reflexivity |]].
    split; [repeat (constructor; [cbn; unfold KeypathSpec.plain; cbn; intuition discriminate |]); constructor |].
    split; [intros (pf & v & E & X & _); injection E as <-; discriminate X |].
    split; [vm_compute; reflexivity |]. split; [vm_compute; reflexivity |]. split; vm_compute; reflexivity.
Qed.

(** ** The exceptions *)

(** Two dicts of the input with the same key are one object, and the later one's entries
    replace the earlier one's. *)
Theorem C89_same_key_refuted :
  exists P f k kwargs a b n w x w' o,
    polite P /\ tame_classes 4 P /\ late_classes 4 P /\ described P f /\ list_types [MInstance "Item"; MRequired] (fl_types f) /\
    input_of f kwargs = Some (VList [VDict a; VDict b]) /\ sget k a = Some (VInt 2) /\ sget k b = Some (VInt 3) /\
    construct P n "Basket" kwargs w = (Ok x, w') /\
    attr (w_heap w') x (fl_name f) = Some (VList [VObj o; VObj o]) /\ attr (w_heap w') o k = Some (VInt 3).
Proof.
  set (a := [("id", VInt 1); ("qty", VInt 2)]). set (b := [("id", VInt 1); ("qty", VInt 3)]). set (kw := [("rows", VList [VDict a; VDict b])]).
  exists nest_prog, nf_rows, "qty", kw, a, b, 20%nat, make_world, 0%nat, (snd (construct nest_prog 20 "Basket" kw make_world)), 1%nat.
  split; [apply PropInErr.mkprog_polite |]. split; [apply nest_tame |]. split; [apply nest_late |].
  split; [apply (nest_described "Basket" c_basket); [reflexivity | cbn; tauto] |].
  split; [exists [MNonnull], [MInstance "Item"], []; split; [reflexivity | split; [repeat constructor | split; [constructor | split; reflexivity]]] |].
  split; [reflexivity |]. split; [reflexivity |]. split; [reflexivity |]. split; [| split; vm_compute; reflexivity].
  rewrite (surjective_pairing (construct nest_prog 20 "Basket" kw make_world)) at 1. f_equal; vm_compute; reflexivity.
Qed.
Print Assumptions C89_same_key_refuted.

(** An object made from nested input gets its defaults twice; the second time there is no
    owner to compute them from, and what the first time gave is lost. *)
Definition c_tag : cdef := mkc "Tag" [ mkf "me" "me_id" [MAny; MDefault (PTypes [MThis])]; mkf "no" "no_id" [MAny; MDefault (PCall 4%nat)] ].
Definition c_box : cdef := mkc "Box" [ mkf "tag" "tag_id" [MInstance "Tag"] ].
Definition tag_ct (c : string) : option cdef := if String.eqb c "Box" then Some c_box else if String.eqb c "Tag" then Some c_tag else None.
Definition tag_prog : program := mkprog tag_ct no_guards no_hooks.
Theorem C89_default_owner_refuted :
  exists P inner outer f k call n w x w1 y o w2,
    polite P /\ In (MInstance inner) (match p_ct P outer with Some d => match field_named f d with Some g => fl_types g | None => [] end | None => [] end) /\
    construct P n inner [] w = (Ok x, w1) /\ attr (w_heap w1) x k = Some (VObj x) /\ w_log w1 = [EvCall KField call] /\
    construct P n outer [(f, VDict [])] w = (Ok y, w2) /\ attr (w_heap w2) y f = Some (VObj o) /\ o_class (h_obj (w_heap w2) o) = inner /\
    attr (w_heap w2) o k = Some VNone /\ w_log w2 = [EvCall KField call; EvCall KField call].
Proof.
  set (r1 := construct tag_prog 20 "Tag" [] make_world). set (r2 := construct tag_prog 20 "Box" [("tag", VDict [])] make_world).
  exists tag_prog, "Tag", "Box", "tag", "me", 4%nat, 20%nat, make_world, 0%nat, (snd r1), 0%nat, 1%nat, (snd r2).
  split; [apply PropInErr.mkprog_polite |]. split; [left; reflexivity |].
  split; [unfold r1; rewrite (surjective_pairing (construct tag_prog 20 "Tag" [] make_world)) at 1; f_equal; vm_compute; reflexivity |].
  split; [vm_compute; reflexivity |]. split; [vm_compute; reflexivity |].
  split; [unfold r2; rewrite (surjective_pairing (construct tag_prog 20 "Box" [("tag", VDict [])] make_world)) at 1; f_equal; vm_compute; reflexivity |].
  split; [vm_compute; reflexivity |]. split; [vm_compute; reflexivity |]. split; vm_compute; reflexivity.
Qed.
Print Assumptions C89_default_owner_refuted.

(** The same for an object that the input gives a primary key. *)
Definition ktag_ct (c : string) : option cdef :=
  if String.eqb c "Box" then Some c_box else if String.eqb c "Tag" then Some (mkc "Tag" (f_id :: cd_fields c_tag)) else None.
Definition ktag_prog : program := mkprog ktag_ct no_guards no_hooks.
Theorem C89_default_keyed_refuted :
  (let s := construct ktag_prog 20 "Tag" [("id", VInt 65)] make_world in
   fst s = Ok 0%nat /\ attr (w_heap (snd s)) 0%nat "me" = Some (VObj 0%nat) /\ w_log (snd s) = [EvCall KField 4%nat]) /\
  (let s := construct ktag_prog 20 "Box" [("tag", VDict [("id", VInt 65)])] make_world in
   fst s = Ok 0%nat /\ attr (w_heap (snd s)) 0%nat "tag" = Some (VObj 1%nat) /\ attr (w_heap (snd s)) 1%nat "id" = Some (VInt 65) /\
   attr (w_heap (snd s)) 1%nat "me" = Some VNone /\ w_log (snd s) = [EvCall KField 4%nat; EvCall KField 4%nat]).
Proof. vm_compute. repeat split; reflexivity. Qed.
Print Assumptions C89_default_keyed_refuted.
