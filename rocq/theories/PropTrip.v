(** PropTrip.v -- C90: a tree of objects, written by tojson and read back, is copied to any
    depth. *)
From Coq Require Import Lia.
From Verif Require Import Base Mon PyList PyDict StrDict KeypathModel Values OGraphModel MGraphModel ChainModel TypesModel ObjModel ObjSpec ObjExample IoModel
  IoBase IoExample TameSpec GraphSpec OutSpec OutFormSpec WriteSpec WriteFrame InitProofs MakeSpec SetInSpec RoundSpec RoundProofs PropGraph PropWrite PropMake PropOut PropOutForm
  InErrSpec NestSpec NestProofs PropNest TripSpec TripProofs.
From Verif Require LeafModel KeypathSpec PropInErr.
Open Scope string_scope.
Open Scope list_scope.

(** Made anew from the output of [o], anywhere and at any time, an object holds in every data
    field that is shown and not read-only a copy of what [o] holds: the same value, if it is
    kept (see C85), and for objects without a primary key, in lists and dicts and to any
    depth, new objects of their classes with copies in their fields. *)
Theorem C90_construct : forall P D d f u o n ignore_writeonly reverse out_null m w w1 n' w2 x w3,
  calm P -> polite P -> tame_classes D P -> late_classes D P -> flat_guards D P ARead -> (forall o, newborn P o) ->
  (forall c d, p_ct P c = Some d -> proper_names d) -> (2 <= p_lim P)%nat ->
  p_ct P (o_class (h_obj (w_heap w) o)) = Some d -> In f (cd_fields d) -> travels P (w_ext w) ignore_writeonly d o f ->
  f_write_rule (fl_fdef f) <> NoWrite -> reads P (w_heap w) o (fl_name f) u ->
  (key_given d m -> nowhere_held (o_class (h_obj (w_heap w) o)) D P) -> Forall (fun kv => KeypathSpec.plain (fst kv)) m ->
  tojson P n o ignore_writeonly reverse out_null w = (Ok (VDict m), w1) ->
  construct P n' (o_class (h_obj (w_heap w) o)) m w2 = (Ok x, w3) ->
  exists z, attr (w_heap w3) x (fl_name f) = Some z /\
    (kept P (fl_types f) u -> (u = VNone -> no_default P f) -> z = u) /\
    forall depth, alike P (w_heap w) (w_ext w) ignore_writeonly (w_heap w3) (h_next (w_heap w2)) depth (fl_types f) u z.
Proof.
  intros P D d f u o n iw rev on m w w1 n' w2 x w3 C PO T L G NB PN Lim Ed Hf Tv Wr R Kg Pl J E.
  pose proof (C82_form P D w n o iw rev on _ w1 C T G J) as F.
  assert (Ot : object_types (o_class (h_obj (w_heap w) o)) [MInstance (o_class (h_obj (w_heap w) o))])
    by (exists [], []; split; [reflexivity | split; constructor]).
  destruct (object_form _ _ _ _ _ _ _ _ _ _ _ _ Ot F) as (es & Em & Fs). injection Em as ->.
  assert (Ec : class_of P (w_heap w) o = d) by (unfold class_of; rewrite Ed; reflexivity). rewrite Ec in Fs.
  destruct (written _ _ _ _ _ _ _ _ _ _ _ _ _ Ed (pn_names _ (PN _ _ Ed)) Hf Tv R Fs) as (q & j & Fm & X1 & X2).
  destruct (C89_construct P D _ d f _ n' w2 x w3 PO T L NB PN Lim Ed Hf (tv_data _ _ _ _ _ _ Tv) Kg Pl E) as (z & Hz & O).
  exists z. split; [exact Hz |].
  assert (Dj : j = VNone \/ j <> VNone) by (destruct j; auto; right; discriminate). destruct Dj as [-> | Nj].
  - split.
    + intros K Dn. assert (u = VNone) as ->.
      { assert (Du : u = VNone \/ u <> VNone) by (destruct u; auto; right; discriminate). destruct Du as [Du | Du]; [exact Du |].
        exfalso. exact (kept_some _ _ _ _ _ _ _ _ _ _ _ K Fm Du eq_refl). }
      specialize (Dn eq_refl). specialize (O 0%nat). unfold outcome in O.
      assert (Rest : (exists y, default_by P (VObj x) f y /\ becomes P VNone y z) -> z = VNone).
      { intros (y & Dd & Bc). apply (none_default _ _ _ _ _ _ _ _ _ _ _ K Fm Dn) in Dd. subst y. exact (becomes_none _ _ _ Bc). }
      destruct (X2 eq_refl) as [[Ei | Ei] _]; rewrite Ei in O; [exact (Rest O) |].
      destruct O as [(_ & y & Mk & _ & Bc) | (_ & O)]; [| exact (Rest O)].
      apply becomes_none in Bc. subst y. apply (value_copied _ _ _ _ _ _ _ _ _ _ _ _ K Fm). exists x. exact Mk.
    + intros k. exact (alike_none _ _ _ _ _ _ _ _ _ _ _ _ _ _ Fm).
  - assert (Tk : takes_now f VNone j) by (unfold takes_now; destruct (f_write_rule (fl_fdef f)); auto).
    assert (Y : forall k, exists y, makes_of P x f j y /\ nested P (w_heap w3) true (h_next (w_heap w2)) k (fl_types f) j y /\ z = y).
    { intros k. specialize (O k). unfold outcome in O. rewrite (X1 Nj) in O. destruct O as [(_ & y & Mk & Bt & Bc) | (Nt & _)]; [| contradiction].
      exists y. split; [exact Mk | split; [exact Bt | exact (becomes_none _ _ _ Bc)]]. }
    split.
    + intros K _. destruct (Y 0%nat) as (y & Mk & _ & ->). apply (value_copied _ _ _ _ _ _ _ _ _ _ _ _ K Fm). exists x. exact Mk.
    + intros k. destruct (Y k) as (y & _ & Bt & ->). exact (built_alike _ _ _ _ _ _ _ _ _ _ PN _ _ _ _ _ _ Fm Bt).
Qed.
Print Assumptions C90_construct.

(** Set on another object of the class, the output of [o] assigns to it such copies.  What is
    None in [o] may be absent from the output, and nothing is said of it. *)
Theorem C90_set : forall P D d f u o n ignore_writeonly reverse out_null m w w1 n' w2 x cur w3,
  calm P -> polite P -> tame_classes D P -> late_classes D P -> flat_guards D P ARead -> (forall o, newborn P o) ->
  (forall c d, p_ct P c = Some d -> proper_names d) -> (2 <= p_lim P)%nat ->
  p_ct P (o_class (h_obj (w_heap w) o)) = Some d -> o_class (h_obj (w_heap w2) x) = o_class (h_obj (w_heap w) o) ->
  In f (cd_fields d) -> travels P (w_ext w) ignore_writeonly d o f ->
  match f_write_rule (fl_fdef f) with NoWrite => False | WriteOnce => cur = VNone | _ => True end ->
  reads P (w_heap w) o (fl_name f) u -> holds_data P (w_heap w2) x f -> attr (w_heap w2) x (fl_name f) = Some cur ->
  (key_given d m -> nowhere_held (o_class (h_obj (w_heap w) o)) D P) -> Forall (fun kv => KeypathSpec.plain (fst kv)) m ->
  tojson P n o ignore_writeonly reverse out_null w = (Ok (VDict m), w1) ->
  jset P n' x m w2 = (Ok tt, w3) ->
  exists z, attr (w_heap w3) x (fl_name f) = Some z /\
    (kept P (fl_types f) u -> u <> VNone -> becomes P cur u z) /\
    (structured (fl_types f) u -> forall depth, exists y, becomes P cur y z /\
      alike P (w_heap w) (w_ext w) ignore_writeonly (w_heap w3) (h_next (w_heap w2)) depth (fl_types f) u y).
Proof.
  intros P D d f u o n iw rev on m w w1 n' w2 x cur w3 C PO T L G NB PN Lim Ed Ex Hf Tv Wr R HD Ha Kg Pl J E.
  pose proof (C82_form P D w n o iw rev on _ w1 C T G J) as F.
  assert (Ot : object_types (o_class (h_obj (w_heap w) o)) [MInstance (o_class (h_obj (w_heap w) o))])
    by (exists [], []; split; [reflexivity | split; constructor]).
  destruct (object_form _ _ _ _ _ _ _ _ _ _ _ _ Ot F) as (es & Em & Fs). injection Em as ->.
  assert (Ec : class_of P (w_heap w) o = d) by (unfold class_of; rewrite Ed; reflexivity). rewrite Ec in Fs.
  destruct (written _ _ _ _ _ _ _ _ _ _ _ _ _ Ed (pn_names _ (PN _ _ Ed)) Hf Tv R Fs) as (q & j & Fm & X1 & _).
  rewrite <- Ex in Ed, Kg.
  destruct (C89_set P D d f _ x cur n' w2 w3 PO T L NB PN Lim Ed Hf (tv_data _ _ _ _ _ _ Tv) HD Kg Pl Ha E) as (z & Hz & O).
  exists z. split; [exact Hz |].
  assert (Y : j <> VNone -> forall k, exists y, makes_of P x f j y /\ nested P (w_heap w3) false (h_next (w_heap w2)) k (fl_types f) j y /\ becomes P cur y z).
  { intros Nj k. assert (Tk : takes_now f cur j) by (unfold takes_now; destruct (f_write_rule (fl_fdef f)); auto).
    specialize (O k). unfold outcome in O. rewrite (X1 Nj) in O. destruct O as [(_ & y & Q) | (Nt & _)]; [exists y; exact Q | contradiction]. }
  split.
  - intros K Nu. destruct (Y (kept_some _ _ _ _ _ _ _ _ _ _ _ K Fm Nu) 0%nat) as (y & Mk & _ & Bc).
    assert (y = u) as <- by (apply (value_copied _ _ _ _ _ _ _ _ _ _ _ _ K Fm); exists x; exact Mk). exact Bc.
  - intros St k. assert (Nj : j <> VNone).
    { destruct St as [(cl & o1 & Q & ->) | [(it & l & Q & ->) | (it & mm & Q & -> & Nd)]].
      - destruct (object_form _ _ _ _ _ _ _ _ _ _ _ _ Q Fm) as (es' & -> & _). discriminate.
      - destruct (list_form _ _ _ _ _ _ _ _ _ _ _ _ Q Fm) as (js & -> & _). discriminate.
      - destruct (dict_form _ _ _ _ _ _ _ _ _ _ _ _ Q Nd Fm) as (js & -> & _). discriminate. }
    destruct (Y Nj k) as (y & _ & Bt & Bc). exists y. split; [exact Bc |]. exact (built_alike _ _ _ _ _ _ _ _ _ _ PN _ _ _ _ _ _ Fm Bt).
Qed.
Print Assumptions C90_set.

(** ** A program that meets the hypotheses: the baskets of C89 *)
Definition trip_out := tojson nest_prog 30 0%nat false false None (snd nest_made).
Definition trip_json : list (string * value) :=
  [("main", VDict [("qty", VInt 4); ("rank", VInt 5); ("part", VDict [("label", VStr "a")])]);
   ("rows", VList [VDict [("qty", VInt 1); ("rank", VInt 5)]; VDict [("qty", VInt 1); ("rank", VInt 5); ("part", VDict [("label", VStr "plain")])]]);
   ("by", VDict [("x", VList [VDict [("qty", VInt 8); ("rank", VInt 5)]]); ("y", VList [])])].
Definition trip_made := construct nest_prog 30 "Basket" trip_json (snd nest_made).

Lemma nest_keys cls d g : p_ct nest_prog cls = Some d -> In g (cd_fields d) -> own_key d g.
Proof.
  intros Hc Hg f Hf. split.
  - intros N. destruct (nest_cases _ _ Hc) as [-> | [-> | ->]]; cbn in Hg, Hf;
      repeat (destruct Hg as [<- | Hg]; [repeat (destruct Hf as [<- | Hf]; [try (contradiction N; reflexivity); split; discriminate |]); contradiction |]); contradiction.
  - intros L. in_nest Hc Hf; discriminate L.
Qed.
Lemma nest_travels h o cls d g : p_ct nest_prog cls = Some d -> In g (cd_fields d) -> w_ext h o = ext0 -> travels nest_prog (w_ext h) false d o g.
Proof.
  intros Hc Hg Ex. split; [apply (nest_described _ _ _ Hc Hg) | apply (nest_keys _ _ _ Hc Hg) |]. rewrite Ex. in_nest Hc Hg; reflexivity.
Qed.
Lemma qty_settable : settable nest_prog nf_qty /\ settable nest_prog nf_part /\ settable nest_prog nf_label.
Proof. repeat split. Qed.
Lemma part_empty : empty_default nest_prog nf_part.
Proof.
  intros x y (n & c & w1 & w2 & Ev & _ & _ & Eo & E). left. cbn [fl_types nf_part mkf] in E. destruct n as [| n]; cbn in E; [discriminate E |].
  unfold inst_transform in E. cbn in E. rewrite Ev, Eo in E. cbn in E. injection E as <- _. reflexivity.
Qed.
Lemma trip_keyless cls d o : p_ct nest_prog cls = Some d -> (o < 7)%nat -> o_class (h_obj (w_heap (snd nest_made)) o) = cls ->
  keyless nest_prog (w_heap (snd nest_made)) (w_ext (snd nest_made)) false d o.
Proof.
  intros Hc Ho Ec.
  assert (K : kept nest_prog (fl_types f_id) VNone) by (apply (kept_at nest_prog [] tint [MPrimary]); [constructor | repeat constructor | constructor]).
  assert (Id : In o [0; 1; 3; 4; 6]%nat -> reads nest_prog (w_heap (snd nest_made)) o "id" VNone).
  { intros H. cbn in H. repeat (destruct H as [<- | H]; [vm_compute; reflexivity |]). contradiction. }
  assert (Ex : w_ext (snd nest_made) o = ext0) by (do 7 (destruct o as [| o]; [vm_compute; reflexivity |]); lia).
  destruct (nest_cases _ _ Hc) as [-> | [-> | ->]]; [| | exact Logic.I];
    (split; [apply (nest_travels _ _ _ _ _ Hc); [left; reflexivity | exact Ex] | split; [exact id_none | split; [apply Id | exact K]]]).
  all: do 7 (destruct o as [| o]; [try (cbn; tauto); exfalso; vm_compute in Ec; subst cls; discriminate Hc |]); lia.
Qed.

(** The copies: the main item is object 8 and its part 9; the rows are 10 and 11, the part of
    the second one is 12, and the item under x is 13. *)
Example C90_example :
  calm nest_prog /\ polite nest_prog /\ tame_classes 4 nest_prog /\ late_classes 4 nest_prog /\ flat_guards 4 nest_prog ARead /\
  (forall o, newborn nest_prog o) /\ (forall c d, p_ct nest_prog c = Some d -> proper_names d) /\ (2 <= p_lim nest_prog)%nat /\
  (forall f, In f [nf_main; nf_rows; nf_by] -> In f (cd_fields c_basket) /\ f_write_rule (fl_fdef f) <> NoWrite /\
     travels nest_prog (w_ext (snd nest_made)) false c_basket 0%nat f) /\
  reads nest_prog (w_heap (snd nest_made)) 0%nat "rows" (VList [VObj 3%nat; VObj 4%nat]) /\
  reads nest_prog (w_heap (snd nest_made)) 4%nat "part" (VObj 5%nat) /\
  list_types [MInstance "Item"; MRequired] (fl_types nf_rows) /\ object_types "Part" (fl_types nf_part) /\
  (forall cls d o, p_ct nest_prog cls = Some d -> (o < 7)%nat -> o_class (h_obj (w_heap (snd nest_made)) o) = cls ->
     keyless nest_prog (w_heap (snd nest_made)) (w_ext (snd nest_made)) false d o) /\
  settable nest_prog nf_qty /\ settable nest_prog nf_part /\ settable nest_prog nf_label /\ empty_default nest_prog nf_part /\
  kept nest_prog (fl_types nf_qty) (VInt 8) /\
  (key_given c_basket trip_json -> nowhere_held "Basket" 4 nest_prog) /\ Forall (fun kv => KeypathSpec.plain (fst kv)) trip_json /\
  fst trip_out = Ok (VDict trip_json) /\ fst trip_made = Ok 7%nat /\
  held_in (snd trip_made) 7%nat ["main"; "rows"; "by"] =
    [Some (VObj 8%nat); Some (VList [VObj 10%nat; VObj 11%nat]); Some (VDict [("x", VList [VObj 13%nat]); ("y", VList [])])] /\
  held_in (snd trip_made) 8%nat ["qty"; "rank"; "part"] = [Some (VInt 4); Some (VInt 5); Some (VObj 9%nat)] /\
  held_in (snd trip_made) 9%nat ["label"] = [Some (VStr "a")] /\
  held_in (snd trip_made) 11%nat ["qty"; "rank"; "part"] = [Some (VInt 1); Some (VInt 5); Some (VObj 12%nat)] /\
  held_in (snd trip_made) 13%nat ["qty"; "rank"; "part"] = [Some (VInt 8); Some (VInt 5); Some VNone].
Proof.
  destruct C89_example as (E1 & E2 & E3 & E4 & E5 & E6 & _ & _ & _ & _ & E7 & _).
  repeat apply conj; try (match goal with |- _ = Ok _ => vm_compute; reflexivity | |- _ = (_ :: _)%list => vm_compute; reflexivity end); try assumption.
  - apply mkprog_calm.
  - intros cls ts y [].
  - intros f Hf. assert (I : In f (cd_fields c_basket)) by (cbn in Hf |- *; tauto). split; [exact I |]. split.
    + cbn in Hf. repeat (destruct Hf as [<- | Hf]; [discriminate |]). contradiction.
    + apply (nest_travels _ _ "Basket"); [reflexivity | exact I | vm_compute; reflexivity].
  - vm_compute. reflexivity.
  - vm_compute. reflexivity.
  - exists [], []. split; [reflexivity | split; constructor].
  - exact trip_keyless.
  - apply qty_settable.
  - apply qty_settable.
  - apply qty_settable.
  - exact part_empty.
  - apply (kept_at nest_prog [] tint [MDefault (PVal (VInt 1))]); [constructor | | constructor]. constructor; [| constructor]. right. split; [discriminate | eauto].
  - intros (pf & v & E & X & _). injection E as <-. discriminate X.
  - repeat (constructor; [cbn; unfold KeypathSpec.plain; cbn; intuition discriminate |]). constructor.
Qed.

(** The same output set on another basket, object 7, which was made from nothing *)
Definition bare := construct nest_prog 30 "Basket" [("main", VDict [])] (snd nest_made).
Definition trip_set := jset nest_prog 30 7%nat trip_json (snd bare).
Example C90_set_example :
  fst bare = Ok 7%nat /\ holds_data nest_prog (w_heap (snd bare)) 7%nat nf_main /\ o_class (h_obj (w_heap (snd bare)) 7%nat) = "Basket" /\
  attr (w_heap (snd bare)) 7%nat "main" = Some (VObj 8%nat) /\ structured (fl_types nf_main) (VObj 1%nat) /\
  fst trip_set = Ok tt /\ attr (w_heap (snd trip_set)) 7%nat "main" = Some (VObj 9%nat) /\
  held_in (snd trip_set) 9%nat ["qty"; "rank"; "part"] = [Some (VInt 4); Some (VInt 5); Some (VObj 10%nat)] /\
  held_in (snd trip_set) 10%nat ["label"] = [Some (VStr "a")].
Proof.
  assert (C : o_class (h_obj (w_heap (snd bare)) 7%nat) = "Basket") by (vm_compute; reflexivity).
  assert (K : o_lkeys (h_obj (w_heap (snd bare)) 7%nat) = []) by (vm_compute; reflexivity).
  assert (N : h_next (w_heap (snd bare)) = 9%nat) by (vm_compute; reflexivity).
  split; [vm_compute; reflexivity |]. split; [split |].
  - rewrite N. lia.
  - exists c_basket. rewrite C. split; [reflexivity | split; [cbn; tauto |]]. intros g Hg E. cbn in Hg.
    repeat (destruct Hg as [<- | Hg]; [try reflexivity; discriminate E |]). contradiction.
  - reflexivity.
  - rewrite K. discriminate.
  - rewrite K. reflexivity.
  - split; [exact C |]. split; [vm_compute; reflexivity |].
    split; [left; exists "Item", 1%nat; split; [exists [], [MRequired]; split; [reflexivity | split; repeat constructor] | reflexivity] |].
    split; [vm_compute; reflexivity |]. split; [vm_compute; reflexivity |]. split; vm_compute; reflexivity.
Qed.

(** ** The exceptions *)
Definition some_obj (cls : string) (attrs : list (string * value)) : obj :=
  {| o_class := cls; o_attr := fun n => Some (match sget n attrs with Some v => v | None => VNone end);
     o_new := true; o_modified := false; o_mfields := []; o_prev := []; o_lkeys := [];
     o_raw := []; o_unlinked := []; o_operator := VNone |}.
Definition some_world (objs : list obj) : world := mkw
  {| h_obj := fun o => nth o objs (some_obj "Part" []); h_next := length objs; h_graph := {| graphs := repeat [] (length objs); graph_of := fun o => o |} |}.
(** Objects after [objs], of which the first, a basket, was written and read back *)
Definition sent (objs : list obj) : option world :=
  match tojson nest_prog 30 0%nat false false None (some_world objs) with
  | (Ok (VDict m), w) => match construct nest_prog 30 "Basket" m w with (Ok _, w') => Some w' | _ => None end
  | _ => None
  end.
Definition seen (objs : list obj) (looks : list (oid * string)) : list (option value) :=
  match sent objs with Some w => map (fun l => attr (w_heap w) (fst l) (snd l)) looks | None => [] end.

(** A write-once field with a default: inside another object the copy has the default. *)
Theorem C90_writeonce_refuted :
  f_write_rule (fl_fdef nf_rank) = WriteOnce /\ In nf_rank (cd_fields c_item) /\
  seen [some_obj "Basket" [("main", VObj 1%nat)]; some_obj "Item" [("rank", VInt 9)]]
    [(0%nat, "main"); (1%nat, "rank"); (2%nat, "main"); (3%nat, "rank")] =
  [Some (VObj 1%nat); Some (VInt 9); Some (VObj 3%nat); Some (VInt 5)].
Proof. split; [reflexivity | split; [cbn; tauto | vm_compute; reflexivity]]. Qed.
Print Assumptions C90_writeonce_refuted.

(** One object at two places: two objects in the copy. *)
Theorem C90_shared_refuted :
  seen [some_obj "Basket" [("rows", VList [VObj 1%nat; VObj 1%nat])]; some_obj "Item" [("qty", VInt 3)]] [(0%nat, "rows"); (2%nat, "rows")] =
  [Some (VList [VObj 1%nat; VObj 1%nat]); Some (VList [VObj 3%nat; VObj 4%nat])].
Proof. vm_compute. reflexivity. Qed.
Print Assumptions C90_shared_refuted.

(** Two objects with the same primary key: one object in the copy, with the fields of the
    second. *)
Theorem C90_same_key_refuted :
  seen [some_obj "Basket" [("rows", VList [VObj 1%nat; VObj 2%nat])]; some_obj "Item" [("id", VInt 1); ("qty", VInt 3)]; some_obj "Item" [("id", VInt 1); ("qty", VInt 4)]]
    [(0%nat, "rows"); (1%nat, "qty"); (2%nat, "qty"); (3%nat, "rows"); (4%nat, "qty")] =
  [Some (VList [VObj 1%nat; VObj 2%nat]); Some (VInt 3); Some (VInt 4); Some (VList [VObj 4%nat; VObj 4%nat]); Some (VInt 4)].
Proof. vm_compute. reflexivity. Qed.
Print Assumptions C90_same_key_refuted.
