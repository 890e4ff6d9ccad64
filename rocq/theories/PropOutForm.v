(** PropOutForm.v -- C82: tojson writes every value in the JSON form of its type, at any
    depth, and what comes out is JSON data. *)
From Verif Require Import Base Mon PyList PyDict StrDict KeypathModel Values CalModel OGraphModel MGraphModel ChainModel
  CivilSpec ValidateSpec PropPresence TypesModel TypesSpec ObjModel ObjExample IoModel IoBase IoExample Sound TameSpec GraphSpec PropGraph OutSpec OutProofs OutRun OutTop PropOut
  OutFormSpec OutFormProofs.
From Verif Require LeafModel ReachSpec ReachProofs PropReach.
Open Scope string_scope.
Open Scope list_scope.

(** Whatever the class, the graph and the options: if tojson answers, the answer is the form
    of the object. Lists and dicts are written item by item, a union by the first of its
    types that accepts the value, an object field by field. *)
Theorem C82_form :
  forall (P : program) (D : nat) (w : world) (n : nat) (o : oid) (ignore_writeonly reverse : bool)
         (out_null : option bool) (v : value) (w' : world),
    calm P -> tame_classes D P -> flat_guards D P ARead ->
    tojson P n o ignore_writeonly reverse out_null w = (Ok v, w') ->
    form P (w_heap w) (w_ext w) (o_operator (h_obj (w_heap w) o)) ignore_writeonly reverse out_null
      {| pl_classes := []; pl_path := []; pl_field := None |} [MInstance (o_class (h_obj (w_heap w) o))] (VObj o) v.
Proof. exact tojson_form. Qed.
Print Assumptions C82_form.

(** The answer is JSON data through and through, if the values of the visible fields fit
    their types. *)
Theorem C82_json :
  forall (P : program) (D : nat) (w : world) (n : nat) (o : oid) (ignore_writeonly reverse : bool)
         (out_null : option bool) (v : value) (w' : world),
    calm P -> tame_classes D P -> flat_guards D P ARead ->
    well_typed P (w_heap w) (w_ext w) (o_operator (h_obj (w_heap w) o)) ignore_writeonly ->
    tojson P n o ignore_writeonly reverse out_null w = (Ok v, w') ->
    json v.
Proof.
  intros P D w n o iw rev on v w' C T G W E. pose proof (C82_form P D w n o iw rev on v w' C T G E) as F.
  apply (form_json P (w_heap w) (w_ext w) (o_operator (h_obj (w_heap w) o)) iw rev on W _ _ _ _ F).
  - intros m [<- | []]. right. right. eauto.
  - apply (fit_at P [] (MInstance (o_class (h_obj (w_heap w) o))) [] (VObj o)); [constructor |]. apply w_object.
Qed.
Print Assumptions C82_json.

(** Validated objects are written as JSON data. In a graph whose objects [o] reaches, all
    of whose fields are due (as with new objects): if [o] passes validation, then what
    tojson gives for any of the objects is JSON data. The fields are of types for text,
    numbers, truth values, dates, enums, objects, and lists, dicts and unions of these. *)
Theorem C82_valid :
  forall (P : program) (D : nat) (w : world) (o : oid) (mode : option bool) (n : nat) (w1 : world),
    calm P -> civil P -> tame_classes D P -> flat_guards D P ARead ->
    ReachSpec.plain_classes D P -> ReachSpec.told_apart P w o ->
    validate P n o mode w = (Ok tt, w1) ->
    (forall x d, p_ct P (wclass w x) = Some d -> ReachSpec.reaches P w o x /\ forall f, In f (cd_fields d) -> due w x f) ->
    (forall cls d f, p_ct P cls = Some d -> In f (cd_fields d) -> json_types P (fl_types f)) ->
    (forall x d f v, p_ct P (wclass w x) = Some d -> In f (cd_fields d) -> is_local f = true ->
       reads P (w_heap w) x (fl_ref f) v -> json v) ->
    (forall a, ~ used P (MFmt a)) ->
    forall (x : oid) (n' : nat) (ignore_writeonly reverse : bool) (out_null : option bool) (v : value) (w' : world),
      tojson P n' x ignore_writeonly reverse out_null w = (Ok v, w') -> json v.
Proof.
  intros P D w o mode n w1 C CI T G PC TA V All JT Keys NF x n' iw rev on v w' E.
  apply (C82_json P D w n' x iw rev on v w' C T G); [| exact E]. split.
  - intros y d f u Hd Hf _ R. destruct (All y d Hd) as [Ry Due].
    apply accepts_fits; [exact CI | apply (JT _ d f Hd Hf) |].
    assert (DF : ReachSpec.due_field P w y f u).
    { split; [exists d; split; assumption | apply Due, Hf |].
      unfold value_of, getattr, liftH. unfold reads in R. unfold ObjModel.getattr in *.
      destruct (ofield _ _ _ _) as [g |]; [destruct (is_calc g) |]; cbn [fst] in R; rewrite R; destruct w; reflexivity. }
    destruct (PropReach.C79_all_checked P D w o mode n w1 C CI PC TA V y f u Ry DF) as (fuel & c & [A1 A2 _ A4 _]).
    destruct A4 as (x1 & x2 & _ & A4). exists fuel, c, x1, x2. split; [exact A1 |]. split; [exact A2 | exact A4].
  - intros y d f u Hd Hf L _ R. apply (Keys y d f u Hd Hf L R).
  - intros a u j U. contradiction (NF a U).
Qed.
Print Assumptions C82_valid.

(** The form leaves no choice: dates in a list, for one, are written as texts, in order. *)
Notation tdate := (MLeaf (LeafModel.LType LeafModel.TDate)).
Theorem C82_list_of_dates :
  forall P h x op iw rev on p (ds : list pdate) j,
    form P h x op iw rev on p [MListOf [tdate]] (VList (map VDate ds)) j ->
    j = VList (map (fun d => VStr (json_date d)) ds).
Proof.
  intros P h x op iw rev on p ds j F.
  assert (One : forall p d j, form P h x op iw rev on p [tdate; MRequired] (VDate d) j -> j = VStr (json_date d)).
  { intros p0 d j0 F0. inversion F0 as [? ? ? ? S0]; subst. inversion S0 as [| ? ? ? ? ? u ? A B]; subst.
    inversion B as [| ? ? ? ? ? u' ? A' B']; subst. inversion B'; subst.
    assert (u = VStr (json_date d)) as -> by (inversion A; subst; solve [reflexivity | discriminate]).
    inversion A'; subst; reflexivity. }
  inversion F as [? ? ? ? S0]; subst. inversion S0 as [| ? ? ? ? ? u ? A B]; subst. inversion B; subst. inversion A; subst.
  - discriminate.
  - cbn in *. match goal with H : Some _ = Some it |- _ => inversion H; subst end. f_equal.
    match goal with H : items _ _ _ _ _ _ _ _ _ _ _ _ |- _ => rename H into Hi end. clear - Hi One.
    revert Hi. generalize 0%nat. revert js. induction ds as [| d ds IH]; intros js i Hi; inversion Hi; subst; [reflexivity |].
    cbn [map]. f_equal; [eapply One; eassumption | eapply IH; eassumption].
  - match goal with H : forall l, _ <> _ |- _ => contradiction (H _ eq_refl) end.
Qed.
Print Assumptions C82_list_of_dates.

(** A diary with dates in a list, a mood, and notes that are dates or texts *)
Definition c_diary : cdef := mkc "Diary"
  [ f_id;
    mkf "days" "days_id" [MListOf [tdate]; MRequired];
    mkf "mood" "mood_id" [MEnum "Color"; MOutputValue];
    mkf "notes" "notes_id" [MDictOf [MUnion [[tdate]; [tstr]]]];
    mkf "next" "next_id" [MInstance "Diary"; MLinkto] ].
Definition diary_prog : program := mkprog (fun c => if String.eqb c "Diary" then Some c_diary else None) no_guards no_hooks.
Definition may (d : Z) : pdate := {| d_year := 2021; d_month := 5; d_day := d |}.
Definition diary_heap : heap :=
  {| h_obj := fun o => match o with
                       | 0%nat => out_obj "Diary" 1 [("days", VList [VDate (may 1); VDate (may 2)]); ("mood", VEnum "Color" "RED");
                                    ("notes", VDict [("a", VDate (may 3)); ("b", VStr "rain")]); ("next", VObj 1%nat); ("next_id", VInt 2)]
                       | 1%nat => out_obj "Diary" 2 [("days", VList [])]
                       | _ => ex_obj "" 0 [] true end;
     h_next := 2%nat; h_graph := h_graph (ex_heap true) |}.
Lemma diary_tame : tame_classes 3 diary_prog.
Proof.
  intros cls c f m Hc Hf Hm. apply tame_b. cbn in Hc. destruct (String.eqb cls "Diary"); [| discriminate Hc]. inversion Hc; subst; clear Hc.
  each Hf; each Hm; reflexivity.
Qed.
Lemma diary_no_format : forall a, ~ used diary_prog (MFmt a).
Proof.
  intros a U.
  assert (K : forall y, used diary_prog y -> In y [tint; MPrimary; MListOf [tdate]; MRequired; tdate; MEnum "Color"; MOutputValue;
    MDictOf [MUnion [[tdate]; [tstr]]]; MUnion [[tdate]; [tstr]]; tstr; MInstance "Diary"; MLinkto]).
  { intros y Uy. induction Uy as [cls d f y Hc Hf Hy | y ts z Uy IH Hts Hz].
    - cbn in Hc. destruct (String.eqb cls "Diary"); [| discriminate Hc]. inversion Hc; subst; clear Hc. each Hf; each Hy; cbn; tauto.
    - each IH; cbn in Hts; try contradiction; repeat (destruct Hts as [<- | Hts]; [each Hz; cbn; tauto |]); contradiction. }
  specialize (K _ U). cbn in K. repeat (destruct K as [K | K]; [discriminate K |]). exact K.
Qed.
Lemma diary_typed : well_typed diary_prog diary_heap (fun _ => ext0) VNone false.
Proof.
  assert (Cls : forall o d, p_ct diary_prog (o_class (h_obj diary_heap o)) = Some d -> d = c_diary /\ (o = 0%nat \/ o = 1%nat)).
  { intros [| [| o]] d H; cbn in H; inversion H; auto. }
  split.
  - intros o d f v Hd Hf _ R. destruct (Cls o d Hd) as [-> Ho]. unfold reads in R.
    destruct Ho as [-> | ->]; each Hf; cbn in R; inversion R; subst; clear R; try (apply fit_json; repeat constructor; fail).
    + apply (fit_at diary_prog [] (MListOf [tdate]) [MRequired]); [constructor |]. apply w_list. intros it v E Hv. cbn in E. inversion E; subst.
      destruct Hv as [<- | [<- | []]]; apply (fit_at diary_prog [] tdate [MRequired]); constructor.
    + apply (fit_at diary_prog [] (MEnum "Color") [MOutputValue]); [constructor |]. apply w_enum. intros ms v _ E1 E2. cbn in E1. inversion E1; subst.
      cbn in E2. inversion E2; subst. constructor.
    + apply (fit_at diary_prog [] (MDictOf [MUnion [[tdate]; [tstr]]]) []); [constructor |]. apply w_dict. intros it k v E Hv. cbn in E. inversion E; subst.
      destruct Hv as [X | [X | []]]; inversion X; subst; [| apply fit_json; constructor].
      apply (fit_at diary_prog [] (MUnion [[tdate]; [tstr]]) [MRequired]); [constructor |]. apply w_union. intros ts Hts A. cbn in Hts.
      destruct Hts as [<- | [<- | []]]; [apply (fit_at diary_prog [] tdate []); constructor |].
      exfalso. destruct A as (n & c & w & w' & Hc & _ & A). destruct n as [| n]; [discriminate A |].
      unfold t_validate, chain_validate in A. cbn [interp map] in A. revert A. cbn. rewrite Hc. unfold bind, LeafModel.v_type. cbn. unfold vexc, raise_vexc, throw. cbn. destruct (all_on c); cbn; intros A; discriminate A.
    + apply (fit_at diary_prog [] (MInstance "Diary") [MLinkto]); [constructor |]. apply w_object.
  - intros o d f v Hd Hf L _ R. destruct (Cls o d Hd) as [-> Ho]. unfold reads in R.
    destruct Ho as [-> | ->]; each Hf; cbn in L, R; try discriminate L; inversion R; constructor.
  - intros a v j U. contradiction (diary_no_format a U).
Qed.
Example C82_diary :
  calm diary_prog /\ tame_classes 3 diary_prog /\ flat_guards 3 diary_prog ARead /\
  well_typed diary_prog diary_heap (fun _ => ext0) VNone false /\
  fst (tojson diary_prog 9 0%nat false false None (mkw diary_heap)) =
    Ok (VDict [("id", VInt 1); ("days", VList [VStr "2021-05-01T00:00:00.000Z"; VStr "2021-05-02T00:00:00.000Z"]); ("mood", VStr "r");
               ("notes", VDict [("a", VStr "2021-05-03T00:00:00.000Z"); ("b", VStr "rain")]);
               ("next_id", VInt 2); ("next", VDict [("id", VInt 2); ("days", VList [])])]).
Proof.
  split; [apply mkprog_calm |]. split; [exact diary_tame |]. split; [intros cls ts y [] |]. split; [exact diary_typed |].
  vm_compute. reflexivity.
Qed.

Lemma diary_tells : ReachSpec.told_apart diary_prog (mkw diary_heap) 0%nat.
Proof.
  intros x y k _ _ E Hx Hy.
  assert (B : forall z, pk_of diary_prog (mkw diary_heap) z = Some k -> (z < 2)%nat).
  { intros z Hz. do 2 (destruct z as [| z]; [lia |]). exfalso. unfold pk_of, id_of, cdef_of in Hz. cbn in Hz. discriminate Hz. }
  specialize (B x Hx) as Bx. specialize (B y Hy) as By.
  destruct x as [| [| x]]; [| | lia]; (destruct y as [| [| y]]; [| | lia]); try reflexivity;
    vm_compute in Hx, Hy; rewrite <- Hy in Hx; discriminate Hx.
Qed.
Lemma diary_json_types : forall cls d f, p_ct diary_prog cls = Some d -> In f (cd_fields d) -> json_types diary_prog (fl_types f).
Proof.
  assert (K : forall m ts, kind_of m = KOther -> (forall z, In z ts -> kind_of z = KOther) ->
    json_type diary_prog (fdef_of (m :: ts)) m -> json_types diary_prog (m :: ts)).
  { intros m ts Hm Ht J. apply (jt_at diary_prog [] m ts); [constructor | apply PropReach.bx_checks_here; assumption | exact J]. }
  assert (Day : forall ts, (forall z, In z ts -> kind_of z = KOther) -> json_types diary_prog (tdate :: ts)).
  { intros ts Ht. apply K; [reflexivity | exact Ht |]. apply jm_leaf. cbn. tauto. }
  intros cls d f Hd Hf. cbn in Hd. destruct (String.eqb cls "Diary"); [| discriminate Hd]. inversion Hd; subst d; clear Hd.
  each Hf; cbn [fl_types mkf f_id].
  - apply K; [reflexivity | intros z [<- | []]; reflexivity | apply jm_leaf; cbn; tauto].
  - apply K; [reflexivity | intros z [<- | []]; reflexivity |]. apply jm_list. intros it E. cbn in E. inversion E; subst.
    apply Day. intros z [<- | []]; reflexivity.
  - apply K; [reflexivity | intros z [<- | []]; reflexivity |]. apply jm_enum. intros ms n v _ E1 E2. cbn in E1. inversion E1; subst ms.
    cbn in E2. repeat match type of E2 with (if ?b then _ else _) = _ => destruct b; [inversion E2; constructor |] end. discriminate E2.
  - apply K; [reflexivity | intros z [] |]. apply jm_dict. intros it E. cbn in E. inversion E; subst.
    apply K; [reflexivity | intros z [<- | []]; reflexivity |]. apply jm_union. intros ts Hts. cbn in Hts. destruct Hts as [<- | [<- | []]].
    + apply Day. intros z [].
    + apply K; [reflexivity | intros z [] |]. apply jm_leaf. cbn. tauto.
  - apply K; [reflexivity | intros z [<- | []]; reflexivity | apply jm_object].
Qed.
Lemma diary_plain : ReachSpec.plain_classes 3 diary_prog.
Proof.
  intros cls c f m Hc Hf Hm. cbn in Hc. destruct (String.eqb cls "Diary"); [| discriminate Hc]. inversion Hc; subst; clear Hc.
  each Hf; each Hm; try (apply PropReach.plain_b; reflexivity).
  intros z [<- | []]. cbn. intros ts y [<- | [<- | []]] [<- | []] us [].
Qed.
Example C82_valid_diary :
  civil diary_prog /\ ReachSpec.plain_classes 3 diary_prog /\ ReachSpec.told_apart diary_prog (mkw diary_heap) 0%nat /\
  fst (validate diary_prog 9 0%nat None (mkw diary_heap)) = Ok tt /\
  (forall x d, p_ct diary_prog (wclass (mkw diary_heap) x) = Some d ->
     ReachSpec.reaches diary_prog (mkw diary_heap) 0%nat x /\ forall f, In f (cd_fields d) -> due (mkw diary_heap) x f) /\
  (forall cls d f, p_ct diary_prog cls = Some d -> In f (cd_fields d) -> json_types diary_prog (fl_types f)) /\
  (forall x d f v, p_ct diary_prog (wclass (mkw diary_heap) x) = Some d -> In f (cd_fields d) -> is_local f = true ->
     reads diary_prog (w_heap (mkw diary_heap)) x (fl_ref f) v -> json v) /\
  (forall a, ~ used diary_prog (MFmt a)).
Proof.
  assert (Cls : forall o d, p_ct diary_prog (wclass (mkw diary_heap) o) = Some d -> d = c_diary /\ (o = 0%nat \/ o = 1%nat)).
  { intros [| [| o]] d H; cbn in H; inversion H; auto. }
  split; [apply mkprog_civil |]. split; [exact diary_plain |]. split; [exact diary_tells |]. split; [vm_compute; reflexivity |].
  split; [| split; [exact diary_json_types | split; [| exact diary_no_format]]].
  - intros x d Hd. destruct (Cls x d Hd) as [-> Hx]. split.
    + destruct Hx as [-> | ->]; [constructor |]. apply (ReachSpec.re_step _ _ _ 0%nat); [constructor |].
      exists (mkf "next" "next_id" [MInstance "Diary"; MLinkto]), (VObj 1%nat). split.
      * constructor; [exists c_diary; split; [reflexivity | cbn; tauto] | left; reflexivity | reflexivity].
      * apply (ReachSpec.held_obj _ "Diary"), PropReach.bx_checks_here; [reflexivity | intros z [<- | []]; reflexivity].
    + intros f _. left. destruct Hx as [-> | ->]; reflexivity.
  - intros x d f v Hd Hf L R. destruct (Cls x d Hd) as [-> Hx]. unfold reads in R.
    destruct Hx as [-> | ->]; each Hf; cbn in L, R; try discriminate L; inversion R; constructor.
Qed.

(** A value that no modifier of the type knows is written as it is: a date in a field of
    type any stays a date, which is no JSON data. *)
Definition c_bag : cdef := mkc "Bag" [ f_id; mkf "thing" "thing_id" [MAny] ].
Definition bag_prog : program := mkprog (fun c => if String.eqb c "Bag" then Some c_bag else None) no_guards no_hooks.
Definition bag_heap : heap :=
  {| h_obj := fun o => match o with 0%nat => out_obj "Bag" 1 [("thing", VDate (may 1))] | _ => ex_obj "" 0 [] true end;
     h_next := 1%nat; h_graph := h_graph (ex_heap true) |}.
Theorem C82_any_refuted :
  exists v w1 w2, validate bag_prog 9 0%nat None (mkw bag_heap) = (Ok tt, w1) /\
    tojson bag_prog 9 0%nat false false None (mkw bag_heap) = (Ok v, w2) /\ ~ json v.
Proof.
  eexists. eexists. eexists. split; [vm_compute; reflexivity |]. split; [vm_compute; reflexivity |].
  intros H. inversion H as [| | | | | | m F]; subst. inversion F as [| ? ? _ F']; subst. inversion F' as [| ? ? X _]; subst. cbn in X. inversion X.
Qed.
Print Assumptions C82_any_refuted.

(** A reference counts as leading back by its name alone: the author of a post is left out
    below every list called posts, also that of a shelf, though no author and no user is
    being written further up.  Written by itself the post shows its author. *)
Definition c_shelf : cdef := mkc "Shelf" [ f_id; mkf "posts" "post_ids" [MListOf [MInstance "Essay"]; MLinkedby "shelf"] ].
Definition c_essay : cdef := mkc "Essay"
  [ f_id; mkf "shelf" "shelf_id" [MInstance "Shelf"; MLinkto]; mkf "author" "author_id" [MInstance "Writer"; MLinkto] ].
Definition c_writer : cdef := mkc "Writer" [ f_id; mkf "posts" "post_ids" [MListOf [MInstance "Essay"]; MLinkedby "author"] ].
Definition shelf_prog : program := mkprog (fun c => if String.eqb c "Shelf" then Some c_shelf
  else if String.eqb c "Essay" then Some c_essay else if String.eqb c "Writer" then Some c_writer else None) no_guards no_hooks.
Definition shelf_heap : heap :=
  {| h_obj := fun o => match o with
       | 0%nat => out_obj "Shelf" 1 [("posts", VList [VObj 1%nat])]
       | 1%nat => out_obj "Essay" 2 [("shelf", VObj 0%nat); ("shelf_id", VInt 1); ("author", VObj 2%nat); ("author_id", VInt 3)]
       | 2%nat => out_obj "Writer" 3 [("posts", VList [VObj 1%nat])]
       | _ => ex_obj "" 0 [] true end;
     h_next := 3%nat; h_graph := h_graph (ex_heap true) |}.
Theorem C82_namesake_refuted :
  fst (tojson shelf_prog 9 0%nat false false None (mkw shelf_heap)) =
    Ok (VDict [("id", VInt 1); ("posts", VList [VDict [("id", VInt 2); ("shelf_id", VInt 1); ("author_id", VInt 3)]])]) /\
  fst (tojson shelf_prog 9 1%nat false false None (mkw shelf_heap)) =
    Ok (VDict [("id", VInt 2); ("shelf_id", VInt 1); ("shelf", VDict [("id", VInt 1)]);
               ("author_id", VInt 3); ("author", VDict [("id", VInt 3)])]).
Proof. split; vm_compute; reflexivity. Qed.
Print Assumptions C82_namesake_refuted.
