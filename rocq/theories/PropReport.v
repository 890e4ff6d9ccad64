(** PropReport.v -- C80: what a validation error reports is so. *)
From Verif Require Import Base Mon PyList PyDict KeypathModel Values OGraphModel MGraphModel ChainModel ChainSpec TypesModel ObjModel ObjExample IoModel
  IoBase IoExample CivilSpec TameSpec IoEffects ValidateSpec ValidateProofs PropPresence PropGraph ReachSpec ReachProofs PropReach ReportSpec ReportProofs.
From Verif Require LeafModel.
Open Scope string_scope.
Open Scope list_scope.

(** Every message of a validation error stands under the keypath of a place below the
    validated object, and it is the message with which a modifier declared for that place
    rejected the value that is there. *)
Theorem C80_report :
  forall (P : program) (D : nat) (w : world) (o : oid) (mode : option bool) (n : nat) (report : list (string * string)) (w' : world),
    calm P -> courteous P -> tame_classes D P ->
    validate P n o mode w = (Err (EValidation report), w') ->
    forall kp msg, In (kp, msg) report ->
      exists path ts v m fuel c, kp = skp path /\ rejected P w o path msg ts v m fuel c.
Proof.
  intros P D w o mode n report w' CA CO TC H kp msg Hin.
  unfold validate, bind, getW, with_new_mgraph in H. fold (call_ctx o mode w) in H.
  destruct (m_validate (self_mod P n (wclass w o)) (call_ctx o mode w) (set_mg [] w)) as [r w1] eqn:E.
  assert (r = Err (EValidation report)) as -> by (inversion H; reflexivity). clear H.
  assert (F : fits P w o 1 [MInstance (wclass w o)] (call_ctx o mode w)).
  { constructor.
    - reflexivity.
    - intros x [<- | []]. exact Logic.I.
    - right. reflexivity.
    - apply pl_root. }
  assert (Hc : checks [MInstance (wclass w o)] (MInstance (wclass w o))).
  { exists [], []. split; [reflexivity |]. split; [intros x [] | intros x [<- | []]; discriminate]. }
  pose proof (all_fine P D w o CA CO TC n 1%nat _ _ _ (set_mg [] w) F Hc eq_refl) as X. unfold self_mod in E.
  unfold t_validate in *. rewrite E in X. exact (X report eq_refl kp msg Hin).
Qed.
Print Assumptions C80_report.

Lemma mkprog_courteous ct : courteous (mkprog ct no_guards no_hooks).
Proof.
  constructor; cbn; try discriminate. intros f c args h l. do 5 (destruct f as [| f]; [discriminate |]). discriminate.
Qed.
Lemma plain_tame d : forall m, plain d m -> tame d m.
Proof.
  assert (IT : forall d m, inert d m -> tame d m).
  { induction d0 as [| d0 IH]; intros m H; [contradiction H |]. destruct m; cbn [inert tame] in *; try exact H; try exact Logic.I.
    - intros x Hx. apply IH, (H x Hx).
    - intros x Hx. apply IH, (H x Hx).
    - intros us0 x Hu Hx. apply IH, (H us0 x Hu Hx). }
  induction d as [| d IH]; intros m H; [contradiction H |]. destruct m; cbn [plain tame] in *; try exact H; try exact Logic.I.
  - intros x Hx. apply IH, (H x Hx).
  - intros x Hx. apply IH, (H x Hx).
  - intros us0 x Hu Hx. apply (IT d), (H us0 x Hu Hx).
Qed.

(** An item without a name in a list in a dict of the box around the validated one, and a
    number as the name of another *)
Definition bx_bad : world := bx_world
  [ bx_obj "Box" [("id", VInt 1); ("first", VObj 3%nat); ("outer", VObj 1%nat)];
    bx_obj "Box" [("id", VInt 2); ("second", VObj 4%nat); ("outer", VObj 0%nat);
                  ("parts", VDict [("a", VList [VNone; VObj 2%nat])])];
    bx_obj "Item" []; bx_obj "Item" [("name", VStr "x")]; bx_obj "Item" [("name", VInt 5)] ].
Example C80_example :
  calm bp_prog /\ courteous bp_prog /\ tame_classes 4 bp_prog /\
  fst (validate bp_prog 30 0%nat (Some true) bx_bad) =
    Err (EValidation [("outer.second.name", "value is not str"); ("outer.parts.a.1.name", "value required")]).
Proof.
  split; [apply mkprog_calm |]. split; [apply mkprog_courteous |]. split; [| vm_compute; reflexivity].
  intros cls c f m Hc Hf Hm. apply plain_tame, (bp_plain cls c f m Hc Hf Hm).
Qed.

(** The same failure of the same object: an item of a list is reported by the names that
    the class of the holder of the list gives to fields, not by those of its own class. *)
Definition nm_item : cdef := mkc "Item" [ f_id; mkf "name" "name_id" [tstr; MRequired] ].
Definition nm_box : cdef :=
  {| cd_name := "Box"; cd_fields := [ f_id; mkf "items" "item_ids" [MListOf [MInstance "Item"]] ]; cd_abstract := false; cd_reset_all := true;
     cd_strict := false; cd_validate_all := false; cd_output_null := false;
     cd_outkey := fun s => String.append "the_" s |}.
Definition nm_prog : program :=
  mkprog (fun c => if String.eqb c "Item" then Some nm_item else if String.eqb c "Box" then Some nm_box else None) no_guards no_hooks.
Definition nm_world : world := bx_world [ bx_obj "Box" [("items", VList [VObj 1%nat])]; bx_obj "Item" [] ].
Theorem C80_names_refuted :
  exists (P : program) (w : world) (holder item : oid) (msg : string),
    calm P /\ courteous P /\ tame_classes 4 P /\
    wclass w item <> wclass w holder /\
    fst (validate P 30 item None w) = Err (EValidation [("name", msg)]) /\
    fst (validate P 30 holder None w) = Err (EValidation [("the_items.0.the_name", msg)]).
Proof.
  exists nm_prog, nm_world, 0%nat, 1%nat, "value required".
  split; [apply mkprog_calm |]. split; [apply mkprog_courteous |]. split.
  - intros cls c f m Hc Hf Hm. apply plain_tame, plain_b. cbn in Hc.
    destruct (String.eqb cls "Item"); [| destruct (String.eqb cls "Box"); [| discriminate Hc]];
      inversion Hc; subst c; clear Hc; cbn in Hf;
      repeat (destruct Hf as [<- | Hf]; [cbn in Hm; repeat (destruct Hm as [<- | Hm]; [reflexivity |]); contradiction |]);
      contradiction.
  - split; [vm_compute; discriminate |]. split; vm_compute; reflexivity.
Qed.
Print Assumptions C80_names_refuted.

(** A value that is not an object, standing where an object belongs, is reported by no
    message: validating raises an AttributeError instead of a validation error
    (instanceof_modifier.py:34 looks the value up in the graph of objects already seen
    before it checks that it is an object).  The constructor accepts such a value. *)
Definition no_class : cdef := mkc "Doc" [ f_id; mkf "author" "author_id" [MInstance "Item"] ].
Definition no_prog : program :=
  mkprog (fun c => if String.eqb c "Item" then Some nm_item else if String.eqb c "Doc" then Some no_class else None) no_guards no_hooks.
Theorem C80_not_an_object_refuted :
  exists (P : program) (w0 w1 : world) (o : oid) (v : string),
    calm P /\ courteous P /\ tame_classes 4 P /\
    construct P 30 "Doc" [("author", VStr v)] w0 = (Ok o, w1) /\
    fst (validate P 30 o None w1) = Err EAttributeError.
Proof.
  exists no_prog, (bx_world []), (snd (construct no_prog 30 "Doc" [("author", VStr "nobody")] (bx_world []))), 0%nat, "nobody".
  split; [apply mkprog_calm |]. split; [apply mkprog_courteous |]. split.
  - intros cls c f m Hc Hf Hm. apply plain_tame, plain_b. cbn in Hc.
    destruct (String.eqb cls "Item"); [| destruct (String.eqb cls "Doc"); [| discriminate Hc]];
      inversion Hc; subst c; clear Hc; cbn in Hf;
      repeat (destruct Hf as [<- | Hf]; [cbn in Hm; repeat (destruct Hm as [<- | Hm]; [reflexivity |]); contradiction |]);
      contradiction.
  - split; vm_compute; reflexivity.
Qed.
Print Assumptions C80_not_an_object_refuted.
