(** PropReach.v -- C79: validation leaves out no object that the validated one reaches. *)
From Verif Require Import Base Mon PyList PyDict KeypathModel Values OGraphModel MGraphModel ChainModel ChainSpec TypesModel ObjModel ObjExample IoModel
  IoBase IoExample CivilSpec TameSpec IoEffects ValidateSpec ValidateProofs PropPresence PropGraph ReachSpec ReachProofs.
From Verif Require LeafModel LeafSpec LeafStrProofs.
Open Scope string_scope.
Open Scope list_scope.

(** When validate succeeds, every due field of every object that the validated one
    reaches, over any number of references, lists and dicts, has been checked and was
    accepted. *)
Theorem C79_all_checked :
  forall (P : program) (D : nat) (w : world) (o : oid) (mode : option bool) (n : nat) (w' : world),
    calm P -> civil P -> plain_classes D P -> told_apart P w o ->
    validate P n o mode w = (Ok tt, w') ->
    forall (x : oid) (f : field) (v : value),
      reaches P w o x -> due_field P w x f v -> exists fuel c, accepted P w x f v fuel c.
Proof.
  intros P D w o mode n w' CA CI PC TA H.
  unfold validate, bind, getW, with_new_mgraph in H. fold (call_ctx o mode w) in H.
  destruct (m_validate (self_mod P n (wclass w o)) (call_ctx o mode w) (set_mg [] w)) as [r w1] eqn:E.
  assert (r = Ok tt) as -> by (inversion H; reflexivity). clear H.
  assert (F : fit P w o 1 [MInstance (wclass w o)] (call_ctx o mode w)).
  { constructor.
    - reflexivity.
    - intros x [<- | []]. right. exact Logic.I.
    - left. exists o. reflexivity.
    - right. reflexivity.
    - intros y Hy. change (c_val (call_ctx o mode w)) with (VObj o) in Hy. inversion Hy; subst. constructor. }
  assert (K : checks [MInstance (wclass w o)] (MInstance (wclass w o))).
  { exists [], []. split; [reflexivity |]. split; [intros x [] | intros x [<- | []]; discriminate]. }
  destruct (all_good P D w o CA CI PC TA n 1%nat _ _ _ (set_mg [] w) w1 F K eq_refl E) as [G S]. specialize (S o eq_refl).
  assert (N : forall x, ~ seen P (set_mg [] w) x).
  { intros x. unfold seen. cbn [w_mg set_mg]. unfold m_has, m_table. cbn. unfold t_has. destruct (pk_of P (set_mg [] w) x); discriminate. }
  assert (A : forall x, reaches P w o x -> seen P w1 x).
  { intros x Rx. induction Rx as [| x y Rx IH Hxy]; [exact S |].
    destruct (g_new _ _ _ _ _ G x Rx IH) as [Q | [_ Q]]; [contradiction (N x Q) | exact (Q y Hxy)]. }
  intros x f v Rx DF. destruct (g_new _ _ _ _ _ G x Rx (A x Rx)) as [Q | [Q _]]; [contradiction (N x Q) | exact (Q f v DF)].
Qed.
Print Assumptions C79_all_checked.


(** So in every due field of every reached object: a required value is there, a value
    has the type its field names, and the user's validators have accepted it. *)
Theorem C79_values :
  forall (P : program) (D : nat) (w : world) (o : oid) (mode : option bool) (n : nat) (w' : world),
    calm P -> civil P -> plain_classes D P -> told_apart P w o ->
    validate P n o mode w = (Ok tt, w') ->
    forall (x : oid) (f : field) (v : value),
      reaches P w o x -> due_field P w x f v ->
      (checks (fl_types f) MRequired -> f_fstore (fl_fdef f) = Embedded -> v <> VNone) /\
      (forall k, k <> LeafModel.TDate -> checks (fl_types f) (MLeaf (LeafModel.LType k)) -> v = VNone \/ LeafSpec.has_type k v) /\
      (forall g msg, checks (fl_types f) (MValidate (PCall g) msg) -> v <> VNone ->
         exists c r, c_val c = v /\ (is_inst_field f = false -> c_owner c = VObj x) /\
           fst (p_call P g c [v] (w_heap w)) = Ok r /\ r <> VBool false /\ forall s, r <> VStr s).
Proof.
  intros P D w o mode n w' CA CI PC TA H x f v Rx DF.
  destruct (C79_all_checked P D w o mode n w' CA CI PC TA H x f v Rx DF) as (fuel & c & [A1 A2 A3 _ A5]).
  split; [| split].
  - intros Hm Hs ->. destruct (A5 _ Hm) as (w1 & w2 & _ & E). destruct fuel as [| fuel]; [discriminate E |].
    cbn [interp modif_of m_validate validate_of] in E. unfold required_validate in E. rewrite A2, Hs, A1 in E. discriminate E.
  - intros k Hk Hm. destruct (A5 _ Hm) as (w1 & w2 & _ & E). destruct fuel as [| fuel]; [discriminate E |].
    cbn [interp modif_of m_validate validate_of LeafModel.leaf_validate] in E. rewrite A1 in E.
    unfold LeafModel.v_type in E. destruct (LeafModel.type_accepts k v) eqn:Et; [| discriminate E].
    apply (LeafStrProofs.type_accepts_iff k v Hk), Et.
  - intros g msg Hm Hv. destruct (A5 _ Hm) as (w1 & w2 & Hw & E). destruct fuel as [| fuel]; [discriminate E |].
    cbn [interp modif_of m_validate validate_of validate_validate] in E. rewrite A1 in E.
    destruct (is_none v) eqn:Ev; [destruct v; try discriminate Ev; contradiction Hv; reflexivity |].
    unfold bind in E. rewrite (GraphProofs.call_eq P KValidate g c [v] w1 CA) in E. rewrite Hw in E.
    destruct (fst (p_call P g c [v] (w_heap w))) as [r | e] eqn:Er; [| discriminate E].
    exists c, r. split; [exact A1 |]. split; [exact A3 |]. split; [exact Er |].
    split; [intros -> ; discriminate E |]. intros s ->. discriminate E.
Qed.
Print Assumptions C79_values.

(** Boxes hold items and further boxes, in fields, lists and dicts. *)
Definition bx_item : cdef := mkc "Item" [ f_id; mkf "name" "name_id" [tstr; MRequired] ].
Definition bx_box : cdef := mkc "Box"
  [ f_id;
    mkf "first" "first_id" [MInstance "Item"];
    mkf "second" "second_id" [MInstance "Item"];
    mkf "parts" "part_ids" [MDictOf [MListOf [MInstance "Item"; MNullable]]];
    mkf "outer" "outer_id" [MInstance "Box"] ].
Definition bx_shelf : cdef := mkc "Shelf" [ f_id; mkf "thing" "thing_id" [MUnion [[MInstance "Box"]; [MInstance "Shelf"]]] ].
Definition bx_ct (c : string) : option cdef :=
  if String.eqb c "Item" then Some bx_item else if String.eqb c "Box" then Some bx_box
  else if String.eqb c "Shelf" then Some bx_shelf else None.
Definition bx_prog : program := mkprog bx_ct no_guards no_hooks.
Definition bx_obj (cls : string) (attrs : list (string * value)) : obj :=
  {| o_class := cls;
     o_attr := fun n => match sget n attrs with Some v => Some v | None => Some VNone end;
     o_new := true; o_modified := false; o_mfields := []; o_prev := []; o_lkeys := [];
     o_raw := []; o_unlinked := []; o_operator := VNone |}.
Definition bx_world (objs : list obj) : world :=
  mkw {| h_obj := fun o => nth o objs (bx_obj "" []); h_next := length objs; h_graph := h_graph (ex_heap true) |}.

(** [plain] by computation *)
Fixpoint plainb (d : nat) (m : mdf) : bool :=
  match d with
  | O => false
  | S d' => match m with
            | MInstance _ => true
            | MListOf ts | MDictOf ts => forallb (plainb d') ts
            | MUnion us => false
            | _ => flatb d m
            end
  end.
Lemma plain_b d : forall m, plainb d m = true -> plain d m.
Proof.
  induction d as [| d IH]; intros m H; [discriminate H |].
  destruct m; cbn [plainb plain] in *; try exact Logic.I; try discriminate H; try (apply flat_b; exact H);
    try (intros x Hx; rewrite forallb_forall in H; apply IH, H, Hx).
Qed.
(** the classes other than Shelf *)
Definition bp_prog : program := mkprog (fun c => if String.eqb c "Shelf" then None else bx_ct c) no_guards no_hooks.
Lemma bp_plain : plain_classes 4 bp_prog.
Proof.
  intros cls c f m Hc Hf Hm. apply plain_b. cbn in Hc. unfold bx_ct in Hc.
  destruct (String.eqb cls "Shelf") eqn:E3; [discriminate Hc |].
  destruct (String.eqb cls "Item"); [| destruct (String.eqb cls "Box"); [| discriminate Hc]];
    inversion Hc; subst c; clear Hc; cbn in Hf;
    repeat (destruct Hf as [<- | Hf]; [cbn in Hm; repeat (destruct Hm as [<- | Hm]; [reflexivity |]); contradiction |]);
    contradiction.
Qed.

(** A box 0 in a box 1 which is in box 0; box 1 keeps an item in a list in a dict. *)
Definition bx_good : world := bx_world
  [ bx_obj "Box" [("id", VInt 1); ("first", VObj 2%nat); ("outer", VObj 1%nat)];
    bx_obj "Box" [("id", VInt 2); ("second", VObj 2%nat); ("outer", VObj 0%nat);
                  ("parts", VDict [("a", VList [VNone; VObj 2%nat; VObj 3%nat])])];
    bx_obj "Item" [("id", VInt 1); ("name", VStr "x")];
    bx_obj "Item" [("name", VStr "y")] ].
Lemma bx_checks_here m ts : kind_of m = KOther -> (forall x, In x ts -> kind_of x = KOther) -> checks (m :: ts) m.
Proof.
  intros Hm Ht. exists [], ts. split; [reflexivity |]. split; [intros x Hx; rewrite (Ht x Hx); discriminate |].
  intros x [<- | []]. rewrite Hm. discriminate.
Qed.
Example C79_example :
  calm bp_prog /\ civil bp_prog /\ plain_classes 4 bp_prog /\ told_apart bp_prog bx_good 0%nat /\
  (forall mode, fst (validate bp_prog 30 0%nat mode bx_good) = Ok tt) /\
  reaches bp_prog bx_good 0%nat 3%nat /\
  due_field bp_prog bx_good 3%nat (mkf "name" "name_id" [tstr; MRequired]) (VStr "y").
Proof.
  split; [apply mkprog_calm |]. split; [apply mkprog_civil |]. split; [exact bp_plain |]. split.
  { intros x y k _ _ E Hx Hy.
    assert (B : forall z, pk_of bp_prog bx_good z = Some k -> (z < 3)%nat).
    { intros z Hz. do 4 (destruct z as [| z]; [first [lia | vm_compute in Hz; discriminate Hz] |]).
      exfalso. unfold pk_of, id_of, cdef_of in Hz. cbn in Hz. destruct z; discriminate Hz. }
    specialize (B x Hx) as Bx. specialize (B y Hy) as By.
    destruct x as [| [| [| x]]]; [| | | lia]; (destruct y as [| [| [| y]]]; [| | | lia]); try reflexivity;
      vm_compute in E; try discriminate E; vm_compute in Hx, Hy; rewrite <- Hy in Hx; discriminate Hx. }
  split; [intros [[] |]; vm_compute; reflexivity |].
  split.
  { apply (re_step _ _ _ 1%nat).
    - apply (re_step _ _ _ 0%nat); [constructor |]. exists (mkf "outer" "outer_id" [MInstance "Box"]), (VObj 1%nat). split.
      + constructor; [exists bx_box; split; [reflexivity | cbn; tauto] | left; reflexivity | reflexivity].
      + apply (held_obj _ "Box"), bx_checks_here; [reflexivity | intros x []].
    - exists (mkf "parts" "part_ids" [MDictOf [MListOf [MInstance "Item"; MNullable]]]), (VDict [("a", VList [VNone; VObj 2%nat; VObj 3%nat])]). split.
      + constructor; [exists bx_box; split; [reflexivity | cbn; tauto] | left; reflexivity | reflexivity].
      + apply (held_dict _ [MListOf [MInstance "Item"; MNullable]] [MListOf [MInstance "Item"; MNullable]] _ "a" (VList [VNone; VObj 2%nat; VObj 3%nat]));
          [apply bx_checks_here; [reflexivity | intros x []] | | left; reflexivity |].
        { exists [], (MDictOf [MListOf [MInstance "Item"; MNullable]]), []. split; [reflexivity |]. split; [right; reflexivity | intros x []]. }
        apply (held_list _ [MInstance "Item"; MNullable] [MInstance "Item"; MNullable] _ (VObj 3%nat));
          [apply bx_checks_here; [reflexivity | intros x []] | | cbn; tauto |].
        { exists [], (MListOf [MInstance "Item"; MNullable]), []. split; [reflexivity |]. split; [left; reflexivity | intros x []]. }
        apply (held_obj _ "Item"), bx_checks_here; [reflexivity | intros x [<- | []]; reflexivity]. }
  constructor; [exists bx_item; split; [reflexivity | cbn; tauto] | left; reflexivity | reflexivity].
Qed.

(** Two items with one key: the second is not looked at, though its name is missing. *)
Definition bx_twins : world := bx_world
  [ bx_obj "Box" [("id", VInt 1); ("first", VObj 1%nat); ("second", VObj 2%nat)];
    bx_obj "Item" [("id", VInt 7); ("name", VStr "x")];
    bx_obj "Item" [("id", VInt 7)] ].
Theorem C79_same_key_refuted :
  exists (P : program) (w : world) (o x : oid) (f : field),
    calm P /\ civil P /\ plain_classes 4 P /\ (forall mode, fst (validate P 30 o mode w) = Ok tt) /\
    reaches P w o x /\ due_field P w x f VNone /\ checks (fl_types f) MRequired /\ f_fstore (fl_fdef f) = Embedded.
Proof.
  exists bp_prog, bx_twins, 0%nat, 2%nat, (mkf "name" "name_id" [tstr; MRequired]).
  split; [apply mkprog_calm |]. split; [apply mkprog_civil |]. split; [exact bp_plain |].
  split; [intros [[] |]; vm_compute; reflexivity |]. split.
  { apply (re_step _ _ _ 0%nat); [constructor |]. exists (mkf "second" "second_id" [MInstance "Item"]), (VObj 2%nat). split.
    - constructor; [exists bx_box; split; [reflexivity | cbn; tauto] | left; reflexivity | reflexivity].
    - apply (held_obj _ "Item"), bx_checks_here; [reflexivity | intros x []]. }
  split; [constructor; [exists bx_item; split; [reflexivity | cbn; tauto] | left; reflexivity | reflexivity] |].
  split; [| reflexivity]. exists [tstr], []. split; [reflexivity |]. split; [intros x [] |].
  intros x [<- | [<- | []]]; discriminate.
Qed.
Print Assumptions C79_same_key_refuted.

(** An object that is met first in a field of its class is accepted in any other: here an
    item where a box is asked for. *)
Definition bx_mixed : world := bx_world
  [ bx_obj "Box" [("id", VInt 1); ("first", VObj 1%nat); ("outer", VObj 1%nat)];
    bx_obj "Item" [("id", VInt 7); ("name", VStr "x")] ].
Theorem C79_class_refuted :
  exists (P : program) (w : world) (o y : oid) (f : field) (cls : string),
    calm P /\ civil P /\ plain_classes 4 P /\ told_apart P w o /\ (forall mode, fst (validate P 30 o mode w) = Ok tt) /\
    due_field P w o f (VObj y) /\ fl_types f = [MInstance cls] /\ p_isa P (wclass w y) cls = false.
Proof.
  exists bp_prog, bx_mixed, 0%nat, 1%nat, (mkf "outer" "outer_id" [MInstance "Box"]), "Box".
  split; [apply mkprog_calm |]. split; [apply mkprog_civil |]. split; [exact bp_plain |]. split.
  { intros x y k _ _ E Hx Hy.
    assert (B : forall z, pk_of bp_prog bx_mixed z = Some k -> (z < 2)%nat).
    { intros z Hz. do 2 (destruct z as [| z]; [lia |]).
      exfalso. unfold pk_of, id_of, cdef_of in Hz. cbn in Hz. destruct z; discriminate Hz. }
    specialize (B x Hx) as Bx. specialize (B y Hy) as By.
    destruct x as [| [| x]]; [| | lia]; (destruct y as [| [| y]]; [| | lia]); try reflexivity; vm_compute in E; discriminate E. }
  split; [intros [[] |]; vm_compute; reflexivity |].
  split; [constructor; [exists bx_box; split; [reflexivity | cbn; tauto] | left; reflexivity | reflexivity] |].
  split; reflexivity.
Qed.
Print Assumptions C79_class_refuted.

(** A union of classes accepts every object: the first member that looks at it marks it,
    and the second takes it for checked.  Here the thing on a shelf must be a box or a
    shelf, and is an item without a name. *)
Definition bx_union : world := bx_world
  [ bx_obj "Shelf" [("id", VInt 1); ("thing", VObj 1%nat)]; bx_obj "Item" [("id", VInt 7)] ].
Theorem C79_union_refuted :
  exists (P : program) (w : world) (o y : oid) (f : field) (us : list types),
    calm P /\ civil P /\ (forall mode, fst (validate P 30 o mode w) = Ok tt) /\
    due_field P w o f (VObj y) /\ fl_types f = [MUnion us] /\
    (forall ts, In ts us -> exists cls, ts = [MInstance cls] /\ p_isa P (wclass w y) cls = false) /\
    fst (validate P 30 y None w) <> Ok tt.
Proof.
  exists bx_prog, bx_union, 0%nat, 1%nat, (mkf "thing" "thing_id" [MUnion [[MInstance "Box"]; [MInstance "Shelf"]]]), [[MInstance "Box"]; [MInstance "Shelf"]].
  split; [apply mkprog_calm |]. split; [apply mkprog_civil |].
  split; [intros [[] |]; vm_compute; reflexivity |].
  split; [constructor; [exists bx_shelf; split; [reflexivity | cbn; tauto] | left; reflexivity | reflexivity] |].
  split; [reflexivity |]. split.
  - intros ts [<- | [<- | []]]; eexists; split; reflexivity.
  - vm_compute. discriminate.
Qed.
Print Assumptions C79_union_refuted.

