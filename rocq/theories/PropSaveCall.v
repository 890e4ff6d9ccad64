(** PropSaveCall.v -- C70 for a whole save: the callbacks of the fields of the saved object are
    called exactly when due, once each, in the order of the fields, before the object is
    written. *)
From Verif Require Import Base PyList Mon Values ChainModel TypesModel ObjModel ObjSpec IoModel
  IoBase ObjExample IoExample OnsaveSpec SaveCallSpec SaveCallProofs.
Open Scope string_scope.
Open Scope list_scope.

Section Props.
  Variable P : program.

  (** All fields hold data and have onsave, onwrite and onupdate, in any number and order,
      among modifiers that do nothing on save; no callback raises or changes an object. *)
  Definition ready (o : oid) (d : cdef) (h : heap) : Prop :=
    (forall f c args h, exists v, p_call P f c args h = (Ok v, h)) /\
    p_ct P (o_class (h_obj h o)) = Some d /\
    NoDup (map fl_name (cd_fields d)) /\
    (forall f, In f (cd_fields d) -> caller f) /\
    (forall f, In f (cd_fields d) ->
       sget (fl_name f) (o_lkeys (h_obj h o)) = None /\
       exists v, attr h o (fl_name f) = Some v /\ veq (p_oeq P h) v v = true) /\
    p_lim P <> 0%nat.

  (** Preparing the object makes the due calls and changes no object. *)
  Theorem C70_prepare_calls : forall n o d w, ready o d (w_heap w) ->
    exists w', set_on_save P (S (S n)) o w = (Ok tt, w') /\
      w_heap w' = w_heap w /\ w_log w' = w_log w ++ due_calls (h_obj (w_heap w) o) d.
  Proof.
    intros n o d w (A & B & C & D & E & F). eexists. split; [apply (save_calls P A o d (w_heap w) B C D E F n w eq_refl) |].
    split; reflexivity.
  Qed.

  (** So does saving it, if nothing guards it, it has no hooks, it is valid or validation is
      skipped, and no object was unlinked from it; then it is written, once, as it is. *)
  Theorem C70_save_calls : forall n o d w all skip h',
    ready o d (w_heap w) ->
    (forall a, p_guards P (o_class (h_obj (w_heap w) o)) a = [] /\ p_hooks P (o_class (h_obj (w_heap w) o)) a = []) ->
    skip = true \/ validate P (S (S n)) o (Some all) w = (Ok tt, w) ->
    p_write P o (w_heap w) = (Ok tt, h') -> o_unlinked (h_obj h' o) = [] ->
    exists w', save P (S (S n)) o all skip w = (Ok tt, w') /\ w_heap w' = h' /\
      w_log w' = w_log w ++ due_calls (h_obj (w_heap w) o) d ++ [EvWrite o].
  Proof.
    intros n o d w all skip h' R GH V W U. pose proof R as (A & B & C & D & E & F).
    pose proof (save_calls P A o d (w_heap w) B C D E F n w eq_refl) as S1.
    exists {| w_heap := h'; w_ext := w_ext w; w_mg := w_mg w; w_log := w_log w ++ due_calls (h_obj (w_heap w) o) d ++ [EvWrite o] |}.
    split; [| split; reflexivity].
    assert (Gu : forall a, guard P (S (S n)) o a w = (Ok tt, w)).
    { intros a. unfold guard, bind, getW, wclass, wobj. destruct (GH a) as [-> _]. reflexivity. }
    assert (Ho : forall a, run_hooks P o a w = (Ok tt, w)).
    { intros a. unfold run_hooks, bind, getW, wclass, wobj. destruct (GH a) as [_ ->]. reflexivity. }
    assert (Va : (if skip then ret tt else validate P (S (S n)) o (Some all)) w = (Ok tt, w)).
    { destruct skip; [reflexivity |]. destruct V as [V | V]; [discriminate V | exact V]. }
    remember (S n) as m eqn:Em. cbn [save]. subst m.
    unfold bind at 1. unfold getW at 1. unfold bind at 1. rewrite Gu.
    unfold bind at 1. unfold getW at 1. unfold bind at 1. rewrite Ho.
    unfold bind at 1. rewrite Va. unfold bind at 1. rewrite S1.
    unfold bind, modW, liftH, getW, wobj, add_log, logged. cbn [w_heap w_log w_ext w_mg]. rewrite W. cbn [w_heap].
    unfold set_heap. cbn [w_heap w_ext w_mg w_log]. rewrite U. cbn.
    rewrite <- app_assoc. reflexivity.
  Qed.
End Props.
Print Assumptions C70_prepare_calls.
Print Assumptions C70_save_calls.

(** A book whose title was changed from "a" to "b": the callbacks of the title are called,
    those of the pages that are due only for a change are not. *)
Definition sc_book : cdef := mkc "Book"
  [ mkf "title" "title_id" [tstr; MOnupdate 1%nat; MOnwrite 2%nat; MRequired];
    mkf "pages" "pages_id" [tint; MOnwrite 3%nat; MOnsave 4%nat; MOnupdate 5%nat] ].
Definition sc_prog : program :=
  {| p_ct := fun _ => Some sc_book; p_oeq := ex_oeq; p_getter := ex_getter; p_setter := ex_setter;
     p_str := ex_str; p_arith := fun _ _ _ => Err ETypeError; p_lim := 50;
     p_isa := String.eqb; p_enums := ex_enums; p_call := fun _ _ _ => ret VNone;
     p_guards := no_guards; p_hooks := no_hooks; p_write := fun _ => ret tt; p_delete := fun _ => ret tt |}.
Definition sc_obj (new changed : bool) : obj :=
  {| o_class := "Book"; o_attr := fun n => Some (if String.eqb n "title" then VStr "b" else VInt 9);
     o_new := new; o_modified := changed; o_mfields := if changed then ["title"] else [];
     o_prev := if changed then [("title", VStr "a")] else []; o_lkeys := [];
     o_raw := []; o_unlinked := []; o_operator := VNone |}.
Definition sc_w (new changed : bool) : world :=
  mkw {| h_obj := fun _ => sc_obj new changed; h_next := 1%nat; h_graph := h_graph (ex_heap false) |}.
Lemma sc_ready new changed : ready sc_prog 0%nat sc_book (w_heap (sc_w new changed)).
Proof.
  split; [intros; eexists; reflexivity |]. split; [reflexivity |]. split; [repeat constructor; cbn; intuition congruence |].
  split.
  - intros f [<- | [<- | []]]; (split; [reflexivity |]); (split; [reflexivity |]); (split; [reflexivity |]);
      intros m Hm; cbn in Hm; repeat destruct Hm as [<- | Hm]; try contradiction;
      try (left; reflexivity); right; eexists; eauto.
  - split; [| discriminate]. intros f [<- | [<- | []]]; (split; [reflexivity |]); eexists; (split; [reflexivity |]); reflexivity.
Qed.
Example C70_book_saved : forall n new changed all, exists w',
  save sc_prog (S (S n)) 0%nat all true (sc_w new changed) = (Ok tt, w') /\
  w_log w' = match new, changed with
             | false, true => [EvCall KSave 1%nat; EvCall KSave 2%nat; EvCall KSave 4%nat; EvWrite 0%nat]
             | true, true => [EvCall KSave 1%nat; EvCall KSave 2%nat; EvCall KSave 3%nat; EvCall KSave 4%nat; EvWrite 0%nat]
             | true, false => [EvCall KSave 2%nat; EvCall KSave 3%nat; EvCall KSave 4%nat; EvWrite 0%nat]
             | false, false => [EvWrite 0%nat]
             end.
Proof.
  intros n new changed all.
  destruct (C70_save_calls sc_prog n 0%nat sc_book (sc_w new changed) all true (w_heap (sc_w new changed)) (sc_ready new changed)) as (w' & E & _ & L);
    [intros a; split; reflexivity | left; reflexivity | reflexivity | reflexivity |].
  exists w'. split; [exact E |]. rewrite L. destruct new, changed; reflexivity.
Qed.
(** it is valid, too *)
Example C70_book_valid : validate sc_prog 9 0%nat (Some true) (sc_w false true) = (Ok tt, sc_w false true).
Proof. vm_compute. reflexivity. Qed.
