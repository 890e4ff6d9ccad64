(** PropWrite.v -- C26 and C27: what [set] may not write. *)
From Verif Require Import Base Mon PyList PyDict StrDict KeypathModel Values OGraphModel MGraphModel ChainModel TypesModel ObjModel ObjSpec
  ObjExample IoModel IoExample IoBase Sound ObjSound LeafSound TameSpec Keep TameProofs OutProofs WriteSpec WriteFrame WriteProofs PropGraph.
From Verif Require LeafModel WriteFrame.
Open Scope string_scope.
Open Scope list_scope.

#[local] Instance silent_mode : manner := Silent.

Lemma any_held d : forall m, tame d m -> holds_only (fun _ => True) d m.
Proof.
  induction d as [| d IH]; intros m T; [exact T |]. destruct m; cbn in *; try exact Logic.I.
  - intros y Hy. apply IH, T, Hy.
  - intros y Hy. apply IH, T, Hy.
  - intros us y Hu Hy. apply IH, (T us y Hu Hy).
Qed.
Lemma any_class P D : tame_classes D P -> only_holds (fun _ => True) D P.
Proof. intros T cls c f m Hc Hf Hm. apply any_held, (T cls c f m Hc Hf Hm). Qed.

Section Kept.
  Context (P : program) (D : nat) (f : field) (x : oid) (A : option value -> Prop) (cls : string).
  Hypothesis TC : tame_classes D P.
  Hypothesis LC : late_classes D P.
  Hypothesis ON : own_name P (fl_name f).
  Hypothesis CS : considerate P x (fl_name f).
  Hypothesis Fp : plain_field f = true.
  Hypothesis Fd : exists d, p_ct P cls = Some d /\ In f (cd_fields d) /\ forall g, In g (cd_fields d) -> fl_name g = fl_name f -> g = f.
  Notation pr := (prot x (fl_name f) A cls false (fun _ => True) false).
  Hypothesis write_ok : forall v, yields pr (fun ok => ok = true -> forall n c w y w',
    c_val c = v -> t_transform (interp P n) (fl_types f) c w = (Ok y, w') -> A (Some y)) (may_write P x f v).

  Lemma sets_prot w w' : sets P (fl_name f) w w' -> pr w -> pr w'.
  Proof.
    induction 1 as [w | n o kw w r w1 w2 Av E S IH]; intros H; [exact H |]. apply IH.
    pose proof (w_jset P x (fl_name f) A cls false true (fun _ => True) f D ON CS (fun E => False_ind _ (Bool.diff_false_true E)) eq_refl Fp Fd TC LC (any_class P D TC) (fun _ => write_ok) eq_refl n o kw Av w H) as [K _]. rewrite E in K. exact K.
  Qed.
End Kept.

Lemma held_start P w x f (A : option value -> Prop) : holds_data P (w_heap w) x f -> A (attr (w_heap w) x (fl_name f)) ->
  prot x (fl_name f) A (o_class (h_obj (w_heap w) x)) false (fun _ => True) false w.
Proof. intros H Ha. destruct H. split; [constructor; trivial; discriminate | discriminate]. Qed.

(** ** C26 *)
(** Over every history of [set] on any objects, of calls that succeed or fail, every read-only
    data field of every object keeps its value. *)
Theorem C26_readonly_unchanged : forall P D f x w w',
  tame_classes D P -> late_classes D P -> own_name P (fl_name f) -> considerate P x (fl_name f) ->
  holds_data P (w_heap w) x f -> f_write_rule (fl_fdef f) = NoWrite ->
  sets P (fl_name f) w w' ->
  attr (w_heap w') x (fl_name f) = attr (w_heap w) x (fl_name f).
Proof.
  intros P D f x w w' TC LC ON CS HD Rule S.
  set (a := attr (w_heap w) x (fl_name f)).
  pose proof (sets_prot P D f x (fun b => b = a) _ TC LC ON CS (hd_plain _ _ _ _ HD) (hd_field _ _ _ _ HD)) as K.
  destruct (K) with (w := w) (w' := w') as [H _]; [| exact S | apply (held_start P); [exact HD | reflexivity] | apply H].
  intros v. unfold may_write. rewrite Rule. apply y_ret. discriminate.
Qed.
Print Assumptions C26_readonly_unchanged.

(** ** C27 *)
(** A write-once field with a value keeps it. *)
Theorem C27_writeonce_kept : forall P D f x v w w',
  tame_classes D P -> late_classes D P -> own_name P (fl_name f) -> considerate P x (fl_name f) ->
  holds_data P (w_heap w) x f -> f_write_rule (fl_fdef f) = WriteOnce ->
  attr (w_heap w) x (fl_name f) = Some v -> v <> VNone ->
  sets P (fl_name f) w w' ->
  attr (w_heap w') x (fl_name f) = Some v.
Proof.
  intros P D f x v w w' TC LC ON CS HD Rule Ha Nv S.
  pose proof (sets_prot P D f x (fun b => b = Some v) _ TC LC ON CS (hd_plain _ _ _ _ HD) (hd_field _ _ _ _ HD)) as K.
  destruct (K) with (w := w) (w' := w') as [H _]; [| exact S | apply (held_start P); [exact HD | exact Ha] | apply H].
  intros u. unfold may_write. rewrite Rule. apply y_and; [apply k_bind; [| intros; apply k_ret] |].
  - eapply w_getattr.
  - intros w1 ok w2 [H1 _] E Ok1. subst ok. exfalso. unfold bind, getattr, liftH in E.
    destruct (ObjModel.getattr _ _ x (fl_name f) (w_heap w1)) as [r h'] eqn:G.
    destruct (hd_field _ _ _ _ HD) as (d & Ed & I & U). destruct H1 as [H1 H2 _ _ _ _].
    unfold ObjModel.getattr, ofield, cdef_of in G. rewrite H2, Ed, H1 in G.
    assert (R : r = Ok v).
    { destruct (field_named (fl_name f) d) as [g |] eqn:Eg.
      - unfold field_named in Eg. apply find_some in Eg. destruct Eg as [Ig Ng]. apply String.eqb_eq in Ng.
        apply in_rev in Ig. rewrite (U g Ig (eq_sym Ng)) in G.
        assert (is_calc f = false) as C.
        { pose proof (hd_plain _ _ _ _ HD) as Pl. unfold plain_field in Pl. destruct (is_calc f); [| reflexivity].
          revert Pl. rewrite ?andb_false_r, ?andb_false_l; cbn; intros; try discriminate; destruct (foreign_class f); discriminate. }
        rewrite C in G. inversion G. reflexivity.
      - inversion G. reflexivity. }
    rewrite R in E. cbn in E. destruct v; try discriminate E. contradiction.
Qed.
Print Assumptions C27_writeonce_kept.

(** A field that may not be written null, with a value, never becomes None, when no modifier
    of its chain turns a value into None. *)
Theorem C27_nonnull_kept : forall P D f x v w w',
  tame_classes D P -> late_classes D P -> own_name P (fl_name f) -> considerate P x (fl_name f) ->
  holds_data P (w_heap w) x f -> f_write_rule (fl_fdef f) = WriteNonnull ->
  (forall m, In m (fl_types f) -> solid m = true) ->
  attr (w_heap w) x (fl_name f) = Some v -> v <> VNone ->
  sets P (fl_name f) w w' ->
  exists v', attr (w_heap w') x (fl_name f) = Some v' /\ v' <> VNone.
Proof.
  intros P D f x v w w' TC LC ON CS HD Rule So Ha Nv S.
  pose proof (sets_prot P D f x (fun b => exists v, b = Some v /\ v <> VNone) _ TC LC ON CS (hd_plain _ _ _ _ HD) (hd_field _ _ _ _ HD)) as K.
  destruct (K) with (w := w) (w' := w') as [H _]; [| exact S | apply (held_start P); [exact HD | exists v; split; assumption] | apply H].
  intros u. unfold may_write. rewrite Rule. apply y_ret. intros Nu n c w1 y w2 Ec Et. exists y. split; [reflexivity |].
  apply (chain_solid P n (fl_types f) c So) in Et; [exact Et |]. rewrite Ec. destruct u; discriminate.
Qed.
Print Assumptions C27_nonnull_kept.

(** ** A program that meets the hypotheses *)
Definition wf_title : field := mkf "title" "title_id" [tstr; MReadonly].
Definition wf_code : field := mkf "code" "code_id" [tint; MWriteonce].
Definition wf_note : field := mkf "note" "note_id" [tstr; MWritenonnull].
Definition wf_tags : field := mkf "tags" "tag_ids" [MListOf [tint]; MReadonly].
Definition c_page : cdef := mkc "Page"
  [ f_id; wf_title; wf_code; wf_note; wf_tags; mkf "size" "size_id" [tint];
    mkf "next" "next_id" [MInstance "Page"; MLinkto]; mkf "prev" "prev_id" [MInstance "Page"; MLinkedby "next"] ].
Definition page_ct (c : string) : option cdef := if String.eqb c "Page" then Some c_page else None.
Definition page_prog : program := mkprog page_ct no_guards no_hooks.
Definition page_world : world := mkw
  {| h_obj := fun o => {| o_class := "Page";
       o_attr := fun n => sget n [("id", VInt (Z.of_nat o)); ("title", VStr "t"); ("code", VInt 5); ("note", VStr "n");
                                   ("tags", VList [VInt 1; VInt 2]); ("size", VInt 3);
                                   ("next", if Nat.eqb o 0 then VObj 1%nat else VNone); ("next_id", VNone);
                                   ("prev", if Nat.eqb o 1 then VObj 0%nat else VNone)];
       o_new := false; o_modified := false; o_mfields := []; o_prev := []; o_lkeys := [("next_id", "next")];
       o_raw := []; o_unlinked := []; o_operator := VNone |};
     h_next := 2%nat; h_graph := {| graphs := repeat [] 2; graph_of := fun o => Nat.min o 1 |} |}.
Definition w_attr (w : world) (o : oid) (n : string) : option value := attr (w_heap w) o n.

Ltac in_page Hc Hf := unfold page_ct in Hc; cbn in Hc; unfold page_ct in Hc;
  match type of Hc with (if ?b then _ else _) = _ => destruct b; [| discriminate Hc] end; injection Hc as <-; cbn in Hf.
Lemma page_tame : tame_classes 3 page_prog.
Proof.
  intros cls c f m Hc Hf Hm. apply tame_b. in_page Hc Hf.
  repeat (destruct Hf as [<- | Hf]; [cbn in Hm; repeat (destruct Hm as [<- | Hm]; [reflexivity |]); contradiction |]). contradiction.
Qed.
(** no eager marker at all *)
Definition plain_chain (ts : types) : bool := forallb (fun m => match m with MEager => false | _ => true end) ts.
Lemma no_eager ts : plain_chain ts = true -> checks_late ts.
Proof.
  intros H pre post E. unfold plain_chain in H. rewrite forallb_forall in H. subst ts.
  specialize (H MEager). discriminate H. apply in_or_app. right. left. reflexivity.
Qed.
Fixpoint lateb (d : nat) (m : mdf) : bool :=
  match d with
  | O => false
  | S d =>
      match m with
      | MListOf ts | MDictOf ts => plain_chain ts && forallb (lateb d) ts
      | MUnion us => forallb (fun ts => plain_chain ts && forallb (lateb d) ts) us
      | _ => true
      end
  end.
Lemma late_b d : forall m, lateb d m = true -> late d m.
Proof.
  induction d as [| d IH]; intros m H; [discriminate H |].
  destruct m; cbn [lateb late] in *; try exact Logic.I.
  1, 2: apply andb_prop in H; destruct H as [H1 H2]; rewrite forallb_forall in H2; split; [apply no_eager, H1 | intros y Hy; apply IH, H2, Hy].
  intros us Hu. rewrite forallb_forall in H. specialize (H us Hu). apply andb_prop in H. destruct H as [H1 H2]. rewrite forallb_forall in H2.
  split; [apply no_eager, H1 | intros y Hy; apply IH, H2, Hy].
Qed.
Lemma page_late : late_classes 3 page_prog.
Proof.
  intros cls c f Hc Hf. in_page Hc Hf.
  repeat (destruct Hf as [<- | Hf];
    [split; [apply no_eager; reflexivity
            | intros m Hm; apply late_b; cbn in Hm; repeat (destruct Hm as [<- | Hm]; [reflexivity |]); contradiction] |]).
  contradiction.
Qed.
Lemma page_own k : In k ["title"; "code"; "note"; "tags"] -> own_name page_prog k.
Proof.
  intros Hk. apply WriteFrame.own_data.
  - intros cls d g Hc Hf E. in_page Hc Hf. repeat (destruct Hf as [<- | Hf]; [try reflexivity; exfalso; subst k; cbn in Hk; intuition discriminate |]). contradiction.
  - intros cls d g Hc Hf E. in_page Hc Hf. repeat (destruct Hf as [<- | Hf]; [subst k; cbn in Hk; intuition discriminate |]). contradiction.
Qed.
Lemma leaves_refl x k h : leaves x k h h.
Proof. repeat split. trivial. Qed.
Lemma page_considerate x k : considerate page_prog x k.
Proof. split; [intros f c args h | intros o n v h; apply leaves_refl]. cbn. do 5 (destruct f as [| f]; [apply leaves_refl |]). apply leaves_refl. Qed.
Lemma page_holds x f : In f [wf_title; wf_code; wf_note; wf_tags] -> (x < 2)%nat -> holds_data page_prog (w_heap page_world) x f.
Proof.
  intros Hf Hx. constructor.
  - exact Hx.
  - exists c_page. split; [reflexivity |]. split.
    + cbn in Hf |- *. intuition.
    + intros g Hg E. cbn in Hf, Hg. repeat (destruct Hf as [<- | Hf];
        [repeat (destruct Hg as [<- | Hg]; [try reflexivity; discriminate E |]); contradiction |]). contradiction.
  - cbn in Hf. repeat (destruct Hf as [<- | Hf]; [reflexivity |]). contradiction.
  - intros lab. cbn. destruct (String.eqb lab "next_id"); [| discriminate]. intros E. inversion E as [E1]. cbn in Hf.
    repeat (destruct Hf as [<- | Hf]; [discriminate E1 |]). contradiction.
  - cbn in Hf. repeat (destruct Hf as [<- | Hf]; [reflexivity |]). contradiction.
Qed.

(** Nested input that reaches both pages and tries every protected field: the sizes change,
    the protected fields do not, and the field that may be written non-null is written. *)
Definition page_input : list (string * value) :=
  [("title", VStr "u"); ("code", VInt 9); ("note", VStr "m"); ("tags", VList []); ("size", VInt 4);
   ("next", VDict [("id", VInt 1); ("title", VStr "u"); ("note", VNone); ("size", VInt 8)])].
Example C26_example :
  exists w', sets page_prog "title" page_world w' /\
  tame_classes 3 page_prog /\ late_classes 3 page_prog /\ own_name page_prog "title" /\ considerate page_prog 0%nat "title" /\
  holds_data page_prog (w_heap page_world) 0%nat wf_title /\ f_write_rule (fl_fdef wf_title) = NoWrite /\
  w_attr w' 0%nat "title" = Some (VStr "t") /\ w_attr w' 0%nat "size" = Some (VInt 4) /\ w_attr w' 0%nat "tags" = Some (VList [VInt 1; VInt 2]).
Proof.
  exists (snd (jset page_prog 9 0%nat page_input page_world)). split.
  { eapply sets_one; [| apply surjective_pairing | constructor]. intros key v H. vm_compute in H. contradiction. }
  repeat apply conj; try (match goal with |- _ = _ => vm_compute; reflexivity end).
  - apply page_tame.
  - apply page_late.
  - apply page_own. left. reflexivity.
  - apply page_considerate.
  - apply page_holds; [left; reflexivity | lia].
Qed.
Example C27_example :
  exists w', sets page_prog "code" page_world w' /\ sets page_prog "note" page_world w' /\
  own_name page_prog "code" /\ own_name page_prog "note" /\ considerate page_prog 0%nat "code" /\
  holds_data page_prog (w_heap page_world) 0%nat wf_code /\ holds_data page_prog (w_heap page_world) 0%nat wf_note /\
  f_write_rule (fl_fdef wf_code) = WriteOnce /\ f_write_rule (fl_fdef wf_note) = WriteNonnull /\
  (forall m, In m (fl_types wf_note) -> solid m = true) /\
  w_attr w' 0%nat "code" = Some (VInt 5) /\ w_attr w' 0%nat "note" = Some (VStr "m").
Proof.
  exists (snd (jset page_prog 9 0%nat page_input page_world)). split; [| split].
  1, 2: eapply sets_one; [| apply surjective_pairing | constructor]; intros key v H; vm_compute in H; contradiction.
  repeat apply conj; try (match goal with |- _ = _ => vm_compute; reflexivity end).
  - apply page_own. cbn. intuition.
  - apply page_own. cbn. intuition.
  - apply page_considerate.
  - apply page_holds; [cbn; intuition | lia].
  - apply page_holds; [cbn; intuition | lia].
  - intros m Hm. cbn in Hm. repeat (destruct Hm as [<- | Hm]; [reflexivity |]). contradiction.
Qed.

(** ** Where the properties fail *)
(** A compound key that leads into a read-only list changes it. *)
Theorem C26_keypath_refuted :
  exists P f x o kwargs n w,
    tame_classes 3 P /\ late_classes 3 P /\ own_name P (fl_name f) /\ considerate P x (fl_name f) /\
    holds_data P (w_heap w) x f /\ f_write_rule (fl_fdef f) = NoWrite /\
    fst (jset P n o kwargs w) = Ok tt /\
    w_attr (snd (jset P n o kwargs w)) x (fl_name f) <> w_attr w x (fl_name f).
Proof.
  exists page_prog, wf_tags, 0%nat, 0%nat, [("tags.0", VInt 7)], 9%nat, page_world.
  repeat apply conj; try (match goal with |- f_write_rule _ = _ => reflexivity end).
  - apply page_tame.
  - apply page_late.
  - apply page_own. cbn. intuition.
  - apply page_considerate.
  - apply page_holds; [cbn; intuition | lia].
  - vm_compute. reflexivity.
  - vm_compute. discriminate.
Qed.
Print Assumptions C26_keypath_refuted.

(** The side of a link is found by name: assigning an object of another class to the
    reference writes that object's own read-only field of the same name. *)
Definition w_odd : field := mkf "badge" "badge_ref" [tstr; MReadonly].
Definition own_ct (c : string) : option cdef :=
  if String.eqb c "Badge" then Some (mkc "Badge" [f_id; mkf "owner" "owner_id" [MInstance "Person"; MLinkto]])
  else if String.eqb c "Person" then Some (mkc "Person" [f_id; mkf "badge" "badge_id" [MInstance "Badge"; MLinkedby "owner"]])
  else if String.eqb c "Robot" then Some (mkc "Robot" [f_id; w_odd])
  else None.
Definition own_prog : program := mkprog own_ct no_guards no_hooks.
Definition own_world : world := mkw
  {| h_obj := fun o => {| o_class := if Nat.eqb o 0 then "Badge" else "Robot";
       o_attr := fun n => sget n [("id", VInt (Z.of_nat o)); ("badge", VStr "b"); ("owner", VNone); ("owner_id", VNone)];
       o_new := false; o_modified := false; o_mfields := []; o_prev := [];
       o_lkeys := if Nat.eqb o 0 then [("owner_id", "owner")] else [];
       o_raw := []; o_unlinked := []; o_operator := VNone |};
     h_next := 2%nat; h_graph := {| graphs := repeat [] 2; graph_of := fun o => Nat.min o 1 |} |}.
Theorem C26_shared_name_refuted :
  exists P f x o kwargs n w,
    considerate P x (fl_name f) /\ holds_data P (w_heap w) x f /\ f_write_rule (fl_fdef f) = NoWrite /\ avoids (fl_name f) kwargs /\
    fst (jset P n o kwargs w) = Ok tt /\
    w_attr (snd (jset P n o kwargs w)) x (fl_name f) <> w_attr w x (fl_name f).
Proof.
  exists own_prog, w_odd, 1%nat, 0%nat, [("owner", VObj 1%nat)], 9%nat, own_world.
  repeat apply conj; try (match goal with |- f_write_rule _ = _ => reflexivity end).
  - split; [intros f c args h | intros o n v h; apply leaves_refl]. cbn. do 5 (destruct f as [| f]; [apply leaves_refl |]). apply leaves_refl.
  - constructor; try reflexivity; [cbn; lia | | discriminate].
    eexists. split; [reflexivity |]. split; [right; left; reflexivity |]. intros g Hg E. cbn in Hg.
    destruct Hg as [<- | [<- | []]]; [discriminate E | reflexivity].
  - intros key v H. vm_compute in H. contradiction.
  - vm_compute. reflexivity.
  - vm_compute. discriminate.
Qed.
Print Assumptions C26_shared_name_refuted.

(** Items checked eagerly are remembered, and a default that mentions an existing object
    next to input for it resets the object's read-only field. *)
Definition box_ct (c : string) : option cdef :=
  if String.eqb c "Doc" then Some (mkc "Doc" [f_id; wf_title])
  else if String.eqb c "Box" then Some (mkc "Box"
    [f_id; mkf "docs" "doc_ids" [MDefault (PVal (VList [VObj 1%nat; VDict [("id", VInt 1); ("title", VStr "u")]])); MListOf [MInstance "Doc"; MEager]]])
  else if String.eqb c "Desk" then Some (mkc "Desk" [f_id; mkf "box" "box_id" [MInstance "Box"]])
  else None.
Definition box_prog : program := mkprog box_ct no_guards no_hooks.
Definition box_world : world := mkw
  {| h_obj := fun o => {| o_class := if Nat.eqb o 0 then "Desk" else "Doc";
       o_attr := fun n => sget n [("id", VInt (Z.of_nat o)); ("title", VStr "t"); ("box", VNone)];
       o_new := false; o_modified := false; o_mfields := []; o_prev := []; o_lkeys := [];
       o_raw := []; o_unlinked := []; o_operator := VNone |};
     h_next := 2%nat; h_graph := {| graphs := repeat [] 2; graph_of := fun o => Nat.min o 1 |} |}.
Lemma box_cases cls d : p_ct box_prog cls = Some d -> box_ct "Doc" = Some d \/ box_ct "Box" = Some d \/ box_ct "Desk" = Some d.
Proof.
  cbn. unfold box_ct. cbn. destruct (String.eqb cls "Doc"); [tauto |]. destruct (String.eqb cls "Box"); [tauto |].
  destruct (String.eqb cls "Desk"); [tauto |]. discriminate.
Qed.
Ltac in_box Hc Hf := apply box_cases in Hc; destruct Hc as [Hc | [Hc | Hc]]; injection Hc as <-; cbn in Hf.
Theorem C26_eager_refuted :
  exists P f x o kwargs n w,
    tame_classes 3 P /\ own_name P (fl_name f) /\ considerate P x (fl_name f) /\
    holds_data P (w_heap w) x f /\ f_write_rule (fl_fdef f) = NoWrite /\ avoids (fl_name f) kwargs /\
    fst (jset P n o kwargs w) = Ok tt /\
    w_attr (snd (jset P n o kwargs w)) x (fl_name f) <> w_attr w x (fl_name f).
Proof.
  exists box_prog, wf_title, 1%nat, 0%nat, [("box", VDict [])], 19%nat, box_world.
  repeat apply conj; try (match goal with |- f_write_rule _ = _ => reflexivity end).
  - intros cls c f m Hc Hf Hm. apply tame_b. in_box Hc Hf;
    (repeat (destruct Hf as [<- | Hf]; [cbn in Hm; repeat (destruct Hm as [<- | Hm]; [reflexivity |]); contradiction |]); contradiction).
  - apply WriteFrame.own_data; intros cls d g Hc Hf E; in_box Hc Hf; repeat (destruct Hf as [<- | Hf]; [try reflexivity; discriminate E |]); contradiction.
  - split; [intros f c args h | intros o n v h; apply leaves_refl]. cbn. do 5 (destruct f as [| f]; [apply leaves_refl |]). apply leaves_refl.
  - constructor; try reflexivity; [cbn; lia | | discriminate].
    eexists. split; [reflexivity |]. split; [right; left; reflexivity |]. intros g Hg E. cbn in Hg.
    destruct Hg as [<- | [<- | []]]; [discriminate E | reflexivity].
  - intros key v H. vm_compute in H. contradiction.
  - vm_compute. reflexivity.
  - vm_compute. discriminate.
Qed.
Print Assumptions C26_eager_refuted.

(** References are not covered: the stored key of a read-only or write-once reference is
    written whenever the input names it. *)
Definition lock_ct (c : string) : option cdef :=
  if String.eqb c "Note" then Some (mkc "Note"
    [f_id; mkf "author" "author_id" [MInstance "User"; MLinkto; MReadonly]; mkf "editor" "editor_id" [MInstance "User"; MLinkto; MWriteonce]])
  else if String.eqb c "User" then Some (mkc "User"
    [f_id; mkf "written" "written_ids" [MListOf [MInstance "Note"]; MLinkedby "author"];
     mkf "edited" "edited_ids" [MListOf [MInstance "Note"]; MLinkedby "editor"]])
  else None.
Definition lock_prog : program := mkprog lock_ct no_guards no_hooks.
Definition lock_world : world := mkw
  {| h_obj := fun o => {| o_class := "Note";
       o_attr := fun n => sget n [("id", VInt 0); ("author", VNone); ("author_id", VInt 5); ("editor", VNone); ("editor_id", VInt 6)];
       o_new := false; o_modified := false; o_mfields := []; o_prev := []; o_lkeys := [("author_id", "author"); ("editor_id", "editor")];
       o_raw := []; o_unlinked := []; o_operator := VNone |};
     h_next := 1%nat; h_graph := {| graphs := repeat [] 1; graph_of := fun o => 0%nat |} |}.
Theorem C26_reference_refuted :
  exists P x kwargs n w f g,
    field_named "author" (wcdef P w x) = Some f /\ f_write_rule (fl_fdef f) = NoWrite /\
    field_named "editor" (wcdef P w x) = Some g /\ f_write_rule (fl_fdef g) = WriteOnce /\
    w_attr w x (fl_ref f) = Some (VInt 5) /\ w_attr w x (fl_ref g) = Some (VInt 6) /\
    fst (jset P n x kwargs w) = Ok tt /\
    w_attr (snd (jset P n x kwargs w)) x (fl_ref f) = Some (VInt 8) /\ w_attr (snd (jset P n x kwargs w)) x (fl_ref g) = Some (VInt 9).
Proof.
  exists lock_prog, 0%nat, [("author_id", VInt 8); ("editor_id", VInt 9)], 9%nat, lock_world.
  eexists. eexists. split; [reflexivity |]. split; [reflexivity |]. split; [reflexivity |]. repeat apply conj; try reflexivity.
Qed.
Print Assumptions C26_reference_refuted.

(** A chain that turns a value into None lets a non-null field become None. *)
Definition wf_mark : field := mkf "mark" "mark_id" [MTransform (PCall 0%nat); MWritenonnull].
Definition mark_prog : program := mkprog (fun c => if String.eqb c "Mark" then Some (mkc "Mark" [f_id; wf_mark]) else None) no_guards no_hooks.
Definition mark_world : world := mkw
  {| h_obj := fun o => {| o_class := "Mark";
       o_attr := fun n => sget n [("id", VInt 0); ("mark", VStr "m")];
       o_new := false; o_modified := false; o_mfields := []; o_prev := []; o_lkeys := [];
       o_raw := []; o_unlinked := []; o_operator := VNone |};
     h_next := 1%nat; h_graph := {| graphs := repeat [] 1; graph_of := fun o => 0%nat |} |}.
Theorem C27_transformed_null_refuted :
  exists P D f x v w w',
    tame_classes D P /\ late_classes D P /\ own_name P (fl_name f) /\ considerate P x (fl_name f) /\
    holds_data P (w_heap w) x f /\ f_write_rule (fl_fdef f) = WriteNonnull /\
    w_attr w x (fl_name f) = Some v /\ v <> VNone /\
    sets P (fl_name f) w w' /\ w_attr w' x (fl_name f) = Some VNone.
Proof.
  exists mark_prog, 3%nat, wf_mark, 0%nat, (VStr "m"), mark_world, (snd (jset mark_prog 9 0%nat [("mark", VStr "x")] mark_world)).
  repeat apply conj; try (match goal with |- _ = _ => vm_compute; reflexivity end).
  - intros cls c f m Hc Hf Hm. apply tame_b. cbn in Hc. destruct (String.eqb cls "Mark"); [| discriminate Hc]. injection Hc as <-. cbn in Hf.
    repeat (destruct Hf as [<- | Hf]; [cbn in Hm; repeat (destruct Hm as [<- | Hm]; [reflexivity |]); contradiction |]). contradiction.
  - intros cls c f Hc Hf. cbn in Hc. destruct (String.eqb cls "Mark"); [| discriminate Hc]. injection Hc as <-. cbn in Hf.
    repeat (destruct Hf as [<- | Hf]; [split; [apply no_eager; reflexivity
      | intros m Hm; apply late_b; cbn in Hm; repeat (destruct Hm as [<- | Hm]; [reflexivity |]); contradiction] |]). contradiction.
  - apply WriteFrame.own_data; intros cls d g Hc Hf E; cbn in Hc; (destruct (String.eqb cls "Mark"); [| discriminate Hc]); injection Hc as <-; cbn in Hf;
      repeat (destruct Hf as [<- | Hf]; [try reflexivity; discriminate E |]); contradiction.
  - split; [intros f c args h | intros o n v h; apply leaves_refl]. cbn. do 5 (destruct f as [| f]; [apply leaves_refl |]). apply leaves_refl.
  - constructor; try reflexivity; [cbn; lia | | discriminate].
    eexists. split; [reflexivity |]. split; [right; left; reflexivity |]. intros g Hg E. cbn in Hg.
    destruct Hg as [<- | [<- | []]]; [discriminate E | reflexivity].
  - discriminate.
  - eapply sets_one; [| apply surjective_pairing | constructor]. intros key v H. vm_compute in H. contradiction.
Qed.
Print Assumptions C27_transformed_null_refuted.
