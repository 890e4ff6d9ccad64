(** PropOnsave.v -- C46: when the on-save setters run. *)
From Verif Require Import Base Mon PyList PyDict KeypathModel Values OGraphModel MGraphModel ChainModel TypesModel ObjModel ObjExample IoModel
  IoBase IoExample SaveSpec OutSpec OnsaveSpec OnsaveProofs.
From Verif Require LeafModel.
Open Scope string_scope.
Open Scope list_scope.

(** Preparing an object for saving runs the setters and callbacks of every field that is not
    calculated and does not store a key, if the object is new or modified or the field forces it. *)
Theorem C46_setters_run :
  forall (P : program) (n : nat) (o : oid) (d : cdef) (f : field) (m : mdf) (g : cbid) (w w' : world),
    set_on_save P n o w = (Ok tt, w') ->
    p_ct P (o_class (h_obj (w_heap w) o)) = Some d -> In f (cd_fields d) -> In m (fl_types f) -> sets_with g m ->
    is_calc f = false -> is_local f = false ->
    to_save (h_obj (w_heap w) o) \/ f_force_set_on_save (fl_fdef f) = true ->
    exists l, since w w' l /\ In (EvCall KSave g) l.
Proof. intros P n o d f m g w w' H1 H2 H3 H4 H5 H6 H7 H8. exact (setters_run P n o d f m g w w' H1 H2 H3 H4 H5 H6 H7 H8). Qed.
Print Assumptions C46_setters_run.

(** Preparing an object of a graph at rest changes no object and calls nothing. *)
Theorem C46_at_rest_unchanged :
  forall (P : program) (n : nat) (o : oid) (K : oid -> Prop) (w w' : world) (r : res unit),
    at_rest P (w_heap w) K -> K o -> set_on_save P n o w = (r, w') ->
    w_heap w' = w_heap w /\ w_log w' = w_log w.
Proof.
  intros P n o K w w' r A Ko E. pose proof (rest_save P (w_heap w) (w_log w) K A n o w Ko (conj eq_refl eq_refl)) as X.
  rewrite E in X. exact X.
Qed.
Print Assumptions C46_at_rest_unchanged.

(** ** Examples: a document with an embedded page; the page has a number set on save *)
Definition f_num : field := mkf "n" "n_id" [tint; MPreserialize; MSetonsave (PCall 4%nat) false; MLeaf (LeafModel.LMax (PVal (VInt 9)))].
Definition f_capped : field := mkf "n" "n_id" [tint; MPreserialize; MSetonsave (PCall 4%nat) false; MLeaf (LeafModel.LMax (PVal (VInt 5)))].
Definition f_forced : field := mkf "n" "n_id" [tint; MPreserialize; MSetonsave (PCall 4%nat) true].
Definition c_doc : cdef := mkc "Doc" [f_id; mkf "page" "page_id" [MInstance "Page"]; mkf "pages" "pages_ids" [MListOf [MInstance "Page"]]].
Definition on_ct (n : field) (c : string) : option cdef :=
  if String.eqb c "Doc" then Some c_doc else if String.eqb c "Page" then Some (mkc "Page" [f_id; n]) else None.
Definition on_prog (n : field) : program := mkprog (on_ct n) no_guards no_hooks.
Definition on_obj (cls : string) (attrs : list (string * value)) (new modified : bool) : obj :=
  {| o_class := cls; o_attr := fun n => sget n attrs;
     o_new := new; o_modified := modified; o_mfields := []; o_prev := []; o_lkeys := [];
     o_raw := []; o_unlinked := []; o_operator := VNone |}.
(** documents 0 and 1, page 2 (shared) and page 3 *)
Definition on_heap (new : bool) : heap :=
  {| h_obj := fun o => match o with
       | 0%nat => on_obj "Doc" [("id", VInt 1); ("page", VObj 2); ("pages", VList [VObj 2; VObj 3])] false false
       | 1%nat => on_obj "Page" [("id", VInt 4); ("n", VInt 1)] true false
       | 2%nat => on_obj "Page" [("id", VInt 2); ("n", VInt 1)] new false
       | _ => on_obj "Page" [("id", VInt 3); ("n", VNone)] false false
       end%nat; h_next := 4%nat; h_graph := h_graph (ex_heap true) |}.

Definition on_w (new : bool) : world := mkw (on_heap new).

(** The heap of saved objects is at rest, and preparing the document leaves it alone. *)
Definition on_kept (o : oid) : Prop := o = 0%nat \/ o = 2%nat \/ o = 3%nat.
Lemma on_rest : at_rest (on_prog f_num) (on_heap false) on_kept.
Proof.
  constructor.
  - intros o [-> | [-> | ->]]; split; reflexivity.
  - intros o d [-> | [-> | ->]] E; inversion E; subst; cbn; repeat constructor; cbn; intuition discriminate.
  - intros o d f [-> | [-> | ->]] E; inversion E; subst; cbn; intros H; repeat (destruct H as [<- | H]; [reflexivity |]); destruct H.
  - intros o d f m [-> | [-> | ->]] E; inversion E; subst; cbn [cd_fields c_doc mkc]; intros H;
      repeat (destruct H as [<- | H]; [intros [R | R]; try discriminate R; cbn [fl_types mkf]; intros M;
        repeat (destruct M as [<- | M]; [|]); try destruct M;
        first [apply pass_object | apply pass_list; intros x [<- | []]; apply pass_object | apply pass_idle; reflexivity] |]); destruct H.
  - intros o d f v [-> | [-> | ->]] E; inversion E; subst; cbn [cd_fields c_doc mkc]; intros H;
      repeat (destruct H as [<- | H]; [intros [R | R]; try discriminate R; intros V; inversion V; subst; (split; [reflexivity |]);
        intros x X; unfold on_kept; inversion X; subst; auto;
        match goal with H1 : In _ _, H2 : occurs _ _ |- _ => cbn in H1; repeat (destruct H1 as [<- | H1]; [inversion H2; subst; auto |]); destruct H1 end |]); destruct H.
Qed.
Example C46_document_at_rest : forall n r w', set_on_save (on_prog f_num) n 0%nat (on_w false) = (r, w') -> w_heap w' = on_heap false /\ w_log w' = [].
Proof. intros n r w' E. exact (C46_at_rest_unchanged _ n 0%nat on_kept (on_w false) w' r on_rest (or_introl eq_refl) E). Qed.
Example C46_document_prepared : fst (set_on_save (on_prog f_num) 10 0%nat (on_w false)) = Ok tt.
Proof. vm_compute. reflexivity. Qed.

(** The setter of a new page runs and its value is stored; that of a saved page does not. *)
Example C46_new_page :
  let s := set_on_save (on_prog f_num) 10 1%nat (on_w false) in
  fst s = Ok tt /\ attr (w_heap (snd s)) 1%nat "n" = Some (VInt 7) /\ w_log (snd s) = [EvCall KSave 4%nat] /\
  to_save (h_obj (on_heap false) 1%nat) /\ sets_with 4%nat (MSetonsave (PCall 4%nat) false) /\ is_calc f_num = false /\ is_local f_num = false.
Proof. repeat apply conj; try reflexivity; try (vm_compute; reflexivity). left; reflexivity. Qed.
(** A setter that is forced runs on a saved page too. *)
Example C46_forced :
  let s := set_on_save (on_prog f_forced) 10 3%nat (on_w false) in
  fst s = Ok tt /\ attr (w_heap (snd s)) 3%nat "n" = Some (VInt 7) /\ f_force_set_on_save (fl_fdef f_forced) = true.
Proof. repeat apply conj; vm_compute; reflexivity. Qed.

(** A value is stored before the modifiers after the setter see it: the value 7, which the
    field's own maximum of 5 rejects, is in the page after the failed save. *)
Theorem C46_rejected_value_stored_refuted :
  let s := set_on_save (on_prog f_capped) 10 1%nat (on_w false) in
  (exists msgs, fst s = Err (EValidation msgs)) /\ attr (w_heap (snd s)) 1%nat "n" = Some (VInt 7).
Proof. split; [| vm_compute; reflexivity]. vm_compute. eexists. reflexivity. Qed.
Print Assumptions C46_rejected_value_stored_refuted.

(** The document is saved and unmodified, its page is new: setting the page's number writes
    the number to the document as well, and then the page is put back, so that the document
    becomes modified. *)
Theorem C46_neighbour_refuted :
  let s := set_on_save (on_prog f_num) 10 0%nat (on_w true) in
  let doc := h_obj (w_heap (snd s)) 0%nat in
  fst s = Ok tt /\ o_modified (h_obj (on_heap true) 0%nat) = false /\ o_new (h_obj (on_heap true) 0%nat) = false /\
  o_modified doc = true /\ o_mfields doc = ["page"] /\ o_attr doc "page" = Some (VObj 2%nat).
Proof. repeat apply conj; vm_compute; reflexivity. Qed.
Print Assumptions C46_neighbour_refuted.
