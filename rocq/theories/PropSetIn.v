(** PropSetIn.v -- C84: set writes exactly what the input gives. *)
From Coq Require Import Lia.
From Verif Require Import Base Mon PyList PyDict StrDict KeypathModel KeypathSpec Values OGraphModel ChainModel TypesModel ObjModel ObjSpec
  ObjExample IoModel IoExample IoBase TameSpec WriteSpec InitProofs MakeSpec MakeProofs PropGraph PropWrite PropMake SetInSpec SetInProofs.
From Verif Require LeafModel.
Open Scope string_scope.
Open Scope list_scope.

(** ** C84 *)
(** After a [set] that succeeds, a data field holds what [after_set] says: what it held, if
    the input does not name it or its write rule refuses the input, and otherwise what its
    types make of the input.  The input has no compound keys; if it gives a primary key, no
    field holds objects of the class. *)
Theorem C84_set : forall P D d f kwargs x cur n w w',
  tame_classes D P -> late_classes D P -> own_name P (fl_name f) -> considerate P x (fl_name f) ->
  holds_data P (w_heap w) x f ->
  p_ct P (o_class (h_obj (w_heap w) x)) = Some d -> NoDup (map fl_name (cd_fields d)) -> In f (cd_fields d) ->
  (1 <= p_lim P)%nat ->
  (key_given d kwargs -> nowhere_held (o_class (h_obj (w_heap w) x)) D P) ->
  Forall (fun kv => plain (fst kv)) kwargs ->
  attr (w_heap w) x (fl_name f) = Some cur ->
  jset P n x kwargs w = (Ok tt, w') ->
  exists z, attr (w_heap w') x (fl_name f) = Some z /\ after_set P x f kwargs cur z.
Proof.
  intros P D d f kwargs x cur n w w' TC LC ON CS HD Ed ND Hf Lim Kg Pl Ha E.
  destruct (jset_field P D _ d f kwargs x cur n w (Ok tt) w' TC LC ON CS HD eq_refl Ed ND Hf Lim) as (z & H1 & H2); try assumption.
  - intros c0 d0 g m Hc Hg Hm. apply if_given; [apply (TC _ _ _ _ Hc Hg Hm) | intros k; apply (Kg k _ _ _ _ Hc Hg Hm)].
  - exists z. auto.
Qed.
Print Assumptions C84_set.

(** If [set] raises, each field holds either what it held or what it would hold after success. *)
Theorem C84_failed : forall P D d f kwargs x cur n w e w',
  tame_classes D P -> late_classes D P -> own_name P (fl_name f) -> considerate P x (fl_name f) ->
  holds_data P (w_heap w) x f ->
  p_ct P (o_class (h_obj (w_heap w) x)) = Some d -> NoDup (map fl_name (cd_fields d)) -> In f (cd_fields d) ->
  (1 <= p_lim P)%nat ->
  (key_given d kwargs -> nowhere_held (o_class (h_obj (w_heap w) x)) D P) ->
  Forall (fun kv => plain (fst kv)) kwargs ->
  attr (w_heap w) x (fl_name f) = Some cur ->
  jset P n x kwargs w = (Err e, w') ->
  exists z, attr (w_heap w') x (fl_name f) = Some z /\ (after_set P x f kwargs cur z \/ z = cur).
Proof.
  intros P D d f kwargs x cur n w e w' TC LC ON CS HD Ed ND Hf Lim Kg Pl Ha E.
  destruct (jset_field P D _ d f kwargs x cur n w (Err e) w' TC LC ON CS HD eq_refl Ed ND Hf Lim) as (z & H1 & H2); try assumption.
  - intros c0 d0 g m Hc Hg Hm. apply if_given; [apply (TC _ _ _ _ Hc Hg Hm) | intros k; apply (Kg k _ _ _ _ Hc Hg Hm)].
  - exists z. auto.
Qed.
Print Assumptions C84_failed.

(** So a field that the input does not name keeps its value, whatever happens. *)
Theorem C84_unnamed : forall P D d f kwargs x cur n w r w',
  tame_classes D P -> late_classes D P -> own_name P (fl_name f) -> considerate P x (fl_name f) ->
  holds_data P (w_heap w) x f ->
  p_ct P (o_class (h_obj (w_heap w) x)) = Some d -> NoDup (map fl_name (cd_fields d)) -> In f (cd_fields d) ->
  (1 <= p_lim P)%nat ->
  (key_given d kwargs -> nowhere_held (o_class (h_obj (w_heap w) x)) D P) ->
  Forall (fun kv => plain (fst kv)) kwargs ->
  attr (w_heap w) x (fl_name f) = Some cur ->
  sget (fl_name f) kwargs = None -> sget (fl_json f) kwargs = None ->
  jset P n x kwargs w = (r, w') ->
  attr (w_heap w') x (fl_name f) = Some cur.
Proof.
  intros P D d f kwargs x cur n w r w' TC LC ON CS HD Ed ND Hf Lim Kg Pl Ha N1 N2 E.
  destruct (jset_field P D _ d f kwargs x cur n w r w' TC LC ON CS HD eq_refl Ed ND Hf Lim) as (z & H1 & H2); try assumption.
  - intros c0 d0 g m Hc Hg Hm. apply if_given; [apply (TC _ _ _ _ Hc Hg Hm) | intros k; apply (Kg k _ _ _ _ Hc Hg Hm)].
  - unfold after_set, input_of in H2. rewrite N1, N2 in H2. destruct r; [subst z; exact H1 | destruct H2; subst z; exact H1].
Qed.
Print Assumptions C84_unnamed.

(** ** A program that meets the hypotheses: the crates of PropMake.v *)
Definition crate_world : world := mkw
  {| h_obj := fun o => {| o_class := "Crate";
       o_attr := fun n => sget n [("id", VInt 3); ("name", VStr "a"); ("code", VInt 9); ("lock", VStr "x"); ("note", VStr "n");
                                  ("size", VInt 1); ("lid", VNone); ("lid_id", VNone)];
       o_new := false; o_modified := false; o_mfields := []; o_prev := []; o_lkeys := [("lid_id", "lid")];
       o_raw := []; o_unlinked := []; o_operator := VNone |};
     h_next := 1%nat; h_graph := {| graphs := repeat [] 1; graph_of := fun o => 0%nat |} |}.
Definition crate_input : list (string * value) :=
  [("name", VStr "b"); ("code", VInt 8); ("lock", VStr "y"); ("note", VNone); ("lid", VDict [("hue", VInt 7)])].
Definition crate_set := jset make_prog 9 0%nat crate_input crate_world.

Lemma crate_holds f : In f [mf_name; mf_code; mf_lock; mf_note; mf_size] -> holds_data make_prog (w_heap crate_world) 0%nat f.
Proof.
  intros Hf. constructor.
  - cbn. lia.
  - exists c_crate. split; [reflexivity |]. split.
    + cbn in Hf |- *. intuition.
    + intros g Hg E. cbn in Hf, Hg. repeat (destruct Hf as [<- | Hf];
        [repeat (destruct Hg as [<- | Hg]; [try reflexivity; discriminate E |]); contradiction |]). contradiction.
  - cbn in Hf. repeat (destruct Hf as [<- | Hf]; [reflexivity |]). contradiction.
  - intros lab. cbn. destruct (String.eqb lab "lid_id"); [| discriminate]. intros E. inversion E as [E1]. cbn in Hf.
    repeat (destruct Hf as [<- | Hf]; [discriminate E1 |]). contradiction.
  - cbn in Hf. repeat (destruct Hf as [<- | Hf]; [reflexivity |]). contradiction.
Qed.
(** The name is written; the write-once code, the read-only lock and the non-null note are
    not; the size is not named; a lid is made. *)
Example C84_example :
  (forall f, In f [mf_name; mf_code; mf_lock; mf_note; mf_size] ->
     own_name make_prog (fl_name f) /\ holds_data make_prog (w_heap crate_world) 0%nat f /\ In f (cd_fields c_crate)) /\
  (forall k, considerate make_prog 0%nat k) /\ NoDup (map fl_name (cd_fields c_crate)) /\
  ~ key_given c_crate crate_input /\ Forall (fun kv => plain (fst kv)) crate_input /\
  fst crate_set = Ok tt /\
  map (attr (w_heap (snd crate_set)) 0%nat) ["name"; "code"; "lock"; "note"; "size"; "lid"] =
    [Some (VStr "b"); Some (VInt 9); Some (VStr "x"); Some (VStr "n"); Some (VInt 1); Some (VObj 1%nat)].
Proof.
  repeat apply conj; try (match goal with |- _ = _ => vm_compute; reflexivity end).
  - intros f Hf. repeat apply conj.
    + apply make_own. cbn in Hf |- *. repeat (destruct Hf as [<- | Hf]; [cbn; tauto |]). contradiction.
    + apply crate_holds, Hf.
    + cbn in Hf |- *. tauto.
  - intros k. apply (calls_nothing make_prog 0%nat k); reflexivity.
  - apply (pn_names _ make_names).
  - intros (pf & v & E1 & E2 & _). injection E1 as <-. discriminate E2.
  - repeat (constructor; [cbn; unfold plain; cbn; intuition discriminate |]). constructor.
Qed.

(** ** Where more might be expected *)
Definition nf_title : field := mkf "title" "title_id" [tstr].
Definition nf_due : field := mkf "due" "due_id" [MLeaf (LeafModel.LType LeafModel.TDate)].
Definition note_ct (c : string) : option cdef := if String.eqb c "Note" then Some (mkc "Note" [f_id; nf_title; nf_due]) else None.
Definition note_prog : program := mkprog note_ct no_guards no_hooks.
Definition note_world : world := mkw
  {| h_obj := fun o => {| o_class := "Note";
       o_attr := fun n => sget n [("id", VInt 3); ("title", VStr "a"); ("due", VNone)];
       o_new := false; o_modified := false; o_mfields := []; o_prev := []; o_lkeys := [];
       o_raw := []; o_unlinked := []; o_operator := VNone |};
     h_next := 1%nat; h_graph := {| graphs := repeat [] 1; graph_of := fun o => 0%nat |} |}.
(** [set] is not all or nothing: a [set] that raises, here for a text that is no date, has
    written the fields before. *)
Theorem C84_atomic_refuted :
  exists P x kwargs n w e w',
    Forall (fun kv => plain (fst kv)) kwargs /\ jset P n x kwargs w = (Err e, w') /\
    attr (w_heap w) x "title" = Some (VStr "a") /\ attr (w_heap w') x "title" = Some (VStr "b").
Proof.
  set (r := jset note_prog 9 0%nat [("due", VStr "soon"); ("title", VStr "b")] note_world).
  exists note_prog, 0%nat, [("due", VStr "soon"); ("title", VStr "b")], 9%nat, note_world, (match fst r with Err e => e | _ => EValueError end), (snd r).
  split; [repeat (constructor; [cbn; unfold plain; cbn; intuition discriminate |]); constructor |].
  split; [| split; vm_compute; reflexivity].
  assert (X : exists e, fst r = Err e) by (vm_compute; eexists; reflexivity). destruct X as [e X].
  fold r. rewrite X. rewrite <- X. apply surjective_pairing.
Qed.
Print Assumptions C84_atomic_refuted.

(** Input that gives the object's own key, and nested input with the same class and key, is
    about the same object: the nested value is the one that stays. *)
Theorem C84_same_key_refuted :
  exists P d f kwargs n w x w' cur,
    tame_classes 3 P /\ late_classes 3 P /\ own_name P (fl_name f) /\ considerate P x (fl_name f) /\ holds_data P (w_heap w) x f /\
    p_ct P (o_class (h_obj (w_heap w) x)) = Some d /\ In f (cd_fields d) /\ Forall (fun kv => plain (fst kv)) kwargs /\
    attr (w_heap w) x (fl_name f) = Some cur /\
    jset P n x kwargs w = (Ok tt, w') /\
    input_of f kwargs = Some (VStr "m") /\ attr (w_heap w') x (fl_name f) = Some (VStr "q").
Proof.
  set (kw := [("id", VInt 0); ("note", VStr "m"); ("next", VDict [("id", VInt 0); ("note", VStr "q")])]).
  exists page_prog, c_page, wf_note, kw, 9%nat, page_world, 0%nat, (snd (jset page_prog 9 0%nat kw page_world)), (VStr "n").
  repeat apply conj; try (match goal with |- _ = Some _ => vm_compute; reflexivity end).
  - apply page_tame.
  - apply page_late.
  - apply page_own. cbn. tauto.
  - apply page_considerate.
  - apply page_holds; [cbn; tauto | lia].
  - cbn. tauto.
  - repeat (constructor; [cbn; unfold plain; cbn; intuition discriminate |]). constructor.
  - assert (X : fst (jset page_prog 9 0%nat kw page_world) = Ok tt) by (vm_compute; reflexivity).
    rewrite <- X. apply surjective_pairing.
Qed.
Print Assumptions C84_same_key_refuted.
