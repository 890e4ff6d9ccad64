(** PropMake.v -- C30: what the fields of a newly made object hold. *)
From Verif Require Import Base Mon PyList PyDict StrDict KeypathModel KeypathSpec Values OGraphModel ChainModel TypesModel ObjModel ObjSpec
  ObjExample IoModel IoExample IoBase TameSpec WriteSpec InitProofs MakeSpec MakeProofs PropGraph PropWrite.
From Verif Require LeafModel WriteFrame.
Open Scope string_scope.
Open Scope list_scope.

Lemma if_given (K : Prop) Q d : forall m, tame d m -> (K -> holds_only Q d m) -> holds_only (fun c => K -> Q c) d m.
Proof.
  induction d as [| d IH]; intros m T H; [exact T |]. destruct m; cbn in *; try exact Logic.I.
  - exact H.
  - intros y Hy. apply IH; [apply T, Hy | intros k; apply (H k y Hy)].
  - intros y Hy. apply IH; [apply T, Hy | intros k; apply (H k y Hy)].
  - intros us y Hu Hy. apply IH; [apply (T us y Hu Hy) | intros k; apply (H k us y Hu Hy)].
Qed.

(** ** C30 *)
(** Construction that succeeds gives a new, unmodified object of the class, and each of its data
    fields holds what [expected] says: the transformed input if the field takes it, its default
    otherwise.  The input has no compound keys; if it gives a primary key, then no field holds
    objects of the class, so no nested input can name the new object. *)
Theorem C30_fields_and_new : forall P D cls d f kwargs n w x w',
  tame_classes D P -> late_classes D P -> own_name P (fl_name f) ->
  considerate P (h_next (w_heap w)) (fl_name f) -> newborn P (h_next (w_heap w)) ->
  p_ct P cls = Some d -> proper_names d -> (2 <= p_lim P)%nat ->
  In f (cd_fields d) -> plain_field f = true ->
  (key_given d kwargs -> nowhere_held cls D P) ->
  Forall (fun kv => plain (fst kv)) kwargs ->
  construct P n cls kwargs w = (Ok x, w') ->
  x = h_next (w_heap w) /\ o_class (h_obj (w_heap w') x) = cls /\
  o_new (h_obj (w_heap w') x) = true /\ o_modified (h_obj (w_heap w') x) = false /\
  exists y, attr (w_heap w') x (fl_name f) = Some y /\ expected P x f kwargs y.
Proof.
  intros P D cls d f kwargs n w x w' TC LC ON CS CN Ed Pn Lim Hf Fp Kg Pl E.
  eapply construct_field; try eassumption. intros c0 d0 g m Hc Hg Hm. apply if_given; [apply (TC _ _ _ _ Hc Hg Hm) | intros k; apply (Kg k _ _ _ _ Hc Hg Hm)].
Qed.
Print Assumptions C30_fields_and_new.

(** ** A program that meets the hypotheses *)
Definition mf_name : field := mkf "name" "name_id" [tstr].
Definition mf_code : field := mkf "code" "code_id" [MWriteonce; tint; MDefault (PVal (VInt 5))].
Definition mf_lock : field := mkf "lock" "lock_id" [MReadonly; tstr; MDefault (PVal (VStr "x"))].
Definition mf_note : field := mkf "note" "note_id" [MWritenonnull; tstr; MDefault (PVal (VStr "n"))].
Definition mf_size : field := mkf "size" "size_id" [tint; MDefault (PVal (VInt 1))].
Definition c_crate : cdef := mkc "Crate"
  [ f_id; mf_name; mf_code; mf_lock; mf_note; mf_size; mkf "lid" "lid_id" [MInstance "Lid"; MLinkto] ].
Definition c_lid : cdef := mkc "Lid"
  [ f_id; mkf "hue" "hue_id" [MWriteonce; tint; MDefault (PVal (VInt 5))] ].
Definition make_ct (c : string) : option cdef :=
  if String.eqb c "Crate" then Some c_crate else if String.eqb c "Lid" then Some c_lid else None.
Definition make_prog : program := mkprog make_ct no_guards no_hooks.
Definition make_world : world := mkw {| h_obj := fun _ => fresh_obj ""; h_next := 0%nat; h_graph := {| graphs := []; graph_of := fun o => o |} |}.
Definition make_input : list (string * value) :=
  [("id", VInt 3); ("name", VStr "a"); ("code", VInt 9); ("lock", VStr "y"); ("note", VNone); ("lid", VDict [("hue", VInt 7)])].
Definition made := construct make_prog 9 "Crate" make_input make_world.

Lemma make_cases cls d : p_ct make_prog cls = Some d -> d = c_crate \/ d = c_lid.
Proof. cbn. unfold make_ct. destruct (String.eqb cls "Crate"); [intros E; injection E; auto |]. destruct (String.eqb cls "Lid"); [intros E; injection E; auto | discriminate]. Qed.
Ltac in_make Hc Hf := destruct (make_cases _ _ Hc) as [-> | ->]; cbn in Hf;
  repeat (destruct Hf as [<- | Hf]; [| try contradiction]); try contradiction.
Ltac in_chain Hm := cbn in Hm; repeat (destruct Hm as [<- | Hm]; [| try contradiction]); try contradiction.
Lemma make_tame : tame_classes 3 make_prog.
Proof. intros cls c f m Hc Hf Hm. apply tame_b. in_make Hc Hf; in_chain Hm; reflexivity. Qed.
Lemma make_late : late_classes 3 make_prog.
Proof.
  intros cls c f Hc Hf. in_make Hc Hf; (split; [apply no_eager; reflexivity | intros m Hm; apply late_b; in_chain Hm; reflexivity]).
Qed.
Lemma make_own k : In k ["name"; "code"; "lock"; "note"; "size"; "hue"] -> own_name make_prog k.
Proof.
  intros Hk. apply WriteFrame.own_data.
  - intros cls d g Hc Hf E. in_make Hc Hf; try reflexivity; exfalso; subst k; cbn in Hk; intuition discriminate.
  - intros cls d g Hc Hf E. in_make Hc Hf; subst k; cbn in Hk; intuition discriminate.
Qed.
Lemma calls_nothing P x k : p_call P = ex_call -> p_setter P = ex_setter -> considerate P x k /\ newborn P x.
Proof.
  intros E1 E2. split; (split; [intros f c args h | intros o n v h; rewrite E2]).
  - rewrite E1. do 5 (destruct f as [| f]; [apply leaves_refl |]). apply leaves_refl.
  - apply leaves_refl.
  - rewrite E1. do 5 (destruct f as [| f]; [intros X Y; split; assumption |]). intros X Y. split; assumption.
  - intros X Y. split; assumption.
Qed.
Lemma make_names : proper_names c_crate.
Proof.
  split.
  - cbn. repeat (constructor; [cbn; intuition discriminate |]). constructor.
  - intros f g Hf Hg L. cbn in Hf, Hg.
    repeat (destruct Hf as [<- | Hf]; [try discriminate L; repeat (destruct Hg as [<- | Hg]; [discriminate |]); contradiction |]). contradiction.
Qed.
Lemma make_nowhere : nowhere_held "Crate" 3 make_prog.
Proof. intros cls c f m Hc Hf Hm. in_make Hc Hf; in_chain Hm; cbn; try exact Logic.I; discriminate. Qed.

(** A key, a name, a write-once code, refused input for a read-only field, refused null, an
    absent field and a nested object *)
Example C30_example :
  tame_classes 3 make_prog /\ late_classes 3 make_prog /\
  (forall f, In f [mf_name; mf_code; mf_lock; mf_note; mf_size] ->
     own_name make_prog (fl_name f) /\ In f (cd_fields c_crate) /\ plain_field f = true) /\
  (forall k, considerate make_prog 0%nat k) /\ newborn make_prog 0%nat /\ proper_names c_crate /\ (2 <= p_lim make_prog)%nat /\
  (key_given c_crate make_input /\ nowhere_held "Crate" 3 make_prog) /\ Forall (fun kv => plain (fst kv)) make_input /\
  fst made = Ok 0%nat /\
  map (attr (w_heap (snd made)) 0%nat) ["id"; "name"; "code"; "lock"; "note"; "size"; "lid"] =
    [Some (VInt 3); Some (VStr "a"); Some (VInt 9); Some (VStr "x"); Some (VStr "n"); Some (VInt 1); Some (VObj 1%nat)].
Proof.
  repeat apply conj; try (match goal with |- _ = _ => vm_compute; reflexivity end).
  - apply make_tame.
  - apply make_late.
  - intros f Hf. repeat apply conj.
    + apply make_own. cbn in Hf |- *. repeat (destruct Hf as [<- | Hf]; [cbn; tauto |]). contradiction.
    + cbn in Hf |- *. tauto.
    + cbn in Hf. repeat (destruct Hf as [<- | Hf]; [reflexivity |]). contradiction.
  - intros k. apply (calls_nothing make_prog 0%nat k); reflexivity.
  - apply (calls_nothing make_prog 0%nat ""); reflexivity.
  - apply make_names.
  - cbn. lia.
  - exists f_id, (VInt 3). split; [reflexivity | split; [reflexivity | discriminate]].
  - apply make_nowhere.
  - repeat (constructor; [cbn; unfold plain; cbn; intuition discriminate |]). constructor.
Qed.

(** ** Where the property fails *)
Lemma int_kept P x f z y : fl_types f = [tint] \/ fl_types f = [MWriteonce; tint; MDefault (PVal (VInt 5))] -> makes_of P x f (VInt z) y -> y = VInt z.
Proof.
  intros Et (n & c & w1 & w2 & Ev & _ & _ & _ & E).
  destruct Et as [Et | Et]; rewrite Et in E; destruct n as [| n]; cbn in E; try discriminate E.
  - unfold LeafModel.leaf_transform in E. cbn in E. rewrite Ev in E. cbn in E. inversion E. reflexivity.
  - unfold LeafModel.leaf_transform in E. cbn in E. rewrite Ev in E. cbn in E. inversion E. reflexivity.
Qed.

(** Nested input with the class and the primary key of the new object is about the new object,
    and overwrites what the outer input gave. *)
Theorem C30_same_key_refuted :
  exists P d f kwargs n w x w',
    tame_classes 3 P /\ late_classes 3 P /\ own_name P (fl_name f) /\ considerate P x (fl_name f) /\ newborn P x /\
    p_ct P "Page" = Some d /\ In f (cd_fields d) /\ plain_field f = true /\ Forall (fun kv => plain (fst kv)) kwargs /\
    construct P n "Page" kwargs w = (Ok x, w') /\ x = h_next (w_heap w) /\
    input_of f kwargs = Some (VInt 3) /\ attr (w_heap w') x (fl_name f) = Some (VInt 8) /\
    ~ exists y, attr (w_heap w') x (fl_name f) = Some y /\ expected P x f kwargs y.
Proof.
  set (kw := [("id", VInt 1); ("size", VInt 3); ("next", VDict [("id", VInt 1); ("size", VInt 8)])]).
  exists page_prog, c_page, (mkf "size" "size_id" [tint]), kw, 9%nat, make_world, 0%nat, (snd (construct page_prog 9 "Page" kw make_world)).
  assert (E : attr (w_heap (snd (construct page_prog 9 "Page" kw make_world))) 0%nat "size" = Some (VInt 8)) by (vm_compute; reflexivity).
  repeat apply conj; try (match goal with |- _ = Some _ => vm_compute; reflexivity | |- plain_field _ = _ => reflexivity end).
  - apply page_tame.
  - apply page_late.
  - apply WriteFrame.own_data.
    + intros cls d g Hc Hf X. in_page Hc Hf. repeat (destruct Hf as [<- | Hf]; [try reflexivity; discriminate X |]). contradiction.
    + intros cls d g Hc Hf X. in_page Hc Hf. repeat (destruct Hf as [<- | Hf]; [discriminate X |]). contradiction.
  - apply page_considerate.
  - apply (calls_nothing page_prog 0%nat ""); reflexivity.
  - cbn. tauto.
  - repeat (constructor; [cbn; unfold plain; cbn; intuition discriminate |]). constructor.
  - rewrite (surjective_pairing (construct page_prog 9 "Page" kw make_world)) at 1. f_equal.
  - reflexivity.
  - intros (y & Hy & X). cbn [fl_name mkf] in Hy. rewrite E in Hy. injection Hy as <-. unfold expected in X. cbn in X. destruct X as [[_ X] | [X _]].
    + apply int_kept in X; [discriminate X | left; reflexivity].
    + apply X. exact Logic.I.
Qed.
Print Assumptions C30_same_key_refuted.

(** An object made from nested input is first made with its defaults, and its write-once
    fields that have one keep it, whatever the nested input says. *)
Theorem C30_nested_writeonce_refuted :
  exists P f nested n w x y w',
    tame_classes 3 P /\ late_classes 3 P /\ own_name P (fl_name f) /\ plain_field f = true /\
    p_ct P "Lid" = Some c_lid /\ In f (cd_fields c_lid) /\
    construct P n "Crate" [("lid", VDict nested)] w = (Ok x, w') /\ attr (w_heap w') x "lid" = Some (VObj y) /\
    o_new (h_obj (w_heap w') y) = true /\
    input_of f nested = Some (VInt 7) /\ takes f (VInt 7) /\ attr (w_heap w') y (fl_name f) = Some (VInt 5) /\
    ~ exists z, attr (w_heap w') y (fl_name f) = Some z /\ expected P y f nested z.
Proof.
  set (nested := [("hue", VInt 7)]). set (kw := [("lid", VDict nested)]).
  exists make_prog, (mkf "hue" "hue_id" [MWriteonce; tint; MDefault (PVal (VInt 5))]), nested, 9%nat, make_world, 0%nat, 1%nat, (snd (construct make_prog 9 "Crate" kw make_world)).
  assert (E : attr (w_heap (snd (construct make_prog 9 "Crate" kw make_world))) 1%nat "hue" = Some (VInt 5)) by (vm_compute; reflexivity).
  repeat apply conj; try (match goal with |- _ = Some _ => vm_compute; reflexivity | |- _ = true => vm_compute; reflexivity end).
  - apply make_tame.
  - apply make_late.
  - apply make_own. cbn. tauto.
  - cbn. tauto.
  - rewrite (surjective_pairing (construct make_prog 9 "Crate" kw make_world)) at 1. f_equal. vm_compute. reflexivity.
  - exact Logic.I.
  - intros (y & Hy & X). cbn [fl_name mkf] in Hy. rewrite E in Hy. injection Hy as <-. unfold expected in X. cbn in X. destruct X as [[_ X] | [X _]].
    + apply int_kept in X; [discriminate X | right; reflexivity].
    + apply X. exact Logic.I.
Qed.
Print Assumptions C30_nested_writeonce_refuted.
