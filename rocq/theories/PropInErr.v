(** PropInErr.v -- C88: what a validation error of the constructor or of [set] reports. *)
From Verif Require Import Base Mon PyList PyDict KeypathModel KeypathSpec Values OGraphModel MGraphModel ChainModel TypesModel ObjModel ObjExample IoModel
  IoBase IoExample TameSpec WriteSpec ReportSpec MakeSpec StrictSpec PropGraph PropWrite PropMake PropReport InErrSpec InErrProofs.
From Verif Require LeafModel.
Open Scope string_scope.
Open Scope list_scope.

(** Every message of a validation error of a constructor call stands under the path of a
    place in the input, and is the message with which a modifier declared for that place
    refused what the input there had become; or it names a key of the input that is unknown
    to the class that the input is for. *)
Theorem C88_construct :
  forall (P : program) (D : nat) (cls : string) (kwargs : list (string * value)) (n : nat) (w : world) (report : list (string * string)) (w' : world),
    polite P -> tame_classes D P -> late_classes D P ->
    Forall (fun kv => KeypathSpec.plain (fst kv)) kwargs ->
    construct P n cls kwargs w = (Err (EValidation report), w') ->
    forall kp msg, In (kp, msg) report ->
      (exists path ts v u m fuel c, kp = skp path /\ refused P cls kwargs path msg ts v u m fuel c) \/
      (exists names k, kp = concat_keypath [KStr (skp names); KStr k] /\ msg = "key is not allowed" /\ unknown_key P cls kwargs names k).
Proof.
  intros P D cls kwargs n w report w' PO TC LC Pl E kp msg Hin.
  exact (construct_explained P D cls kwargs PO TC LC n w report w' Pl E kp msg Hin).
Qed.
Print Assumptions C88_construct.

(** The same for [set] on an object that exists. *)
Theorem C88_set :
  forall (P : program) (D : nat) (o : oid) (kwargs : list (string * value)) (n : nat) (w : world) (report : list (string * string)) (w' : world),
    polite P -> tame_classes D P -> late_classes D P ->
    Forall (fun kv => KeypathSpec.plain (fst kv)) kwargs -> (o < h_next (w_heap w))%nat ->
    jset P n o kwargs w = (Err (EValidation report), w') ->
    forall kp msg, In (kp, msg) report ->
      (exists path ts v u m fuel c, kp = skp path /\ refused P (o_class (h_obj (w_heap w) o)) kwargs path msg ts v u m fuel c) \/
      (exists names k, kp = concat_keypath [KStr (skp names); KStr k] /\ msg = "key is not allowed" /\
         unknown_key P (o_class (h_obj (w_heap w) o)) kwargs names k).
Proof.
  intros P D o kwargs n w report w' PO TC LC Pl Lo E kp msg Hin.
  exact (set_explained P D (o_class (h_obj (w_heap w) o)) kwargs PO TC LC n o w report w' Pl Lo eq_refl E kp msg Hin).
Qed.
Print Assumptions C88_set.

(** ** A program that meets the hypotheses: orders, with an address that refuses unknown
    keys, a gate and codes, that checks some values when they come in *)
Definition c_addr : cdef :=
  {| cd_name := "Addr"; cd_fields := [ f_id; mkf "zip" "zip_id" [tstr; MEager] ]; cd_abstract := false; cd_reset_all := true;
     cd_strict := true; cd_validate_all := false; cd_output_null := false; cd_outkey := fun s => s |}.
Definition c_gate : cdef := mkc "Gate" [ f_id; mkf "code" "code_id" [tstr; MRequired; MEager] ].
Definition c_order : cdef :=
  {| cd_name := "Order";
     cd_fields := [ f_id; mkf "ship_to" "ship_id" [MInstance "Addr"]; mkf "gate" "gate_id" [MInstance "Gate"];
                    mkf "codes" "code_ids" [MListOf [tint]]; mkf "rows" "row_ids" [MDictOf [MListOf [MInstance "Addr"]]] ];
     cd_abstract := false; cd_reset_all := true; cd_strict := false; cd_validate_all := false; cd_output_null := false;
     cd_outkey := fun s => String.append "the_" s |}.
Definition order_ct (c : string) : option cdef :=
  if String.eqb c "Order" then Some c_order else if String.eqb c "Addr" then Some c_addr else if String.eqb c "Gate" then Some c_gate else None.
Definition order_prog : program := mkprog order_ct no_guards no_hooks.
Lemma order_cases cls d : p_ct order_prog cls = Some d -> d = c_order \/ d = c_addr \/ d = c_gate.
Proof.
  cbn. unfold order_ct. destruct (String.eqb cls "Order"); [intros E; injection E; auto |]. destruct (String.eqb cls "Addr"); [intros E; injection E; auto |].
  destruct (String.eqb cls "Gate"); [intros E; injection E; auto | discriminate].
Qed.
Ltac in_order Hc Hf := destruct (order_cases _ _ Hc) as [-> | [-> | ->]]; cbn in Hf;
  repeat (destruct Hf as [<- | Hf]; [| try contradiction]); try contradiction.
(** nothing but modifiers of one value before an eager mark *)
Fixpoint late_chain (ts : types) : bool :=
  match ts with
  | [] => true
  | m :: r => (match m with MInstance _ | MListOf _ | MDictOf _ | MUnion _ => plain_chain r | _ => true end) && late_chain r
  end.
Lemma late_chain_b ts : late_chain ts = true -> checks_late ts.
Proof.
  induction ts as [| y ts IH]; intros H pre post E m Hm; [destruct pre; discriminate E |].
  cbn [late_chain] in H. apply andb_prop in H. destruct H as [H1 H2]. destruct pre as [| x pre]; [contradiction Hm |]. injection E as <- ->.
  destruct Hm as [<- | Hm]; [| apply (IH H2 pre post eq_refl m Hm)].
  destruct y; try exact Logic.I; (unfold plain_chain in H1; rewrite forallb_forall in H1; specialize (H1 MEager); discriminate H1;
    apply in_or_app; right; left; reflexivity).
Qed.
Lemma order_tame : tame_classes 4 order_prog.
Proof. intros cls c f m Hc Hf Hm. apply tame_b. in_order Hc Hf; in_chain Hm; reflexivity. Qed.
Lemma order_late : late_classes 4 order_prog.
Proof. intros cls c f Hc Hf. in_order Hc Hf; (split; [apply late_chain_b; reflexivity | intros m Hm; apply late_b; in_chain Hm; reflexivity]). Qed.
Lemma mkprog_polite ct : polite (mkprog ct no_guards no_hooks).
Proof.
  constructor.
  - apply mkprog_courteous.
  - intros o n v h l. cbn. discriminate.
  - intros f c args h. do 5 (destruct f as [| f]; [apply same_refl |]). apply same_refl.
  - intros o n v h. apply same_refl.
Qed.
Definition order_with (kw : list (string * value)) := fst (construct order_prog 20 "Order" kw make_world).

Example C88_example :
  polite order_prog /\ tame_classes 4 order_prog /\ late_classes 4 order_prog /\
  order_with [("codes", VList [VInt 1; VInt 2]); ("rows", VDict [("a", VList [VDict []; VDict [("zip", VInt 5)]])])] =
    Err (EValidation [("the_rows.a.1.the_zip", "value is not str")]) /\
  order_with [("rows", VDict [("a", VList [VDict []; VDict [("zap", VInt 5)]])])] = Err (EValidation [("rows.a.1.zap", "key is not allowed")]).
Proof.
  split; [apply mkprog_polite |]. split; [apply order_tame |]. split; [apply order_late |]. split; vm_compute; reflexivity.
Qed.

(** ** The exceptions *)

(** The place of an object is written in one way for an unknown key and in another for a
    value that is refused. *)
Theorem C88_names_refuted :
  exists (P : program) (cls f outer inner bad : string) (v : value) (n : nat) (w : world) (m1 m2 : string),
    polite P /\ tame_classes 4 P /\ late_classes 4 P /\ f <> outer /\
    fst (construct P n cls [(f, VDict [(bad, v)])] w) = Err (EValidation [(concat_keypath [KStr f; KStr bad], m1)]) /\
    fst (construct P n cls [(f, VDict [(inner, v)])] w) = Err (EValidation [(concat_keypath [KStr outer; KStr (outname P cls inner)], m2)]).
Proof.
  exists order_prog, "Order", "ship_to", "the_ship_to", "zip", "zap", (VInt 5), 20%nat, make_world, "key is not allowed", "value is not str".
  split; [apply mkprog_polite |]. split; [apply order_tame |]. split; [apply order_late |]. split; [discriminate |]. split; vm_compute; reflexivity.
Qed.
Print Assumptions C88_names_refuted.

(** Input that a class accepts is refused where it is nested, and the error names a place
    that the input does not have, without the field it is nested in: the nested object is
    first made without input. *)
Theorem C88_nested_refuted :
  exists (P : program) (cls inner f k : string) (kwargs : list (string * value)) (n : nat) (w : world),
    polite P /\ tame_classes 4 P /\ late_classes 4 P /\
    (exists o, fst (construct P n inner kwargs w) = Ok o) /\ (exists v, sget k kwargs = Some v /\ v <> VNone) /\
    In (MInstance inner) (match p_ct P cls with Some d => match field_named f d with Some g => fl_types g | None => [] end | None => [] end) /\
    fst (construct P n cls [(f, VDict kwargs)] w) = Err (EValidation [(k, "value required")]).
Proof.
  exists order_prog, "Order", "Gate", "gate", "code", [("code", VStr "x")], 20%nat, make_world.
  split; [apply mkprog_polite |]. split; [apply order_tame |]. split; [apply order_late |].
  split; [eexists; vm_compute; reflexivity |]. split; [exists (VStr "x"); split; [reflexivity | discriminate] |].
  split; [left; reflexivity | vm_compute; reflexivity].
Qed.
Print Assumptions C88_nested_refuted.

(** With a dotted key the error is reported as seen from the inner object, not under the
    key that was given. *)
Definition order_world : world := snd (construct order_prog 20 "Order" [("ship_to", VDict [("zip", VStr "a")])] make_world).
Theorem C88_dotted_refuted :
  exists (P : program) (o : oid) (a b : string) (v : value) (n : nat) (w : world) (msg : string),
    polite P /\ tame_classes 4 P /\ late_classes 4 P /\ (o < h_next (w_heap w))%nat /\
    fst (jset P n o [(concat_keypath [KStr a; KStr b], v)] w) = Err (EValidation [(b, msg)]).
Proof.
  exists order_prog, 0%nat, "ship_to", "zip", (VInt 5), 20%nat, order_world, "value is not str".
  split; [apply mkprog_polite |]. split; [apply order_tame |]. split; [apply order_late |]. split; vm_compute; [repeat constructor | reflexivity].
Qed.
Print Assumptions C88_dotted_refuted.

(** The same input without a dot *)
Example C88_set_example :
  (0 < h_next (w_heap order_world))%nat /\ o_class (h_obj (w_heap order_world) 0%nat) = "Order" /\
  fst (jset order_prog 20 0%nat [("ship_to", VDict [("zip", VInt 5)])] order_world) = Err (EValidation [("the_ship_to.the_zip", "value is not str")]).
Proof. split; [vm_compute; repeat constructor |]. split; vm_compute; reflexivity. Qed.
