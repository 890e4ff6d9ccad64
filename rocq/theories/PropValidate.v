(** PropValidate.v -- C12 (objects) and C39: what validating an object checks and reports. *)
From Verif Require Import Base Mon PyDict KeypathModel Values OGraphModel MGraphModel ChainModel ChainSpec ChainProofs TypesModel ObjModel ObjExample IoModel
  IoBase IoExample ValidateSpec CivilSpec IoEffects ValidateProofs PropPresence.
From Verif Require LeafModel.
Open Scope string_scope.
Open Scope list_scope.

(** Validating an object wherever it is met (the object itself, or one it refers to):
    the fields are gone through in order, exactly the due ones are checked, and the end is
    the one [ends] describes. *)
Theorem C39_visit :
  forall (P : program) (fuel : nat) (c : ctx) (o : oid) (d : cdef) (w : world) (r : res unit) (w' : world) (cls : string),
    civil P -> fresh_visit P c o d w -> f_inst (c_fdef c) = Some cls ->
    (m_validate (interp P (S fuel) (MInstance cls)) c w = (r, w')
     <-> ends P (due w o) fuel c o (wants_all c d) (cd_fields (wcdef P w o)) (marked P w o) r w').
Proof.
  intros P fuel c o d w r w' cls C F E. pose proof (visit_ends P fuel c o d w r w' C F) as K. rewrite E in K. exact K.
Qed.
Print Assumptions C39_visit.

(** ... and so is a call of [validate]. *)
Theorem C39_validate :
  forall (P : program) (fuel : nat) (o : oid) (mode : option bool) (w : world) (d : cdef) (r : res unit) (w' : world),
    civil P -> of_class P w o d ->
    (validate P (S fuel) o mode w = (r, w') <->
     exists w1, ends P (due w o) fuel (call_ctx o mode w) o (call_all mode d) (cd_fields d) (call_start P o w) r w1 /\
                w' = set_mg (w_mg w) w1).
Proof. exact call_ends. Qed.
Print Assumptions C39_validate.

(** The fields whose outcome is listed are the due ones. *)
Theorem C39_checked_fields :
  forall (P : program) (isdue : field -> Prop) (fuel : nat) (c : ctx) (o : oid) (fs : list field) (w : world)
         (l : list (field * option (list (string * string)))) (w' : world),
    sweep P isdue fuel c o fs w l w' -> forall f, In f (map fst l) <-> In f fs /\ isdue f.
Proof. exact sweep_fields. Qed.
Print Assumptions C39_checked_fields.

(** A data field of a persisted object is due exactly when it or something below it is
    listed as modified (the name of a field has no dot in it); every field of a new object
    is due. *)
Theorem C39_due :
  forall (w : world) (o : oid) (f : field),
    (o_new (wobj w o) = true -> due w o f) /\
    (o_new (wobj w o) = false -> f_fstore (fl_fdef f) = Embedded -> ~ In "."%char (list_ascii_of_string (fl_name f)) ->
     (due w o f <-> In (fl_name f) (o_mfields (wobj w o)) \/
                    exists rest, In (fl_name f ++ "." ++ rest)%string (o_mfields (wobj w o)))).
Proof.
  intros w o f. split; [intros H; left; exact H |]. intros Hn He Hdot. rewrite due_below by exact Hdot. split.
  - intros [H | [H | H]]; [rewrite Hn in H; discriminate H | contradiction | exact H].
  - intros H. right. right. exact H.
Qed.
Print Assumptions C39_due.

(** validate succeeds exactly when every due field is readable and every modifier of the
    validation phase of its chain accepts its value. *)
Theorem C12_valid_iff :
  forall (P : program) (fuel : nat) (o : oid) (mode : option bool) (w : world) (d : cdef) (w' : world),
    civil P -> of_class P w o d ->
    (validate P (S fuel) o mode w = (Ok tt, w') <->
     exists l w1, sweep P (due w o) fuel (call_ctx o mode w) o (cd_fields d) (call_start P o w) l w1 /\
                  all_passed l /\ w' = set_mg (w_mg w) w1).
Proof.
  intros P fuel o mode w d w' C Hd. rewrite (call_ends P fuel o mode w d (Ok tt) w' C Hd). split.
  - intros (w1 & H & ->). inversion H as [l w2 Hs Hl E | |]; subst; try discriminate.
    exists l, w1. split; [exact Hs |]. split; [apply verdict_passed; assumption | reflexivity].
  - intros (l & w1 & Hs & Hl & ->). exists w1. split; [| reflexivity]. rewrite <- (passed_verdict l Hl). apply en_done; auto.
Qed.
Print Assumptions C12_valid_iff.
Theorem C12_field_passes_iff :
  forall (P : program) (fuel : nat) (c : ctx) (o : oid) (f : field) (w w' : world),
    civil P -> well_marked (map (interp P fuel) (fl_types f)) ->
    (field_result P fuel c o f w (Ok tt) w' <-> field_accepts P fuel c o f w w').
Proof. exact chain_accepts. Qed.
Print Assumptions C12_field_passes_iff.

(** Only the first failure wanted: when the fields before [f] pass and [f] fails, the
    report of [f] is the report, and no later field has been checked. *)
Theorem C12_first_failure :
  forall (P : program) (fuel : nat) (o : oid) (mode : option bool) (w : world) (d : cdef)
         (before after : list field) (f : field) (l : list (field * option (list (string * string))))
         (w1 w2 : world) (e : list (string * string)),
    civil P -> of_class P w o d -> call_all mode d = false -> cd_fields d = before ++ f :: after ->
    sweep P (due w o) fuel (call_ctx o mode w) o before (call_start P o w) l w1 -> all_passed l ->
    due w o f -> field_result P fuel (call_ctx o mode w) o f w1 (Err (EValidation e)) w2 ->
    validate P (S fuel) o mode w = (Err (EValidation e), set_mg (w_mg w) w2).
Proof.
  intros P fuel o mode w d before after f l w1 w2 e C Hd Ha E Hs Hl D R.
  apply (call_ends P fuel o mode w d _ _ C Hd). exists w2. split; [| reflexivity]. rewrite Ha.
  eapply en_fails; [exact E | exact Hs | intros _; exact Hl | exact D | exact R | discriminate].
Qed.
Print Assumptions C12_first_failure.
(** All failures wanted: every due field is checked; the report is made of the reports of
    all that fail, in order (the later message when two have the same key). *)
Theorem C12_all_failures :
  forall (P : program) (fuel : nat) (o : oid) (mode : option bool) (w : world) (d : cdef)
         (l : list (field * option (list (string * string)))) (w1 : world),
    civil P -> of_class P w o d -> call_all mode d = true ->
    sweep P (due w o) fuel (call_ctx o mode w) o (cd_fields d) (call_start P o w) l w1 ->
    validate P (S fuel) o mode w =
      (match reports l with [] => Ok tt | rs => Err (EValidation (dict_of String.eqb (concat rs))) end, set_mg (w_mg w) w1).
Proof.
  intros P fuel o mode w d l w1 C Hd Ha Hs. apply (call_ends P fuel o mode w d _ _ C Hd).
  exists w1. split; [| reflexivity]. apply en_done; [exact Hs | rewrite Ha; discriminate].
Qed.
Print Assumptions C12_all_failures.

(** A persisted person whose name and address have changed; name and age are not
    acceptable, nick is, address has an unacceptable city. *)
Definition c_person : cdef := mkc "Person"
  [ f_id; mkf "name" "name_id" [tstr; MRequired]; mkf "age" "age_id" [tint; MRequired];
    mkf "nick" "nick_id" [tstr]; mkf "tags" "tag_ids" [MDictOf [tstr]];
    mkf "friend" "friend_id" [MInstance "Person"; MLinkto; MRequired] ].
Definition va_ct (c : string) : option cdef := if String.eqb c "Person" then Some c_person else None.
Definition va_prog : program := mkprog va_ct no_guards no_hooks.
Definition va_heap (new : bool) (fields : list string) : heap :=
  {| h_obj := fun o => {| o_class := "Person";
       o_attr := fun n => sget n [("id", VInt 1); ("name", VNone); ("age", VStr "x"); ("nick", VStr "y");
                                   ("tags", VDict [("a", VInt 3)]); ("friend", VNone); ("friend_id", VNone)];
       o_new := new; o_modified := negb new; o_mfields := fields; o_prev := []; o_lkeys := [("friend_id", "friend")];
       o_raw := []; o_unlinked := []; o_operator := VNone |};
     h_next := 1%nat; h_graph := {| graphs := repeat [] 2; graph_of := fun o => Nat.min o 1 |} |}.
Definition va_world (new : bool) (fields : list string) : world := mkw (va_heap new fields).

Example C39_example :
  let w := va_world false ["name"; "tags.a"; "nick"] in
  civil va_prog /\ of_class va_prog w 0%nat c_person /\
  due w 0%nat (mkf "name" "name_id" [tstr; MRequired]) /\
  ~ due w 0%nat (mkf "age" "age_id" [tint; MRequired]) /\
  due w 0%nat (mkf "tags" "tag_ids" [MDictOf [tstr]]) /\
  due w 0%nat (mkf "friend" "friend_id" [MInstance "Person"; MLinkto; MRequired]) /\
  fst (validate va_prog 9 0%nat (Some true) w) =
    Err (EValidation [("name", "value required"); ("tags.a", "value is not str"); ("friend", "value required")]) /\
  fst (validate va_prog 9 0%nat (Some false) w) = Err (EValidation [("name", "value required")]) /\
  fst (validate va_prog 9 0%nat (Some true) (va_world true [])) =
    Err (EValidation [("name", "value required"); ("age", "value is not int"); ("tags.a", "value is not str"); ("friend", "value required")]).
Proof.
  cbn zeta. split; [apply mkprog_civil |]. split; [split; reflexivity |].
  split; [right; right; exists "name"; split; [left; reflexivity | reflexivity] |].
  split.
  { intros [H | [H | (k & Hk & E)]]; [discriminate H | apply H; reflexivity |].
    destruct Hk as [<- | [<- | [<- | []]]]; vm_compute in E; discriminate E. }
  split; [right; right; exists "tags.a"; split; [right; left; reflexivity | reflexivity] |].
  split; [right; left; discriminate |].
  split; [vm_compute; reflexivity |]. split; vm_compute; reflexivity.
Qed.

(** ** What the setting of the class does not reach *)

(** A class can be set up to report all failures (validate_all_fields).  validate() then goes
    through all fields, but each field reports its first failing modifier only, while
    validate(all_fields=True) reports the last one; and save ignores the setting. *)
Definition c_thorough : cdef :=
  {| cd_name := "Form"; cd_fields := [ f_id; mkf "code" "code_id" [MLeaf (LeafModel.LMinlength (PVal (VInt 3))); MLeaf LeafModel.LDigit]; mkf "age" "age_id" [tint; MRequired] ];
     cd_abstract := false; cd_reset_all := true; cd_strict := false; cd_validate_all := true; cd_output_null := false; cd_outkey := fun s => s |}.
Definition th_ct (c : string) : option cdef := if String.eqb c "Form" then Some c_thorough else None.
Definition th_prog : program := mkprog th_ct no_guards no_hooks.
Definition th_heap : heap :=
  {| h_obj := fun o => {| o_class := "Form"; o_attr := fun n => sget n [("id", VInt 1); ("code", VStr "x"); ("age", VNone)];
       o_new := true; o_modified := false; o_mfields := []; o_prev := []; o_lkeys := []; o_raw := []; o_unlinked := []; o_operator := VNone |};
     h_next := 1%nat; h_graph := {| graphs := repeat [] 2; graph_of := fun o => Nat.min o 1 |} |}.
Theorem C12_class_setting_refuted :
  exists P o d w n k1 k2 first last m,
    civil P /\ of_class P w o d /\ cd_validate_all d = true /\ first <> last /\
    fst (validate P n o None w) = Err (EValidation [(k1, first); (k2, m)]) /\
    fst (validate P n o (Some true) w) = Err (EValidation [(k1, last); (k2, m)]) /\
    fst (save P n o false false w) = Err (EValidation [(k1, first)]).
Proof.
  exists th_prog, 0%nat, c_thorough, (mkw th_heap), 9%nat, "code", "age", "length of value is not greater than or equal", "value is not digit string", "value required".
  split; [apply mkprog_civil |]. split; [split; reflexivity |]. split; [reflexivity |]. split; [discriminate |].
  split; [vm_compute; reflexivity |]. split; vm_compute; reflexivity.
Qed.
Print Assumptions C12_class_setting_refuted.
