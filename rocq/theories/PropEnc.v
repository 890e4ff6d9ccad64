(** PropEnc.v -- C92: [json.dumps] with JSONEncoder writes objects at any places. *)
From Verif Require Import Base Mon PyList PyDict StrDict KeypathModel Values CalModel OGraphModel MGraphModel ChainModel TypesModel ObjModel ObjExample IoModel
  IoBase IoExample TameSpec GraphSpec PropGraph OutSpec PropOut OutFormSpec PropOutForm ReadSpec ReadProofs EncModel EncSpec EncProofs.
From Verif Require LeafModel.
Open Scope string_scope.
Open Scope list_scope.

(** What is written is JSON data, whatever the value, the program and its state. *)
Theorem C92_json :
  forall (P : program) (N n : nat) (v : value) (w : world) (j : value) (w' : world),
    dumps P N n v w = (Ok j, w') -> json j.
Proof. intros P N n v w j w'. apply encode_json. Qed.
Print Assumptions C92_json.

(** An object whose tojson output is JSON data is written as that output, for every program. *)
Theorem C92_object :
  forall (P : program) (N : nat) (o : oid) (w : world) (f : value),
    fst (tojson P N o false false None w) = Ok f -> json f ->
    exists n0, forall n, (n0 <= n)%nat -> dumps P N n (VObj o) w = tojson P N o false false None w.
Proof.
  intros P N o w f T J. destruct (json_more P N f J) as [n0 H]. exists (S n0). intros [| n] L; [lia |].
  unfold dumps. cbn [encode existsb default]. unfold bind. destruct (tojson P N o false false None w) as [r w1]. cbn [fst] in T. subst r.
  apply H. lia.
Qed.
Print Assumptions C92_object.

(** A value of lists, dicts, scalars and objects is written with each object replaced by its
    tojson output, if these are JSON data. *)
Theorem C92_replaced :
  forall (P : program) (N D : nat) (v : value) (w : world) (f : oid -> value),
    calm P -> tame_classes D P -> flat_guards D P ARead ->
    (forall u, stands u v -> match u with VDate _ | VDatetime _ | VEnum _ _ | VOther _ => False | _ => True end) ->
    (forall o, stands (VObj o) v -> fst (tojson P N o false false None w) = Ok (f o) /\ json (f o)) ->
    exists n0, forall n, (n0 <= n)%nat -> fst (dumps P N n v w) = Ok (replaced f v).
Proof.
  intros P N D v w f C T G H K. destruct (written_encode P N D C T G w [] v _ (replaced_written P N w f v H K)) as [n0 E].
  exists n0. intros n L. apply E; [exact L | apply alike_refl].
Qed.
Print Assumptions C92_replaced.

(** Exactly what the specification says is written, also where the tojson output of an object
    has objects in it. *)
Theorem C92_written :
  forall (P : program) (N D : nat) (v : value) (w : world) (j : value),
    calm P -> tame_classes D P -> flat_guards D P ARead ->
    (exists n, fst (dumps P N n v w) = Ok j) <-> written P N w [] v j.
Proof.
  intros P N D v w j C T G. split.
  - intros [n E]. unfold dumps in E. destruct (encode P N n [] v w) as [r w'] eqn:E1. cbn [fst] in E. subst r.
    apply (encode_written P N D C T G w n [] v w j w' (alike_refl w) E1).
  - intros W. destruct (written_encode P N D C T G w [] v j W) as [n0 E]. exists n0. apply E; [lia | apply alike_refl].
Qed.
Print Assumptions C92_written.

(** The objects stay as they were, whatever the outcome. *)
Theorem C92_nothing_changes :
  forall (P : program) (N D n : nat) (v : value) (w : world),
    calm P -> tame_classes D P -> flat_guards D P ARead ->
    w_heap (snd (dumps P N n v w)) = w_heap w /\ w_ext (snd (dumps P N n v w)) = w_ext w.
Proof. intros P N D n v w C T G. destruct (still_encode P N D C T G n [] v w) as (H1 & H2 & _). split; assumption. Qed.
Print Assumptions C92_nothing_changes.

(** Objects of PropOutForm.v, with values that fit their types, in a list and a dict *)
Definition diary_form (o : oid) : value :=
  match fst (tojson diary_prog 20 o false false None (mkw diary_heap)) with Ok v => v | Err _ => VNone end.
Definition two_diaries : value := VList [VDict [("first", VObj 0%nat); ("count", VInt 2)]; VObj 1%nat; VObj 0%nat].
Example C92_example :
  calm diary_prog /\ tame_classes 3 diary_prog /\ flat_guards 3 diary_prog ARead /\
  (forall u, stands u two_diaries -> match u with VDate _ | VDatetime _ | VEnum _ _ | VOther _ => False | _ => True end) /\
  (forall o, stands (VObj o) two_diaries -> fst (tojson diary_prog 20 o false false None (mkw diary_heap)) = Ok (diary_form o) /\ json (diary_form o)) /\
  fst (dumps diary_prog 20 9 two_diaries (mkw diary_heap)) =
    Ok (VList [VDict [("first", diary_form 0%nat); ("count", VInt 2)]; diary_form 1%nat; diary_form 0%nat]).
Proof.
  assert (F : flat_guards 3 diary_prog ARead) by (intros cls ts y []).
  assert (S : forall u, stands u two_diaries -> In u [two_diaries; VDict [("first", VObj 0%nat); ("count", VInt 2)]; VInt 2; VObj 0%nat; VObj 1%nat]).
  { intros u H. inversion H as [| l v Hv Su |]; subst; [left; reflexivity |]. destruct Hv as [<- | [<- | [<- | []]]].
    - inversion Su as [| | m k v Hk Sv]; subst; [right; left; reflexivity |]. destruct Hk as [E | [E | []]]; inversion E; subst; inversion Sv; cbn; tauto.
    - inversion Su; cbn; tauto.
    - inversion Su; cbn; tauto. }
  split; [apply mkprog_calm |]. split; [exact diary_tame |]. split; [exact F |]. split; [| split].
  - intros u H. apply S in H. cbn in H. repeat (destruct H as [<- | H]; [exact Logic.I |]). contradiction.
  - assert (J : forall o, o = 0%nat \/ o = 1%nat -> fst (tojson diary_prog 20 o false false None (mkw diary_heap)) = Ok (diary_form o)) by
      (intros o [-> | ->]; vm_compute; reflexivity).
    intros o H. assert (Ho : o = 0%nat \/ o = 1%nat).
    { apply S in H. cbn in H. repeat (destruct H as [H | H]; [first [discriminate H | inversion H; auto] |]). contradiction. }
    split; [apply J, Ho |]. specialize (J o Ho). destruct (tojson diary_prog 20 o false false None (mkw diary_heap)) as [r w'] eqn:E. cbn [fst] in J. subst r.
    apply (C82_json diary_prog 3 (mkw diary_heap) 20 o false false None _ w' (mkprog_calm _ _ _) diary_tame F); [| exact E].
    destruct Ho as [-> | ->]; exact diary_typed.
  - vm_compute. reflexivity.
Qed.

(** A value of a kind that JSON lacks is not written outside objects: a date beside an
    object is a TypeError, though a date in the object's field is written. *)
Theorem C92_date_refuted :
  forall (P : program) (N n : nat) (w : world) (d : pdate),
    fst (dumps P N n (VList [VDate d]) w) = Err ETypeError \/ fst (dumps P N n (VList [VDate d]) w) = Err ERecursion.
Proof. intros P N [| [| n]] w d; [right | right | left]; reflexivity. Qed.
Print Assumptions C92_date_refuted.

(** An object that holds itself in a field without a type is a ValueError, though tojson
    answers: its output has the object in it. *)
Definition box_prog : program :=
  mkprog (fun c => if String.eqb c "Box" then Some (mkc "Box" [f_id; mkf "inside" "inside_id" [MAny]]) else None) no_guards no_hooks.
Theorem C92_circular_refuted :
  exists (P : program) (N : nat) (w : world) (o : oid) (f : value),
    calm P /\ fst (tojson P N o false false None w) = Ok f /\
    forall n, fst (dumps P N (4 + n) (VObj o) w) = Err EValueError.
Proof.
  exists box_prog, 5%nat, (mkw {| h_obj := fun _ => out_obj "Box" 1 [("inside", VObj 0%nat)]; h_next := 1%nat; h_graph := h_graph (ex_heap true) |}), 0%nat.
  exists (VDict [("id", VInt 1); ("inside", VObj 0%nat)]). split; [apply mkprog_calm |]. split; [vm_compute; reflexivity |].
  intros n. vm_compute. reflexivity.
Qed.
Print Assumptions C92_circular_refuted.
