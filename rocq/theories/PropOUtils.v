(** PropOUtils.v -- C06: taking ownership of nested collections. *)
From Verif Require Import Base KeypathModel OUtilsModel OUtilsSpec OUtilsProofs.
Open Scope string_scope.
Open Scope list_scope.

(** Taking ownership keeps the content at every depth. *)
Theorem C06_owning_keeps_content :
  forall (O A : Type) (o : O) (t : tree O A) (kp : string), same_content t (own o kp t).
Proof. exact @own_same. Qed.
Print Assumptions C06_owning_keeps_content.

(** The list or dict found at any path below is labelled with the owner and with the
    keypath at which it sits. *)
Theorem C06_owned_collections_are_labelled :
  forall (O A : Type) (o : O) (path : list karg) (kp : string) (t node : tree O A),
    at_path (own o kp t) path = Some node ->
    labelled (Some (o, concat_keypath (KStr kp :: path))) node.
Proof. exact @own_labels. Qed.
Print Assumptions C06_owned_collections_are_labelled.

(** The copy kept for reset has the same content and no label at any depth. *)
Theorem C06_copy_keeps_content :
  forall (O A : Type) (t : tree O A), same_content t (unown t).
Proof. exact @unown_same. Qed.
Print Assumptions C06_copy_keeps_content.

Theorem C06_copy_is_unlabelled :
  forall (O A : Type) (path : list karg) (t node : tree O A),
    at_path (unown t) path = Some node -> labelled None node.
Proof. exact @unown_labels. Qed.
Print Assumptions C06_copy_is_unlabelled.

(** The conversions are inverse up to labels. *)
Theorem C06_copy_undoes_owning :
  forall (O A : Type) (o : O) (t : tree O A) (kp : string), unown (own o kp t) = unown t.
Proof. exact @unown_own. Qed.
Print Assumptions C06_copy_undoes_owning.

Theorem C06_owning_undoes_copy :
  forall (O A : Type) (o : O) (t : tree O A) (kp : string), own o kp (unown t) = own o kp t.
Proof. exact @own_unown. Qed.
Print Assumptions C06_owning_undoes_copy.

Example C06_case :
  let t : tree nat Z := TList None [TLeaf 1%Z; TDict None [(KStr "a", TList None [TLeaf 2%Z])]] in
  own 7%nat "xs" t =
    TList (Some (7%nat, "xs")) [TLeaf 1%Z; TDict (Some (7%nat, "xs.1")) [(KStr "a", TList (Some (7%nat, "xs.1.a")) [TLeaf 2%Z])]]
  /\ at_path (own 7%nat "xs" t) [KInt 1; KStr "a"] = Some (TList (Some (7%nat, "xs.1.a")) [TLeaf 2%Z])
  /\ unown (own 7%nat "xs" t) = t.
Proof. repeat split. Qed.
