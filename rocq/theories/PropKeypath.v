(** PropKeypath.v -- C01 and C02. *)
From Verif Require Import Base KeypathModel KeypathSpec KeypathProofs.
Open Scope string_scope.
Open Scope list_scope.

(** ** C01 *)

(** Splitting undoes joining, for keys that are non-empty and free of separators. *)
Theorem C01_split_undoes_concat :
  forall keys : list karg, Forall (fun a => good_key (str_of_karg a)) keys ->
    keypath_split (concat_keypath keys) = map str_of_karg keys.
Proof. exact split_concat_good. Qed.
Print Assumptions C01_split_undoes_concat.

(** Every int is such a key. *)
Theorem C01_every_index_is_a_key : forall i : Z, good_key (str_of_karg (KInt i)).
Proof. exact int_good. Qed.
Print Assumptions C01_every_index_is_a_key.

Theorem C01_initial_component :
  forall (key : karg) (keys : list karg),
    Forall (fun a => good_key (str_of_karg a)) (key :: keys) ->
    initial_keypath (concat_keypath (key :: keys)) = str_of_karg key.
Proof. exact initial_concat. Qed.
Print Assumptions C01_initial_component.

Theorem C01_drop_last_component :
  forall (keys : list karg) (key : karg),
    Forall (fun a => good_key (str_of_karg a)) (keys ++ [key]) ->
    keypath_drop_last (concat_keypath (keys ++ [key])) = concat_keypath keys.
Proof. exact drop_last_concat. Qed.
Print Assumptions C01_drop_last_component.

(** Splitting any string gives only non-empty components without separators. *)
Theorem C01_split_components : forall s : string, Forall good_key (keypath_split s).
Proof. exact split_components. Qed.
Print Assumptions C01_split_components.

(** For arbitrary parts (empty, or themselves keypaths) the components of the whole
    are the components of the parts: no stray separator, nothing lost ... *)
Theorem C01_concat_components :
  forall parts : list karg,
    keypath_split (concat_keypath parts)
    = flat_map (fun a => keypath_split (str_of_karg a)) parts.
Proof. exact split_concat. Qed.
Print Assumptions C01_concat_components.

(** ... and joining in two steps is joining in one. *)
Theorem C01_concat_associative :
  forall parts1 parts2 : list karg,
    concat_keypath (KStr (concat_keypath parts1) :: parts2) = concat_keypath (parts1 ++ parts2).
Proof. exact concat_assoc. Qed.
Print Assumptions C01_concat_associative.

Example C01_case :
  Forall (fun a => good_key (str_of_karg a)) [KStr "users"; KInt (-3); KStr "name"] /\
  concat_keypath [KStr "users"; KStr ""; KInt (-3); KStr "name"] = "users.-3.name" /\
  keypath_split "users[-3].name" = ["users"; "-3"; "name"].
Proof.
  split; [|split; reflexivity].
  repeat constructor; simpl; try discriminate; unfold occurs; simpl;
    intros H; repeat (destruct H as [H|H]; [discriminate|]); exact H.
Qed.

(** ** C02 -- keyword arguments are partitioned, in order, by whether the key is plain. *)
Theorem C02_each_argument_routed_once :
  forall (V : Type) (kwargs : list (string * V)),
    interleaved (single_key_args kwargs) (compound_key_args kwargs) kwargs /\
    Forall (fun kv => plain (fst kv)) (single_key_args kwargs) /\
    Forall (fun kv => ~ plain (fst kv)) (compound_key_args kwargs).
Proof. exact @key_args_partition. Qed.
Print Assumptions C02_each_argument_routed_once.

Example C02_case :
  single_key_args [("a", 1); ("b.c", 2); ("d", 3); ("e[0]", 4)] = [("a", 1); ("d", 3)] /\
  compound_key_args [("a", 1); ("b.c", 2); ("d", 3); ("e[0]", 4)] = [("b.c", 2); ("e[0]", 4)].
Proof. split; reflexivity. Qed.
