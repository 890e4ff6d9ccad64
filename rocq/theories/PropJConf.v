(** PropJConf.v -- C48: class configuration falls back setting by setting. *)
From Verif Require Import Base JConfModel JConfSpec.
Open Scope string_scope.

(** Every setting given for the class is used, every other one is the built-in default
    of the class graph, whatever the combination; looking it up takes one step back at
    most. *)
Theorem C48_settings : forall limit camelize a, (1 <= limit)%nat ->
  exists s, right_settings camelize a s /\
            answers limit (class_conf camelize a) s /\
            (forall s', answers limit (class_conf camelize a) s' -> s' = s).
Proof.
  intros limit cam a L. destruct limit as [|n]; [lia|].
  set (c := class_conf cam a).
  assert (K : forall x, named x (figure_out x)).
  { intros [f|s]; simpl; [reflexivity|].
    destruct (String.eqb_spec s "underscore") as [->|N1]; [reflexivity|].
    destruct (String.eqb_spec s "camelize") as [->|N2]; [reflexivity|].
    repeat match goal with
           | |- context [match ?x with _ => _ end] => destruct x; try reflexivity
           end; congruence. }
  exists {| s_output_key := given (j_output_key c) Camelize;
            s_input_key := given (j_input_key c) Underscore;
            s_strict := given (j_strict c) true;
            s_ref_name := given (j_ref_name c) ReferenceKey;
            s_validate_all := given (j_validate_all c) false;
            s_abstract := given (j_abstract c) false;
            s_reset_all := given (j_reset_all c) false;
            s_output_null := given (j_output_null c) false |}.
  assert (A : answers (S n) c
    {| s_output_key := given (j_output_key c) Camelize;
            s_input_key := given (j_input_key c) Underscore;
            s_strict := given (j_strict c) true;
            s_ref_name := given (j_ref_name c) ReferenceKey;
            s_validate_all := given (j_validate_all c) false;
            s_abstract := given (j_abstract c) false;
            s_reset_all := given (j_reset_all c) false;
            s_output_null := given (j_output_null c) false |}).
  { assert (F : forall X (get : jconf -> option X) d, (forall g, get (default_config g) = Some d) ->
                fallback get (S n) c = Some (given (get c) d)).
    { intros X get d D. simpl. destruct (get c); [reflexivity|].
      destruct n; simpl; rewrite D; reflexivity. }
    unfold answers; repeat split; apply F; reflexivity. }
  split; [|split; [exact A|]].
  - unfold right_settings, c, class_conf, jsonclass_args.
    destruct cam as [[]|]; simpl; repeat split; unfold strategy;
      try (destruct (a_output_key a); simpl; [apply K|reflexivity]);
      try (destruct (a_input_key a); simpl; [apply K|reflexivity]).
  - intros s' B. destruct s'. unfold answers in *. simpl in *.
    destruct A as (A1 & A2 & A3 & A4 & A5 & A6 & A7 & A8).
    destruct B as (B1 & B2 & B3 & B4 & B5 & B6 & B7 & B8).
    congruence.
Qed.
Print Assumptions C48_settings.

(** The default configuration of every graph answers the built-in table. *)
Theorem C48_default_config : forall limit n,
  answers limit (default_config n)
    {| s_output_key := Camelize; s_input_key := Underscore; s_strict := true;
       s_ref_name := ReferenceKey; s_validate_all := false; s_abstract := false;
       s_reset_all := false; s_output_null := false |} /\
  (n <> "" -> j_cgraph (default_config n) = n).
Proof.
  intros limit n. split.
  - destruct limit; repeat split; reflexivity.
  - intros N. simpl. destruct (String.eqb_spec n ""); [contradiction|reflexivity].
Qed.
Print Assumptions C48_default_config.

(** Callbacks and guards: none, one, or the list that was given, in its order. *)
Theorem C48_callbacks : forall camelize a,
  let c := class_conf camelize a in
  let right x l := match x with NoCb => l = [] | OneCb f => l = [f] | ListCb l' => l = l' end in
  right (a_on_create a) (j_on_create c) /\ right (a_on_update a) (j_on_update c) /\
  right (a_on_delete a) (j_on_delete c) /\ right (a_can_create a) (j_can_create c) /\
  right (a_can_update a) (j_can_update c) /\ right (a_can_delete a) (j_can_delete c) /\
  right (a_can_read a) (j_can_read c).
Proof.
  intros cam a c right.
  assert (R : forall x, right x (cb_list x)) by (intros []; reflexivity).
  unfold c, class_conf, jsonclass_args. destruct cam as [[]|]; simpl; repeat split; apply R.
Qed.
Print Assumptions C48_callbacks.

(** Two configurations compare equal exactly when they answer the same to everything. *)
Theorem C48_equal_iff_same_answers : forall limit c d s t,
  answers limit c s -> answers limit d t ->
  (jconf_eq limit c d = true <->
   j_cgraph c = j_cgraph d /\ s = t /\ same_callbacks c d).
Proof.
  intros limit c d s t A B.
  destruct A as (A1 & A2 & A3 & A4 & A5 & A6 & A7 & A8).
  destruct B as (B1 & B2 & B3 & B4 & B5 & B6 & B7 & B8).
  unfold jconf_eq, same_callbacks.
  rewrite A1, A2, A3, A4, A5, A6, A7, A8, B1, B2, B3, B4, B5, B6, B7, B8. simpl.
  assert (KE : forall x y, keystrat_eqb x y = true <-> x = y).
  { intros [| | |n] [| | |m]; simpl; split; intros H; try congruence; try discriminate;
      [apply Nat.eqb_eq in H; congruence | injection H as ->; apply Nat.eqb_refl]. }
  assert (RE : forall x y, refstrat_eqb x y = true <-> x = y).
  { intros [|n] [|m]; simpl; split; intros H; try congruence; try discriminate;
      [apply Nat.eqb_eq in H; congruence | injection H as ->; apply Nat.eqb_refl]. }
  assert (LE : forall x y, list_eqb x y = true <-> x = y).
  { induction x as [|a x IH]; intros [|b y]; simpl; split; intros H; try congruence;
      try discriminate.
    - apply andb_true_iff in H as [H1 H2]. apply Nat.eqb_eq in H1. apply IH in H2. congruence.
    - injection H as -> ->. rewrite Nat.eqb_refl. apply IH. reflexivity. }
  split.
  - intros H.
    repeat match type of H with
           | (if negb ?b then _ else _) = true => destruct b eqn:?; [simpl in H|discriminate H]
           end.
    repeat match goal with
           | E : String.eqb _ _ = true |- _ => apply String.eqb_eq in E
           | E : keystrat_eqb _ _ = true |- _ => apply KE in E
           | E : refstrat_eqb _ _ = true |- _ => apply RE in E
           | E : Bool.eqb _ _ = true |- _ => apply Bool.eqb_prop in E
           | E : list_eqb _ _ = true |- _ => apply LE in E
           end.
    split; [assumption|]. split; [destruct s, t; simpl in *; congruence|].
    repeat split; assumption.
  - intros (G & -> & C1 & C2 & C3 & C4 & C5 & C6 & C7).
    rewrite G, C1, C2, C3, C4, C5, C6, C7, String.eqb_refl. simpl.
    assert (KR : forall x, keystrat_eqb x x = true) by (intros; apply KE; reflexivity).
    assert (RR : forall x, refstrat_eqb x x = true) by (intros; apply RE; reflexivity).
    assert (LR : forall x, list_eqb x x = true) by (intros; apply LE; reflexivity).
    rewrite !KR, !RR, !Bool.eqb_reflx, !LR. reflexivity.
Qed.
Print Assumptions C48_equal_iff_same_answers.

Definition ex_args : args :=
  {| a_cgraph := Some "shop"; a_output_key := Some (ByName "identical"); a_input_key := None;
     a_strict := Some false; a_ref_name := None; a_validate_all := Some true;
     a_abstract := None; a_reset_all := Some true; a_output_null := None;
     a_on_create := OneCb 3; a_on_update := NoCb; a_on_delete := ListCb [1; 2];
     a_can_create := NoCb; a_can_update := NoCb; a_can_delete := NoCb; a_can_read := NoCb |}.

Example C48_example :
  answers 1000 (class_conf None ex_args)
    {| s_output_key := Identical; s_input_key := Underscore; s_strict := false;
       s_ref_name := ReferenceKey; s_validate_all := true; s_abstract := false;
       s_reset_all := true; s_output_null := false |} /\
  j_cgraph (class_conf None ex_args) = "shop" /\
  j_on_create (class_conf None ex_args) = [3%nat] /\
  jconf_eq 1000 (class_conf None ex_args) (class_conf (Some false) ex_args) = false.
Proof. repeat split; vm_compute; reflexivity. Qed.
