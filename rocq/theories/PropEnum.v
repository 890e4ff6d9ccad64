(** PropEnum.v -- C21: enum fields. *)
From Verif Require Import Base Mon PyStr KeypathModel Values ChainModel TypesModel ObjModel IoModel IoBase IoExample
  EnumSpec EnumProofs.
Open Scope string_scope.
Open Scope list_scope.

(** If the field's settings can read their own output, the JSON form of a member is the
    one the output setting names, and reading it back gives the member; nothing else
    happens. *)
Theorem C21_enum_round_trip :
  forall (P : program) (e : string) (ms : list (string * value)) (n : string) (v : value)
         (before after : types) (i : enuminput) (o : enumoutput) (fuel : nat) (c : ctx) (w : world),
    p_enums P e = Some ms -> member ms n v -> (forall m, v <> VEnum e m) ->
    Forall only_a_mark before -> Forall only_a_mark after ->
    let ts := before ++ MEnum e :: after in
    f_enum_input (fdef_of ts) = Some i -> f_enum_output (fdef_of ts) = Some o ->
    reads_own_output i o ms n v -> c_fdef c = fdef_of ts ->
    exists json, t_tojson (interp P (S fuel)) ts (nval c (VEnum e n)) w = (Ok json, w) /\
                 json = form o n v /\
                 t_transform (interp P (S fuel)) ts (nval c json) w = (Ok (VEnum e n), w).
Proof. exact round_trip. Qed.
Print Assumptions C21_enum_round_trip.

(** Input that is accepted becomes a member of which it is an accepted form; only a field
    that takes values turns anything else into None. *)
Theorem C21_enum_never_another_member :
  forall (P : program) (e : string) (ms : list (string * value))
         (before after : types) (i : enuminput) (fuel : nat) (c : ctx) (w : world) (x r : value) (w' : world),
    p_enums P e = Some ms -> self_equal ms ->
    Forall only_a_mark before -> Forall only_a_mark after ->
    let ts := before ++ MEnum e :: after in
    f_enum_input (fdef_of ts) = Some i -> c_fdef c = fdef_of ts -> x <> VNone ->
    (forall m, x <> VEnum e m) ->
    t_transform (interp P (S fuel)) ts (nval c x) w = (Ok r, w') ->
    w' = w /\ ((exists n, r = VEnum e n /\ reads i ms x n) \/
               (r = VNone /\ in_value i = true /\ forall n, ~ reads i ms x n)).
Proof. exact never_another. Qed.
Print Assumptions C21_enum_never_another_member.

(** A field that takes names rejects everything that is no accepted form of a member. *)
Theorem C21_enum_unknown_rejected :
  forall (P : program) (e : string) (ms : list (string * value))
         (before after : types) (i : enuminput) (fuel : nat) (c : ctx) (w : world) (x : value),
    p_enums P e = Some ms -> self_equal ms ->
    Forall only_a_mark before -> Forall only_a_mark after ->
    let ts := before ++ MEnum e :: after in
    f_enum_input (fdef_of ts) = Some i -> c_fdef c = fdef_of ts -> x <> VNone ->
    (forall m, x <> VEnum e m) ->
    in_value i = false -> (forall n, ~ reads i ms x n) ->
    t_transform (interp P (S fuel)) ts (nval c x) w =
      (Err (EValidation [(skp (c_fkr c), "unknown enum value"%string)]), w).
Proof. exact unknown_rejected. Qed.
Print Assumptions C21_enum_unknown_rejected.

(** A field validates exactly with None or a member of its own enum, however the value got
    there. *)
Theorem C21_enum_validate :
  forall (P : program) (e : string) (ms : list (string * value)) (fuel : nat) (c : ctx) (w : world),
    p_enums P e = Some ms ->
    (c_val c = VNone \/ (exists n, c_val c = VEnum e n) ->
       m_validate (interp P (S fuel) (MEnum e)) c w = (Ok tt, w)) /\
    (c_val c <> VNone -> (forall n, c_val c <> VEnum e n) ->
       m_validate (interp P (S fuel) (MEnum e)) c w =
         (Err (EValidation [(skp (c_fkr c), "invalid enum value"%string)]), w)).
Proof.
  intros P e ms fuel c w E. cbn [interp modif_of m_validate validate_of]. unfold enum_validate, members.
  rewrite E. split.
  - intros [-> |(n & ->)]; [reflexivity|]. unfold is_member. rewrite String.eqb_refl. reflexivity.
  - intros N M. destruct (c_val c) as [| | | | | | |e' n| | | |]; try reflexivity; try congruence.
    unfold is_member. destruct (String.eqb e' e) eqn:Q; [|reflexivity].
    apply String.eqb_eq in Q. subst e'. destruct (M n eq_refl).
Qed.
Print Assumptions C21_enum_validate.

(** The hypotheses hold: lower-case names in and out, with another mark. *)
Example C21_example :
  let ts := [MInputLname; MOutputLname; MEnum "Color"; MRequired] in
  let ms := [("RED", VStr "r"); ("GREEN", VStr "g"); ("ROUGE", VStr "r"); ("Blue", VStr "b")] in
  p_enums ex_prog "Color" = Some ms /\ member ms "GREEN" (VStr "g") /\ self_equal ms /\
  Forall only_a_mark [MInputLname; MOutputLname] /\ Forall only_a_mark [MRequired] /\
  f_enum_input (fdef_of ts) = Some only_lname /\ f_enum_output (fdef_of ts) = Some OutLname /\
  reads_own_output only_lname OutLname ms "GREEN" (VStr "g") /\
  (forall n, ~ reads only_lname ms (VStr "blue") n) /\
  t_tojson (interp ex_prog 1) ts (ex_ctx ts (VEnum "Color" "GREEN")) (ex_world true) = (Ok (VStr "green"), ex_world true) /\
  t_transform (interp ex_prog 1) ts (ex_ctx ts (VStr "green")) (ex_world true) = (Ok (VEnum "Color" "GREEN"), ex_world true).
Proof.
  cbn zeta. split; [reflexivity |]. split.
  { split.
    - repeat constructor; cbn; intuition discriminate.
    - exists [("RED", VStr "r")], [("ROUGE", VStr "r"); ("Blue", VStr "b")].
      split; [reflexivity | split; [reflexivity |]]. intros m [<- | []]. reflexivity. }
  split.
  { intros n v H. cbn in H. repeat (destruct H as [H | H]; [inversion H; subst; reflexivity |]). destruct H. }
  split; [repeat (constructor; [unfold only_a_mark; cbn; tauto |]); constructor |].
  split; [repeat (constructor; [unfold only_a_mark; cbn; tauto |]); constructor |].
  split; [reflexivity |]. split; [reflexivity |].
  split.
  { cbn. split; [reflexivity | split; [reflexivity | split; [reflexivity |]]]. discriminate. }
  split.
  { intros n (s & Hs & [[K _] | [_ (v & v' & H & _)]]); [discriminate K |].
    inversion Hs; subst s. cbn in H. repeat (destruct H as [H | H]; [discriminate H |]). destruct H. }
  split; vm_compute; reflexivity.
Qed.

(** Finding: a field that takes every form and writes names does not read its own output:
    the name is looked up as a value only, and is silently turned into None. *)
Theorem C21_inputall_loses_names_refuted :
  let ts := [MInputAll; MOutputName; MEnum "Color"] in
  exists (P : program) (w : world),
    p_enums P "Color" <> None /\ f_enum_input (fdef_of ts) = Some all_inputs /\
    t_tojson (interp P 1) ts (ex_ctx ts (VEnum "Color" "GREEN")) w = (Ok (VStr "GREEN"), w) /\
    t_transform (interp P 1) ts (ex_ctx ts (VStr "GREEN")) w = (Ok VNone, w).
Proof.
  exists ex_prog, (ex_world true). split; [discriminate |].
  split; [reflexivity | split; vm_compute; reflexivity].
Qed.
Print Assumptions C21_inputall_loses_names_refuted.

(** Finding: a lower-case name is compared after conversion to upper case, so the member
    [Blue] is written as [blue] and then rejected. *)
Theorem C21_mixed_case_lname_refuted :
  let ts := [MInputLname; MOutputLname; MEnum "Color"] in
  exists (P : program) (w : world),
    t_tojson (interp P 1) ts (ex_ctx ts (VEnum "Color" "Blue")) w = (Ok (VStr "blue"), w) /\
    t_transform (interp P 1) ts (ex_ctx ts (VStr "blue")) w
      = (Err (EValidation [("x", "unknown enum value")]), w).
Proof. exists ex_prog, (ex_world true). split; vm_compute; reflexivity. Qed.
Print Assumptions C21_mixed_case_lname_refuted.

(** Which forms are read and written follows from the chain: names are read if [inputname] or
    [inputall] is in it or no input mark precedes [enum], values and lowercase names if they
    or [inputall] are asked for; the form written is that of the last output mark, and the
    name if there is none. *)
Theorem C21_settings :
  forall (e : string) (before after : types),
    Forall only_a_mark before -> Forall only_a_mark after ->
    let ts := before ++ MEnum e :: after in
    exists i o,
      f_enum_input (fdef_of ts) = Some i /\ f_enum_output (fdef_of ts) = Some o /\
      (in_name i = true <-> In MInputName ts \/ In MInputAll ts \/ (forall m, In m before -> ~ input_mark m)) /\
      (in_value i = true <-> In MInputValue ts \/ In MInputAll ts) /\
      (in_lname i = true <-> In MInputLname ts \/ In MInputAll ts) /\
      writes ts o.
Proof.
  intros e before after Hb Ha ts. pose proof (settings e before after Hb Ha) as X. cbv zeta in X.
  destruct X as (A & B & C & D & o & E & F). fold ts in A, B, C, D, E, F. unfold opt_in in *.
  destruct (f_enum_input (fdef_of ts)) as [i |]; [| contradiction D; reflexivity].
  exists i, o. split; [reflexivity |]. split; [exact E |]. split; [exact A |]. split; [exact B |]. split; [exact C | exact F].
Qed.
Print Assumptions C21_settings.

Example C21_settings_example :
  f_enum_input (fdef_of [MEnum "Color"; MRequired]) = Some only_name /\
  f_enum_output (fdef_of [MInputValue; MOutputLname; MEnum "Color"; MOutputValue; MRequired]) = Some OutValue /\
  f_enum_input (fdef_of [MInputValue; MOutputLname; MEnum "Color"; MOutputValue; MRequired]) = Some only_value.
Proof. repeat apply conj; reflexivity. Qed.
