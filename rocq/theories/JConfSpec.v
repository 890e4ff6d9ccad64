(** JConfSpec.v -- what the settings of a class should be, written as one table. *)
From Verif Require Import Base JConfModel.
Open Scope string_scope.

(** Every setting that a class ends up with. *)
Record settings := {
  s_output_key : keystrat; s_input_key : keystrat; s_strict : bool; s_ref_name : refstrat;
  s_validate_all : bool; s_abstract : bool; s_reset_all : bool; s_output_null : bool
}.

Definition given {A} (x : option A) (otherwise : A) : A :=
  match x with Some y => y | None => otherwise end.

(** The documented table: a setting that is given, or the built-in one.  A strategy
    may be given by name. *)
Definition named (a : stratarg) (f : keystrat) : Prop :=
  match a with
  | ByFunction g => f = g
  | ByName "camelize" => f = Camelize
  | ByName "underscore" => f = Underscore
  | ByName _ => f = Identical
  end.

Definition strategy (x : option stratarg) (otherwise f : keystrat) : Prop :=
  match x with Some a => named a f | None => f = otherwise end.

Definition right_settings (camelize_json_keys : option bool) (a : args) (s : settings) : Prop :=
  (if match camelize_json_keys with Some false => true | _ => false end
   then s_output_key s = Identical /\ s_input_key s = Identical
   else strategy (a_output_key a) Camelize (s_output_key s) /\
        strategy (a_input_key a) Underscore (s_input_key s)) /\
  s_strict s = given (a_strict a) true /\
  s_ref_name s = given (a_ref_name a) ReferenceKey /\
  s_validate_all s = given (a_validate_all a) false /\
  s_abstract s = given (a_abstract a) false /\
  s_reset_all s = given (a_reset_all a) false /\
  s_output_null s = given (a_output_null a) false.

(** What the properties of a configuration answer. *)
Definition answers (limit : nat) (c : jconf) (s : settings) : Prop :=
  p_output_key limit c = Some (s_output_key s) /\
  p_input_key limit c = Some (s_input_key s) /\
  p_strict limit c = Some (s_strict s) /\
  p_ref_name limit c = Some (s_ref_name s) /\
  p_validate_all limit c = Some (s_validate_all s) /\
  p_abstract limit c = Some (s_abstract s) /\
  p_reset_all limit c = Some (s_reset_all s) /\
  p_output_null limit c = Some (s_output_null s).

(** The callbacks of each kind, in order. *)
Definition same_callbacks (c d : jconf) : Prop :=
  j_on_create c = j_on_create d /\ j_on_update c = j_on_update d /\
  j_on_delete c = j_on_delete d /\ j_can_create c = j_can_create d /\
  j_can_update c = j_can_update d /\ j_can_delete c = j_can_delete d /\
  j_can_read c = j_can_read d.
