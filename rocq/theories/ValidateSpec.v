(** ValidateSpec.v -- which fields of an object validation looks at, and what it makes of
    their failures. *)
From Verif Require Import Base Mon KeypathModel Values MGraphModel ChainModel ChainSpec TypesModel ObjModel IoModel.
Open Scope list_scope.

Section Spec.
  Context (P : program).

  (** Field [f] of [o], in state [w], is to be validated: the object is new, or the field
      is not a plain data field, or it or something below it is listed as modified. *)
  Definition due (w : world) (o : oid) (f : field) : Prop :=
    o_new (wobj w o) = true \/ f_fstore (fl_fdef f) <> Embedded \/
    exists keypath, In keypath (o_mfields (wobj w o)) /\ initial_keypath keypath = fl_name f.

  (** The context in which the value [v] of field [f] of [o] is validated, when [o] is
      validated in context [c]; [e] is the name used in messages. *)
  Definition field_ctx (c : ctx) (o : oid) (f : field) (cls : string) (v : value) (e : string) : ctx :=
    let owner := match c_original c with VNone => VObj o | x => x end in
    if is_inst_field f then nexto c v (fl_name f) e (fl_fdef f) (fld_tag cls f) None
    else nextvo c v (fl_name f) e (fl_fdef f) (fld_tag cls f) owner.

  Definition value_of (w : world) (o : oid) (n : string) (v : value) : Prop := getattr P o n w = (Ok v, w).

  (** The chain of field [f] ends with [r] on the value the field has in [w]. *)
  Definition field_result (fuel : nat) (c : ctx) (o : oid) (f : field) (w : world) (r : res unit) (w' : world) : Prop :=
    exists v e, value_of w o (fl_name f) v /\ ekey P c (fl_name f) w = (Ok e, w) /\
      t_validate (interp P fuel) (fl_types f) (field_ctx c o f (wclass w o) v e) w = (r, w').
  (** Every modifier of the validation phase [n] of field [f] accepts that value. *)
  Definition field_accepts (fuel : nat) (c : ctx) (o : oid) (f : field) (w w' : world) : Prop :=
    exists v e t n p, value_of w o (fl_name f) v /\ ekey P c (fl_name f) w = (Ok e, w) /\
      phases (map (interp P fuel) (fl_types f)) t n p /\
      all_accept (field_ctx c o f (wclass w o) v e) n w w'.

  (** [sweep]: the fields are gone through in order; those not [isdue] are only read; of the
      others the outcome is listed: nothing, or the messages of a failure. *)
  Inductive sweep (isdue : field -> Prop) (fuel : nat) (c : ctx) (o : oid)
    : list field -> world -> list (field * option (list (string * string))) -> world -> Prop :=
  | sw_nil w : sweep isdue fuel c o [] w [] w
  | sw_skip f fs w v l w' : ~ isdue f -> value_of w o (fl_name f) v ->
      sweep isdue fuel c o fs w l w' -> sweep isdue fuel c o (f :: fs) w l w'
  | sw_pass f fs w w1 l w' : isdue f -> field_result fuel c o f w (Ok tt) w1 ->
      sweep isdue fuel c o fs w1 l w' -> sweep isdue fuel c o (f :: fs) w ((f, None) :: l) w'
  | sw_fail f fs w w1 e l w' : isdue f -> field_result fuel c o f w (Err (EValidation e)) w1 ->
      sweep isdue fuel c o fs w1 l w' -> sweep isdue fuel c o (f :: fs) w ((f, Some e) :: l) w'.

  Definition reports (l : list (field * option (list (string * string)))) : list (list (string * string)) :=
    flat_map (fun x => match snd x with Some e => [e] | None => [] end) l.
  Definition all_passed (l : list (field * option (list (string * string)))) : Prop :=
    Forall (fun x => snd x = None) l.

  Definition verdict (l : list (field * option (list (string * string)))) : res unit :=
    match reports l with [] => Ok tt | rs => Err (EValidation (dict_of String.eqb (concat rs))) end.

  (** How going through the fields [fs] ends.  Either all of them have been gone through:
      the verdict is made of all the reports; when only the first failure is wanted there
      is none.  Or it stops at one of them with an exception: the value cannot be read, or
      the chain of a field that is due raises; a validation failure only stops it when
      only the first failure is wanted. *)
  Inductive ends (isdue : field -> Prop) (fuel : nat) (c : ctx) (o : oid) (all : bool) (fs : list field) (w : world)
    : res unit -> world -> Prop :=
  | en_done l w' : sweep isdue fuel c o fs w l w' -> (all = false -> all_passed l) ->
      ends isdue fuel c o all fs w (verdict l) w'
  | en_unreadable before f after l w1 e w' : fs = before ++ f :: after ->
      sweep isdue fuel c o before w l w1 -> (all = false -> all_passed l) ->
      getattr P o (fl_name f) w1 = (Err e, w') ->
      ends isdue fuel c o all fs w (Err e) w'
  | en_fails before f after l w1 e w' : fs = before ++ f :: after ->
      sweep isdue fuel c o before w l w1 -> (all = false -> all_passed l) ->
      isdue f -> field_result fuel c o f w1 (Err e) w' -> (all = true -> forall msgs, e <> EValidation msgs) ->
      ends isdue fuel c o all fs w (Err e) w'.

  (** Object [o] is validated in context [c]: it is the value, it has not been met yet in
      this call, its class is known and is the one the context asks for. *)
  Record fresh_visit (c : ctx) (o : oid) (d : cdef) (w : world) : Prop := {
    fv_val : c_val c = VObj o;
    fv_new : m_has (cname_of w) o (pk_of P w o) (w_mg w) = false;
    fv_owner : exists x, c_owner c = VObj x;
    fv_class : exists cls, f_inst (c_fdef c) = Some cls /\ p_ct P cls = Some d /\ p_isa P (wclass w o) cls = true
  }.
  (** ... and is marked as met. *)
  Definition marked (w : world) (o : oid) : world := set_mg (m_put (cname_of w) o (pk_of P w o) (w_mg w)) w.

  (** all failures are wanted *)
  Definition wants_all (c : ctx) (d : cdef) : bool :=
    match g_all (c_cfg c) with Some b => b | None => cd_validate_all d end.

  (** A call [o.validate(all_fields=mode)] made in [w]: its context, the state in which the
      fields are gone through (only [o] is marked as met) and whether all failures are
      wanted. *)
  Definition call_ctx (o : oid) (mode : option bool) (w : world) : ctx :=
    root_ctx o {| g_all := mode; g_ignore_writeonly := false; g_reverse := false; g_fill := false; g_output_null := None |} w.
  Definition call_start (o : oid) (w : world) : world := marked (set_mg [] w) o.
  Definition call_all (mode : option bool) (d : cdef) : bool := match mode with Some b => b | None => cd_validate_all d end.
  Definition of_class (w : world) (o : oid) (d : cdef) : Prop :=
    p_ct P (wclass w o) = Some d /\ p_isa P (wclass w o) (wclass w o) = true.
End Spec.
