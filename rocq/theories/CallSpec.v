(** CallSpec.v -- what it means that a modifier calls a function of the user, or runs the
    types that it was given as a check. *)
From Verif Require Import Base Mon PyStr KeypathModel Values ChainModel TypesModel ObjModel IoModel.
Open Scope string_scope.
Open Scope list_scope.

Section Spec.
  Variable P : program.

  (** The user's function [f] is called once with [args] and gives [out]; the call is
      logged, and what it does to the objects is kept. *)
  Definition called (k : evkind) (f : cbid) (c : ctx) (args : list value)
                    (w : world) (out : res value) (w' : world) : Prop :=
    exists h, p_call P f c args (w_heap w) = (out, h) /\
              w' = set_heap h (add_log (EvCall k f) w).

  (** It is called once for each item, in order. *)
  Inductive each_called (f : cbid) (c : ctx) : list value -> world -> list value -> world -> Prop :=
  | ec_nil : forall w, each_called f c [] w [] w
  | ec_cons : forall v l w r w1 rs w2,
      called KField f c [v] w (Ok r) w1 -> each_called f c l w1 rs w2 ->
      each_called f c (v :: l) w (r :: rs) w2.

  (** The value passes the types: it is transformed and then valid. *)
  Definition passes (n : nat) (ts : types) (c : ctx) (w w' : world) : Prop :=
    exists v w1, t_transform (interp P n) ts c w = (Ok v, w1) /\
                 t_validate (interp P n) ts (nval c v) w1 = (Ok tt, w').
  (** It is transformed and then not valid. *)
  Definition is_refused (n : nat) (ts : types) (c : ctx) (w w' : world) : Prop :=
    exists v w1 e, t_transform (interp P n) ts c w = (Ok v, w1) /\
                   t_validate (interp P n) ts (nval c v) w1 = (Err (EValidation e), w').
End Spec.

(** The validation error of one field *)
Definition invalid (c : ctx) (msg : string) : res unit :=
  Err (EValidation [(skp (c_fkr c), msg)]).

(** What a validator's answer means: False or a message is a failure.  A message given
    with the validator is used instead of its own. *)
Inductive verdict (c : ctx) (msg : option string) : res value -> res unit -> Prop :=
| vd_fine : forall v, v <> VBool false -> (forall s, v <> VStr s) -> verdict c msg (Ok v) (Ok tt)
| vd_false_own : forall m, msg = Some m -> verdict c msg (Ok (VBool false)) (invalid c m)
| vd_false : msg = None -> verdict c msg (Ok (VBool false)) (invalid c "invalid value")
| vd_text_own : forall s m, msg = Some m -> verdict c msg (Ok (VStr s)) (invalid c m)
| vd_text : forall s, msg = None -> verdict c msg (Ok (VStr s)) (invalid c s)
| vd_raise : forall e, verdict c msg (Err e) (Err e).

(** The items of the first list at whose place the second has None or True *)
Fixpoint kept (l answers : list value) : list value :=
  match l, answers with
  | v :: l', (VNone | VBool true) :: a' => v :: kept l' a'
  | _ :: l', _ :: a' => kept l' a'
  | _, _ => []
  end.

(** Two objects are the same, or of one class with equal keys. *)
Definition same_object (P : program) (w : world) (x o : oid) : Prop :=
  x = o \/
  (o_class (h_obj (w_heap w) x) = o_class (h_obj (w_heap w) o) /\
   eqv (p_oeq P) (w_heap w) (id_of (p_ct P) (w_heap w) x) (id_of (p_ct P) (w_heap w) o) = true).

(** ** Assigning the operator *)

(** [f] refers to one object whose key is stored, the stored key is no field of its own,
    and the object [o] holds neither an object nor a key. *)
Record unset_reference (P : program) (h : heap) (o : oid) (f : field) : Prop := {
  ur_field : ofield (p_ct P) h o (fl_name f) = Some f;
  ur_calc : is_calc f = false;
  ur_inst : f_ftype (fl_fdef f) = Some FTInstance;
  ur_none : attr h o (fl_name f) = Some VNone;
  ur_label : sget (fl_ref f) (o_lkeys (h_obj h o)) = Some (fl_name f);
  ur_plain : ofield (p_ct P) h o (fl_ref f) = None;
  ur_key : attr h o (fl_ref f) = Some VNone
}.

(** The object that [opby] assigns to [f]: the operator, or what the transformer of the
    field makes of it. *)
Definition assigned (P : program) (o : oid) (op : value) (f : field) (y : oid) : Prop :=
  (asop_of f = Some None /\ op = VObj y) \/
  (exists t, asop_of f = Some (Some t) /\
     forall c h, p_call P t c [op; VObj o] h = (Ok (VObj y), h)).
