(** IoExample.v -- a small program (ObjExample.v's classes, one enum, callables that only
    answer) in which the hypotheses of the theorems about input and output are met. *)
From Verif Require Import Base Mon PyList PyDict KeypathModel Values OGraphModel MGraphModel TypesModel
  ObjModel ObjExample IoModel.
From Verif Require LeafModel.
Open Scope string_scope.
Open Scope list_scope.

Definition ex_enums (e : string) : option (list (string * value)) :=
  if String.eqb e "Color"
  then Some [("RED", VStr "r"); ("GREEN", VStr "g"); ("ROUGE", VStr "r"); ("Blue", VStr "b")]
  else None.
(** callable 0 gives None, 1 True, 2 False, 3 a message, 4 the number 7, others raise *)
Definition ex_call (f : cbid) (c : ctx) (args : list value) : st heap value :=
  match f with
  | 0%nat => ret VNone
  | 1%nat => ret (VBool true)
  | 2%nat => ret (VBool false)
  | 3%nat => ret (VStr "no")
  | 4%nat => ret (VInt 7)
  | n => throw (EUser n)
  end.
Definition mkprog (classes : string -> option cdef) (guards : string -> action -> list param)
                  (hooks : string -> action -> list cbid) : program :=
  {| p_ct := classes; p_oeq := ex_oeq; p_getter := ex_getter; p_setter := ex_setter;
     p_str := ex_str; p_arith := fun _ _ _ => Err ETypeError; p_lim := 50;
     p_isa := String.eqb; p_enums := ex_enums; p_call := ex_call;
     p_guards := guards; p_hooks := hooks; p_write := fun _ => ret tt; p_delete := fun _ => ret tt |}.
Definition no_guards : string -> action -> list param := fun _ _ => [].
Definition no_hooks : string -> action -> list cbid := fun _ _ => [].
Definition ex_prog : program := mkprog ex_ct no_guards no_hooks.

Definition mkw (h : heap) : world :=
  {| w_heap := h; w_ext := fun _ => ext0; w_mg := []; w_log := [] |}.
Definition ex_world (new : bool) : world := mkw (ex_heap new).

(** a context for a value of a field of object 0 *)
Definition ex_ctx (ts : types) (v : value) : ctx :=
  {| c_root := VObj 0%nat; c_owner := VObj 0%nat; c_parent := VObj 0%nat; c_holder := VNone;
     c_val := v; c_original := VNone; c_cfg := cfg0;
     c_kr := [KStr "x"]; c_fkr := [KStr "x"]; c_ko := [KStr "x"]; c_kp := [KStr "x"]; c_kh := [KStr "x"];
     c_fdef := fdef_of ts; c_tag := None; c_operator := VNone; c_idchain := []; c_passin := VNone |}.
