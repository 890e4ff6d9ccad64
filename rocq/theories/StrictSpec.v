(** StrictSpec.v -- what the theorems about unknown input keys say. *)
From Verif Require Import Base Mon PyDict Values TypesModel ObjModel IoModel.
Open Scope list_scope.

(** The names under which input for a class is accepted: those of its fields, in Python
    and in JSON, and those of its stored reference keys, in both forms. *)
Definition allowed (d : cdef) (k : string) : Prop :=
  exists f, In f (cd_fields d) /\
            (k = fl_name f \/ k = fl_json f \/
             (is_local f = true /\ (is_inst_field f = true \/ is_list_field f = true) /\
              (k = fl_ref f \/ k = fl_cref f))).

(** [k] is the first key that is not allowed. *)
Definition first_unknown (d : cdef) (keys : list string) (k : string) : Prop :=
  exists pre post, keys = pre ++ k :: post /\ Forall (allowed d) pre /\ ~ allowed d k.

(** [kept] is the input without the keys that are not allowed. *)
Inductive only_allowed (d : cdef) : list (string * value) -> list (string * value) -> Prop :=
| oa_nil : only_allowed d [] []
| oa_keep : forall k v m m', allowed d k -> only_allowed d m m' -> only_allowed d ((k, v) :: m) ((k, v) :: m')
| oa_drop : forall k v m m', ~ allowed d k -> only_allowed d m m' -> only_allowed d ((k, v) :: m) m'.

(** The same place in the input, with the strictness mark of the field changed. *)
Definition marked_as (s : strictness) (c : ctx) : ctx :=
  {| c_root := c_root c; c_owner := c_owner c; c_parent := c_parent c; c_holder := c_holder c;
     c_val := c_val c; c_original := c_original c; c_cfg := c_cfg c;
     c_kr := c_kr c; c_fkr := c_fkr c; c_ko := c_ko c; c_kp := c_kp c; c_kh := c_kh c;
     c_fdef := with_strictness s (c_fdef c); c_tag := c_tag c; c_operator := c_operator c;
     c_idchain := c_idchain c; c_passin := c_passin c |}.

(** Unknown keys are refused here: the field says so, or it says nothing and the class does. *)
Definition refuses (c : ctx) (d : cdef) : Prop :=
  f_strictness (c_fdef c) = SStrict \/ (f_strictness (c_fdef c) = SUndefined /\ cd_strict d = true).

(** References that store their keys hold objects or lists of objects. *)
Definition local_refs_typed (d : cdef) : Prop :=
  forall f, In f (cd_fields d) -> is_local f = true -> is_inst_field f = true \/ is_list_field f = true.
