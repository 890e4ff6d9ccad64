(** JConfModel.v -- model of jsonclasses/jconf.py (class JConf), of the default
    configuration of a class graph (jsonclasses/cgraph.py:49-64) and of the settings
    that jsonclasses/jsonclass.py passes on.

    Functions are compared by identity in Python: a key strategy is one of the three of
    keypath.py or a function of the user, a number; so is a reference name strategy.
    Callbacks and guards are numbers too (user callables and types chains). *)
From Verif Require Import Base.
Open Scope string_scope.

(** keypath.py:11-20 and user functions *)
Inductive keystrat := Camelize | Underscore | Identical | UserStrategy (n : nat).
(** keypath.py:23-47 reference_key and user functions *)
Inductive refstrat := ReferenceKey | UserRef (n : nat).

(** The argument of a strategy setting: a function or a name (jconf.py:32-33). *)
Inductive stratarg := ByFunction (f : keystrat) | ByName (s : string).

(** jconf.py:298-309 _figure_out, on an argument that is given *)
Definition figure_out (a : stratarg) : keystrat :=
  match a with
  | ByFunction f => f
  | ByName s => if String.eqb s "underscore" then Underscore
                else if String.eqb s "camelize" then Camelize
                else Identical
  end.

(** The argument of a callback setting (jconf.py:40-46): nothing, one callable or
    types chain, or a list. *)
Inductive cbarg := NoCb | OneCb (c : nat) | ListCb (l : list nat).

(** jconf.py:95-129, the same lines for each of the seven settings *)
Definition cb_list (a : cbarg) : list nat :=
  match a with NoCb => [] | OneCb c => [c] | ListCb l => l end.

(** The arguments of [JConf(...)] (jconf.py:30-46); [None] is not given. *)
Record args := {
  a_cgraph : option string;
  a_output_key : option stratarg;
  a_input_key : option stratarg;
  a_strict : option bool;
  a_ref_name : option refstrat;
  a_validate_all : option bool;
  a_abstract : option bool;
  a_reset_all : option bool;
  a_output_null : option bool;
  a_on_create : cbarg; a_on_update : cbarg; a_on_delete : cbarg;
  a_can_create : cbarg; a_can_update : cbarg; a_can_delete : cbarg; a_can_read : cbarg
}.

(** jconf.py:85-129: the private attributes *)
Record jconf := {
  j_cgraph : string;
  j_output_key : option keystrat;
  j_input_key : option keystrat;
  j_strict : option bool;
  j_ref_name : option refstrat;
  j_validate_all : option bool;
  j_abstract : option bool;
  j_reset_all : option bool;
  j_output_null : option bool;
  j_on_create : list nat; j_on_update : list nat; j_on_delete : list nat;
  j_can_create : list nat; j_can_update : list nat; j_can_delete : list nat;
  j_can_read : list nat
}.

(** jconf.py:85-129 __init__; [cgraph or 'default'] *)
Definition jconf_init (a : args) : jconf :=
  {| j_cgraph := match a_cgraph a with
                 | Some n => if String.eqb n "" then "default" else n
                 | None => "default"
                 end;
     j_output_key := option_map figure_out (a_output_key a);
     j_input_key := option_map figure_out (a_input_key a);
     j_strict := a_strict a;
     j_ref_name := a_ref_name a;
     j_validate_all := a_validate_all a;
     j_abstract := a_abstract a;
     j_reset_all := a_reset_all a;
     j_output_null := a_output_null a;
     j_on_create := cb_list (a_on_create a);
     j_on_update := cb_list (a_on_update a);
     j_on_delete := cb_list (a_on_delete a);
     j_can_create := cb_list (a_can_create a);
     j_can_update := cb_list (a_can_update a);
     j_can_delete := cb_list (a_can_delete a);
     j_can_read := cb_list (a_can_read a) |}.

(** cgraph.py:49-64: the default configuration of the graph called [n]; there is no way
    to change it (cgraph.py:76-79 is a property without a setter). *)
Definition default_config (n : string) : jconf :=
  jconf_init
    {| a_cgraph := Some n;
       a_output_key := Some (ByFunction Camelize);
       a_input_key := Some (ByFunction Underscore);
       a_strict := Some true;
       a_ref_name := Some ReferenceKey;
       a_validate_all := Some false;
       a_abstract := Some false;
       a_reset_all := Some false;
       a_output_null := Some false;
       a_on_create := ListCb []; a_on_update := ListCb []; a_on_delete := ListCb [];
       a_can_create := ListCb []; a_can_update := ListCb []; a_can_delete := ListCb [];
       a_can_read := ListCb [] |}.

(** A property that falls back (jconf.py:189-252): the setting of the class, else the
    property of the default configuration of its graph, which falls back in turn to
    the default configuration of the graph it names; [None] is a RecursionError. *)
Fixpoint fallback {A} (get : jconf -> option A) (n : nat) (c : jconf) : option A :=
  match get c with
  | Some x => Some x
  | None => match n with
            | O => None
            | S n' => fallback get n' (default_config (j_cgraph c))
            end
  end.

Section Props.
  (** the recursion limit *)
  Context (limit : nat).
  Definition p_output_key := fallback j_output_key limit.     (* jconf.py:189-195 *)
  Definition p_input_key := fallback j_input_key limit.       (* jconf.py:197-203 *)
  Definition p_strict := fallback j_strict limit.             (* jconf.py:205-211 *)
  Definition p_ref_name := fallback j_ref_name limit.         (* jconf.py:213-219 *)
  Definition p_validate_all := fallback j_validate_all limit. (* jconf.py:221-228 *)
  Definition p_abstract := fallback j_abstract limit.         (* jconf.py:230-236 *)
  Definition p_reset_all := fallback j_reset_all limit.       (* jconf.py:238-245 *)
  Definition p_output_null := fallback j_output_null limit.   (* jconf.py:247-253 *)

  Definition keystrat_eqb (a b : keystrat) : bool :=
    match a, b with
    | Camelize, Camelize | Underscore, Underscore | Identical, Identical => true
    | UserStrategy n, UserStrategy m => Nat.eqb n m
    | _, _ => false
    end.
  Definition refstrat_eqb (a b : refstrat) : bool :=
    match a, b with
    | ReferenceKey, ReferenceKey => true
    | UserRef n, UserRef m => Nat.eqb n m
    | _, _ => false
    end.
  Definition opt_eqb {A} (eqb : A -> A -> bool) (a b : option A) : bool :=
    match a, b with Some x, Some y => eqb x y | None, None => true | _, _ => false end.
  Fixpoint list_eqb (a b : list nat) : bool :=
    match a, b with
    | [], [] => true
    | x :: a', y :: b' => Nat.eqb x y && list_eqb a' b'
    | _, _ => false
    end.

  (** jconf.py:138-174 __eq__ on two configurations; graphs are shared objects, one
      per name *)
  Definition jconf_eq (c d : jconf) : bool :=
    if negb (String.eqb (j_cgraph c) (j_cgraph d)) then false
    else if negb (opt_eqb keystrat_eqb (p_output_key c) (p_output_key d)) then false
    else if negb (opt_eqb keystrat_eqb (p_input_key c) (p_input_key d)) then false
    else if negb (opt_eqb Bool.eqb (p_strict c) (p_strict d)) then false
    else if negb (opt_eqb refstrat_eqb (p_ref_name c) (p_ref_name d)) then false
    else if negb (opt_eqb Bool.eqb (p_validate_all c) (p_validate_all d)) then false
    else if negb (opt_eqb Bool.eqb (p_abstract c) (p_abstract d)) then false
    else if negb (opt_eqb Bool.eqb (p_reset_all c) (p_reset_all d)) then false
    else if negb (opt_eqb Bool.eqb (p_output_null c) (p_output_null d)) then false
    else if negb (list_eqb (j_on_create c) (j_on_create d)) then false
    else if negb (list_eqb (j_on_update c) (j_on_update d)) then false
    else if negb (list_eqb (j_on_delete c) (j_on_delete d)) then false
    else if negb (list_eqb (j_can_create c) (j_can_create d)) then false
    else if negb (list_eqb (j_can_update c) (j_can_update d)) then false
    else if negb (list_eqb (j_can_delete c) (j_can_delete d)) then false
    else if negb (list_eqb (j_can_read c) (j_can_read d)) then false
    else true.
End Props.

(** jsonclass.py:103-105: [camelize_json_keys=False] replaces both key strategies *)
Definition jsonclass_args (camelize_json_keys : option bool) (a : args) : args :=
  match camelize_json_keys with
  | Some false =>
      {| a_cgraph := a_cgraph a;
         a_output_key := Some (ByFunction Identical);
         a_input_key := Some (ByFunction Identical);
         a_strict := a_strict a; a_ref_name := a_ref_name a;
         a_validate_all := a_validate_all a; a_abstract := a_abstract a;
         a_reset_all := a_reset_all a; a_output_null := a_output_null a;
         a_on_create := a_on_create a; a_on_update := a_on_update a;
         a_on_delete := a_on_delete a; a_can_create := a_can_create a;
         a_can_update := a_can_update a; a_can_delete := a_can_delete a;
         a_can_read := a_can_read a |}
  | _ => a
  end.

(** jsonclass.py:103-123: the configuration of a class declared with these arguments *)
Definition class_conf (camelize_json_keys : option bool) (a : args) : jconf :=
  jconf_init (jsonclass_args camelize_json_keys a).
