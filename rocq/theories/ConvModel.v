(** ConvModel.v -- the modifiers that turn a value into another type (toint, tofloat, tostr,
    tobool, tolist), sqrt, and the modifiers for passwords (salt, checkpw).

    Left open: reading and printing floats, the square root of the math module, and bcrypt. *)
From Coq Require Import QArith.
From Verif Require Import Base Mon Values PyStr KeypathModel PyInt LeafModel.
Open Scope string_scope.
Open Scope Z_scope.

Section Conv.
  Context {S P : Type}.
  Variable vexc : string -> exn.
  Variable read_float : string -> option pyfloat.
  Variable print_float : pyfloat -> string.
  Variable root : value -> res pyfloat.

  (** modifiers/toint_modifier.py:12-14 *)
  Definition t_toint (v : value) : st S value :=
    match v with
    | VBool b => ret (VInt (if b then 1 else 0))
    | VStr s => match py_int s with
                | Some z => ret (VInt z)
                | None => throw EValueError
                end
    | _ => ret v
    end.

  (** modifiers/tofloat_modifier.py:12-14 *)
  Definition t_tofloat (v : value) : st S value :=
    match v with
    | VBool b => ret (VFloat (FFin (if b then 1 else 0)))
    | VStr s => match read_float s with
                | Some f => ret (VFloat f)
                | None => throw EValueError
                end
    | _ => ret v
    end.

  (** modifiers/tostr_modifier.py:12-14 *)
  Definition t_tostr (v : value) : st S value :=
    match v with
    | VInt z => ret (VStr (string_of_Z z))
    | VFloat f => ret (VStr (print_float f))
    | VBool b => ret (VStr (if b then "True" else "False"))
    | _ => ret v
    end.

  (** modifiers/tobool_modifier.py:12-13 *)
  Definition t_tobool (v : value) : st S value := ret (VBool (truthy v)).

  (** modifiers/tolist_modifier.py:12-14; sets and tuples are among [VOther], which is
      left as it is (simplification) *)
  Definition t_tolist (v : value) : st S value :=
    match v with
    | VStr s => ret (VList (map (fun c => VStr (String c "")) (list_ascii_of_string s)))
    | _ => ret v
    end.

  (** modifiers/sqrt_modifier.py:13-20 *)
  Definition t_sqrt (v : value) : st S value :=
    match v with
    | VInt _ | VFloat _ =>
        do* ok <- lift (py_le (VInt 0) v);
        if ok then do* r <- lift (root v); ret (VFloat r)
        else throw (vexc "value is less than 0 thus cannot be sqrted")
    | _ => ret v
    end.

  (** ** Passwords *)
  Variable gensalt : st S string.
  Variable hashpw : string -> string -> res string.
  Variable bcheck : string -> string -> res bool.

  (** modifiers/salt_modifier.py:20-24 *)
  Definition t_salt (v : value) : st S value :=
    match v with
    | VStr s => do* g <- gensalt; do* h <- lift (hashpw s g); ret (VStr h)
    | _ => ret v
    end.

  (** modifiers/checkpw_modifier.py:22-30; [against] runs the types given to the modifier
      on the value *)
  Definition v_checkpw (against : value -> st S value) (v : value) : st S unit :=
    do* a <- against v;
    match a with
    | VStr p =>
        match v with
        | VStr h => do* ok <- lift (bcheck p h);
                    if ok then ret tt else throw (vexc "value is incorrect")
        | _ => throw (vexc "value is incorrect")
        end
    | _ => throw (vexc "value is incorrect")
    end.
End Conv.
