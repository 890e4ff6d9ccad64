(** Values.v -- the Python values a field can hold, with Python's equality, numeric
    order and truth.  This models the language, not the repository.

    Simplifications: strings are Coq strings (8-bit characters); a float is a
    rational, an infinity or nan (the sign of zero is not kept); sets, tuples,
    bytes and instances of foreign classes are opaque ([VOther]); enums have no
    mixed-in type; a subclass of a built-in type counts as the built-in type. *)
From Coq Require Import QArith.
From Verif Require Import Base.
Open Scope Z_scope.

Inductive pyfloat := FFin (q : Q) | FInf (negative : bool) | FNan.

Record pdate := { d_year : Z; d_month : Z; d_day : Z }.

(** [tz = None] is a naive datetime; [Some o] an aware one, [o] seconds east of UTC. *)
Record pdatetime :=
  { t_date : pdate; t_hour : Z; t_min : Z; t_sec : Z; t_us : Z; t_tz : option Z }.

(** Objects of JSON classes are references into a heap. *)
Definition oid := nat.

Inductive value : Type :=
| VNone
| VBool (b : bool)
| VInt (z : Z)
| VFloat (f : pyfloat)
| VStr (s : string)
| VDate (d : pdate)
| VDatetime (t : pdatetime)
| VEnum (cls name : string)
| VList (l : list value)
| VDict (d : list (string * value))
| VObj (o : oid)
| VOther (n : nat).

(** Induction that reaches the items of lists and dicts. *)
Section ValueInd.
  Variable P : value -> Prop.
  Hypothesis Hnone : P VNone.
  Hypothesis Hbool : forall b, P (VBool b).
  Hypothesis Hint : forall z, P (VInt z).
  Hypothesis Hfloat : forall f, P (VFloat f).
  Hypothesis Hstr : forall s, P (VStr s).
  Hypothesis Hdate : forall d, P (VDate d).
  Hypothesis Hdt : forall t, P (VDatetime t).
  Hypothesis Henum : forall c n, P (VEnum c n).
  Hypothesis Hlist : forall l, Forall P l -> P (VList l).
  Hypothesis Hdict : forall d, Forall (fun kv => P (snd kv)) d -> P (VDict d).
  Hypothesis Hobj : forall o, P (VObj o).
  Hypothesis Hother : forall n, P (VOther n).

  Fixpoint value_ind2 (v : value) : P v :=
    match v with
    | VNone => Hnone
    | VBool b => Hbool b
    | VInt z => Hint z
    | VFloat f => Hfloat f
    | VStr s => Hstr s
    | VDate d => Hdate d
    | VDatetime t => Hdt t
    | VEnum c n => Henum c n
    | VList l =>
        Hlist l ((fix go (l : list value) : Forall P l :=
                    match l with
                    | [] => Forall_nil _
                    | x :: r => Forall_cons x (value_ind2 x) (go r)
                    end) l)
    | VDict d =>
        Hdict d ((fix go (d : list (string * value)) : Forall (fun kv => P (snd kv)) d :=
                    match d with
                    | [] => Forall_nil _
                    | kv :: r => Forall_cons kv (value_ind2 (snd kv)) (go r)
                    end) d)
    | VObj o => Hobj o
    | VOther n => Hother n
    end.
End ValueInd.

(** ** Numbers *)

(** A number for comparison: Python compares ints, bools and floats exactly. *)
Inductive xnum := XFin (q : Q) | XNegInf | XPosInf | XNan.

Definition num_of (v : value) : option xnum :=
  match v with
  | VBool b => Some (XFin (inject_Z (if b then 1 else 0)))
  | VInt z => Some (XFin (inject_Z z))
  | VFloat (FFin q) => Some (XFin q)
  | VFloat (FInf true) => Some XNegInf
  | VFloat (FInf false) => Some XPosInf
  | VFloat FNan => Some XNan
  | _ => None
  end.

(** [type(v) is int or type(v) is float] *)
Definition is_number (v : value) : bool :=
  match v with VInt _ | VFloat _ => true | _ => false end.

Definition Qltb (a b : Q) : bool := negb (Qle_bool b a).

(** [a < b], [a <= b], [a == b] on numbers; every comparison with nan is false. *)
Definition xlt (a b : xnum) : bool :=
  match a, b with
  | XNan, _ | _, XNan => false
  | XFin p, XFin q => Qltb p q
  | XFin _, XPosInf | XNegInf, XFin _ | XNegInf, XPosInf => true
  | _, _ => false
  end.

Definition xle (a b : xnum) : bool :=
  match a, b with
  | XNan, _ | _, XNan => false
  | XFin p, XFin q => Qle_bool p q
  | XNegInf, _ | _, XPosInf => true
  | _, _ => false
  end.

Definition xeq (a b : xnum) : bool :=
  match a, b with
  | XFin p, XFin q => Qeq_bool p q
  | XNegInf, XNegInf | XPosInf, XPosInf => true
  | _, _ => false
  end.

(** [a < b] and [a <= b] where [a] is a number: TypeError when [b] is no number. *)
Definition py_cmp (c : xnum -> xnum -> bool) (a b : value) : res bool :=
  match num_of a, num_of b with
  | Some x, Some y => Ok (c x y)
  | _, _ => Err ETypeError
  end.
Definition py_lt := py_cmp xlt.
Definition py_le := py_cmp xle.

(** ** Dates *)
Definition date_eqb (a b : pdate) : bool :=
  (d_year a =? d_year b) && (d_month a =? d_month b) && (d_day a =? d_day b).

(** Days from 0000-03-01 in the proleptic Gregorian calendar (only used to compare
    aware datetimes). *)
Definition day_number (d : pdate) : Z :=
  let y := if d_month d <=? 2 then d_year d - 1 else d_year d in
  let m := (d_month d + 9) mod 12 in
  365 * y + y / 4 - y / 100 + y / 400 + (153 * m + 2) / 5 + d_day d - 1.

(** Microseconds of a datetime on its own clock. *)
Definition clock_us (t : pdatetime) : Z :=
  (((day_number (t_date t) * 24 + t_hour t) * 60 + t_min t) * 60 + t_sec t)
  * 1000000 + t_us t.

Definition instant_us (t : pdatetime) (offset : Z) : Z := clock_us t - offset * 1000000.

(** [==] on datetimes: a naive and an aware datetime are never equal. *)
Definition datetime_eqb (a b : pdatetime) : bool :=
  match t_tz a, t_tz b with
  | None, None => clock_us a =? clock_us b
  | Some x, Some y => instant_us a x =? instant_us b y
  | _, _ => false
  end.

(** ** Equality: Python's [==].  [oeq] is the equality of JSON objects. *)
Section Veq.
  Variable oeq : oid -> oid -> bool.

  Fixpoint veq (a b : value) {struct a} : bool :=
    match a with
    | VNone => match b with VNone => true | _ => false end
    | VBool _ | VInt _ | VFloat _ =>
        match num_of a, num_of b with
        | Some x, Some y => xeq x y
        | _, _ => false
        end
    | VStr s => match b with VStr s' => String.eqb s s' | _ => false end
    | VDate d => match b with VDate d' => date_eqb d d' | _ => false end
    | VDatetime t => match b with VDatetime t' => datetime_eqb t t' | _ => false end
    | VEnum c n =>
        match b with VEnum c' n' => String.eqb c c' && String.eqb n n' | _ => false end
    | VList l =>
        match b with
        | VList l' =>
            (fix go (l l' : list value) : bool :=
               match l, l' with
               | [], [] => true
               | x :: r, y :: r' => veq x y && go r r'
               | _, _ => false
               end) l l'
        | _ => false
        end
    | VDict d =>
        match b with
        | VDict d' =>
            Nat.eqb (length d) (length d') &&
            (fix go (d : list (string * value)) : bool :=
               match d with
               | [] => true
               | (k, x) :: r =>
                   match sget k d' with Some y => veq x y | None => false end && go r
               end) d
        | _ => false
        end
    | VObj o => match b with VObj o' => oeq o o' | _ => false end
    | VOther n => match b with VOther n' => Nat.eqb n n' | _ => false end
    end.
End Veq.

(** [x in l] for a list *)
Definition list_contains (oeq : oid -> oid -> bool) (x : value) (l : list value) : bool :=
  existsb (fun y => veq oeq x y) l.

(** [bool(v)] *)
Definition truthy (v : value) : bool :=
  match v with
  | VNone => false
  | VBool b => b
  | VInt z => negb (z =? 0)
  | VFloat (FFin q) => negb (Qeq_bool q 0)
  | VFloat _ => true
  | VStr s => negb (String.eqb s "")
  | VList l => match l with [] => false | _ => true end
  | VDict d => match d with [] => false | _ => true end
  | _ => true
  end.

Definition is_none (v : value) : bool := match v with VNone => true | _ => false end.

(** [float(z)] for an int: rounding to 53 bits, half to even; OverflowError
    beyond the range. *)
Definition float_of_Z (z : Z) : res pyfloat :=
  let a := Z.abs z in
  let n := Z.log2 a + 1 in
  let m :=
    if n <=? 53 then a
    else
      let u := 2 ^ (n - 53) in
      let q := a / u in
      let r := a mod u in
      let up := (u <? 2 * r) || ((2 * r =? u) && Z.odd q) in
      (if up then q + 1 else q) * u in
  if 2 ^ 1024 <=? m then Err EOverflow
  else Ok (FFin (inject_Z (Z.sgn z * m))).
