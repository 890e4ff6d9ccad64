(** LeafModel.v -- the modifiers that only look at the value they are given
    (jsonclasses/modifiers/*.py).

    [P] is the type of raw parameters and [resolve] is [Modifier.resolve_param]
    (modifiers/modifier.py:20-36): a constant, the result of a user callable, or of a
    types chain; it may read and change the state and may raise.  [vexc msg] is the
    exception built by [ctx.raise_vexc(msg)].  Messages do not include the text of
    the bound. *)
From Coq Require Import QArith Qround Qabs.
From Verif Require Import Base Mon PyList KeypathModel Values PyStr CalModel.
Open Scope string_scope.
Open Scope Z_scope.
Open Scope list_scope.

(** The classes checked by the type modifiers. *)
Inductive tykind := TStr | TInt | TFloat | TBool | TDate | TDatetime | TList | TDict.

Inductive arith := AAdd | ASub | AMul | ADiv | AMod | APow.

Inductive leaf (P : Type) : Type :=
(* numbers *)
| LMin (b : P) | LMax (b : P) | LRange (lo hi : P) | LGt (b : P) | LLt (b : P)
| LPositive | LNegative | LNonpositive | LNonnegative | LEven | LOdd
| LLowerbond (b : P) | LUpperbond (b : P)
| LAbs | LCeil | LFloor | LRound | LArith (op : arith) (by_ : P)
(* length, membership, equality *)
| LLength (lo : P) (hi : option P) | LMinlength (b : P) | LMaxlength (b : P)
| LOneOf (choices : P) | LEq (x : P) | LNeq (x : P)
(* prefixes and suffixes *)
| LHasPrefix (x : P) | LHasSuffix (x : P) | LIsPrefixOf (x : P) | LIsSuffixOf (x : P)
(* shaping *)
| LTruncate (n : P) | LPadStart (c n : P) | LPadEnd (c n : P) | LReverse
| LAppend (x : P) | LPrepend (x : P) | LInsertAt (x i : P)
| LSplit (sep : P) | LJoin (sep : P) | LReplace (old new : P) | LTrim
| LToLower | LToUpper | LToCap | LToTitle | LLen
| LAlnum | LAlpha | LDigit | LNumeric
(* types and conversions *)
| LType (k : tykind) | LToBool | LInverse | LWrapIntoList
(* dates *)
| LBefore (x : P) | LAfter (x : P)
| LToBoDay | LToBoHour | LToBoMin | LToBoSec | LToBoMon | LToBoYear
| LToNextDay | LToNextHour | LToNextMin | LToNextSec | LToNextMon | LToNextYear.

Arguments LPositive {P}. Arguments LNegative {P}. Arguments LNonpositive {P}.
Arguments LNonnegative {P}. Arguments LEven {P}. Arguments LOdd {P}.
Arguments LAbs {P}. Arguments LCeil {P}. Arguments LFloor {P}. Arguments LRound {P}.
Arguments LReverse {P}. Arguments LTrim {P}. Arguments LToLower {P}.
Arguments LToUpper {P}. Arguments LToCap {P}. Arguments LToTitle {P}.
Arguments LLen {P}. Arguments LAlnum {P}. Arguments LAlpha {P}. Arguments LDigit {P}.
Arguments LNumeric {P}. Arguments LType {P} k. Arguments LToBool {P}.
Arguments LInverse {P}. Arguments LWrapIntoList {P}.
Arguments LToBoDay {P}. Arguments LToBoHour {P}. Arguments LToBoMin {P}.
Arguments LToBoSec {P}. Arguments LToBoMon {P}. Arguments LToBoYear {P}.
Arguments LToNextDay {P}. Arguments LToNextHour {P}. Arguments LToNextMin {P}.
Arguments LToNextSec {P}. Arguments LToNextMon {P}. Arguments LToNextYear {P}.
Arguments LMin {P}. Arguments LMax {P}. Arguments LRange {P}. Arguments LGt {P}.
Arguments LLt {P}. Arguments LLowerbond {P}. Arguments LUpperbond {P}.
Arguments LArith {P}. Arguments LLength {P}. Arguments LMinlength {P}.
Arguments LMaxlength {P}. Arguments LOneOf {P}. Arguments LEq {P}. Arguments LNeq {P}.
Arguments LHasPrefix {P}. Arguments LHasSuffix {P}. Arguments LIsPrefixOf {P}.
Arguments LIsSuffixOf {P}. Arguments LTruncate {P}. Arguments LPadStart {P}.
Arguments LPadEnd {P}. Arguments LAppend {P}. Arguments LPrepend {P}.
Arguments LInsertAt {P}. Arguments LSplit {P}. Arguments LJoin {P}.
Arguments LReplace {P}. Arguments LBefore {P}. Arguments LAfter {P}.

(** The parameters that a modifier keeps from its [__init__] and resolves when it is used *)
Definition leaf_params {P} (l : leaf P) : list P :=
  match l with
  | LMin b | LMax b | LGt b | LLt b | LLowerbond b | LUpperbond b | LArith _ b
  | LMinlength b | LMaxlength b | LOneOf b | LEq b | LNeq b | LHasPrefix b | LHasSuffix b
  | LIsPrefixOf b | LIsSuffixOf b | LTruncate b | LAppend b | LPrepend b | LSplit b
  | LJoin b | LBefore b | LAfter b => [b]
  | LRange a b | LPadStart a b | LPadEnd a b | LInsertAt a b | LReplace a b => [a; b]
  | LLength a (Some b) => [a; b]
  | LLength a None => [a]
  | _ => []
  end.

(** types.py:567-571 and 573-577: [lte] is a [max] and [gte] a [min] *)
Definition types_lte {P} (b : P) : leaf P := LMax b.
Definition types_gte {P} (b : P) : leaf P := LMin b.

(** modifiers/type_modifier.py:21-30 with the [cls] and [exact_type] of
    str_modifier.py:9-12, int_modifier.py:9-13, float_modifier.py:13-16,
    bool_modifier.py:9-13, date_modifier.py:14-17, datetime_modifier.py:14-17,
    listof_modifier.py and dictof_modifier.py.  [datetime] is a subclass of [date]. *)
Definition type_accepts (k : tykind) (v : value) : bool :=
  match v with
  | VNone => true
  | _ =>
      match k, v with
      | TStr, VStr _ | TInt, VInt _ | TFloat, VFloat _ | TBool, VBool _
      | TDate, VDate _ | TDate, VDatetime _ | TDatetime, VDatetime _
      | TList, VList _ | TDict, VDict _ => true
      | _, _ => false
      end
  end.

Definition tyname (k : tykind) : string :=
  match k with
  | TStr => "str" | TInt => "int" | TFloat => "float" | TBool => "bool"
  | TDate => "date" | TDatetime => "datetime" | TList => "list" | TDict => "dict"
  end.

(** [len(v)] where the caller has checked that [v] is a list or a str *)
Definition list_or_str (v : value) : option Z :=
  match v with
  | VList l => Some (zlen l)
  | VStr s => Some (slen s)
  | _ => None
  end.

(** [hasattr(v, '__len__')] for the other values: only dict has it *)

(** An int used as a slice bound; a bool is an int. *)
Definition as_index (v : value) : res Z :=
  match v with
  | VInt z => Ok z
  | VBool b => Ok (if b then 1 else 0)
  | _ => Err ETypeError
  end.

(** round half to even *)
Definition round_half_even (q : Q) : Z :=
  let f := Qfloor q in
  let r := (q - inject_Z f)%Q in
  if Qltb r (1 # 2) then f
  else if Qltb (1 # 2) r then f + 1
  else if Z.even f then f else f + 1.

(** modifiers/floor_modifier.py:12-14, ceil_modifier.py:12-14, round_modifier.py:11-13:
    [floor(v)], [ceil(v)], [round(v)] of a number *)
Definition integral (f : Q -> Z) (v : value) : res value :=
  match v with
  | VInt z => Ok (VInt z)
  | VFloat (FFin q) => Ok (VInt (f q))
  | VFloat (FInf _) => Err EOverflow
  | VFloat FNan => Err EValueError
  | _ => Ok v
  end.

Definition date_to_datetime (v : value) : value :=
  match v with
  | VDate d => VDatetime {| t_date := d; t_hour := 0; t_min := 0; t_sec := 0; t_us := 0;
                            t_tz := None |}
  | _ => v
  end.

(** [a <= b] after dates have been turned into datetimes.  Simplification: strings and
    lists, which Python can also order, are refused. *)
Definition dt_le (a b : value) : res bool :=
  match a, b with
  | VDatetime x, VDatetime y =>
      match t_tz x, t_tz y with
      | None, None => Ok (clock_us x <=? clock_us y)
      | Some i, Some j => Ok (instant_us x i <=? instant_us y j)
      | _, _ => Err ETypeError
      end
  | _, _ => py_le a b
  end.

Section Leaf.
  Context {S P : Type}.
  Variable oeq : oid -> oid -> bool.
  (** [str(v)] of values other than None, bools, ints and strings *)
  Variable other_str : value -> string.
  (** float arithmetic, and int arithmetic with a float result *)
  Variable farith : arith -> value -> value -> res value.
  Variable resolve : P -> st S value.
  Variable vexc : string -> exn.

  Definition fail {A} (msg : string) : st S A := throw (vexc msg).

  (** [str(v)] *)
  Definition py_str (v : value) : string :=
    match v with
    | VNone => "None"
    | VBool true => "True"
    | VBool false => "False"
    | VInt z => string_of_Z z
    | VStr s => s
    | _ => other_str v
    end.

  (** [v in choices].  Simplification: for containers other than list, str and dict,
      TypeError. *)
  Definition py_in (v choices : value) : res bool :=
    match choices with
    | VList l => Ok (list_contains oeq v l)
    | VStr s => match v with VStr x => Ok (str_contains s x) | _ => Err ETypeError end
    | VDict d => match v with VStr x => Ok (smem x d) | _ => Ok false end
    | _ => Err ETypeError
    end.

  (** int arithmetic; the rest is [farith] *)
  Definition py_arith (op : arith) (a b : value) : res value :=
    match op, a, b with
    | AAdd, VInt x, VInt y => Ok (VInt (x + y))
    | ASub, VInt x, VInt y => Ok (VInt (x - y))
    | AMul, VInt x, VInt y => Ok (VInt (x * y))
    | AMod, VInt x, VInt y => if y =? 0 then Err EZeroDivision else Ok (VInt (x mod y))
    | APow, VInt x, VInt y => if y <? 0 then farith op a b else Ok (VInt (x ^ y))
    | ADiv, VInt _, VInt y => if y =? 0 then Err EZeroDivision else farith op a b
    | _, _, _ => farith op a b
    end.

  (** A bound check: [if is_number and (val `bad` bound): raise].  The bound is
      resolved again for the message when [again]. *)
  Definition bound_check (bad : value -> value -> res bool) (b : P) (again : bool)
      (msg : string) (v : value) : st S unit :=
    if is_number v then
      do* x <- resolve b;
      do* c <- lift (bad v x);
      if c then (if again then resolve b >> fail msg else fail msg) else ret tt
    else ret tt.

  Definition gtb (a b : value) : res bool := py_lt b a.
  Definition geb (a b : value) : res bool := py_le b a.

  (** modifiers/min_modifier.py:16-20 *)
  Definition v_min (b : P) := bound_check py_lt b true "value is not greater than or equal".
  (** modifiers/max_modifier.py:16-19 *)
  Definition v_max (b : P) := bound_check gtb b true "value is not less than or equal".
  (** modifiers/gt_modifier.py:16-20 *)
  Definition v_gt (b : P) := bound_check py_le b false "value is not greater than".
  (** modifiers/lt_modifier.py:16-19 *)
  Definition v_lt (b : P) := bound_check geb b true "value is not less than".

  (** A check against a value that is already resolved (range_modifier.py:22-23). *)
  Definition const_check (bad : value -> value -> res bool) (x : value) (msg : string)
      (v : value) : st S unit :=
    if is_number v then
      do* c <- lift (bad v x);
      if c then fail msg else ret tt
    else ret tt.

  (** modifiers/range_modifier.py:19-23 *)
  Definition v_range (lo hi : P) (v : value) : st S unit :=
    if is_none v then ret tt
    else
      do* a <- resolve lo;
      const_check py_lt a "value is not greater than or equal" v >>
      do* b <- resolve hi;
      const_check gtb b "value is not less than or equal" v.

  (** modifiers/positive_modifier.py:12-15, negative_modifier.py:12-15,
      nonpositive_modifier.py:13-16, nonnegative_modifier.py:14-17 *)
  Definition v_positive := const_check py_le (VInt 0) "value is not positive".
  Definition v_negative := const_check geb (VInt 0) "value is not negative".
  Definition v_nonpositive := const_check gtb (VInt 0) "value is not nonpositive".
  Definition v_nonnegative := const_check py_lt (VInt 0) "value is not nonnegative".

  (** modifiers/even_modifier.py:12-14 *)
  Definition v_even (v : value) : st S unit :=
    match v with
    | VInt z => if z mod 2 =? 0 then ret tt else fail "value is not even"
    | _ => ret tt
    end.

  (** modifiers/odd_modifier.py:12-14 *)
  Definition v_odd (v : value) : st S unit :=
    match v with
    | VInt z => if z mod 2 =? 0 then fail "value is not odd" else ret tt
    | _ => ret tt
    end.

  (** modifiers/length_modifier.py:13-30; [hi = None] when both raw parameters are equal *)
  Definition v_length (lo : P) (hi : option P) (v : value) : st S unit :=
    match list_or_str v with
    | None => ret tt
    | Some n =>
        do* a <- resolve lo;
        do* b <- match hi with None => ret a | Some hi => resolve hi end;
        do* over <- lift (gtb (VInt n) b);
        do* bad <- if over then ret true else lift (py_lt (VInt n) a);
        if bad then
          fail (if veq oeq a b then "length of value is not"
                else "length of value is not between")
        else ret tt
    end.

  (** modifiers/minlength_modifier.py:16-21 *)
  Definition v_minlength (b : P) (v : value) : st S unit :=
    match list_or_str v with
    | None => ret tt
    | Some n =>
        do* x <- resolve b;
        do* c <- lift (py_lt (VInt n) x);
        if c then fail "length of value is not greater than or equal" else ret tt
    end.

  (** modifiers/maxlength_modifier.py:16-21 *)
  Definition v_maxlength (b : P) (v : value) : st S unit :=
    match list_or_str v with
    | None => ret tt
    | Some n =>
        do* x <- resolve b;
        do* c <- lift (gtb (VInt n) x);
        if c then fail "length of value is not less than or equal" else ret tt
    end.

  (** modifiers/oneof_modifier.py:17-22 *)
  Definition v_oneof (choices : P) (v : value) : st S unit :=
    if is_none v then ret tt
    else
      do* cs <- resolve choices;
      do* c <- lift (py_in v cs);
      if c then ret tt else fail "value is not in choices".

  (** modifiers/eq_modifier.py:16-22 *)
  Definition v_eq (x : P) (v : value) : st S unit :=
    if is_none v then ret tt
    else do* y <- resolve x; if veq oeq v y then ret tt else fail "value is not equal".

  (** modifiers/neq_modifier.py:16-18 *)
  Definition v_neq (x : P) (v : value) : st S unit :=
    do* y <- resolve x; if veq oeq v y then fail "value is not unequal" else ret tt.

  (** modifiers/hasprefix_modifier.py:16-22 *)
  Definition v_hasprefix (x : P) (v : value) : st S unit :=
    match v with
    | VList l =>
        do* p <- resolve x;
        if veq oeq (VList (py_take (zlen l) l)) p then ret tt else fail "prefix is not found"
    | VStr s =>
        do* p <- resolve x;
        match p with
        | VStr p => if startswith s p then ret tt else fail "prefix is not found"
        | _ => throw ETypeError
        end
    | _ => ret tt
    end.

  (** [len(p)] *)
  Definition py_len (v : value) : res Z :=
    match v with
    | VList l => Ok (zlen l)
    | VStr s => Ok (slen s)
    | VDict d => Ok (zlen d)
    | _ => Err ETypeError
    end.

  (** modifiers/hassuffix_modifier.py:16-22; the parameter of a list check is resolved
      twice *)
  Definition v_hassuffix (x : P) (v : value) : st S unit :=
    match v with
    | VList l =>
        do* p <- resolve x;
        do* n <- lift (py_len p);
        do* p' <- resolve x;
        if veq oeq (VList (py_drop (- n) l)) p' then ret tt else fail "suffix is not found"
    | VStr s =>
        do* p <- resolve x;
        match p with
        | VStr p => if endswith s p then ret tt else fail "suffix is not found"
        | _ => throw ETypeError
        end
    | _ => ret tt
    end.

  (** [p[:n]] and [p[n:]] of a parameter *)
  Definition val_take (n : Z) (v : value) : res value :=
    match v with
    | VList l => Ok (VList (py_take n l))
    | VStr s => Ok (VStr (str_take n s))
    | _ => Err ETypeError
    end.
  Definition val_drop (n : Z) (v : value) : res value :=
    match v with
    | VList l => Ok (VList (py_drop n l))
    | VStr s => Ok (VStr (str_drop n s))
    | _ => Err ETypeError
    end.

  (** modifiers/isprefixof_modifier.py:16-22 *)
  Definition v_isprefixof (x : P) (v : value) : st S unit :=
    match v with
    | VList l =>
        do* p <- resolve x;
        do* q <- lift (val_take (zlen l) p);
        if veq oeq q v then ret tt else fail "prefix is not found"
    | VStr s =>
        do* p <- resolve x;
        match p with
        | VStr p => if startswith p s then ret tt else fail "prefix is not found"
        | _ => throw EAttributeError
        end
    | _ => ret tt
    end.

  (** modifiers/issuffixof_modifier.py:16-22 *)
  Definition v_issuffixof (x : P) (v : value) : st S unit :=
    match v with
    | VList l =>
        do* p <- resolve x;
        do* q <- lift (val_drop (- zlen l) p);
        if veq oeq q v then ret tt else fail "suffix is not found"
    | VStr s =>
        do* p <- resolve x;
        match p with
        | VStr p => if endswith p s then ret tt else fail "suffix is not found"
        | _ => throw EAttributeError
        end
    | _ => ret tt
    end.

  (** modifiers/alnum_modifier.py:12-14, alpha_modifier.py:12-14,
      digit_modifier.py:13-15, numeric_modifier.py:13-15 *)
  Definition v_chars (p : ascii -> bool) (msg : string) (v : value) : st S unit :=
    match v with
    | VStr s => if str_all p s then ret tt else fail msg
    | _ => ret tt
    end.

  (** modifiers/type_modifier.py:21-30 *)
  Definition v_type (k : tykind) (v : value) : st S unit :=
    if type_accepts k v then ret tt else fail ("value is not " ++ tyname k)%string.

  (** modifiers/before_modifier.py:16-28; [value >= point].  The parameter is resolved
      again when it is a date. *)
  Definition v_before (x : P) (v : value) : st S unit :=
    if is_none v then ret tt
    else
      do* p <- resolve x;
      do* p' <- match p with VDate _ => do* q <- resolve x; ret (date_to_datetime q)
                           | _ => ret p end;
      if is_none p' then ret tt
      else
        do* c <- lift (dt_le p' (date_to_datetime v));
        if c then fail "value is too late" else ret tt.

  (** modifiers/after_modifier.py:17-36: two dates are compared twice, with the same
      outcome *)
  Definition v_after (x : P) (v : value) : st S unit :=
    if is_none v then ret tt
    else
      do* p <- resolve x;
      do* c <- lift (dt_le (date_to_datetime v) (date_to_datetime p));
      if c then fail "value is too early" else ret tt.

  (** [Modifier.validate] of each modifier; the others do nothing
      (modifier.py:41-42). *)
  Definition leaf_validate (l : leaf P) (v : value) : st S unit :=
    match l with
    | LMin b => v_min b v | LMax b => v_max b v | LRange lo hi => v_range lo hi v
    | LGt b => v_gt b v | LLt b => v_lt b v
    | LPositive => v_positive v | LNegative => v_negative v
    | LNonpositive => v_nonpositive v | LNonnegative => v_nonnegative v
    | LEven => v_even v | LOdd => v_odd v
    | LLength lo hi => v_length lo hi v
    | LMinlength b => v_minlength b v | LMaxlength b => v_maxlength b v
    | LOneOf cs => v_oneof cs v | LEq x => v_eq x v | LNeq x => v_neq x v
    | LHasPrefix x => v_hasprefix x v | LHasSuffix x => v_hassuffix x v
    | LIsPrefixOf x => v_isprefixof x v | LIsSuffixOf x => v_issuffixof x v
    | LAlnum => v_chars is_alnum "value is not alnum str" v
    | LAlpha => v_chars is_alpha "value is not alpha str" v
    | LDigit => v_chars is_digit "value is not digit string" v
    | LNumeric => v_chars is_digit "value is not numeric string" v
    | LType k => v_type k v
    | LBefore x => v_before x v | LAfter x => v_after x v
    | _ => ret tt
    end.

  (** modifiers/lowerbond_modifier.py:16-20 *)
  Definition t_lowerbond (b : P) (v : value) : st S value :=
    if is_number v then
      do* x <- resolve b;
      do* c <- lift (py_lt v x);
      ret (if c then x else v)
    else ret v.

  (** modifiers/upperbond_modifier.py:16-20 *)
  Definition t_upperbond (b : P) (v : value) : st S value :=
    if is_number v then
      do* x <- resolve b;
      do* c <- lift (gtb v x);
      ret (if c then x else v)
    else ret v.

  (** modifiers/abs_modifier.py:12-14 *)
  Definition t_abs (v : value) : value :=
    match v with
    | VInt z => VInt (Z.abs z)
    | VFloat (FFin q) => VFloat (FFin (Qabs q))
    | VFloat (FInf _) => VFloat (FInf false)
    | _ => v
    end.

  (** modifiers/add_modifier.py:15-16, sub_modifier.py:15-16, mul_modifier.py:15-16,
      div_modifier.py:15-16, mod_modifier.py:15-16, pow_modifier.py:15-16; note the
      order of the operands of each *)
  Definition t_arith (op : arith) (by_ : P) (v : value) : st S value :=
    if is_number v then
      do* x <- resolve by_;
      match op with
      | AAdd | AMul | APow => lift (py_arith op x v)
      | ASub | ADiv | AMod => lift (py_arith op v x)
      end
    else ret v.

  (** modifiers/truncate_modifier.py:16-17: str, list and dict have [__len__], and a
      dict cannot be sliced; [None] as a bound is no bound *)
  Definition t_truncate (n : P) (v : value) : st S value :=
    match v with
    | VStr s =>
        do* x <- resolve n;
        match x with
        | VNone => ret v
        | _ => do* i <- lift (as_index x); ret (VStr (str_take i s))
        end
    | VList l =>
        do* x <- resolve n;
        match x with
        | VNone => ret v
        | _ => do* i <- lift (as_index x); ret (VList (py_take i l))
        end
    | VDict _ => resolve n >> throw ETypeError
    | _ => ret v
    end.

  (** [(target_length - len(s)) * char] *)
  Definition padding (c n : value) (s : string) : res string :=
    let* k := as_index n in
    match c with
    | VStr c => Ok (str_mul (k - slen s) c)
    | _ => Err ETypeError
    end.

  (** modifiers/padstart_modifier.py:16-23 *)
  Definition t_padstart (c n : P) (v : value) : st S value :=
    do* cv <- resolve c;
    do* nv <- resolve n;
    match v with
    | VStr s => do* p <- lift (padding cv nv s); ret (VStr (p ++ s)%string)
    | _ => ret v
    end.

  (** modifiers/padend_modifier.py:16-23 *)
  Definition t_padend (c n : P) (v : value) : st S value :=
    do* nv <- resolve n;
    do* cv <- resolve c;
    match v with
    | VStr s => do* p <- lift (padding cv nv s); ret (VStr (s ++ p)%string)
    | _ => ret v
    end.

  (** modifiers/reverse_modifier.py:11-13 *)
  Definition t_reverse (v : value) : value :=
    match v with
    | VStr s => VStr (str_rev s)
    | VList l => VList (rev l)
    | _ => v
    end.

  (** modifiers/append_modifier.py:16-22 *)
  Definition t_append (x : P) (v : value) : st S value :=
    match v with
    | VList l => do* y <- resolve x; ret (VList (l ++ [y]))
    | VStr s => do* y <- resolve x; ret (VStr (s ++ py_str y)%string)
    | _ => ret v
    end.

  (** modifiers/prepend_modifier.py:16-22: no [str()] here *)
  Definition t_prepend (x : P) (v : value) : st S value :=
    match v with
    | VList l => do* y <- resolve x; ret (VList (y :: l))
    | VStr s =>
        do* y <- resolve x;
        match y with
        | VStr y => ret (VStr (y ++ s)%string)
        | _ => throw ETypeError
        end
    | _ => ret v
    end.

  (** modifiers/insertat_modifier.py:17-25 *)
  Definition t_insertat (x i : P) (v : value) : st S value :=
    do* iv <- resolve i;
    do* y <- resolve x;
    match v with
    | VList l =>
        do* k <- lift (as_index iv);
        ret (VList (py_take k l ++ [y] ++ py_drop k l))
    | VStr s =>
        do* k <- lift (as_index iv);
        ret (VStr (str_take k s ++ py_str y ++ str_drop k s)%string)
    | _ => ret v
    end.

  (** modifiers/split_modifier.py:16-17.  Simplification: a [None] separator, which
      Python takes as white space, is refused. *)
  Definition t_split (sep : P) (v : value) : st S value :=
    match v with
    | VStr s =>
        do* x <- resolve sep;
        match x with
        | VStr x => do* l <- lift (str_split x s); ret (VList (map VStr l))
        | _ => throw ETypeError
        end
    | _ => ret v
    end.

  Fixpoint all_strs (l : list value) : option (list string) :=
    match l with
    | [] => Some []
    | VStr s :: r => match all_strs r with Some t => Some (s :: t) | None => None end
    | _ => None
    end.

  (** modifiers/join_modifier.py:15-16 *)
  Definition t_join (sep : P) (v : value) : st S value :=
    match v with
    | VList l =>
        do* x <- resolve sep;
        match x with
        | VStr x =>
            match all_strs l with
            | Some t => ret (VStr (join x t))
            | None => throw ETypeError
            end
        | _ => throw EAttributeError
        end
    | _ => ret v
    end.

  (** modifiers/replace_modifier.py:16-20 *)
  Definition t_replace (old new : P) (v : value) : st S value :=
    do* o <- resolve old;
    do* n <- resolve new;
    match v with
    | VStr s =>
        match o, n with
        | VStr o, VStr n => ret (VStr (str_replace o n s))
        | _, _ => throw ETypeError
        end
    | _ => ret v
    end.

  (** modifiers/trim_modifier.py:12-13, tolower_modifier.py:12-13,
      toupper_modifier.py:12-13, tocap_modifier.py:12-13, totitle_modifier.py:12-13 *)
  Definition t_str (f : string -> string) (v : value) : value :=
    match v with VStr s => VStr (f s) | _ => v end.

  (** modifiers/len_modifier.py:12-14 *)
  Definition t_len (v : value) : value :=
    match list_or_str v with Some n => VInt n | None => v end.

  (** modifiers/float_modifier.py:18-23, date_modifier.py:19-32,
      datetime_modifier.py:19-34; the other types leave the value alone *)
  Definition t_type (k : tykind) (v : value) : st S value :=
    match k, v with
    | TFloat, VInt z => do* f <- lift (float_of_Z z); ret (VFloat f)
    | TDate, VStr s =>
        match read_date s with
        | Ok d => ret (VDate d)
        | Err EValueError => fail "wrong date format"
        | Err e => throw e
        end
    | TDate, VDatetime t => ret (VDate (t_date t))
    | TDatetime, VStr s =>
        match read_datetime s with
        | Ok t => ret (VDatetime t)
        | Err EValueError => fail "wrong datetime format"
        | Err e => throw e
        end
    | TDatetime, VDate d =>
        ret (VDatetime {| t_date := d; t_hour := 0; t_min := 0; t_sec := 0; t_us := 0;
                          t_tz := Some 0 |})
    | _, _ => ret v
    end.

  (** [Modifier.transform] of each modifier; the others return the value
      (modifier.py:44-46). *)
  Definition leaf_transform (l : leaf P) (v : value) : st S value :=
    match l with
    | LLowerbond b => t_lowerbond b v | LUpperbond b => t_upperbond b v
    | LAbs => ret (t_abs v)
    | LCeil => lift (integral Qceiling v)
    | LFloor => lift (integral Qfloor v)
    | LRound => lift (integral round_half_even v)
    | LArith op b => t_arith op b v
    | LTruncate n => t_truncate n v
    | LPadStart c n => t_padstart c n v | LPadEnd c n => t_padend c n v
    | LReverse => ret (t_reverse v)
    | LAppend x => t_append x v | LPrepend x => t_prepend x v
    | LInsertAt x i => t_insertat x i v
    | LSplit sep => t_split sep v | LJoin sep => t_join sep v
    | LReplace o n => t_replace o n v
    | LTrim => ret (t_str str_strip v)
    | LToLower => ret (t_str str_lower v) | LToUpper => ret (t_str str_upper v)
    | LToCap => ret (t_str str_capitalize v) | LToTitle => ret (t_str str_title v)
    | LLen => ret (t_len v)
    | LType k => t_type k v
    | LToBool => ret (VBool (truthy v))   (* tobool_modifier.py:12-13 *)
    | LInverse =>                          (* inverse_modifier.py:12-13 *)
        ret (match v with VBool b => VBool (negb b) | _ => v end)
    | LWrapIntoList =>                     (* wrapintolist_modifier.py:12-13 *)
        ret (match v with VNone => VNone | _ => VList [v] end)
    | LToBoDay => ret (toboday v) | LToBoHour => ret (tobohour v)
    | LToBoMin => ret (tobomin v) | LToBoSec => ret (tobosec v)
    | LToBoMon => ret (tobomon v) | LToBoYear => ret (toboyear v)
    | LToNextDay => lift (tonextday v) | LToNextHour => lift (tonexthour v)
    | LToNextMin => lift (tonextmin v) | LToNextSec => lift (tonextsec v)
    | LToNextMon => lift (tonextmon v) | LToNextYear => lift (tonextyear v)
    | _ => ret v
    end.

  (** [Modifier.tojson]: only date and datetime change the value
      (date_modifier.py:34-35, datetime_modifier.py:36-37).  A datetime in a date field
      is written by [datetime.isoformat].  Other values have no [isoformat]. *)
  Definition leaf_tojson (l : leaf P) (v : value) : st S value :=
    match l with
    | LType TDate =>
        match v with
        | VNone => ret VNone
        | VDate d => ret (VStr (json_date d))
        | VDatetime t => ret (VStr (unchars (datetime_iso t ++ chars "T00:00:00.000Z")))
        | _ => throw EAttributeError
        end
    | LType TDatetime =>
        match v with
        | VNone => ret VNone
        | VDatetime t => ret (VStr (json_datetime t))
        | VDate d => ret (VStr (unchars (firstn 23 (date_iso d) ++ chars "Z")))
        | _ => throw EAttributeError
        end
    | _ => ret v
    end.
End Leaf.
