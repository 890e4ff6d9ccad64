(** EnumSpec.v -- what is meant by the accepted and the given form of an enum member. *)
From Verif Require Import Base Values PyStr TypesModel.
Open Scope list_scope.

(** The members of an enum class in the order of definition, with their values.  [n] is
    the name of the first member that has its value (Python makes every later one an
    alias of it), and names are distinct. *)
Definition member (ms : list (string * value)) (n : string) (v : value) : Prop :=
  NoDup (map fst ms) /\
  exists before after, ms = before ++ (n, v) :: after /\
    veq Nat.eqb v v = true /\ forall m, In m before -> veq Nat.eqb (snd m) v = false.

(** The JSON form of a member *)
Definition form (o : enumoutput) (n : string) (v : value) : value :=
  match o with OutName => VStr n | OutValue => v | OutLname => VStr (str_lower n) end.

(** [s] is the name of a member, or of an alias of it, in the class *)
Definition names (ms : list (string * value)) (s n : string) : Prop :=
  exists v v', In (s, v) ms /\ In (n, v') ms /\ veq Nat.eqb v' v = true.

(** The input forms that a field reads: values if it takes values, otherwise names,
    lower-case names, or both. *)
Definition reads (i : enuminput) (ms : list (string * value)) (x : value) (n : string) : Prop :=
  if in_value i then exists v, In (n, v) ms /\ veq Nat.eqb v x = true
  else exists s, x = VStr s /\
       (in_name i = true /\ names ms s n \/ in_lname i = true /\ names ms (str_upper s) n).

(** A field's settings can read back what they write: the input settings include the
    output form, and no other setting takes it for something else.  Values are read
    instead of names when both are accepted; lower-case names are compared after
    conversion to upper case. *)
Definition reads_own_output (i : enuminput) (o : enumoutput) (ms : list (string * value)) (n : string)
                            (v : value) : Prop :=
  match o with
  | OutValue => in_value i = true /\ v <> VNone
  | OutName => in_value i = false /\ in_name i = true
  | OutLname => in_value i = false /\ in_lname i = true /\ str_upper (str_lower n) = n /\
                (in_name i = true -> ~ In (str_lower n) (map fst ms) \/ str_lower n = n)
  end.

(** Marks of a field that only say something about it *)
Definition only_a_mark (m : mdf) : Prop :=
  In m [MInputName; MInputValue; MInputLname; MInputAll; MOutputName; MOutputValue; MOutputLname;
        MRequired; MPresent; MReadonly; MWriteonly; MWriteonce; MWritenonnull; MTemp; MPrimary].

(** What the marks of a chain say: which forms of input are taken, and the form of output *)
Definition input_mark (m : mdf) : Prop := In m [MInputName; MInputValue; MInputLname; MInputAll].
Definition out_mark (m : mdf) : option enumoutput :=
  match m with MOutputName => Some OutName | MOutputValue => Some OutValue | MOutputLname => Some OutLname | _ => None end.
Definition writes (ts : types) (o : enumoutput) : Prop :=
  (exists a m b, ts = a ++ m :: b /\ out_mark m = Some o /\ forall x, In x b -> out_mark x = None) \/
  ((forall x, In x ts -> out_mark x = None) /\ o = OutName).
