(** FmtModel.v -- the modifier that writes a date or datetime in a given format. *)
From Verif Require Import Base Mon Values PyStr CalModel LeafModel.
Open Scope Z_scope.

(** What [date.strftime] formats: the midnight that begins the date, without an offset *)
Definition midnight (d : pdate) : pdatetime :=
  {| t_date := d; t_hour := 0; t_min := 0; t_sec := 0; t_us := 0; t_tz := None |}.

Section Fmt.
  Context {S P : Type}.
  Variable resolve : P -> st S value.
  (** [datetime.strftime], which is the platform's *)
  Variable strftime : pdatetime -> string -> res string.

  (** A format that is not a string raises TypeError in [strftime]. *)
  Definition formatted (t : pdatetime) (f : value) : st S value :=
    match f with
    | VStr f => do* s <- lift (strftime t f); ret (VStr s)
    | _ => throw ETypeError
    end.

  (** modifiers/fmtd_modifier.py:17-24; the string is read as by the datetime modifier. *)
  Definition j_fmtd (p : P) (v : value) : st S value :=
    match v with
    | VDate d => do* f <- resolve p; formatted (midnight d) f
    | VDatetime t => do* f <- resolve p; formatted t f
    | VStr s => do* t <- lift (read_datetime s); do* f <- resolve p; formatted t f
    | _ => ret v
    end.

  (** modifiers/chained_modifier.py:102-103 for a chain of a type and fmtd, as in
      [types.date.fmtd(f)]: each modifier writes what the one before it wrote. *)
  Definition field_fmtd (l : leaf P) (p : P) (v : value) : st S value :=
    do* x <- leaf_tojson l v; j_fmtd p x.
End Fmt.
