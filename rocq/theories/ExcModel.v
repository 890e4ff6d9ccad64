(** ExcModel.v -- the exceptions that carry messages per keypath (excs.py).  Dicts are
    association lists in insertion order, as in PyDict.v. *)
From Verif Require Import Base PyDict.
From Coq Require Import Ascii.
Open Scope list_scope.

Definition newline : string := String (ascii_of_nat 10) EmptyString.

(** excs.py:172-177 formatted_keypath_messages: a heading, and a line for each entry *)
Definition entry_line (e : string * string) : string :=
  ("  '" ++ fst e ++ "': " ++ snd e ++ newline)%string.
Definition formatted (m : list (string * string)) : string :=
  fold_left (fun text e => (text ++ entry_line e)%string) m
            ("Json classes validation failed:" ++ newline)%string.

(** excs.py:166-170: what a ValidationException shows *)
Record validation_exception := { ve_messages : list (string * string); ve_text : string }.
Definition make_validation (m : list (string * string)) : validation_exception :=
  {| ve_messages := m; ve_text := formatted m |}.

(** excs.py:149-157 UniqueConstraintException: the field is a name or a list of names; an
    empty message counts as none *)
Inductive unique_on := OneField (f : string) | ManyFields (fs : list string).
Record unique_exception := { ue_messages : list (string * string); ue_text : string }.
Definition make_unique (f : unique_on) (message : option string) : unique_exception :=
  let text := match message with
              | Some (String c s) => String c s
              | _ => "value is not unique"%string
              end in
  {| ue_messages := match f with
                    | OneField k => [(k, text)]
                    | ManyFields ks => fold_left (fun d k => sset k text d) ks []
                    end;
     ue_text := text |}.
