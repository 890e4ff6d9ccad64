(** EncModel.v -- model of jsonclasses/encoder.py: [json.dumps(v, cls=JSONEncoder)].

    Simplification: the result is the data that is written, not its text. The encoder of
    Python's json module, which [JSONEncoder] extends, is modelled as documented: None,
    truth values, numbers and texts are written as they are, lists and dicts part by part,
    and for any other value [default] is asked for a value to write in its place; a value
    met again while what [default] gave for it is being written is a ValueError
    ([check_circular]). Keys of dicts are texts. *)
From Verif Require Import Base Mon Values ObjModel IoModel.
Open Scope list_scope.

Section Encode.
  (** [N] is the fuel of the calls of tojson. *)
  Context (P : program) (N : nat).

  (** encoder.py:19-21 default: [tojson] with its default arguments (jsonclassify.py:142-145);
      any other value is a TypeError of [super().default] *)
  Definition default (v : value) : st world value :=
    match v with
    | VObj o => tojson P N o false false None
    | _ => throw ETypeError
    end.

  Fixpoint encode_list (f : value -> st world value) (l : list value) : st world (list value) :=
    match l with
    | [] => ret []
    | v :: r => do* j <- f v; do* js <- encode_list f r; ret (j :: js)
    end.
  Fixpoint encode_dict (f : value -> st world value) (m : list (string * value)) : st world (list (string * value)) :=
    match m with
    | [] => ret []
    | (k, v) :: r => do* j <- f v; do* js <- encode_dict f r; ret ((k, j) :: js)
    end.

  (** [marks] are the objects whose form is being written. *)
  Fixpoint encode (n : nat) (marks : list oid) (v : value) : st world value :=
    match n with
    | O => throw ERecursion
    | S n =>
        match v with
        | VNone | VBool _ | VInt _ | VFloat _ | VStr _ => ret v
        | VList l => do* js <- encode_list (encode n marks) l; ret (VList js)
        | VDict m => do* js <- encode_dict (encode n marks) m; ret (VDict js)
        | VObj o => if existsb (Nat.eqb o) marks then throw EValueError
                    else do* j <- default v; encode n (o :: marks) j
        | _ => default v
        end
    end.
  Definition dumps (n : nat) (v : value) : st world value := encode n [] v.
End Encode.
