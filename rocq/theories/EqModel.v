(** EqModel.v -- [==] on objects of JSON classes.

    jsonclass.py:126 makes the class a dataclass with [dataclass(init=False)], so that
    [__eq__] is the one the dataclasses module generates: objects of different classes are
    not equal, others if the tuples of their fields, in the order of the class, are.

    Simplifications: an object is equal to itself without looking at its fields (inside
    tuples, lists and dicts Python looks at identity first; only calculated fields could
    make a difference); fuel bounds the nesting of objects, not of lists. *)
From Verif Require Import Base Mon PyDict Values TypesModel ObjModel.
Open Scope nat_scope.
Open Scope string_scope.
Open Scope list_scope.

(** Lists are compared item by item if they are equally long, and dicts key by key; what
    comes after the first difference is not looked at. *)
Section Containers.
  Context (oq : Values.oid -> Values.oid -> res bool).

  (** CPython's list_richcompare, dict_equal and the comparisons of plain values *)
  Fixpoint veqr (a b : value) {struct a} : res bool :=
    match a with
    | VList l =>
        match b with
        | VList l' =>
            if Nat.eqb (length l) (length l') then
              (fix go (l l' : list value) : res bool :=
                 match l, l' with
                 | x :: r, y :: r' => let* e := veqr x y in if e then go r r' else Ok false
                 | _, _ => Ok true
                 end) l l'
            else Ok false
        | _ => Ok false
        end
    | VDict d =>
        match b with
        | VDict d' =>
            if Nat.eqb (length d) (length d') then
              (fix go (d : list (string * value)) : res bool :=
                 match d with
                 | (k, x) :: r =>
                     match sget k d' with
                     | Some y => let* e := veqr x y in if e then go r else Ok false
                     | None => Ok false
                     end
                 | [] => Ok true
                 end) d
            else Ok false
        | _ => Ok false
        end
    | VObj o =>
        match b with
        | VObj o' => if Nat.eqb o o' then Ok true else oq o o'
        | _ => Ok false
        end
    | _ => Ok (veq (fun _ _ => false) a b)
    end.

  (** CPython's tuple comparison for tuples of the same length *)
  Fixpoint tuple_eq (l l' : list value) : res bool :=
    match l, l' with
    | x :: r, y :: r' => let* e := veqr x y in if e then tuple_eq r r' else Ok false
    | _, _ => Ok true
    end.
End Containers.

Section Eq.
  Context (ct : string -> option cdef).
  Context (getter : heap -> Values.oid -> string -> res value).

  (** the tuple of the fields of an object: jsonclassify.py:769-784 __getattribute__ *)
  Fixpoint read_all (h : heap) (o : Values.oid) (fs : list field) : res (list value) :=
    match fs with
    | [] => Ok []
    | f :: r =>
        let* v := fst (getattr ct getter o (fl_name f) h) in
        let* l := read_all h o r in
        Ok (v :: l)
    end.
  Definition fields_of (h : heap) (o : Values.oid) : res (list value) :=
    read_all h o (cd_fields (cdef_of ct h o)).

  (** the [__eq__] of dataclasses *)
  Fixpoint obj_eq (fuel : nat) (h : heap) (a b : Values.oid) : res bool :=
    match fuel with
    | O => Err ERecursion
    | S n =>
        if Nat.eqb a b then Ok true
        else if String.eqb (o_class (h_obj h b)) (o_class (h_obj h a)) then
          let* xs := fields_of h a in
          let* ys := fields_of h b in
          tuple_eq (obj_eq n h) xs ys
        else Ok false
    end.

  (** The equality that the other models take as a parameter: it answers where [==] does. *)
  Definition oeq_of (fuel : nat) (h : heap) (a b : Values.oid) : bool :=
    match obj_eq (S fuel) h a b with Ok r => r | Err _ => false end.
End Eq.
