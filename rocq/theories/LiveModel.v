(** LiveModel.v -- extending a list of one object by the list that another object holds.

    Model of olist.py:54-61 (extend) and 103-111 (__iadd__) for an argument that is itself
    the list held by an attribute.  OListModel.v takes the items of the argument once and
    for all, which is right as long as the notifications leave the argument alone.  Here
    the second walk, [for v in values], reads the list anew before each step, as the
    iterator of a Python list does: it keeps a position and ends when the position is past
    the end.  Simplification: the list under the attribute is taken to be the same list
    object throughout, which holds while it is only changed in place. *)
From Verif Require Import Base Mon PyList OListModel Values TypesModel ObjModel.
Open Scope list_scope.

Section Live.
  Context (ct : string -> option cdef)
          (oeq : heap -> Values.oid -> Values.oid -> bool)
          (getter : heap -> Values.oid -> string -> res value)
          (setter : Values.oid -> string -> value -> st heap unit)
          (pystr : value -> string).

  (** olist.py:59-61: the notifications; [i] is the position of the iterator and [steps]
      bounds the number of rounds by the number of items at the start *)
  Fixpoint live_adds (n steps : nat) (o : Values.oid) (a : string) (from : Values.oid) (b : string)
                     (i : nat) (cur : Z) : st heap unit :=
    match steps with
    | O => ret tt
    | S steps' => fun h =>
        match attr h from b with
        | Some (VList xs) =>
            match nth_error xs i with
            | None => (Ok tt, h)
            | Some x =>
                (olist_add ct (run ct oeq getter setter pystr n) o a [] a cur x >>
                 live_adds n steps' o a from b (S i) (cur + 1)%Z) h
            end
        | _ => (Err EAttributeError, h)
        end
    end.

  (** olist.py:54-61 [o.a.extend(from.b)] *)
  Definition extend_live (n : nat) (o : Values.oid) (a : string) (from : Values.oid) (b : string) : st heap unit :=
    fun h =>
      match attr h o a, attr h from b with
      | Some (VList l), Some (VList xs) =>
          ((match xs with [] => ret tt | _ => olist_will ct getter o a end) >>
           modify (put_at o a [] (VList (l ++ xs))) >>
           live_adds n (length xs) o a from b 0 (zlen l)) h
      | _, _ => (Err EAttributeError, h)
      end.
End Live.
