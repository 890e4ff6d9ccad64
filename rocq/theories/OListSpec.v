(** OListSpec.v -- what it means for an observer to be able to follow an owned
    list.  Written in terms of contents and owner calls only. *)
From Verif Require Import Base PyList OListModel.
Open Scope Z_scope.

(** How many items of [l] equal [x]. *)
Definition count {A} (eqb : A -> A -> bool) (x : A) (l : list A) : Z :=
  Z.of_nat (length (filter (eqb x) l)).

(** The observer's running tally of [x]: plus one for every reported addition of a
    value equal to [x], minus one for every reported removal. *)
Definition tally1 {A} (eqb : A -> A -> bool) (x : A) (c : call A) : Z :=
  match c with
  | CAdd _ y => if eqb x y then 1 else 0
  | CDel (Some y) => if eqb x y then -1 else 0
  | CDel None => 0
  | CWill | CSor => 0
  end.

Definition tally {A} (eqb : A -> A -> bool) (x : A) (es : list (ev A)) : Z :=
  fold_right (fun e n => tally1 eqb x (fst e) + n) 0 es.

(** Equality of items, as used by Python's [==] on the items. *)
Record equivb {A} (eqb : A -> A -> bool) : Prop := {
  eqb_refl : forall x, eqb x x = true;
  eqb_sym : forall x y, eqb x y = eqb y x;
  eqb_trans : forall x y z, eqb x y = true -> eqb y z = true -> eqb x z = true }.

(** The calls made by one operation that turns content [l] into [l']: either
    there are none and nothing changed, or the first is the warning, made while the
    content is still [l], and all others are made when the content is [l']. *)
Definition warned_first {A} (l l' : list A) (es : list (ev A)) : Prop :=
  (es = [] /\ l' = l) \/
  exists rest, es = (CWill, l) :: rest /\
    Forall (fun e => snd e = l' /\ fst e <> CWill) rest.

(** Every reported addition is at the position where the value is. *)
Definition adds_located {A} (es : list (ev A)) : Prop :=
  forall i x c, In (CAdd i x, c) es -> 0 <= i /\ nth_error c (Z.to_nat i) = Some x.

(** Operations that do not pass a one-shot iterator to extend or +=. *)
Definition sized_argument {A} (o : lop A) : Prop :=
  match o with
  | LExtend (ItOnce _) | LIAdd (ItOnce _) => False
  | _ => True
  end.

(** Operations whose iterable argument, if any, can be iterated again with the same
    result after the change: not the list itself, not a one-shot iterator. *)
Definition repeatable_argument {A} (o : lop A) : Prop :=
  match o with
  | LExtend it | LIAdd it => match it with ItSelf => False | _ => True end
  | LSetSlice _ it => match it with ItSelf | ItOnce _ => False | _ => True end
  | _ => True
  end.

(** Operations whose addition indexes are reported correctly: all except insertion
    at a negative index and assignment to a slice with a negative step whose start
    is absent or out of range. *)
Definition index_reported {A} (o : lop A) (l : list A) : Prop :=
  match o with
  | LInsert i _ => 0 <= i
  | LSetSlice s _ =>
      0 < slice_step s \/ exists st, sl_start s = Some st /\ - zlen l <= st < zlen l
  | _ => True
  end.
