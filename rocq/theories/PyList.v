(** PyList.v -- semantics of Python's built-in [list] methods, on Coq lists.
    This is the reference against which the owned list is compared; it models the
    language, not the repository. *)
From Verif Require Import Base.
Open Scope Z_scope.

Definition zlen {A} (l : list A) : Z := Z.of_nat (length l).

(** Python's normalisation of an integer index: negative counts from the end. *)
Definition norm_idx {A} (i : Z) (l : list A) : Z := if i <? 0 then i + zlen l else i.

Definition in_range {A} (i : Z) (l : list A) : bool := (0 <=? i) && (i <? zlen l).

(** [l[i]] *)
Definition py_get {A} (i : Z) (l : list A) : res A :=
  let j := norm_idx i l in
  if in_range j l
  then match nth_error l (Z.to_nat j) with Some x => Ok x | None => Err EIndexError end
  else Err EIndexError.

Fixpoint replace_nth {A} (n : nat) (x : A) (l : list A) : list A :=
  match l, n with
  | [], _ => []
  | _ :: l', O => x :: l'
  | y :: l', S n' => y :: replace_nth n' x l'
  end.

Fixpoint remove_nth {A} (n : nat) (l : list A) : list A :=
  match l, n with
  | [], _ => []
  | _ :: l', O => l'
  | y :: l', S n' => y :: remove_nth n' l'
  end.

(** [l[i] = x] *)
Definition py_set {A} (i : Z) (x : A) (l : list A) : res (list A) :=
  let j := norm_idx i l in
  if in_range j l then Ok (replace_nth (Z.to_nat j) x l) else Err EIndexError.

(** [del l[i]] *)
Definition py_del {A} (i : Z) (l : list A) : res (list A) :=
  let j := norm_idx i l in
  if in_range j l then Ok (remove_nth (Z.to_nat j) l) else Err EIndexError.

(** [l.insert(i, x)]: the position is clamped into [0, len]. *)
Definition clamp (lo hi x : Z) : Z := Z.max lo (Z.min hi x).

Definition py_insert_pos {A} (i : Z) (l : list A) : nat :=
  Z.to_nat (clamp 0 (zlen l) (norm_idx i l)).

Definition py_insert {A} (i : Z) (x : A) (l : list A) : list A :=
  firstn (py_insert_pos i l) l ++ x :: skipn (py_insert_pos i l) l.

(** [l.pop()] / [l.pop(i)] *)
Definition py_pop {A} (i : option Z) (l : list A) : res (A * list A) :=
  let i := match i with Some i => i | None => -1 end in
  let* x := py_get i l in
  let* l' := py_del i l in
  Ok (x, l').

(** [l.remove(x)]: first item equal to [x]. *)
Fixpoint py_remove {A} (eqb : A -> A -> bool) (x : A) (l : list A) : res (list A) :=
  match l with
  | [] => Err EValueError
  | y :: l' => if eqb y x then Ok l' else let* r := py_remove eqb x l' in Ok (y :: r)
  end.

(** [l.sort(...)]: a stable insertion sort for the order [le]. *)
Fixpoint ins_sorted {A} (le : A -> A -> bool) (x : A) (l : list A) : list A :=
  match l with
  | [] => [x]
  | y :: l' => if le x y then x :: y :: l' else y :: ins_sorted le x l'
  end.

Fixpoint py_sort {A} (le : A -> A -> bool) (l : list A) : list A :=
  match l with
  | [] => []
  | x :: l' => ins_sorted le x (py_sort le l')
  end.

(** [l *= n] *)
Fixpoint repeat_list {A} (n : nat) (l : list A) : list A :=
  match n with O => [] | S n' => l ++ repeat_list n' l end.

Definition py_imul {A} (n : Z) (l : list A) : list A := repeat_list (Z.to_nat n) l.

(** A slice object [start:stop:step]. *)
Record slice := { sl_start : option Z; sl_stop : option Z; sl_step : option Z }.

(** [slice.indices(len)], CPython PySlice_AdjustIndices. *)
Definition slice_step (s : slice) : Z := match sl_step s with Some k => k | None => 1 end.

Definition adj (step len : Z) (x : Z) : Z :=
  let x := if x <? 0 then x + len else x in
  if 0 <? step then clamp 0 len x else clamp (-1) (len - 1) x.

Definition slice_lo (s : slice) (len : Z) : Z :=
  match sl_start s with
  | Some x => adj (slice_step s) len x
  | None => if 0 <? slice_step s then 0 else len - 1
  end.

Definition slice_hi (s : slice) (len : Z) : Z :=
  match sl_stop s with
  | Some x => adj (slice_step s) len x
  | None => if 0 <? slice_step s then len else -1
  end.

(** Number of selected positions. *)
Definition slice_count (lo hi step : Z) : Z :=
  if 0 <? step then (if lo <? hi then (hi - lo - 1) / step + 1 else 0)
  else (if hi <? lo then (lo - hi - 1) / (- step) + 1 else 0).

(** The selected positions, in slice order. *)
Definition slice_positions (s : slice) (len : Z) : list Z :=
  let lo := slice_lo s len in
  let st := slice_step s in
  map (fun k => lo + Z.of_nat k * st)
      (seq 0 (Z.to_nat (slice_count lo (slice_hi s len) st))).

Definition pick_nth {A} (l : list A) (i : Z) : list A :=
  match nth_error l (Z.to_nat i) with Some x => [x] | None => [] end.

(** [l[s]] *)
Definition py_getslice {A} (s : slice) (l : list A) : res (list A) :=
  if slice_step s =? 0 then Err EValueError
  else Ok (flat_map (pick_nth l) (slice_positions s (zlen l))).

(** Writing values at positions one by one. *)
Fixpoint set_positions {A} (ps : list Z) (vs : list A) (l : list A) : list A :=
  match ps, vs with
  | p :: ps', v :: vs' => set_positions ps' vs' (replace_nth (Z.to_nat p) v l)
  | _, _ => l
  end.

(** [l[s] = vs]: contiguous replacement when the step is 1, otherwise the number
    of values must match the number of positions. *)
Definition py_setslice {A} (s : slice) (vs : list A) (l : list A) : res (list A) :=
  if slice_step s =? 0 then Err EValueError
  else if slice_step s =? 1 then
    let lo := slice_lo s (zlen l) in
    let hi := Z.max lo (slice_hi s (zlen l)) in
    Ok (firstn (Z.to_nat lo) l ++ vs ++ skipn (Z.to_nat hi) l)
  else
    let ps := slice_positions s (zlen l) in
    if Nat.eqb (length ps) (length vs) then Ok (set_positions ps vs l)
    else Err EValueError.

(** Keep the items whose position is not selected. *)
Fixpoint drop_positions {A} (ps : list Z) (i : Z) (l : list A) : list A :=
  match l with
  | [] => []
  | x :: l' =>
      if existsb (Z.eqb i) ps then drop_positions ps (i + 1) l'
      else x :: drop_positions ps (i + 1) l'
  end.

(** [del l[s]] *)
Definition py_delslice {A} (s : slice) (l : list A) : res (list A) :=
  if slice_step s =? 0 then Err EValueError
  else Ok (drop_positions (slice_positions s (zlen l)) 0 l).

(** ** The operations and the plain-list machine *)

(** The argument of extend / += / slice assignment: a sized iterable other than the
    list itself (list, tuple, ...), the list itself, a one-shot iterator such as a
    generator (which has no length and is empty once consumed), or something that
    is not iterable. *)
Inductive iterable (A : Type) :=
| ItList (xs : list A)
| ItSelf
| ItOnce (xs : list A)
| ItNot.
Arguments ItList {A}. Arguments ItSelf {A}. Arguments ItOnce {A}. Arguments ItNot {A}.

(** Iterating over the argument while the list itself has content [l]. *)
Definition iter_items {A} (l : list A) (it : iterable A) : res (list A) :=
  match it with
  | ItList xs | ItOnce xs => Ok xs
  | ItSelf => Ok l
  | ItNot => Err ETypeError
  end.

(** Iterating over it a second time, when the list has content [l']. *)
Definition iter_again {A} (l' : list A) (it : iterable A) : list A :=
  match it with
  | ItList xs => xs
  | ItSelf => l'
  | ItOnce _ | ItNot => []
  end.

(** [len(it)] *)
Definition iter_len {A} (l : list A) (it : iterable A) : res Z :=
  match it with
  | ItList xs => Ok (zlen xs)
  | ItSelf => Ok (zlen l)
  | ItOnce _ | ItNot => Err ETypeError
  end.

Inductive lop (A : Type) :=
| LAppend (x : A)
| LExtend (it : iterable A)
| LInsert (i : Z) (x : A)
| LRemove (x : A)
| LSort (le : A -> A -> bool)
| LClear
| LPop (i : option Z)
| LReverse
| LIAdd (it : iterable A)
| LIMul (n : Z)
| LSetInt (i : Z) (x : A)
| LSetSlice (s : slice) (it : iterable A)
| LSetOther
| LDelInt (i : Z)
| LDelSlice (s : slice)
| LDelOther.
Arguments LAppend {A}. Arguments LExtend {A}. Arguments LInsert {A}.
Arguments LRemove {A}. Arguments LSort {A}. Arguments LClear {A}.
Arguments LPop {A}. Arguments LReverse {A}. Arguments LIAdd {A}.
Arguments LIMul {A}. Arguments LSetInt {A}. Arguments LSetSlice {A}.
Arguments LSetOther {A}. Arguments LDelInt {A}. Arguments LDelSlice {A}.
Arguments LDelOther {A}.

(** A method returns nothing, or a popped item. *)
Definition lout (A : Type) := res (option A).

Definition keep {A} (l : list A) (r : res (list A)) : lout A * list A :=
  match r with Ok l' => (Ok None, l') | Err e => (Err e, l) end.

(** One method call on a plain Python list: result and new content. *)
Definition plain_step {A} (eqb : A -> A -> bool) (o : lop A) (l : list A)
  : lout A * list A :=
  match o with
  | LAppend x => (Ok None, l ++ [x])
  | LExtend it | LIAdd it => keep l (let* xs := iter_items l it in Ok (l ++ xs))
  | LInsert i x => (Ok None, py_insert i x l)
  | LRemove x => keep l (py_remove eqb x l)
  | LSort le => (Ok None, py_sort le l)
  | LClear => (Ok None, [])
  | LPop i => match py_pop i l with
              | Ok (x, l') => (Ok (Some x), l')
              | Err e => (Err e, l)
              end
  | LReverse => (Ok None, rev l)
  | LIMul n => (Ok None, py_imul n l)
  | LSetInt i x => keep l (py_set i x l)
  | LSetSlice s it =>
      keep l (if slice_step s =? 0 then Err EValueError
              else let* xs := iter_items l it in py_setslice s xs l)
  | LSetOther => (Err ETypeError, l)
  | LDelInt i => keep l (py_del i l)
  | LDelSlice s => keep l (py_delslice s l)
  | LDelOther => (Err ETypeError, l)
  end.
