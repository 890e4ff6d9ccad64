(** OListModel.v -- model of jsonclasses/olist.py (class OwnedList).

    An owned list is a Python list that calls its owner.  Each method of the model
    returns the method's outcome, the new content and the sequence of owner calls
    in the order they are made; each call records the content of the list at the
    moment of the call, so that "before" and "after" can be stated.

    Simplification: the owner is an observer (as the [ListOwner] protocol,
    olist.py:9-20, and tests/test_owned_list.py use it): it does not change the
    list while being notified.  The object owner that does is modelled in the
    heap model.  *)
From Verif Require Import Base PyList.
Open Scope Z_scope.

(** Owner calls: olist.py:9-20. *)
Inductive call (A : Type) :=
| CWill                      (* __olist_will_change__(olist) *)
| CAdd (i : Z) (x : A)       (* __olist_add__(olist, idx, val) *)
| CDel (x : option A)        (* __olist_del__(olist, val); None is Python None *)
| CSor.                      (* __olist_sor__(olist) *)
Arguments CWill {A}. Arguments CAdd {A}. Arguments CDel {A}. Arguments CSor {A}.

(** An owner call together with the content of the list at that moment. *)
Definition ev (A : Type) : Type := call A * list A.

Definition adds_from {A} (cur : Z) (step : Z) (xs : list A) (content : list A) : list (ev A) :=
  map (fun p => (CAdd (cur + Z.of_nat (fst p) * step) (snd p), content))
      (combine (seq 0 (length xs)) xs).

Definition dels {A} (xs : list A) (content : list A) : list (ev A) :=
  map (fun x => (CDel (Some x), content)) xs.

Section Owned.
  Context {A : Type} (eqb : A -> A -> bool).

  (** The outcome of a method: result, content, owner calls. *)
  Definition ores : Type := lout A * list A * list (ev A).

  (** olist.py:49-52 append *)
  Definition o_append (x : A) (l : list A) : ores :=
    let l' := l ++ [x] in
    (Ok None, l', [(CWill, l); (CAdd (zlen l' - 1) x, l')]).

  (** olist.py:54-61 extend: [len(values)] comes first; the warning call is made
      only for a non-empty argument; the argument is iterated twice. *)
  Definition o_extend (it : iterable A) (l : list A) : ores :=
    let curlen := zlen l in
    match iter_len l it with
    | Err e => (Err e, l, [])
    | Ok n =>
        let warn := if 0 <? n then [(CWill, l)] else [] in
        match iter_items l it with
        | Err e => (Err e, l, warn)
        | Ok xs =>
            let l' := l ++ xs in
            (Ok None, l', warn ++ adds_from curlen 1 (iter_again l' it) l')
        end
    end.

  (** olist.py:63-68 insert: reports [min(curlen, index)]. *)
  Definition o_insert (i : Z) (x : A) (l : list A) : ores :=
    let curlen := zlen l in
    let l' := py_insert i x l in
    (Ok None, l', [(CWill, l); (CAdd (Z.min curlen i) x, l')]).

  (** olist.py:70-73 remove: reports the argument, not the removed item. *)
  Definition o_remove (x : A) (l : list A) : ores :=
    match py_remove eqb x l with
    | Ok l' => (Ok None, l', [(CWill, l); (CDel (Some x), l')])
    | Err e => (Err e, l, [(CWill, l)])
    end.

  (** olist.py:75-78 sort *)
  Definition o_sort (le : A -> A -> bool) (l : list A) : ores :=
    let l' := py_sort le l in
    (Ok None, l', [(CWill, l); (CSor, l')]).

  (** olist.py:80-85 clear *)
  Definition o_clear (l : list A) : ores :=
    (Ok None, [], (CWill, l) :: dels l []).

  (** olist.py:87-91 pop *)
  Definition o_pop (i : option Z) (l : list A) : ores :=
    match py_pop i l with
    | Ok (x, l') => (Ok (Some x), l', [(CWill, l); (CDel (Some x), l')])
    | Err e => (Err e, l, [(CWill, l)])
    end.

  (** olist.py:93-96 reverse *)
  Definition o_reverse (l : list A) : ores :=
    let l' := rev l in
    (Ok None, l', [(CWill, l); (CSor, l')]).

  (** olist.py:101-109 __iadd__ *)
  Definition o_iadd (it : iterable A) (l : list A) : ores :=
    match iter_len l it with
    | Err e => (Err e, l, [])
    | Ok n =>
        let warn := if 0 <? n then [(CWill, l)] else [] in
        let curlen := zlen l in
        match iter_items l it with
        | Err e => (Err e, l, warn)
        | Ok xs =>
            let l' := l ++ xs in
            (Ok None, l', warn ++ adds_from curlen 1 (iter_again l' it) l')
        end
    end.

  (** olist.py:111-135 __imul__: lines 113-126 compute what goes away and what is
      added, 127-134 perform and report. *)
  Definition o_imul (n : Z) (l : list A) : ores :=
    let '(remove_list, add_list, len_self) :=
      if n <=? 0 then (l, [], 0)
      else if n =? 1 then ([], [], 0)
      else ([], repeat_list (Z.to_nat (n - 1)) l, zlen l) in
    let l' := py_imul n l in
    (Ok None, l',
     (if (0 <? zlen remove_list) || (0 <? zlen add_list) then [(CWill, l)] else [])
     ++ dels remove_list l' ++ adds_from len_self 1 add_list l').

  (** [self[idx] if 0 <= idx < len_self else None] (olist.py:143, 172) *)
  Definition item_or_none (i : Z) (l : list A) : option A :=
    if in_range i l then nth_error l (Z.to_nat i) else None.

  (** olist.py:137-147 __setitem__ with an int *)
  Definition o_setint (i : Z) (x : A) (l : list A) : ores :=
    let len_self := zlen l in
    let j := if i <? 0 then len_self + i else i in
    let val := item_or_none j l in
    match py_set i x l with
    | Ok l' => (Ok None, l', [(CWill, l); (CDel val, l'); (CAdd j x, l')])
    | Err e => (Err e, l, [(CWill, l)])
    end.

  (** [slc.start or 0], [slc.step or 1] *)
  Definition or_default (d : Z) (x : option Z) : Z :=
    match x with Some 0 => d | Some y => y | None => d end.

  (** olist.py:148-162 __setitem__ with a slice.  Line 150 ([self[slc]]) raises
      for a zero step before the warning call; the assigned iterable is iterated a
      second time at line 160. *)
  Definition o_setslice (s : slice) (it : iterable A) (l : list A) : ores :=
    let len_self := zlen l in
    match py_getslice s l with
    | Err e => (Err e, l, [])
    | Ok remove_list =>
        let start := or_default 0 (sl_start s) in
        let step := or_default 1 (sl_step s) in
        let start := if start <? 0 then len_self + start else start in
        let start := Z.min (Z.max 0 start) len_self in
        match (let* xs := iter_items l it in py_setslice s xs l) with
        | Err e => (Err e, l, [(CWill, l)])
        | Ok l' =>
            (Ok None, l',
             (CWill, l) :: dels remove_list l'
               ++ adds_from start step (iter_again l' it) l')
        end
    end.

  (** olist.py:166-175 __delitem__ with an int *)
  Definition o_delint (i : Z) (l : list A) : ores :=
    let len_self := zlen l in
    let j := if i <? 0 then len_self + i else i in
    let val := item_or_none j l in
    match py_del i l with
    | Ok l' => (Ok None, l', [(CWill, l); (CDel val, l')])
    | Err e => (Err e, l, [(CWill, l)])
    end.

  (** olist.py:176-182 __delitem__ with a slice *)
  Definition o_delslice (s : slice) (l : list A) : ores :=
    match py_getslice s l with
    | Err e => (Err e, l, [])
    | Ok remove_list =>
        match py_delslice s l with
        | Err e => (Err e, l, [(CWill, l)])
        | Ok l' => (Ok None, l', (CWill, l) :: dels remove_list l')
        end
    end.

  (** All methods of OwnedList; the "else" branches at olist.py:163-164 and
      183-184 delegate to list, which raises TypeError. *)
  Definition owned_step (o : lop A) (l : list A) : ores :=
    match o with
    | LAppend x => o_append x l
    | LExtend it => o_extend it l
    | LInsert i x => o_insert i x l
    | LRemove x => o_remove x l
    | LSort le => o_sort le l
    | LClear => o_clear l
    | LPop i => o_pop i l
    | LReverse => o_reverse l
    | LIAdd it => o_iadd it l
    | LIMul n => o_imul n l
    | LSetInt i x => o_setint i x l
    | LSetSlice s it => o_setslice s it l
    | LSetOther => (Err ETypeError, l, [])
    | LDelInt i => o_delint i l
    | LDelSlice s => o_delslice s l
    | LDelOther => (Err ETypeError, l, [])
    end.

  (** A history of method calls: all outcomes, final content, all owner calls. *)
  Fixpoint owned_run (os : list (lop A)) (l : list A)
    : list (lout A) * list A * list (ev A) :=
    match os with
    | [] => ([], l, [])
    | o :: os' =>
        let '(r, l1, es) := owned_step o l in
        let '(rs, l2, es') := owned_run os' l1 in
        (r :: rs, l2, es ++ es')
    end.
End Owned.

Fixpoint plain_run {A} (eqb : A -> A -> bool) (os : list (lop A)) (l : list A)
  : list (lout A) * list A :=
  match os with
  | [] => ([], l)
  | o :: os' =>
      let '(r, l1) := plain_step eqb o l in
      let '(rs, l2) := plain_run eqb os' l1 in
      (r :: rs, l2)
  end.
